(** The groups found in a directory of data files, files of other programs, and doing a run again (C54). *)
From Coq Require Import String Ascii NArith ZArith Lia.
From Verif Require Import Base Scalar Model_Position Model_System Model_Agent Model_Time Model_Text Spec_Text Proof_Text Proof_Text3 Proof_Text5
  Model_Args Spec_Args Proof_Args Proof_Args3 Model_Analysis Spec_Analysis Proof_Analysis Proof_Analysis3 Proof_Analysis9 Model_Run Spec_Run2 Model_Program Spec_Program Proof_Program Proof_Program2.
Local Open Scope nat_scope.
Local Open Scope string_scope.
Local Open Scope list_scope.
Local Notation length := List.length.

Section Dir.
Context {S : scalar} (nt : numtext S) (specs : list argspec) (sim : argspec) (width : nat) (values : all_args specs -> list S) {A L : Type}.
Variables (sip : list Z -> Z) (fresh : outcome A) (text_line : A -> string -> outcome A) (add_line : A -> L -> outcome A) (draw : A -> outcome A) (empty : A -> bool).
Variables (line_for : string -> L -> Prop) (r : L -> L).
Hypothesis line_ok : forall l x, line_for l x -> without line_feed l /\ without carriage_return l /\ forall a, text_line a l = add_line a (r x).

Lemma insert_keys ds ls : forall m m', insert_data specs values sip fresh text_line ds ls m = Ok m' -> incl (map fst m') (ds :: map fst m).
Proof.
  induction m as [|[d a] m IH]; intros m'; cbn [insert_data].
  - destruct fresh as [f| | |]; cbn [bind]; try discriminate. destruct (add_lines text_line f ls); cbn [bind]; try discriminate. intros E. injection E as <-. cbn. intros x [<-|[]]. now left.
  - destruct (same_dataset _ _ _).
    + destruct (add_lines text_line a ls); cbn [bind]; try discriminate. intros E. injection E as <-. cbn. intros x H. now right.
    + destruct (insert_data _ _ _ _ _ ds ls m) as [m1| | |]; cbn [bind]; try discriminate. intros E. injection E as <-. specialize (IH _ eq_refl). cbn. intros x [<-|H]; [now right; left|].
      apply IH in H as [<-|H]; [now left|now right; right].
Qed.
Lemma read_keys files texts : faithful nt -> known (specs ++ [sim]) -> Forall2 (directory_file nt specs sim width line_for) files texts -> forall m m',
  read_dir specs sim values sip fresh text_line texts m = Ok m' -> forall v, In v (map fst m') -> In v (map fst m) \/ exists s xs, In (Some (v, s, xs)) files.
Proof.
  intros F I. induction 1 as [|f t files texts H _ IH]; intros m m' E v Hv; cbn [read_dir] in E.
  - injection E as <-. now left.
  - destruct f as [[[w s] xs]|].
    + destruct (read_run nt specs sim width text_line add_line line_for r line_ok w s xs t F I H) as (ls & Er & _). rewrite Er in E.
      destruct (insert_data _ _ _ _ _ w _ m) as [m1| | |] eqn:Ei; cbn [bind] in E; try discriminate.
      destruct (IH _ _ E v Hv) as [Hm|(s' & xs' & Hm)]; [|right; exists s', xs'; now right].
      apply (insert_keys _ _ _ _ Ei) in Hm as [<-|Hm]; [right; exists s, xs; now left|now left].
    + remember None as f eqn:Ef. destruct H as [| text e He]; [discriminate|]. rewrite He in E. destruct (IH _ _ E v Hv) as [Hm|(s' & xs' & Hm)]; [now left|right; exists s', xs'; now right].
Qed.
Lemma draw_keys m : forall m', draw_data specs draw empty m = Ok m' -> incl (map fst m') (map fst m).
Proof.
  induction m as [|[d a] m IH]; intros m'; cbn [draw_data].
  - intros E. injection E as <-. now intros x [].
  - destruct (empty a).
    + intros E. specialize (IH _ E). intros x H. right. now apply IH.
    + destruct (draw a) as [a'| | |]; cbn [bind]; try discriminate. destruct (draw_data specs draw empty m) as [r'| | |]; cbn [bind]; try discriminate. intros E. injection E as <-.
      specialize (IH _ eq_refl). intros x [<-|H]; [now left|right; now apply IH].
Qed.
Lemma lines_data v (files : list (option (all_args specs * args_of sim * list L))) : lines_of (same_dataset sip (values v)) (map (as_read values r) files) = map r (data_of sip values v files).
Proof.
  induction files as [|f files IH]; [reflexivity|]. unfold lines_of, data_of in *. cbn [map flat_map]. rewrite IH, map_app. f_equal. destruct f as [[[w s] xs]|]; cbn; [destruct (same_dataset _ _ _); reflexivity|reflexivity].
Qed.
Lemma pairs_map {X Y} (f : X -> Y) (P : Y -> Y -> Prop) l : ForallOrdPairs P (map f l) -> ForallOrdPairs (fun x y => P (f x) (f y)) l.
Proof.
  induction l as [|x l IH]; intros H; [constructor|]. cbn in H. remember (f x :: map f l) as k eqn:Ek. destruct H as [|y k' H1 H2]; [discriminate|]. injection Ek as -> ->.
  constructor; auto. now rewrite Forall_map in H1.
Qed.
Lemma dir_groups files texts gs : faithful nt -> known (specs ++ [sim]) -> Forall2 (directory_file nt specs sim width line_for) files texts ->
  analyze_dir specs sim values sip fresh text_line draw empty texts = Ok gs ->
  (forall v a', In (v, a') gs -> (exists s xs, In (Some (v, s, xs)) files) /\
     exists f a, fresh = Ok f /\ add_lines add_line f (map r (data_of sip values v files)) = Ok a /\ empty a = false /\ draw a = Ok a') /\
  (forall v s xs, In (Some (v, s, xs)) files -> (exists w a', In (w, a') gs /\ same_dataset sip (values w) (values v) = true) \/
     (exists f a, fresh = Ok f /\ add_lines add_line f (map r (data_of sip values v files)) = Ok a /\ empty a = true)) /\
  ForallOrdPairs (fun e e' => same_dataset sip (values (fst e)) (values (fst e')) = false) gs.
Proof.
  intros F I H E. pose proof (analyze_dir_same nt specs sim width values sip fresh text_line add_line draw empty line_for r line_ok files texts F I H) as E'. rewrite E in E'. cbn [report] in E'.
  symmetry in E'. destruct (analyze_groups sip fresh add_line draw empty _ _ E') as (G1 & G2 & G3). split; [|split].
  - intros v a' Hv. split.
    + unfold analyze_dir in E. destruct (read_dir _ _ _ _ _ _ texts []) as [m| | |] eqn:Er; cbn [bind] in E; try discriminate.
      assert (Hk : In v (map fst m)) by (apply (draw_keys _ _ E), (in_map fst _ _ Hv)). now destruct (read_keys _ _ F I H _ _ Er v Hk) as [[]|].
    + destruct (G1 (values v) a') as (_ & f & a & X); [apply in_map_iff; exists (v, a'); auto|]. rewrite lines_data in X. eauto.
  - intros v s xs Hv. destruct (G2 (values v) (map r xs)) as [(d & a' & Hd & Hs)|(f & a & X)].
    + apply in_map_iff. exists (Some (v, s, xs)). auto.
    + apply in_map_iff in Hd as ([w b] & Eb & Hb). cbn in Eb. injection Eb as <- <-. left. eauto.
    + rewrite lines_data in X. right. eauto.
  - exact (pairs_map (fun e => (values (fst e), snd e)) (fun e e' => same_dataset sip (fst e) (fst e') = false) gs G3).
Qed.
End Dir.

Section Exp.
Context {S : scalar} (nt : numtext S) (r : S -> S).
Hypothesis F : faithful nt.
Hypothesis RR : rereads nt r.
Lemma exp_known : known (exp_structs nt ++ [varsim_spec]).
Proof. apply (known_incl nt), specs_known. Qed.
Lemma adds_lines xs : forall g : tana S, add_lines ta_add g xs = ta_adds g xs.
Proof. induction xs as [|x xs IH]; intros g; [reflexivity|]. cbn [add_lines ta_adds]. destruct (ta_add g x); cbn [bind]; auto. Qed.
Lemma groups_hold sip req files texts gs : Forall2 (directory_file nt (exp_structs nt) varsim_spec exp_width (number_line nt)) files texts ->
  exp_groups nt sip req texts = Ok gs ->
  (forall v a, In (v, a) gs -> (exists s xs, In (Some (v, s, xs)) files) /\
     let xs := map r (data_of sip (exp_values nt) v files) in let n := of_Z (Z.of_nat (length xs)) in
     ta_ens a = length xs /\ ta_mean a = (fold_left add xs s0 / n)%S /\
     ta_sq a = fsqrt (fold_left (fun s x => s + x * x) xs s0 / n - fold_left add xs s0 / n * (fold_left add xs s0 / n))%S) /\
  (forall v s xs, In (Some (v, s, xs)) files -> exists w a, In (w, a) gs /\ same_dataset sip (exp_values nt w) (exp_values nt v) = true) /\
  ForallOrdPairs (fun e e' => same_dataset sip (exp_values nt (fst e)) (exp_values nt (fst e')) = false) gs.
Proof.
  intros H E. unfold exp_groups in E. destruct (bin_sizes req) as [[[[mn mx] size] lsize]| | |]; cbn [bind] in E; try discriminate.
  destruct (dir_groups nt (exp_structs nt) varsim_spec exp_width (exp_values nt) sip _ (ta_text_line nt) ta_add ta_draw (fun _ => false) (number_line nt) r (number_line_ok nt r F RR) files texts gs F exp_known H E) as (G1 & G2 & G3).
  split; [|split; [|exact G3]].
  - intros v a Hv. destruct (G1 v a Hv) as (X & f & a0 & Ef & Ea & _ & Ed). split; [exact X|]. cbv zeta. rewrite adds_lines in Ea.
    destruct (summed _ _ _ _ _ _ _ Ef Ea) as (E1 & E2 & E3). destruct (draw_moments _ _ Ed) as [E4 E5].
    assert (E6 : ta_ens a = ta_ens a0). { unfold ta_draw in Ed. cbv zeta in Ed. destruct (fill_lin _ _ _); cbn [bind] in Ed; try discriminate. destruct (fill _ _ _ _); cbn [bind] in Ed; try discriminate. injection Ed as <-. reflexivity. }
    rewrite E4, E5, E6, E1, E2, E3. auto.
  - intros v s xs Hv. destruct (G2 v s xs Hv) as [X|(f & a & _ & _ & X)]; [exact X|discriminate].
Qed.
(** Doing a run again from the configuration in its file. *)
Lemma run_again p G (as_u128 : S -> N) (rng_seed : N -> rstate G) inner pf fuel sd : writable p -> accepted p -> run_seed as_u128 (p_seed p) (run_hash p) = Ok sd ->
  exists path text o ls, exp_program nt as_u128 rng_seed inner pf fuel (data_part nt p) (sim_part p) = RunResult (Some (path, text)) o /\
    read_data (exp_structs nt) varsim_spec text = Ok (data_part nt p, sim_part p, data_line :: ls).
Proof.
  intros W A Hs. destruct (run_outcomes nt as_u128 rng_seed p inner pf fuel sd F W A Hs) as (head & ts & o & E & Hh & _).
  destruct (read_run nt (exp_structs nt) varsim_spec exp_width (ta_text_line nt) ta_add (number_line nt) r (number_line_ok nt r F RR) (data_part nt p) (sim_part p) ts (head ++ lines_text (map (n_sci nt) ts))%string F exp_known) as (ls & El & _).
  - constructor; auto; [now apply settings_survive|]. clear. induction ts; constructor; auto. reflexivity.
  - eauto 10.
Qed.
(** The text a run leaves is a data file of the directory. *)
Lemma run_is_file p G (as_u128 : S -> N) (rng_seed : N -> rstate G) inner pf fuel path text o : writable p -> accepted p -> 
  exp_program nt as_u128 rng_seed inner pf fuel (data_part nt p) (sim_part p) = RunResult (Some (path, text)) o ->
  exists ts, directory_file nt (exp_structs nt) varsim_spec exp_width (number_line nt) (Some (data_part nt p, sim_part p, ts)) text.
Proof.
  intros W A E. destruct (run_seed as_u128 (p_seed p) (run_hash p)) as [sd| | |] eqn:Hs.
  - destruct (run_outcomes nt as_u128 rng_seed p inner pf fuel sd F W A Hs) as (head & ts & o' & E' & Hh & _). rewrite E in E'. injection E' as -> -> ->. exists ts.
    constructor; auto; [now apply settings_survive|]. clear. induction ts; constructor; auto. reflexivity.
  - unfold run_seed in Hs. destruct (_ <=? _)%N in Hs; discriminate.
  - destruct (header_is nt p F W) as (head & Hh). exists []. replace text with (head ++ lines_text [])%string.
    + constructor; auto. now apply settings_survive.
    + rewrite (program_stops nt as_u128 rng_seed p inner pf fuel head A Hh Hs) in E. injection E as _ <- _. apply app_s_nil.
  - unfold run_seed in Hs. destruct (_ <=? _)%N in Hs; discriminate.
Qed.
End Exp.

(** ** Files of other programs *)
Section Foreign.
Context {S : scalar} (nt : numtext S).
Lemma short_file text : length (text_lines text) <= 1 -> read_data (exp_structs nt) varsim_spec text = Err InvalidFile.
Proof. intros H. unfold read_data. destruct (text_lines text) as [|l [|l' ls]]; [| |cbn in H; lia]; reflexivity. Qed.
Lemma other_file text l1 l2 ls : text_lines text = l1 :: l2 :: ls -> length (split_on (is_char ":") l2) <> 2 -> read_data (exp_structs nt) varsim_spec text = Err InvalidFormat.
Proof.
  intros E H. apply Nat.eqb_neq in H. unfold read_data. rewrite E. cbn [tl].
  assert (X : read_args_from_lines (circ_spec nt) (l2 :: ls) = Err InvalidFormat).
  { unfold read_args_from_lines. change (a_fields (circ_spec nt)) with (hd (fld_usize "" "") (a_fields (circ_spec nt)) :: tl (a_fields (circ_spec nt))). cbn [read_lines]. rewrite H. reflexivity. }
  cbn [exp_structs app read_all]. rewrite X. reflexivity.
Qed.
End Foreign.
