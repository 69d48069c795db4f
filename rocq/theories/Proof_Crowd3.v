(** The data files of tests/arguments.rs and their analysis. *)
From Coq Require Import String Ascii NArith List Lia Arith ZArith Reals Lra.
From Flocq Require Import Core IEEE754.BinarySingleNaN.
From Verif Require Import Base Scalar Float64 Model_Position Spec_Position Model_System Spec_System Model_Agent Spec_Agent
  Model_LinkedList Model_Time Model_Text Spec_Text Proof_Text Proof_Text3 Proof_Text5 Model_Args Spec_Args Proof_Args Proof_Args2 Proof_Args3 Model_Analysis Spec_Analysis
  Proof_Analysis3 Proof_Analysis9 Proof_Analysis11
  Model_Run Spec_Run Spec_Search Model_Program Spec_Program Proof_Program Proof_Program2 Proof_Program3 Proof_Program4 Model_Program3 Spec_Program3 Proof_Race2 Proof_Crowd2.
Import ListNotations.
Local Open Scope nat_scope.
Local Open Scope string_scope.
Local Open Scope list_scope.
Local Notation length := List.length.

(** ** Nothing is added for the missing simulation part *)
Lemma no_sim_header specs w (v : all_args specs) : file_header (specs ++ [no_sim]) w (join_args specs v (tt : args_of no_sim)) = file_header specs w v.
Proof.
  unfold file_header. f_equal. induction specs as [|sp specs IH]; [reflexivity|]. cbn [app print_all join_args fst snd]. rewrite (IH (snd v)). reflexivity.
Qed.
Lemma no_sim_survive {S : scalar} (nt : numtext S) specs (v : all_args specs) : args_survive nt specs v -> args_survive nt (specs ++ [no_sim]) (join_args specs v (tt : args_of no_sim)).
Proof. induction specs as [|sp specs IH]; cbn [app args_survive join_args fst snd]; [intros _; repeat split|]. intros (H1 & H2). split; [exact H1|]. now apply IH. Qed.

Section Ind.
Context {S : scalar} (nt : numtext S) (r : S -> S).
Hypothesis F : faithful nt.
Hypothesis RR : rereads nt r.
Notation dfile := (directory_file nt (ind_structs nt) no_sim ind_width (number_line nt)).
Lemma ind_all_known : known (ind_structs nt ++ [no_sim]).
Proof. apply Forall_app. split; [apply (known_incl nt), ind_known|]. repeat constructor. Qed.
Lemma crowd_is_file (p : ind_settings S) ts head : ind_writable p -> file_header (ind_structs nt) ind_width (ind_part nt p) = Ok head ->
  dfile (Some (ind_part nt p, tt : args_of no_sim, ts)) (head ++ lines_text (map (n_sci nt) ts))%string.
Proof.
  intros W H. constructor.
  - now apply no_sim_survive, ind_survive.
  - rewrite no_sim_header. exact H.
  - clear. induction ts; constructor; auto. reflexivity.
Qed.
Lemma crowd_reads (p : ind_settings S) ts head : ind_writable p -> file_header (ind_structs nt) ind_width (ind_part nt p) = Ok head ->
  exists ls, read_data (ind_structs nt) no_sim (head ++ lines_text (map (n_sci nt) ts))%string = Ok (ind_part nt p, tt, data_line :: ls).
Proof.
  intros W H. destruct (read_run nt (ind_structs nt) no_sim ind_width (ta_text_line nt) ta_add (number_line nt) r (number_line_ok nt r F RR) (ind_part nt p) (tt : args_of no_sim) ts _ F ind_all_known
    (crowd_is_file p ts head W H)) as (ls & E & _). eauto.
Qed.
Lemma ind_groups_hold sip req files texts gs : Forall2 dfile files texts -> ind_groups nt sip req texts = Ok gs ->
  (forall v a, In (v, a) gs -> (exists s xs, In (Some (v, s, xs)) files) /\
     let xs := map r (data_of sip (ind_values nt) v files) in let n := of_Z (Z.of_nat (length xs)) in
     ta_ens a = length xs /\ ta_mean a = (fold_left add xs s0 / n)%S /\
     ta_sq a = fsqrt (fold_left (fun s x => s + x * x) xs s0 / n - fold_left add xs s0 / n * (fold_left add xs s0 / n))%S) /\
  (forall v s xs, In (Some (v, s, xs)) files -> exists w a, In (w, a) gs /\ same_dataset sip (ind_values nt w) (ind_values nt v) = true) /\
  ForallOrdPairs (fun e e' => same_dataset sip (ind_values nt (fst e)) (ind_values nt (fst e')) = false) gs.
Proof.
  intros H E. unfold ind_groups in E. destruct (bin_sizes req) as [[[[mn mx] size] lsize]| | |]; cbn [bind] in E; try discriminate.
  destruct (dir_groups nt (ind_structs nt) no_sim ind_width (ind_values nt) sip _ (ta_text_line nt) ta_add ta_draw (fun _ => false) (number_line nt) r (number_line_ok nt r F RR) files texts gs F ind_all_known H E) as (G1 & G2 & G3).
  split; [|split; [|exact G3]].
  - intros v a Hv. destruct (G1 v a Hv) as (X & f & a0 & Ef & Ea & _ & Ed). split; [exact X|]. cbv zeta. rewrite adds_lines in Ea.
    destruct (summed _ _ _ _ _ _ _ Ef Ea) as (E1 & E2 & E3). destruct (draw_moments _ _ Ed) as [E4 E5].
    assert (E6 : ta_ens a = ta_ens a0). { unfold ta_draw in Ed. cbv zeta in Ed. destruct (fill_lin _ _ _); cbn [bind] in Ed; try discriminate. destruct (fill _ _ _ _); cbn [bind] in Ed; try discriminate. injection Ed as <-. reflexivity. }
    rewrite E4, E5, E6, E1, E2, E3. auto.
  - intros v s xs Hv. destruct (G2 v s xs Hv) as [X|(f & a & _ & _ & X)]; [exact X|discriminate].
Qed.

(** ** Names *)
Lemma ind_name_inj prefix v w : ind_file nt prefix v = ind_file nt prefix w -> ind_entries nt v = ind_entries nt w.
Proof.
  unfold ind_file. intros E.
  assert (Pl : forall u, plain_values (combine ind_names (map (field_shown nt) (ind_entries nt u)))).
  { intros u. destruct u as ((? & ? & ? & ? & ?) & (? & ? & ? & ?) & (? & ? & ? & ? & ?) & (? & ? & ?) & (? & ? & ? & ? & ?) & ?). cbn [ind_entries map combine ind_names].
    repeat (apply Forall_cons; [cbn [snd field_shown]; (apply number_without; [first [exact (proj1 (F _))|apply show_usize_word|apply F]|nosep])|]). apply Forall_nil. }
  assert (Sn : same_names (combine ind_names (map (field_shown nt) (ind_entries nt v))) (combine ind_names (map (field_shown nt) (ind_entries nt w)))).
  { destruct v as ((? & ? & ? & ? & ?) & (? & ? & ? & ?) & (? & ? & ? & ? & ?) & (? & ? & ?) & (? & ? & ? & ? & ?) & ?).
    destruct w as ((? & ? & ? & ? & ?) & (? & ? & ? & ?) & (? & ? & ? & ? & ?) & (? & ? & ?) & (? & ? & ? & ? & ?) & ?). reflexivity. }
  destruct (file_inj prefix _ _ [] [] Sn eq_refl (Pl v) (Pl w) ltac:(constructor) ltac:(constructor) E) as (Q & _). clear E Sn Pl.
  destruct v as ((? & ? & sz & d & ?) & (? & ? & ts & ?) & (? & ? & ? & na & ?) & (dt & ? & ?) & (? & ix & ? & ? & ?) & ?).
  destruct w as ((? & ? & sz' & d' & ?) & (? & ? & ts' & ?) & (? & ? & ? & na' & ?) & (dt' & ? & ?) & (? & ix' & ? & ? & ?) & ?).
  cbn [ind_entries map combine ind_names field_shown] in Q |- *.
  assert (X : forall (a b : string) s t (l l' : list (string * string)), (a, s) :: l = (b, t) :: l' -> s = t /\ l = l') by (intros; split; congruence).
  apply X in Q as (Q1 & Q). apply X in Q as (Q2 & Q). apply X in Q as (Q3 & Q). apply X in Q as (Q4 & Q). apply X in Q as (Q5 & Q). apply X in Q as (Q6 & _).
  apply (n_show_inj nt _ _ F) in Q1, Q3, Q5. apply show_uint_inj in Q2, Q4, Q6. apply Nat2N.inj in Q2, Q4, Q6. congruence.
Qed.

(** ** The files an analysis writes *)
Variable show_e : S -> string.
Hypothesis show_ok : forall x, number_word (show_e x).
Lemma ind_names_short : Forall (fun n => good n /\ String.length n < ind_width) ind_names.
Proof. repeat constructor; cbn; try lia; try discriminate; unfold whitespace; cbn; intuition discriminate. Qed.
Lemma ind_writes prefix sip dir req files texts out : Forall2 dfile files texts -> ind_analyze nt show_e sip prefix dir req texts = Ok out ->
  exists gs brief, ind_groups nt sip req texts = Ok gs /\
    map fst out = path_in dir "brief_result.dat" :: flat_map (fun g => [path_in dir (path_in "linear_distribution" (ind_file nt prefix (fst g))); path_in dir (path_in "logarithmic_distribution" (ind_file nt prefix (fst g)))]) gs /\
    NoDup (map fst out) /\
    In (path_in dir "brief_result.dat", brief) out /\
    rows_of brief ((ind_names ++ ["ensemble"; "mean"; "stddev"]) :: map (fun g => summary_words show_e (ind_entries nt (fst g)) (snd g)) gs) /\
    (forall v a, In (v, a) gs -> exists lin lg t1 t2, ta_export_lin a = Ok lin /\ ta_export_log a = Ok lg /\
       In (path_in dir (path_in "linear_distribution" (ind_file nt prefix v)), t1) out /\ rows_of t1 (map (histogram_words show_e) lin) /\
       In (path_in dir (path_in "logarithmic_distribution" (ind_file nt prefix v)), t2) out /\ rows_of t2 (map (histogram_words show_e) lg)).
Proof.
  intros H E. unfold ind_analyze in E. destruct (ind_groups nt sip req texts) as [gs| | |] eqn:Eg; cbn [bind] in E; try discriminate. unfold result_files in E.
  rewrite map_map in E. cbn [fst snd] in E.
  destruct (group_files show_e ind_width dir _) as [fs| | |] eqn:Ef; cbn [bind] in E; try discriminate.
  assert (X : forall x y : list (string * string), Ok x = Ok y -> x = y) by congruence. apply X in E. clear X. subst out.
  destruct (group_out show_e show_ok _ _ _ _ Ef) as [G1 G2]. rewrite flat_map_concat_map, map_map, <- flat_map_concat_map in G1. cbn [fst] in G1.
  destruct (ind_groups_hold sip req files texts gs H Eg) as (_ & _ & P).
  eexists gs, _. split; [reflexivity|]. cbn [map fst]. rewrite G1. split; [reflexivity|]. split; [|split; [now left|split]].
  - assert (N : NoDup (map (fun g => ind_file nt prefix (fst g)) gs)).
    { clear -P F. induction P as [|g gs Hg _ IH]; [constructor|]. cbn [map]. constructor; auto. rewrite in_map_iff. intros (g' & E & Hi). rewrite Forall_forall in Hg. specialize (Hg _ Hi).
      apply ind_name_inj in E. assert (Ev : ind_values nt (fst g') = ind_values nt (fst g)) by exact (f_equal (map entry_value) E).
      assert (Hg' : same_dataset sip (ind_values nt (fst g)) (ind_values nt (fst g')) = false) by exact Hg. rewrite Ev in Hg'. unfold same_dataset in Hg'. now rewrite Z.eqb_refl in Hg'. }
    constructor.
    + rewrite in_flat_map. intros (g & _ & [E|[E|[]]]); apply app_slash in E; discriminate E.
    + clear -N. induction gs as [|g gs IH]; [constructor|]. cbn [map] in N. apply NoDup_cons_iff in N as [N1 N2]. cbn [flat_map app]. constructor; [|constructor; [|now apply IH]].
      * intros [E|Hi]; [apply app_slash in E; now apply (linear_first _ _ (eq_sym E))|]. apply in_flat_map in Hi as (g' & Hg & [E|[E|[]]]); apply app_slash in E.
        -- apply app_slash in E. apply N1. rewrite <- E. now apply (in_map (fun g => ind_file nt prefix (fst g))).
        -- now apply (linear_first _ _ (eq_sym E)).
      * intros Hi. apply in_flat_map in Hi as (g' & Hg & [E|[E|[]]]); apply app_slash in E.
        -- now apply (linear_first _ _ E).
        -- apply app_slash in E. apply N1. rewrite <- E. now apply (in_map (fun g => ind_file nt prefix (fst g))).
  - refine (summary_head_rows _ _ _ _ _ _ _); [exact ind_names_short|unfold ind_width; lia|]. clear -show_ok. induction gs as [|g gs IH]; [exact rows_nil|]. cbn [map fold_right fst snd]. now apply summary_row_rows.
  - intros v a Hi. destruct (G2 (ind_file nt prefix v) a) as (lin & lg & t1 & t2 & X1 & X2 & X3 & X4 & X5 & X6).
    + apply in_map_iff. exists (v, a). auto.
    + exists lin, lg, t1, t2. repeat (split; [assumption || (now right)|]). assumption.
Qed.
End Ind.
