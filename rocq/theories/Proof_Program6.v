(** Interrupted runs; analyses that always succeed (C54, C55). *)
From Coq Require Import String Ascii NArith ZArith Lia.
From Verif Require Import Base Scalar Model_Position Model_System Model_Agent Model_Time Model_Text Spec_Text Proof_Text Proof_Text3 Proof_Text5
  Model_Args Spec_Args Proof_Args Proof_Args3 Model_Analysis Spec_Analysis Proof_Analysis Proof_Analysis3 Model_Run Spec_Run2 Model_Program Spec_Program Proof_Program Proof_Program2 Proof_Program3 Proof_Program4.
Local Open Scope nat_scope.
Local Open Scope string_scope.
Local Open Scope list_scope.
Local Notation length := List.length.

(** ** files cut at the end of a line *)
Lemma read_lines_cut fs : forall ls (v : Model_Args.vals fs) rest k, read_lines fs ls = Ok (v, rest) ->
  (k < length fs -> read_lines fs (firstn k ls) = Err InvalidFile) /\
  (length fs <= k -> read_lines fs (firstn k ls) = Ok (v, firstn (k - length fs) rest)).
Proof.
  induction fs as [|f fs IH]; intros ls v rest k E; cbn [read_lines] in E.
  - injection E as <- <-. split; [cbn; lia|]. intros _. cbn [List.length]. now rewrite Nat.sub_0_r.
  - destruct ls as [|l ls]; [discriminate|]. cbv zeta in E. destruct (negb _) eqn:N; [discriminate|].
    destruct (idx _ 1) as [s| | |] eqn:Es; cbn [bind] in E; try discriminate. destruct (expect_ok _) as [a| | |] eqn:Ea; cbn [bind] in E; try discriminate.
    destruct (read_lines fs ls) as [[v' rest']| | |] eqn:Er; cbn [bind] in E; try discriminate. injection E as <- <-.
    split; intros Hk; destruct k as [|k]; cbn [List.length] in Hk.
    + reflexivity.
    + cbn [firstn read_lines]. cbv zeta. rewrite N, Es. cbn [bind]. rewrite Ea. cbn [bind]. destruct (IH _ _ _ k Er) as [I1 _]. rewrite I1 by lia. reflexivity.
    + lia.
    + cbn [firstn read_lines List.length]. cbv zeta. rewrite N, Es. cbn [bind]. rewrite Ea. cbn [bind]. destruct (IH _ _ _ k Er) as [_ I2]. rewrite I2 by lia. reflexivity.
Qed.
Definition lines_in (specs : list argspec) : nat := fold_right (fun sp n => length (a_fields sp) + n) 0 specs.
Lemma read_all_cut specs : forall ls (v : all_args specs) rest k, read_all specs ls = Ok (v, rest) ->
  (k < lines_in specs -> read_all specs (firstn k ls) = Err InvalidFile) /\
  (lines_in specs <= k -> read_all specs (firstn k ls) = Ok (v, firstn (k - lines_in specs) rest)).
Proof.
  induction specs as [|sp specs IH]; intros ls v rest k E; cbn [read_all] in E.
  - injection E as <- <-. split; [cbn; lia|]. intros _. cbn. now rewrite Nat.sub_0_r.
  - destruct (read_args_from_lines sp ls) as [[v1 ls1]| | |] eqn:E1; cbn [bind] in E; try discriminate.
    destruct (read_all specs ls1) as [[v2 ls2]| | |] eqn:E2; cbn [bind] in E; try discriminate. injection E as <- <-.
    unfold read_args_from_lines in E1. destruct (read_lines_cut _ _ _ _ k E1) as [A1 A2]. destruct (IH _ _ _ (k - length (a_fields sp)) E2) as [B1 B2].
    unfold lines_in in *. cbn [fold_right read_all]. unfold read_args_from_lines. split; intros Hk.
    + destruct (Nat.lt_ge_cases k (length (a_fields sp))) as [Hl|Hl]; [rewrite A1 by auto; reflexivity|]. rewrite A2 by auto. cbn [bind]. rewrite B1 by lia. reflexivity.
    + rewrite A2 by lia. cbn [bind]. rewrite B2 by lia. cbn [bind]. do 2 f_equal. f_equal. lia.
Qed.
Lemma cut_file specs sim text text' k v s ls : read_data specs sim text = Ok (v, s, ls) -> text_lines text' = firstn k (text_lines text) ->
  let n := lines_in (specs ++ [sim]) in
  (k <= n -> 0 < n -> read_data specs sim text' = Err InvalidFile) /\ (n < k -> read_data specs sim text' = Ok (v, s, firstn (k - n - 1) ls)).
Proof.
  intros E Et n. unfold read_data in E |- *. rewrite Et.
  assert (T : tl (firstn k (text_lines text)) = firstn (k - 1) (tl (text_lines text))).
  { destruct k; [reflexivity|]. destruct (text_lines text); cbn; [now rewrite firstn_nil|]. now rewrite Nat.sub_0_r. }
  rewrite T. destruct (read_all specs (tl (text_lines text))) as [[v1 l1]| | |] eqn:E1; cbn [bind] in E; try discriminate.
  destruct (read_args_from_lines sim l1) as [[s1 l2]| | |] eqn:E2; cbn [bind] in E; try discriminate. injection E as -> -> ->.
  assert (En : n = lines_in specs + length (a_fields sim)). { unfold n, lines_in. clear. induction specs as [|sp specs IH]; cbn [app fold_right]; lia. }
  destruct (read_all_cut _ _ _ _ (k - 1) E1) as [A1 A2]. unfold read_args_from_lines in *. destruct (read_lines_cut _ _ _ _ (k - 1 - lines_in specs) E2) as [B1 B2]. split.
  - intros Hk H0. destruct (Nat.lt_ge_cases (k - 1) (lines_in specs)) as [Hl|Hl]; [rewrite A1 by auto; reflexivity|]. rewrite A2 by auto. cbn [bind]. rewrite B1 by lia. reflexivity.
  - intros Hk. rewrite A2 by lia. cbn [bind]. rewrite B2 by lia. cbn [bind]. do 3 f_equal. lia.
Qed.

(** ** analyses that succeed *)
Lemma rows_lin_ok {S : scalar} (h : list S) : forall (t w : S) i cnt, i + length h <= length cnt -> exists r, rows_lin t w h i cnt = Ok r.
Proof.
  induction h as [|x h IH]; intros t w i cnt L; cbn [rows_lin]; [eauto|]. cbn [List.length] in L. cbv zeta.
  destruct (IH (t + w)%S w (Datatypes.S i) cnt) as (r & Er); [lia|]. destruct (_ <? _)%S; [rewrite Er; eauto|].
  destruct (idx cnt i) as [n| | |] eqn:En; [|unfold idx in En; destruct (nth_error cnt i) eqn:Q; [discriminate|apply nth_error_None in Q; lia]..]. cbn [bind]. rewrite Er. cbn [bind]. eauto.
Qed.
Lemma rows_log_ok {S : scalar} (h : list S) : forall (t w : S) i cnt, i + length h <= length cnt -> exists r, rows_log t w h i cnt = Ok r.
Proof.
  induction h as [|x h IH]; intros t w i cnt L; cbn [rows_log]; [eauto|]. cbn [List.length] in L. cbv zeta.
  destruct (IH (t * w)%S w (Datatypes.S i) cnt) as (r & Er); [lia|]. destruct (_ <? _)%S; [rewrite Er; eauto|].
  destruct (idx cnt i) as [n| | |] eqn:En; [|unfold idx in En; destruct (nth_error cnt i) eqn:Q; [discriminate|apply nth_error_None in Q; lia]..]. cbn [bind]. rewrite Er. cbn [bind]. eauto.
Qed.
Lemma shape_exports {S : scalar} b (a : tana S) : shape b a -> (exists r, ta_export_lin a = Ok r) /\ (exists r, ta_export_log a = Ok r).
Proof. intros (_ & L1 & L2 & L3 & L4). split; [apply rows_lin_ok|apply rows_log_ok]; cbn; lia. Qed.

Section Total.
Context {S : scalar} (nt : numtext S) (r : S -> S) (specs : list argspec) (sim : argspec) (width : nat) (values : all_args specs -> list S) (sip : list Z -> Z).
Hypothesis F : faithful nt.
Hypothesis RR : rereads nt r.
Variables (mn mx size lsize : S) (a0 : tana S).
Hypothesis Fresh : ta_fresh mn mx size lsize = Ok a0.
Hypothesis Total : forall xs, exists a, ta_adds a0 xs = Ok a.
Let reached (a : tana S) := exists xs, ta_adds a0 xs = Ok a.
Lemma adds_app xs ys : forall a : tana S, ta_adds a (xs ++ ys) = (do b <- ta_adds a xs; ta_adds b ys).
Proof. induction xs as [|x xs IH]; intros a; [reflexivity|]. cbn [app ta_adds]. destruct (ta_add a x); cbn [bind]; auto. Qed.
Lemma reached_adds a xs : reached a -> exists a', add_lines ta_add a xs = Ok a' /\ reached a'.
Proof.
  intros (ys & E). destruct (Total (ys ++ xs)) as (a' & E'). rewrite adds_app, E in E'. cbn [bind] in E'. exists a'. rewrite adds_lines. split; auto. exists (ys ++ xs). now rewrite adds_app, E.
Qed.
Lemma insert_total (ds : all_args specs) ls xs : (forall a, add_lines (ta_text_line nt) a ls = add_lines ta_add a xs) -> forall m : list (all_args specs * tana S), Forall (fun e => reached (snd e)) m ->
  exists m', insert_data specs values sip (ta_fresh mn mx size lsize) (ta_text_line nt) ds ls m = Ok m' /\ Forall (fun e => reached (snd e)) m'.
Proof.
  intros El. induction m as [|[d a] m IH]; intros H; cbn [insert_data].
  - rewrite Fresh. cbn [bind]. rewrite El. destruct (reached_adds a0 xs) as (a' & E & R); [exists []; reflexivity|]. rewrite E. cbn [bind]. eauto.
  - apply Forall_cons_iff in H as [H1 H2]. destruct (same_dataset _ _ _).
    + rewrite El. destruct (reached_adds a xs H1) as (a' & E & R). rewrite E. cbn [bind]. eauto.
    + destruct (IH H2) as (m' & E & R). rewrite E. cbn [bind]. eauto.
Qed.
Lemma read_total files texts : known (specs ++ [sim]) -> Forall2 (directory_file nt specs sim width (number_line nt)) files texts -> forall m, Forall (fun e => reached (snd e)) m ->
  exists m', read_dir specs sim values sip (ta_fresh mn mx size lsize) (ta_text_line nt) texts m = Ok m' /\ Forall (fun e => reached (snd e)) m'.
Proof.
  intros I. induction 1 as [|f t files texts H _ IH]; intros m Hm; cbn [read_dir]; [eauto|]. destruct f as [[[v s] xs]|].
  - destruct (read_run nt specs sim width (ta_text_line nt) ta_add (number_line nt) r (number_line_ok nt r F RR) v s xs t F I H) as (ls & Er & Fl). rewrite Er. cbn [tl].
    destruct (insert_total v ls (map r xs)) with (m := m) as (m' & E & R); auto; [|rewrite E; cbn [bind]; auto].
    intros a. exact (add_text_lines (ta_text_line nt) ta_add (number_line nt) r (number_line_ok nt r F RR) ls xs Fl a).
  - remember None as f eqn:Ef. destruct H as [|text e He]; [discriminate|]. rewrite He. auto.
Qed.
Lemma reached_shape a : reached a -> shape (ta_bins a0) a.
Proof. intros (xs & E). rewrite adds_history in E. eapply history_shape; [|exact E]. eapply fresh_shape. exact Fresh. Qed.
Lemma draw_total (m : list (all_args specs * tana S)) : Forall (fun e => reached (snd e)) m ->
  exists gs, draw_data specs ta_draw (fun _ => false) m = Ok gs /\ Forall (fun e => shape (ta_bins a0) (snd e)) gs.
Proof.
  induction 1 as [|[d a] m H _ (gs & E & R)]; cbn [draw_data]; [eauto|]. pose proof (reached_shape a H) as Sh. destruct (draw_ok _ _ Sh) as (a' & Ea). rewrite Ea. cbn [bind]. rewrite E. cbn [bind].
  eexists. split; [reflexivity|]. constructor; auto. cbn. exact (apply_shape (ta_bins a0) a ODraw a' Sh Ea).
Qed.
End Total.
Section Succeeds.
Context {S : scalar} (nt : numtext S) (r : S -> S).
Lemma analysis_succeeds show_e sip dir req mn mx size lsize (a0 : tana S) files texts : faithful nt -> rereads nt r ->
  bin_sizes req = Ok (mn, mx, size, lsize) -> ta_fresh mn mx size lsize = Ok a0 -> (forall xs, exists a, ta_adds a0 xs = Ok a) ->
  Forall2 (directory_file nt (exp_structs nt) varsim_spec exp_width (number_line nt)) files texts ->
  exists out, exp_analyze nt show_e sip dir req texts = Ok out.
Proof.
  intros F RR B Fr T H. unfold exp_analyze, exp_groups. rewrite B. cbn [bind]. unfold analyze_dir.
  destruct (read_total nt r (exp_structs nt) varsim_spec exp_width (exp_values nt) sip F RR mn mx size lsize a0 Fr T files texts (known_incl nt _ (specs_known nt)) H []) as (m & Em & Rm); [constructor|].
  rewrite Em. cbn [bind]. destruct (draw_total (exp_structs nt) mn mx size lsize a0 Fr m Rm) as (gs & Eg & Sg). rewrite Eg. cbn [bind]. rewrite names_are. unfold result_files. rewrite map_map. cbn [fst snd].
  assert (G : exists fs, group_files show_e exp_width dir (map (fun g => (group_name nt (fst g), snd g)) gs) = Ok fs).
  { clear -Sg. induction Sg as [|[v a] gs Ha _ (fs & E)]; [eexists; reflexivity|]. cbn [map group_files fst snd]. destruct (shape_exports _ _ Ha) as [(l1 & E1) (l2 & E2)]. cbn [snd] in E1, E2. rewrite E1. cbn [bind]. rewrite E2. cbn [bind]. rewrite E. cbn [bind]. eauto. }
  destruct G as (fs & Ef). rewrite Ef. cbn [bind]. eauto.
Qed.
End Succeeds.

(** ** every writable setting can be given on a command line *)
Section Words.
Context {S : scalar} (nt : numtext S) (F : faithful nt).
Lemma words_exist fs : forall v : Model_Args.vals fs, all_survive nt fs v -> exists ws, word_values fs ws v.
Proof.
  induction fs as [|f fs IH]; intros v H; [now exists []|]. destruct H as [H1 H2]. destruct (IH _ H2) as (ws & Hw).
  destruct (survives_readable nt f _ F H1) as (t & _ & _ & P). destruct (trim_decomp t) as (a & u & b & E1 & E2 & E3 & E4 & E5). unfold parsed in P. rewrite E5 in P.
  exists (t :: ws). split; [|exact Hw]. exists a, u, b. auto.
Qed.
Lemma command_exists (p : settings S) : writable p -> exists ws, command nt p ws.
Proof.
  intros W. pose proof (settings_survive nt p W) as H. destruct H as (A1 & A2 & A3 & A4 & A5 & _). 
  destruct A1 as (_ & _ & A1). destruct A2 as (_ & A2). destruct A3 as (_ & A3).
  destruct (words_exist (a_vars (circ_spec nt)) (p_size p, (p_dim p, tt)) A1) as (b1 & H1).
  destruct (words_exist (a_vars (bulk_spec nt)) (p_target p, (p_tsize p, tt)) A2) as (b2 & H2).
  destruct (words_exist (a_vars (exp_spec nt)) (p_move p, (p_init p, (p_gamma p, (p_idim p, (p_strength p, (p_agents p, tt)))))) A3) as (b3 & H3).
  destruct (words_exist (a_vars (expstep_spec nt)) (clock_part nt p) A4) as (b4 & H4).
  destruct (words_exist (a_vars varsim_spec) (sim_part p) A5) as (b5 & H5).
  exists (b1 ++ b2 ++ b3 ++ b4 ++ b5), b1, b2, b3, b4, b5. auto 10.
Qed.
End Words.
