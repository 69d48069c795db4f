(** Generated programs. *)
From Coq Require Import String Ascii NArith ZArith Lia List.
From Verif Require Import Base Scalar Model_Position Model_System Model_Agent Model_Time Model_Text Spec_Text Proof_Text Proof_Text3 Model_Args Spec_Args Proof_Args Proof_Args2 Proof_Args3 Model_Analysis Model_Usage
  Model_Program Spec_Program Proof_Program Model_Generated Spec_Generated.
Import ListNotations.
Local Open Scope nat_scope.
Local Open Scope string_scope.
Local Open Scope list_scope.
Local Notation length := List.length.

Section Values.
Context {S : scalar} (nt : numtext S).
Lemma parse_fits t n : parse_usize t = Some n -> usize_fits n.
Proof. intros E. apply parse_usize_spec in E. destruct E as (s & _ & _ & _ & H). unfold usize_fits. lia. Qed.
Lemma pos_parse_some t p : pos_parse nt t = Ok p -> p <> [].
Proof.
  unfold pos_parse. intros E. assert (X : forall a b : list S, Ok a = Ok b -> a = b) by congruence. apply X in E. subst p.
  destruct (split_cons (fun c => is_char "," c || is_char ":" c) (trim_matches is_paren (trim t))) as (h & r & E). rewrite E. discriminate.
Qed.
Lemma init_parse_some t i p : inittype_parse nt t = Ok i -> i = SpecificPosition p -> p <> [].
Proof.
  intros E ->. unfold inittype_parse in E. destruct (Nat.eqb (length (split_ws t)) 1).
  - destruct (idx (split_ws t) 0) as [w| | |]; cbn [bind] in E; try discriminate E. destruct (String.eqb w "Uniform"); [discriminate E|].
    destruct (pos_parse nt w) as [q| | |] eqn:Q; cbn [bind] in E; try discriminate E. assert (q = p) by congruence. subst q. eapply pos_parse_some, Q.
  - destruct (idx (split_ws t) 1) as [w| | |]; cbn [bind] in E; try discriminate E. destruct (String.eqb w "all").
    + destruct (idx (split_ws t) 4) as [w4| | |]; cbn [bind] in E; try discriminate E. destruct (pos_parse nt w4) as [q| | |] eqn:Q; try discriminate E.
      assert (q = p) by congruence. subst q. eapply pos_parse_some, Q.
    + destruct (String.eqb w "agents"); discriminate E.
Qed.
(** A value read from a trimmed word survives. *)
Lemma read_survives f t x : trimmed t -> f_parse f t = Ok x -> storable nt f x -> survives nt f x.
Proof.
  intros T E W. destruct W; cbn [f_parse fld_usize fld_u128 fld_string fld_pos fld_init] in E; constructor; auto.
  - unfold parsed, or_err in E. destruct (parse_usize t) as [k|] eqn:Q; [|discriminate E]. assert (k = x) by congruence. subst k. eapply parse_fits, Q.
  - unfold parsed, or_err in E. destruct (parse_uint u128_maxN t) as [k|] eqn:Q; [|discriminate E]. assert (k = x) by congruence. subst k. apply parse_uint_spec in Q. destruct Q as (s & _ & _ & _ & H).
    change u128_maxN with (2 ^ 128 - 1)%N in H. lia.
  - assert (t = x) by congruence. now subst t.
  - eapply pos_parse_some, E.
  - intros p. eapply init_parse_some, E.
Qed.
Lemma words_survive fs : forall ws v, word_values fs ws v -> all_storable nt fs v -> all_survive nt fs v.
Proof.
  induction fs as [|f fs IH]; intros ws v W H; [exact I|]. destruct ws as [|w ws]; [destruct W|]. destruct v as [x v]. destruct W as [(a & t & b & _ & _ & _ & T & E) W], H as [H1 H2].
  cbn [fst snd] in *. split; [eapply read_survives; eauto|eapply IH; eauto].
Qed.
Lemma survive_app a b (x : vals a) (y : vals b) : all_survive nt a x -> all_survive nt b y -> all_survive nt (a ++ b) (vals_app x y).
Proof. revert x. induction a as [|f a IH]; intros x H1 H2; [exact H2|]. destruct H1 as [H0 H1]. split; [exact H0|now apply IH]. Qed.
Lemma storable_app a b (x : vals a) (y : vals b) : all_storable nt (a ++ b) (vals_app x y) -> all_storable nt b y.
Proof. revert x. induction a as [|f a IH]; intros x H; [exact H|]. destruct H as [_ H]. eapply IH, H. Qed.
Lemma defaults_survive sp : In sp (all_specs nt) -> all_survive nt (a_types sp) (a_defaults sp).
Proof. intros H. repeat (destruct H as [<-|H]; [cbn [a_types a_defaults circ_spec cubic_spec cyl_spec bulk_spec indep_spec merge_spec exp_spec lj_spec const_spec expstep_spec varsim_spec parsim_spec procsim_spec all_survive fst snd]; repeat (split; [constructor; first [discriminate|unfold usize_fits; vm_compute; reflexivity]|]); exact I|]); destruct H. Qed.
Lemma vec_survives sp ws v : In sp (all_specs nt) -> read_args_from_vec sp ws = Ok v -> all_storable nt (a_fields sp) v -> all_survive nt (a_fields sp) v.
Proof.
  intros I E H. destruct (read_vec_spec nt sp I ws) as [R1 R2]. destruct (Nat.eq_dec (length ws) (a_num sp)) as [L|L]; [|rewrite (R1 L) in E; discriminate E].
  destruct (R2 L) as [R _]. apply R in E as (u & -> & W). apply survive_app; [now apply defaults_survive|]. eapply words_survive; [exact W|]. unfold a_fields in H. eapply storable_app, H.
Qed.
Lemma reads_survive specs : incl specs (all_specs nt) -> forall blocks v, reads specs blocks v -> args_storable nt specs v -> args_survive nt specs v.
Proof.
  induction specs as [|sp specs IH]; intros I blocks v R H; [exact Logic.I|]. destruct blocks as [|b bs]; [destruct R|]. destruct R as [R1 R2], H as [H1 H2]. split.
  - eapply vec_survives; eauto. apply I. now left.
  - eapply IH; eauto. intros x Hx. apply I. now right.
Qed.
End Values.

Lemma split_join sim specs : forall w : all_args (specs ++ [sim]), join_args specs (fst (split_args sim specs w)) (snd (split_args sim specs w)) = w.
Proof.
  induction specs as [|sp specs IH]; intros w.
  - destruct w as [s []]. reflexivity.
  - destruct w as [x w]. cbn [split_args fst snd join_args app]. specialize (IH w). destruct (split_args sim specs w) as [a s]. cbn [fst snd] in *. now rewrite IH.
Qed.
Lemma join_split sim specs : forall (v : all_args specs) (s : args_of sim), split_args sim specs (join_args specs v s) = (v, s).
Proof.
  induction specs as [|sp specs IH]; intros v s.
  - destruct v. reflexivity.
  - destruct v as [x v]. cbn [split_args join_args fst snd]. now rewrite IH.
Qed.

Section Main.
Context {S : scalar} (nt : numtext S).
Variables (prefix : string) (ps : list part) (sm : simpart).
Local Notation specs := (part_specs ps).
Local Notation sim := (sp_spec sm).
Variable body : all_args specs -> args_of sim -> string * outcome unit.
Variable analysis : list string -> list (string * string) * outcome unit.
(** One call. *)
Lemma gen_wrong prog ws : length ws <> 4 -> length ws <> 5 -> length ws <> total_num_args (specs ++ [sim]) ->
  gen_main prefix ps sm body analysis (prog :: ws) = ([], Err InvalidNumberOfArguments).
Proof.
  intros H1 H2 H3. unfold gen_main. rewrite setup_wrong; [reflexivity| | | |]; cbn [length]; unfold analysis_num_args; try lia. 
Qed.
Lemma gen_analysis prog ws : length ws = 4 \/ length ws = 5 -> gen_main prefix ps sm body analysis (prog :: ws) = analysis ws.
Proof. intros H. unfold gen_main. rewrite (setup_analyze false); [reflexivity| |]; cbn [length]; unfold analysis_num_args; lia. Qed.
Lemma gen_simulate prog ws blocks v s : length ws <> 4 -> length ws <> 5 -> blocks_of (specs ++ [sim]) ws blocks -> reads (specs ++ [sim]) blocks (join_args specs v s) ->
  gen_main prefix ps sm body analysis (prog :: ws) = (let r := gen_run prefix ps sm body v s in (match rr_file r with Some f => [f] | None => [] end, rr_end r)).
Proof.
  intros H1 H2 B R. assert (L : length ws = total_num_args (specs ++ [sim])).
  { destruct B as [-> B]. revert B. generalize (specs ++ [sim]) as l. clear. intros l. revert l. induction blocks as [|b bs IH]; intros [|sp l] B; cbn [map] in B; try discriminate B; [reflexivity|].
    cbn [List.concat total_num_args fold_right]. rewrite app_length. injection B as B1 B2. rewrite B1, (IH l B2). reflexivity. }
  destruct (setup_run false 1 analysis_num_args (specs ++ [sim]) (prog :: ws)) as (bs & B' & E); cbn [length]; unfold analysis_num_args; try lia.
  change (skipn 1 (prog :: ws)) with ws in B'. assert (bs = blocks).
  { destruct (reads_blocks (specs ++ [sim]) ws L) as (b0 & _ & U). rewrite <- (U bs B'). now apply U. }
  subst bs. unfold gen_main. rewrite (proj2 (E (Simulate (join_args specs v s)))) by eauto. now rewrite join_split.
Qed.
Lemma gen_panic prog ws blocks : length ws <> 4 -> length ws <> 5 -> blocks_of (specs ++ [sim]) ws blocks -> (forall w, ~ reads (specs ++ [sim]) blocks w) ->
  fst (gen_main prefix ps sm body analysis (prog :: ws)) = [] /\ snd (gen_main prefix ps sm body analysis (prog :: ws)) <> Ok tt.
Proof.
  intros H1 H2 B R. assert (L : length ws = total_num_args (specs ++ [sim])).
  { destruct B as [-> B]. revert B. generalize (specs ++ [sim]) as l. clear. intros l. revert l. induction blocks as [|b bs IH]; intros [|sp l] B; cbn [map] in B; try discriminate B; [reflexivity|].
    cbn [List.concat total_num_args fold_right]. rewrite app_length. injection B as B1 B2. rewrite B1, (IH l B2). reflexivity. }
  destruct (setup_run false 1 analysis_num_args (specs ++ [sim]) (prog :: ws)) as (bs & B' & E); cbn [length]; unfold analysis_num_args; try lia.
  change (skipn 1 (prog :: ws)) with ws in B'. assert (bs = blocks).
  { destruct (reads_blocks (specs ++ [sim]) ws L) as (b0 & _ & U). rewrite <- (U bs B'). now apply U. }
  subst bs. unfold gen_main. destruct (setup false 1 analysis_num_args (specs ++ [sim]) (prog :: ws)) as [r| | |]; [|split; [reflexivity|discriminate]..].
  destruct (proj1 (E r) eq_refl) as (w & -> & Hw). destruct (R w Hw).
Qed.
(** One run. *)
Lemma gen_file v s name : faithful nt -> incl (specs ++ [sim]) (all_specs nt) -> args_survive nt (specs ++ [sim]) (join_args specs v s) ->
  build_parts ps v = Ok tt -> output_file prefix specs sim v s = Some name ->
  exists head, file_header (specs ++ [sim]) 15 (join_args specs v s) = Ok head /\
    gen_run prefix ps sm body v s = RunResult (Some (path_in (sp_dir sm s) name, head ++ fst (body v s))%string) (snd (body v s)) /\
    forall text, read_data specs sim (head ++ text)%string = Ok (v, s, data_line :: text_lines text).
Proof.
  intros F I H B N. destruct (file_read_back nt (specs ++ [sim]) 15 (join_args specs v s) "" F I H) as (head & Eh & _). exists head. split; [exact Eh|]. split.
  - unfold gen_run. rewrite B. cbn [bind]. rewrite Eh, N. destruct (body v s) as [t o]. reflexivity.
  - intros text. destruct (file_read_back nt (specs ++ [sim]) 15 (join_args specs v s) text F I H) as (t & Et & Er). rewrite Eh in Et. assert (head = t) by congruence. subst t.
    unfold from_file in Er. destruct (read_joined sim specs _ v s _ Er) as (ls0 & E1 & E2). unfold read_data. rewrite E1. cbn [bind]. rewrite E2. reflexivity.
Qed.
Lemma gen_not_built v s e : build_parts ps v = Err e -> gen_run prefix ps sm body v s = RunResult None (Err e).
Proof. intros B. unfold gen_run. rewrite B. reflexivity. Qed.
Lemma gen_not_built_panic v s : build_parts ps v = Panic -> gen_run prefix ps sm body v s = RunResult None Panic.
Proof. intros B. unfold gen_run. rewrite B. reflexivity. Qed.
End Main.
