(** Property C63: the message about the expected arguments; [new] and [clear] of the argument structures. *)
From Coq Require Import String Ascii NArith Lia.
From Verif Require Import Base Scalar Float64 Model_Position Model_System Model_Agent Model_Time Model_Text Spec_Text Model_Args Spec_Args Model_Usage Spec_Usage Proof_Usage Proof_Text4.
Local Open Scope string_scope.
Local Open Scope list_scope.
Local Open Scope nat_scope.
Local Notation length := List.length.
Local Notation concat := List.concat.

(** C63: the message is printed exactly when the number of arguments fits neither the simulation nor the analysis, and then the
    program ends with the error about the number of arguments. *)
Theorem C63_printed_exactly_when_the_number_is_wrong : forall width fixed skip analysis_num specs ai args, skip <= length args ->
  ((length args - skip <> analysis_num /\ length args - skip <> analysis_num + 1 /\ length args - skip <> total_num_args specs) <->
   setup_stderr width skip analysis_num specs ai args <> "") /\
  (setup_stderr width skip analysis_num specs ai args <> "" ->
   setup_stderr width skip analysis_num specs ai args = usage width skip specs ai args /\ setup fixed skip analysis_num specs args = Err InvalidNumberOfArguments).
Proof.
  intros width fixed skip an specs ai args H.
  assert (U : usage width skip specs ai args <> "").
  { unfold usage. intros E. apply (f_equal String.length) in E. rewrite Proof_Text.length_app_s in E. cbn [String.length append] in E. lia. }
  assert (P : length args - skip <> an -> length args - skip <> an + 1 -> length args - skip <> total_num_args specs ->
    setup_stderr width skip an specs ai args = usage width skip specs ai args /\ setup fixed skip an specs args = Err InvalidNumberOfArguments).
  { intros A B C. now apply stderr_usage. }
  assert (Q : setup_stderr width skip an specs ai args <> "" -> length args - skip <> an /\ length args - skip <> an + 1 /\ length args - skip <> total_num_args specs).
  { intros E. repeat split; intros X; apply E; apply stderr_quiet; lia. }
  split; [split; [|exact Q]|].
  - intros (A & B & C). destruct (P A B C) as [-> _]. exact U.
  - intros E. destruct (Q E) as (A & B & C). now apply P.
Qed.
Print Assumptions C63_printed_exactly_when_the_number_is_wrong.

(** C63: what it says, for any structures of the crate and any of the three analyses: how many arguments were given and which; how many are expected, which is
    the number of the names listed; then one line for every structure with the names of its arguments in parentheses, so that
    all names together are the arguments in the order of the command line; then one line for every argument with its
    explanation; then the same for the analysis. *)
Theorem C63_message : forall S (nt : numtext (car S)) width skip specs ai args, incl specs (all_specs nt) -> In ai [time_info; vec_info; process_info] ->
  Forall no_break args ->
  exists overview details brief adetails,
    text_lines (usage width skip specs ai args) =
      [(show_usize (length args - skip) ++ " arguments given.")%string;
       ("Given Arguments : " ++ fold_right append "" (map (fun x => x ++ "  ")%string (skipn skip args)))%string;
       ("You should give " ++ show_usize (length (argument_names specs)) ++ " arguments like below")%string;
       "======================= OVERVIEW OF ARGUMENTS =========================="] ++ overview ++
      ["========================    DESCRIPTIONS     =========================="] ++ details ++
      ["========================    FOR ANALYSIS    ==========================="; brief] ++ adetails /\
    concat (map in_parentheses overview) = argument_names specs /\ Forall2 (fun sp l => in_parentheses l = map f_name (a_vars sp)) specs overview /\
    explanations width specs details /\
    in_parentheses brief = map f_name (ai_labels ai) /\ Forall2 (explains width) (ai_labels ai) adetails.
Proof. exact @usage_spec. Qed.
Print Assumptions C63_message.

(** C63: who follows the message is understood: with one word for every name listed (and this number not being one that selects the analysis) the message is not
    printed, and when the program starts, every argument has the value of the word at its place in the list. *)
Theorem C63_following_the_message : forall S (nt : numtext (car S)) width fixed skip analysis_num specs ai args, incl specs (all_specs nt) ->
  length args = skip + length (argument_names specs) -> length (argument_names specs) <> analysis_num -> length (argument_names specs) <> analysis_num + 1 ->
  setup_stderr width skip analysis_num specs ai args = "" /\ setup fixed skip analysis_num specs args <> Err InvalidNumberOfArguments /\
  forall v, setup fixed skip analysis_num specs args = Ok (Simulate v) -> assigned specs (argument_names specs) (skipn skip args) v.
Proof.
  intros S nt w fixed skip an specs ai args Hin L N1 N2. assert (T := total_names specs (nice_in nt specs Hin)).
  split; [apply stderr_quiet; lia|]. split.
  - destruct (Proof_Args2.setup_run fixed skip an specs args) as (bs & [B1 B2] & R); try lia. intros E. revert E. unfold setup.
    destruct (Nat.ltb_spec (length args) skip); [lia|]. destruct (Nat.eqb_spec (length args - skip) an); [lia|]. destruct (Nat.eqb_spec (length args - skip) (an + 1)); [lia|].
    cbn [orb]. destruct (Nat.eqb_spec (length args - skip) (total_num_args specs)); [|lia]. cbn [negb].
    assert (NE : forall i, length args = i + total_num_args specs -> forall e, read_arguments specs args i <> Err e).
    { clear -Hin. induction specs as [|sp r IH]; intros i L e; [discriminate|]. cbn [read_arguments]. cbn [total_num_args fold_right] in L.
      fold (total_num_args r) in L. unfold slice at 1. destruct (Nat.leb_spec i (i + a_num sp)); [|lia]. destruct (Nat.leb_spec (i + a_num sp) (length args)); [|lia].
      cbn [andb bind]. destruct (Proof_Args3.read_vec_spec nt sp (Hin sp (or_introl eq_refl)) (firstn (i + a_num sp - i) (skipn i args))) as [_ Q].
      assert (LL : length (firstn (i + a_num sp - i) (skipn i args)) = a_num sp) by (rewrite firstn_length, skipn_length; lia).
      destruct (Q LL) as [_ NE]. destruct (read_args_from_vec sp _) as [v|e'| |] eqn:Er; try discriminate; [|intros X; assert (e' = e) by (cbn in X; congruence); subst; now apply (NE e)].
      cbn [bind]. assert (IHr := IH (fun x Hx => Hin x (or_intror Hx)) (i + a_num sp) ltac:(lia) e).
      destruct (read_arguments r args (i + a_num sp)); cbn [bind]; try discriminate. intros X. apply IHr. congruence. }
    specialize (NE skip ltac:(lia)). destruct (read_arguments specs args skip) as [v|e'| |]; cbn [bind]; try discriminate. intros X. apply (NE InvalidNumberOfArguments). congruence.
  - intros v E. apply (follow_usage nt fixed skip an specs args v); auto; lia.
Qed.
Print Assumptions C63_following_the_message.

(** C63: the names listed for the analysis of single times and of processes are what its longer form reads: lower and upper
    bound, size of the linear bins, size of the logarithmic bins, directory. *)
Theorem C63_analysis_names : forall S (nt : numtext (car S)) ai args mn mx b lb dir, In ai [time_info; process_info] ->
  (length args = length (ai_labels ai) /\ analyze_args nt args = Ok (BySize mn mx b lb, dir) <->
   exists w1 w2 w3 w4, args = [w1; w2; w3; w4; dir] /\ n_parse nt w1 = Some mn /\ n_parse nt w2 = Some mx /\ n_parse nt w3 = Some b /\ n_parse nt w4 = Some lb) /\
  map f_name (ai_labels ai) = ["min_time"; "max_time"; "bin_size"; "lbin_size"; "output_dir"].
Proof.
  intros S nt ai args mn mx b lb dir Ha.
  assert (E : ai_labels ai = histogram_labels) by (destruct Ha as [<-|[<-|[]]]; reflexivity). rewrite E. split; [|reflexivity]. split.
  - intros [L H]. destruct args as [|w1 [|w2 [|w3 [|w4 [|w5 [|]]]]]]; try discriminate L. exists w1, w2, w3, w4.
    cbn in H. destruct (n_parse nt w1) as [x1|]; [|discriminate]. cbn in H. destruct (n_parse nt w2) as [x2|]; [|discriminate]. cbn in H.
    destruct (n_parse nt w3) as [x3|]; [|discriminate]. cbn in H. destruct (n_parse nt w4) as [x4|]; [|discriminate]. cbn in H.
    assert (X : forall a b c d (e : string) a' b' c' d' e', Ok (@BySize (car S) a b c d, e) = Ok (BySize a' b' c' d', e') -> a = a' /\ b = b' /\ c = c' /\ d = d' /\ e = e') by (intros; repeat split; congruence).
    apply X in H as (-> & -> & -> & -> & ->). repeat split.
  - intros (w1 & w2 & w3 & w4 & -> & E1 & E2 & E3 & E4). split; [reflexivity|]. cbn. rewrite E1. cbn. rewrite E2. cbn. rewrite E3. cbn. rewrite E4. reflexivity.
Qed.
Print Assumptions C63_analysis_names.
(** Limit of C63 for the analysis of vectors: it lists six arguments, but with six the program prints the message again
    (unless this is the number of the arguments of the simulation). *)
Theorem C63_vector_analysis_counterexample : forall width fixed skip specs args, length args = skip + length (ai_labels vec_info) ->
  total_num_args specs <> length (ai_labels vec_info) ->
  setup_stderr width skip analysis_num_args specs vec_info args = usage width skip specs vec_info args /\
  setup fixed skip analysis_num_args specs args = Err InvalidNumberOfArguments.
Proof.
  intros w fixed skip specs args L T. change (length (ai_labels vec_info)) with 6 in *. apply stderr_usage; unfold analysis_num_args; lia.
Qed.
Print Assumptions C63_vector_analysis_counterexample.
(** Limit of C63: the shorter form of the analysis, with the number of bins in the third place, is not mentioned. *)
Theorem C63_short_form_counterexample : forall S (nt : numtext (car S)) w1 w2 w3 dir mn mx n, n_parse nt w1 = Some mn -> n_parse nt w2 = Some mx -> parse_usize w3 = Some n ->
  analyze_args nt [w1; w2; w3; dir] = Ok (ByNumber mn mx n, dir) /\ forall ai, In ai [time_info; vec_info; process_info] -> length (ai_labels ai) <> 4 /\ ~ In "num_bin" (map f_name (ai_labels ai)).
Proof.
  intros S nt w1 w2 w3 dir mn mx n E1 E2 E3. split; [cbn; rewrite E1; cbn; rewrite E2; cbn; now rewrite E3|].
  intros ai [<-|[<-|[<-|[]]]]; (split; [discriminate|]); cbn; intuition discriminate.
Qed.
Print Assumptions C63_short_form_counterexample.

(** C63: reading a block of words is [new] of their values, with the type fields of the structure. *)
Theorem C63_new : forall S (nt : numtext (car S)) sp, In sp (all_specs nt) -> forall args v,
  read_args_from_vec sp args = Ok v <-> exists u, v = args_new sp u /\ word_values (a_vars sp) args u.
Proof. exact @vec_new. Qed.
Print Assumptions C63_new.
(** C63: [clear] forgets everything: the values afterwards are these, whatever they were. *)
Theorem C63_clear : forall S (nt : numtext (car S)),
  (forall v, args_clear (circ_spec nt) v = (ContinuousCircular, (Reflection, (s0, (0, tt))))) /\
  (forall v, args_clear (cubic_spec nt) v = (ContinuousRectangular, (Reflection, (s0, (0, tt))))) /\
  (forall v, args_clear (cyl_spec nt) v = (ContinuousCircular, (Reflection, (s0, (s0, (0, tt)))))) /\
  (forall v, args_clear (bulk_spec nt) v = (ContinuousInBulk, ([], (s0, tt)))) /\
  (forall v, args_clear (indep_spec nt) v = (ContinuousPassiveIndependent, (Brownian s1, (Uniform, (0, tt))))) /\
  (forall v, args_clear (merge_spec nt) v = (ContinuousPassiveInteracting, (1, (Brownian s1, (Uniform, (s0, (s0, (0, tt)))))))) /\
  (forall v, args_clear (exp_spec nt) v = (ContinuousPassiveInteracting, (Brownian s1, (Uniform, (s0, (0, (s0, (0, tt)))))))) /\
  (forall v, args_clear (lj_spec nt) v = (ContinuousPassiveInteracting, (Brownian s1, (Uniform, (s0, (s0, (0, tt))))))) /\
  (forall v, args_clear (const_spec nt) v = (s0, (s0, tt))) /\ (forall v, args_clear (expstep_spec nt) v = (s0, (s0, (0, (s0, tt))))) /\
  (forall v, args_clear varsim_spec v = (0, (0, (0%N, ("", tt))))) /\ (forall v, args_clear parsim_spec v = (0, (0%N, (0, ("", tt))))) /\
  (forall v, args_clear (procsim_spec nt) v = (0, (s0, (0, (0%N, ("", tt)))))).
Proof. intros S nt. repeat split. Qed.
Print Assumptions C63_clear.
(** C63: except for the target a cleared structure can still be written to a data file and read back (C42). *)
Theorem C63_cleared_can_be_written : forall S (nt : numtext (car S)),
  (forall v, all_survive nt (a_fields (circ_spec nt)) (args_clear (circ_spec nt) v)) /\ (forall v, all_survive nt (a_fields (cubic_spec nt)) (args_clear (cubic_spec nt) v)) /\
  (forall v, all_survive nt (a_fields (cyl_spec nt)) (args_clear (cyl_spec nt) v)) /\ (forall v, all_survive nt (a_fields (indep_spec nt)) (args_clear (indep_spec nt) v)) /\
  (forall v, all_survive nt (a_fields (merge_spec nt)) (args_clear (merge_spec nt) v)) /\ (forall v, all_survive nt (a_fields (exp_spec nt)) (args_clear (exp_spec nt) v)) /\
  (forall v, all_survive nt (a_fields (lj_spec nt)) (args_clear (lj_spec nt) v)) /\ (forall v, all_survive nt (a_fields (const_spec nt)) (args_clear (const_spec nt) v)) /\
  (forall v, all_survive nt (a_fields (expstep_spec nt)) (args_clear (expstep_spec nt) v)) /\ (forall v, all_survive nt (a_fields varsim_spec) (args_clear varsim_spec v)) /\
  (forall v, all_survive nt (a_fields parsim_spec) (args_clear parsim_spec v)) /\ (forall v, all_survive nt (a_fields (procsim_spec nt)) (args_clear (procsim_spec nt) v)).
Proof. exact @clear_survives. Qed.
Print Assumptions C63_cleared_can_be_written.
(** Limit of C63: a cleared target cannot be printed (the program crashes), and a cleared system cannot be built. *)
Theorem C63_cleared_target_counterexample : forall S (nt : numtext (car S)) width,
  (forall v, print_configuration (a_fields (bulk_spec nt)) width (args_clear (bulk_spec nt) v) = Panic) /\
  (forall v, circ_convert_from (circ_of_args nt (args_clear (circ_spec nt) v)) = Panic) /\
  (forall v, cubic_convert_from (cubic_of_args nt (args_clear (cubic_spec nt) v)) = Panic) /\
  (forall v, cyl_convert_from (cyl_of_args nt (args_clear (cyl_spec nt) v)) = Panic).
Proof.
  intros S nt w. split; [exact (clear_bulk nt w)|]. split; [|split]; intros v; cbn; unfold circ_convert_from, cubic_convert_from; cbn; rewrite ?orb_true_r; reflexivity.
Qed.
Print Assumptions C63_cleared_target_counterexample.
(** C63: the simulation parameters are those of the arguments, each in its own place. *)
Theorem C63_simulation_parameters : forall S (nt : numtext (car S)) words,
  (forall v, read_args_from_vec varsim_spec words = Ok v -> exists n i s d, words = [n; i; s; d] /\
     parse_usize (trim n) = Some (vs_num_ensemble (varsim_of_args v)) /\ parse_usize (trim i) = Some (vs_idx_set (varsim_of_args v)) /\
     parse_uint u128_maxN (trim s) = Some (vs_seed (varsim_of_args v)) /\ trim d = vs_output_dir (varsim_of_args v)) /\
  (forall v, read_args_from_vec parsim_spec words = Ok v -> exists n s k d, words = [n; s; k; d] /\
     parse_usize (trim n) = Some (ps_num_ensemble (parsim_of_args v)) /\ parse_uint u128_maxN (trim s) = Some (ps_seed (parsim_of_args v)) /\
     parse_usize (trim k) = Some (ps_n_thrd (parsim_of_args v)) /\ trim d = ps_output_dir (parsim_of_args v)) /\
  (forall v, read_args_from_vec (procsim_spec nt) words = Ok v -> exists n p i s d, words = [n; p; i; s; d] /\
     parse_usize (trim n) = Some (pc_num_ensemble (procsim_of_args nt v)) /\ n_parse nt (trim p) = Some (pc_period (procsim_of_args nt v)) /\
     parse_usize (trim i) = Some (pc_idx_set (procsim_of_args nt v)) /\ parse_uint u128_maxN (trim s) = Some (pc_seed (procsim_of_args nt v)) /\ trim d = pc_output_dir (procsim_of_args nt v)).
Proof. exact @simulation_parameters. Qed.
Print Assumptions C63_simulation_parameters.

(** The hypotheses are met: the five structures of a search, one argument missing. *)
Definition five_structs (lm : libm) : list argspec :=
  let nt : numtext (car (F64 lm)) := b64_text in [circ_spec nt; bulk_spec nt; indep_spec nt; const_spec nt; varsim_spec].
Example C63_hypotheses : forall lm,
  incl (five_structs lm) (@all_specs (F64 lm) b64_text) /\ length (argument_names (five_structs lm)) = 13 /\
  total_num_args (five_structs lm) = 13 /\
  setup false 1 analysis_num_args (five_structs lm) ["prog"; "10"; "2"; "0:0"; "1"; "1.0"; "Uniform"; "10"; "1e-3"; "100"; "10"; "1"; "12314"] = Err InvalidNumberOfArguments /\
  firstn 3 (text_lines (setup_stderr 15 1 analysis_num_args (five_structs lm) time_info ["prog"; "10"; "2"; "0:0"])) =
    ["3 arguments given."; "Given Arguments : 10  2  0:0  "; "You should give 13 arguments like below"] /\
  in_parentheses (brief_info (a_desc (@circ_spec (F64 lm) b64_text)) (a_vars (@circ_spec (F64 lm) b64_text))) = ["sys_size"; "dim"].
Proof.
  intros lm. split; [intros x Hx; unfold five_structs in Hx; cbn in Hx; cbn; tauto|]. repeat split.
Qed.
