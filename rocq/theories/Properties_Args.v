(** C42-C46: argument structures, data files, command line, file names, the code generator, errors. *)
From Coq Require Import String Ascii NArith ZArith Lia.
From Flocq.IEEE754 Require Import BinarySingleNaN.
From Verif Require Import Base Scalar Float64 Model_Position Model_System Model_Agent Model_Time Model_Text Spec_Text Proof_Text4
  Model_Args Spec_Args Proof_Args Proof_Args2 Proof_Args3 Model_Error.
Local Open Scope string_scope.
Local Open Scope list_scope.
Local Open Scope nat_scope.
Local Notation length := List.length.

(** ** C42 *)
(** C42: the configuration printed at the start of a data file, followed by any data, reads back as the same values, and the lines
    not read are the separator and the data, for every sequence of structures of the crate and all values that survive (every
    value except: cylindrical systems, mixed boundary conditions, directories with a colon, a line break or blanks at the ends,
    positions without coordinates). *)
Theorem C42_configuration_reads_back : forall S (nt : numtext (car S)) specs width v data,
  faithful nt -> incl specs (all_specs nt) -> args_survive nt specs v ->
  exists t, file_header specs width v = Ok t /\ from_file specs (text_lines (t ++ data)%string) = Ok (v, data_line :: text_lines data).
Proof. exact @file_read_back. Qed.
Print Assumptions C42_configuration_reads_back.
(** Limit of C42 for cylindrical systems and mixed boundary conditions: their texts contain a colon, and reading the
    printed lines is an error, whatever the other values are. *)
Theorem C42_cylinder_counterexample : forall S (nt : numtext (car S)) d bc r l k width rest, faithful nt -> exists t,
  print_configuration (a_fields (cyl_spec nt)) width (ContinuousCylindrical d, (bc, (r, (l, (k, tt))))) = Ok t /\
  read_args_from_lines (cyl_spec nt) (text_lines (t ++ rest)%string) = Err InvalidFormat.
Proof. exact @cyl_unreadable. Qed.
Print Assumptions C42_cylinder_counterexample.
Theorem C42_mixed_boundary_counterexample : forall S (nt : numtext (car S)) st d l k width rest, faithful nt -> (forall j, st <> ContinuousCylindrical j) -> exists t,
  print_configuration (a_fields (cubic_spec nt)) width (st, (Mixed d, (l, (k, tt)))) = Ok t /\
  read_args_from_lines (cubic_spec nt) (text_lines (t ++ rest)%string) = Err InvalidFormat.
Proof. exact @cubic_mixed_unreadable. Qed.
Print Assumptions C42_mixed_boundary_counterexample.
Theorem C42_colon_in_directory_counterexample : forall S (nt : numtext (car S)) n i sd dir width rest, faithful nt -> usize_fits n -> usize_fits i -> (sd < 2 ^ 128)%N ->
  without line_feed dir -> without carriage_return dir -> ~ without ":" dir -> exists t,
  print_configuration (a_fields varsim_spec) width (n, (i, (sd, (dir, tt)))) = Ok t /\
  read_args_from_lines varsim_spec (text_lines (t ++ rest)%string) = Err InvalidFormat.
Proof. exact @dir_unreadable. Qed.
Print Assumptions C42_colon_in_directory_counterexample.

Definition case_text (lm : libm) : numtext (car (F64 lm)) := b64_text.
Definition five (lm : libm) : car (F64 lm) := b64_of_Z 5.
Definition case_specs (lm : libm) := [circ_spec (case_text lm); bulk_spec (case_text lm); indep_spec (case_text lm); const_spec (case_text lm); varsim_spec].
Definition case_values (lm : libm) (seed : N) (pos : car (F64 lm)) : all_args (case_specs lm) :=
  ((ContinuousCircular, (Reflection, (five lm, (2, tt)))), ((ContinuousInBulk, ([pos; five lm], (five lm, tt))),
   ((ContinuousPassiveIndependent, (Brownian (five lm), (Uniform, (7, tt)))), ((five lm, (five lm, tt)), ((100, (1, (seed, ("data/run 1", tt)))), tt))))).
Example C42_case : forall lm, faithful (case_text lm) /\ incl (case_specs lm) (all_specs (case_text lm)) /\ args_survive (case_text lm) (case_specs lm) (case_values lm 12345 (five lm)).
Proof.
  intros lm.
  split; [exact b64_faithful|]. split.
  - intros sp H. unfold case_specs in H. cbn in H. cbn. tauto.
  - assert (D : one_line "data/run 1" /\ trimmed "data/run 1").
    { split; [now apply lit_one_line|]. split; right; [exists "d"%char, "ata/run 1"|exists "data/run ", "1"%char]; (split; [reflexivity|]); cbn; lia. }
    cbn [case_specs args_survive all_survive case_values fst snd a_fields a_types a_vars app circ_spec bulk_spec indep_spec const_spec varsim_spec].
    repeat match goal with |- _ /\ _ => split | |- True => exact I end; constructor; try discriminate; try reflexivity; try apply D.
Qed.

(** ** C43 *)
(** C43: one structure reads its own words: with the wrong number of words it is an error; with the right number it succeeds
    exactly when every word, without the white space around it, is a text of a value of its field, and the fixed fields keep
    their defaults.  A word that is not does not give an error (it crashes). *)
Theorem C43_one_structure : forall S (nt : numtext (car S)) sp, In sp (all_specs nt) -> forall args,
  (length args <> a_num sp -> read_args_from_vec sp args = Err InvalidNumberOfArguments) /\
  (length args = a_num sp -> (forall v, read_args_from_vec sp args = Ok v <-> exists u, v = vals_app (a_defaults sp) u /\ word_values (a_vars sp) args u) /\
                             forall e, read_args_from_vec sp args <> Err e).
Proof. exact @read_vec_spec. Qed.
Print Assumptions C43_one_structure.
(** C43: with the right total the arguments after the skipped ones are cut in consecutive blocks, one for each structure, that
    together are all of them, and the run starts exactly with the values the structures read from their own blocks. *)
Theorem C43_run : forall fixed skip analysis_num specs args, (skip <= length args)%nat ->
  (length args - skip <> analysis_num)%nat -> (length args - skip <> analysis_num + 1)%nat -> (length args - skip = total_num_args specs)%nat ->
  exists blocks, blocks_of specs (skipn skip args) blocks /\
    forall r, setup fixed skip analysis_num specs args = Ok r <-> exists v, r = Simulate v /\ reads specs blocks v.
Proof. exact setup_run. Qed.
Print Assumptions C43_run.
Theorem C43_blocks_unique : forall specs args, length args = total_num_args specs -> exists! blocks, blocks_of specs args blocks.
Proof. exact reads_blocks. Qed.
Print Assumptions C43_blocks_unique.
(** C43: the number of arguments of a simulation is the sum over its five structures and is never a number that selects the analysis. *)
Theorem C43_modes_do_not_clash : forall S (nt : numtext (car S)) sy ta ag ti si,
  In sy [circ_spec nt; cubic_spec nt; cyl_spec nt] -> In ta [bulk_spec nt] -> In ag [indep_spec nt; merge_spec nt; exp_spec nt; lj_spec nt] ->
  In ti [const_spec nt; expstep_spec nt] -> In si [varsim_spec; parsim_spec; procsim_spec nt] ->
  total_num_args [sy; ta; ag; ti; si] = (a_num sy + a_num ta + a_num ag + a_num ti + a_num si)%nat /\
  (13 <= total_num_args [sy; ta; ag; ti; si] <= 22)%nat.
Proof. exact @total_large. Qed.
Print Assumptions C43_modes_do_not_clash.
(** C43: any other number of arguments is an error. *)
Theorem C43_wrong_number : forall fixed skip analysis_num specs args, (skip <= length args)%nat ->
  (length args - skip <> analysis_num)%nat -> (length args - skip <> analysis_num + 1)%nat -> (length args - skip <> total_num_args specs)%nat ->
  setup fixed skip analysis_num specs args = Err InvalidNumberOfArguments.
Proof. exact setup_wrong. Qed.
Print Assumptions C43_wrong_number.
(** C43: the analysis gets the arguments after the skipped ones, exactly for the two analysis counts. *)
Theorem C43_analysis : forall skip analysis_num specs args, (skip <= length args)%nat ->
  ((length args - skip = analysis_num \/ length args - skip = analysis_num + 1)%nat <->
   setup false skip analysis_num specs args = Ok (Analyze (skipn skip args))).
Proof.
  intros skip an specs args H. split; [now apply (setup_analyze false)|]. intros E.
  destruct (Nat.eq_dec (length args - skip) an) as [|N1]; auto. destruct (Nat.eq_dec (length args - skip) (an + 1)) as [|N2]; auto. exfalso.
  destruct (Nat.eq_dec (length args - skip) (total_num_args specs)) as [T|T].
  - destruct (setup_run false skip an specs args H N1 N2 T) as (bs & _ & R). apply R in E as (v & E & _). discriminate.
  - rewrite setup_wrong in E by auto. discriminate.
Qed.
Print Assumptions C43_analysis.
(** With fewer arguments than are to be skipped the program crashes. *)
Theorem C43_too_few_counterexample : forall fixed skip analysis_num specs args, (length args < skip)%nat -> setup fixed skip analysis_num specs args = Panic.
Proof. intros fixed skip an specs args H. unfold setup. apply Nat.ltb_lt in H. now rewrite H. Qed.
Print Assumptions C43_too_few_counterexample.
(** The [_fixed] variant hands the skipped arguments over too, so with a skipped program name (4 or 5 arguments) the analysis either
    gets a wrong number of arguments or takes the program name for the lower bound. *)
Theorem C43_fixed_variant_counterexample : forall S (nt : numtext (car S)) specs args, (length args = 5 \/ length args = 6)%nat ->
  setup true 1 analysis_num_args specs args = Ok (Analyze args) /\
  (length args = 6%nat -> analyze_args nt args = Err InvalidNumberOfArguments) /\
  (length args = 5%nat -> forall x r, args = x :: r -> n_parse nt x = None -> analyze_args nt args = Panic).
Proof.
  intros S nt specs args H. split; [apply (setup_analyze true); unfold analysis_num_args; lia|]. split.
  - intros L. unfold analyze_args. now rewrite L.
  - intros L x r -> E. unfold analyze_args. rewrite L. cbn [idx nth_error bind]. now rewrite E.
Qed.
Print Assumptions C43_fixed_variant_counterexample.
(** The analysis of vectors asks for 5 or 6 arguments, but only 4 or 5 reach it: 4 are an error there, and 6 never get there. *)
Theorem C43_vector_analysis_counterexample : forall S (nt : numtext (car S)) skip specs args,
  (length args = skip + 4 -> setup false skip analysis_num_args specs args = Ok (Analyze (skipn skip args)) /\ analyze_vec_args nt (skipn skip args) = Err InvalidNumberOfArguments)%nat /\
  (length args = skip + 6 -> total_num_args specs <> 6 -> setup false skip analysis_num_args specs args = Err InvalidNumberOfArguments)%nat.
Proof.
  intros S nt skip specs args. split.
  - intros L. split; [apply (setup_analyze false); unfold analysis_num_args; lia|]. unfold analyze_vec_args. rewrite skipn_length, L.
    replace (skip + 4 - skip)%nat with 4%nat by lia. reflexivity.
  - intros L T. apply setup_wrong; unfold analysis_num_args; lia.
Qed.
Print Assumptions C43_vector_analysis_counterexample.
Example C43_case : setup false 1 analysis_num_args [varsim_spec; parsim_spec] ["prog"; "100"; " 2 "; "17"; "out"; "5"; "+6"; "7"; "d"]
  = Ok (@Simulate [varsim_spec; parsim_spec] ((100, (2, (17%N, ("out", tt)))), ((5, (6%N, (7, ("d", tt)))), tt))).
Proof. reflexivity. Qed.

(** ** C44, second part *)
(** C44: for every combination for which the generated program compiles, the name of the data file determines the listed
    parameters: two runs write to the same file name exactly when these parameters are equal. *)
Theorem C44_file_name : forall S (nt : numtext (car S)) p sy ta ag ti si, faithful nt ->
  In sy [circ_spec nt; cubic_spec nt] -> In ta [bulk_spec nt] -> In ag [indep_spec nt; exp_spec nt; lj_spec nt] ->
  In ti [const_spec nt; expstep_spec nt] -> In si [varsim_spec; parsim_spec; procsim_spec nt] ->
  forall v w s t, exists f g, output_file p [sy; ta; ag; ti] si v s = Some f /\ output_file p [sy; ta; ag; ti] si w t = Some g /\
    (f = g <-> agree_all [sy; ta; ag; ti] in_file_name v w /\ agree (a_fields si) (in_file_name (a_name si)) s t).
Proof.
  intros S nt p sy ta ag ti si F H1 H2 H3 H4 H5. apply (output_file_names nt); auto.
  - apply Forall_forall. intros sp [<-|[<-|[<-|[<-|[]]]]]; apply all_listable; cbn in *; tauto.
  - apply all_listable; cbn in *; tauto.
Qed.
Print Assumptions C44_file_name.
(** Limit of C44: the position of the target, the diffusion coefficient, the way of initialising, the number of samples
    and the seed do not enter the name, so a second run that differs only in these creates the same file again. *)
Theorem C44_overwritten_counterexample : forall S (nt : numtext (car S)) p st bc size dim target1 target2 tsize move1 move2 init1 init2 n dt tmax ens1 ens2 idx_set seed1 seed2 dir,
  let specs := [circ_spec nt; bulk_spec nt; indep_spec nt; const_spec nt] in
  let run target move init : all_args specs :=
    ((st, (bc, (size, (dim, tt)))), ((ContinuousInBulk, (target, (tsize, tt))), ((ContinuousPassiveIndependent, (move, (init, (n, tt)))), ((dt, (tmax, tt)), tt)))) in
  exists f, output_file p specs varsim_spec (run target1 move1 init1) (ens1, (idx_set, (seed1, (dir, tt)))) = Some f /\
            output_file p specs varsim_spec (run target2 move2 init2) (ens2, (idx_set, (seed2, (dir, tt)))) = Some f.
Proof. intros. eexists. split; reflexivity. Qed.
Print Assumptions C44_overwritten_counterexample.
(** C44: the name used for the histograms is that of the data set alone. *)
Theorem C44_histogram_name : forall p a b, same_names a b -> plain_values a -> plain_values b ->
  (export_file_removed_idx p a = export_file_removed_idx p b <-> a = b).
Proof.
  intros p a b N P Q. split; [|now intros ->]. intros E.
  apply (file_inj p a b [] []); auto; try constructor; try reflexivity. unfold export_file. now rewrite !app_nil_r.
Qed.
Print Assumptions C44_histogram_name.
Example C44_case : export_file "RTS_" [("sys_size", "10"); ("dim", "2")] [("idx_set", "3")] = "RTS__sys_size_10_dim_2_idx_set_3.dat".
Proof. reflexivity. Qed.

(** ** C45 *)
(** C45: the macro accepts exactly a literal followed by six identifiers, with an optional last comma. *)
Theorem C45_accepted_input : forall ts g, simulation_macro ts = Some g -> exists p a sy ta ag ti si,
  (ts = invocation p a sy ta ag ti si \/ ts = invocation p a sy ta ag ti si ++ [TComma]) /\
  g_prefix g = p /\ g_analysis g = a /\ g_structs g = [sy; ta; ag; ti; si].
Proof. exact macro_inv. Qed.
Print Assumptions C45_accepted_input.
(** C45: unknown component names are rejected. *)
Theorem C45_unknown_names_rejected : forall p a sy ta ag ti si,
  (exists n, In n [sy; ta; ag; ti; si] /\ ~ In n (systems ++ ["ContBoundaryTarget"] ++ targets ++ agents ++ clocks ++ simulations)) ->
  simulation_macro (invocation p a sy ta ag ti si) = None.
Proof. exact macro_rejects. Qed.
Print Assumptions C45_unknown_names_rejected.
(** C45: for the supported names code is generated; every field it uses exists and the data set has no field twice, exactly for the
    systems other than the cylinder and the agents other than the merging one (so the claim is false for those two). *)
Theorem C45_fields_exist : forall S (nt : numtext (car S)) p a sy ta ag ti si, In sy systems -> In ta targets -> In ag agents -> In ti clocks -> In si simulations ->
  exists g, simulation_macro (invocation p a sy ta ag ti si) = Some g /\
    (compiles nt g <-> sy <> "ContCylindricalSystem" /\ ag <> "ContPassiveMergeAgent").
Proof. exact @generated_compiles. Qed.
Print Assumptions C45_fields_exist.
Theorem C45_cylinder_and_merging_counterexample : forall S (nt : numtext (car S)), exists p a sy ta ag ti si g,
  In sy systems /\ In ta targets /\ In ag agents /\ In ti clocks /\ In si simulations /\
  simulation_macro (invocation p a sy ta ag ti si) = Some g /\ ~ compiles nt g.
Proof.
  intros S nt. destruct (generated_compiles nt "p" "TimeAnalysis" "ContCylindricalSystem" "ContBulkTarget" "ContPassiveIndepAgent" "ConstStep" "VariableSimulation") as (g & E & C);
    try (cbn; tauto).
  exists "p", "TimeAnalysis", "ContCylindricalSystem", "ContBulkTarget", "ContPassiveIndepAgent", "ConstStep", "VariableSimulation", g.
  do 5 (split; [cbn; tauto|]). split; [exact E|]. intros H. apply C in H as [H _]. now apply H.
Qed.
Print Assumptions C45_cylinder_and_merging_counterexample.
(** The generator knows a boundary target, for which no structure is compiled. *)
Theorem C45_boundary_target_counterexample : forall S (nt : numtext (car S)) p a sy ag ti si g,
  simulation_macro (invocation p a sy "ContBoundaryTarget" ag ti si) = Some g -> ~ compiles nt g.
Proof. exact @boundary_target. Qed.
Print Assumptions C45_boundary_target_counterexample.
Example C45_case : simulation_macro (invocation "p" "TimeAnalysis" "ContCircSystem" "ContBulkTarget" "ContPassiveLJAgent" "ExponentialStep" "ProcessSimulation") <> None.
Proof. discriminate. Qed.

(** ** C46 *)
(** C46: comparing errors is an equivalence: two errors are equal exactly when both come from input/output, or both are messages, or
    both are of the other kinds. *)
Theorem C46_equivalence : (forall a, error_eq a a = true) /\ (forall a b, error_eq a b = error_eq b a) /\
  (forall a b c, error_eq a b = true -> error_eq b c = true -> error_eq a c = true).
Proof.
  split; [|split].
  - intros a. now apply error_eq_spec.
  - intros a b. unfold error_eq. now destruct (classify_error a), (classify_error b).
  - intros a b c H1 H2. apply error_eq_spec in H1, H2. apply error_eq_spec. congruence.
Qed.
Print Assumptions C46_equivalence.
Theorem C46_kinds : forall a b, error_eq a b = true <->
  (is_io a = true /\ is_io b = true) \/ (is_data a = true /\ is_data b = true) \/ (is_syntax a = true /\ is_syntax b = true).
Proof. intros a b. unfold error_eq, is_io, is_data, is_syntax. destruct (classify_error a), (classify_error b); cbn; intuition discriminate. Qed.
Print Assumptions C46_kinds.
Theorem C46_every_error_has_one_kind : forall e, proper e = true ->
  (is_io e = true <-> exists m, e = EIo m) /\ (is_data e = true <-> exists m, e = EMessage m) /\
  (is_syntax e = true <-> exists c, e = ECode c).
Proof.
  intros [m|m|c] H; cbn; (split; [|split]); (split; [intros Q; try discriminate; eauto|intros (x & E); try discriminate; auto]); destruct c; try discriminate; auto.
Qed.
Print Assumptions C46_every_error_has_one_kind.
(** Limit of C46: "distinguishes different error codes" does not hold. *)
Theorem C46_codes_counterexample : error_eq (ECode InvalidDimension) (ECode TooLargeTimeStep) = true /\ ECode InvalidDimension <> ECode TooLargeTimeStep.
Proof. split; [reflexivity|discriminate]. Qed.
Print Assumptions C46_codes_counterexample.
(** The texts of different codes differ. *)
Theorem C46_texts_differ : forall c d, proper (ECode c) = true -> proper (ECode d) = true -> error_show (ECode c) = error_show (ECode d) -> c = d.
Proof. exact show_distinct. Qed.
Print Assumptions C46_texts_differ.
Example C46_case : error_eq (ECode InvalidFormat) (EIo "x") = false. Proof. reflexivity. Qed.
