(** Property C70: programs generated by [simulation!], for all the structures for which the generated code compiles and for any code after it; C43: the structures a command line describes.
    Statements use [Model_Generated] ([gen_parts] finds the structures, [gen_main] is the program: [body] stands for the code after the macro, [analysis] for the analysis) and [Spec_Args]
    ([blocks_of]: the words cut into one block for each structure; [reads]: the values these blocks give), [Spec_Generated] ([args_storable]). *)
From Coq Require Import String Ascii NArith ZArith Reals List Lia.
From Verif Require Import Base Scalar Float64 Model_LinkedList Model_Position Model_System Model_Agent Model_Time Model_Text Spec_Text Proof_Text Proof_Text3 Proof_Text4 Model_Args Spec_Args Proof_Args Proof_Args2 Proof_Args3
  Model_Analysis Model_Usage Model_Run Model_Program Spec_Program Proof_Program Properties_Program Model_Generated Spec_Generated Proof_Generated Proof_Generated2 Proof_Generated3 Proof_Generated4.
Import ListNotations.
Local Open Scope nat_scope.
Local Open Scope string_scope.
Local Open Scope list_scope.
Local Notation length := List.length.

(** * C70 *)
(** For the supported names, the cylinder and merging agents excepted (C45), there is a program, with the prefix given and with the structures of these names in the order system, target, agent, clock,
    simulation. *)
Theorem C70_program_exists : forall (S : scalar) (nt : numtext S) p a sy ta ag ti si,
  In sy systems -> In ta targets -> In ag agents -> In ti clocks -> In si simulations -> sy <> "ContCylindricalSystem" -> ag <> "ContPassiveMergeAgent" ->
  exists g ps sm, simulation_macro (invocation p a sy ta ag ti si) = Some g /\ g_prefix g = p /\ gen_parts nt g = Some (ps, sm) /\
    map (fun q => a_name (pt_spec q)) ps = [sy; ta; ag; ti] /\ a_name (sp_spec sm) = si.
Proof. intros S nt. exact (invoked_names nt). Qed.
Print Assumptions C70_program_exists.
(** A call with the right number of words that are all texts of values, from which the structures can be built, writes one file, in the directory given: a configuration followed by what the code after
    the macro writes, and the run ends as this code does; reading the file gives the values of the call and the lines written. *)
Theorem C70_run : forall (S : scalar) (nt : numtext S) g ps sm body analysis prog ws blocks v s, faithful nt -> gen_parts nt g = Some (ps, sm) ->
  blocks_of (part_specs ps ++ [sp_spec sm]) ws blocks -> reads (part_specs ps ++ [sp_spec sm]) blocks (join_args (part_specs ps) v s) ->
  args_storable nt (part_specs ps ++ [sp_spec sm]) (join_args (part_specs ps) v s) -> build_parts ps v = Ok tt ->
  exists head name, file_header (part_specs ps ++ [sp_spec sm]) 15 (join_args (part_specs ps) v s) = Ok head /\ output_file (g_prefix g) (part_specs ps) (sp_spec sm) v s = Some name /\
    gen_main (g_prefix g) ps sm body analysis (prog :: ws) = ([(path_in (sp_dir sm s) name, head ++ fst (body v s))%string], snd (body v s)) /\
    read_data (part_specs ps) (sp_spec sm) (head ++ fst (body v s))%string = Ok (v, s, data_line :: text_lines (fst (body v s))).
Proof. intros S nt. exact (gen_call nt). Qed.
Print Assumptions C70_run.
(** The texts of the directory excepted, nothing has to be asked of the values: whatever a command line gives can be written and read back. *)
Theorem C70_values_survive : forall (S : scalar) (nt : numtext S) specs, incl specs (all_specs nt) -> forall blocks v,
  reads specs blocks v -> args_storable nt specs v -> args_survive nt specs v.
Proof. intros S nt. exact (reads_survive nt). Qed.
Print Assumptions C70_values_survive.
(** Two calls of a program write to files of the same name exactly if the parameters listed in file names agree. *)
Theorem C70_file_names : forall (S : scalar) (nt : numtext S) p g ps sm, faithful nt -> gen_parts nt g = Some (ps, sm) -> forall v w s t,
  exists f h, output_file p (part_specs ps) (sp_spec sm) v s = Some f /\ output_file p (part_specs ps) (sp_spec sm) w t = Some h /\
    (f = h <-> agree_all (part_specs ps) in_file_name v w /\ agree (a_fields (sp_spec sm)) (in_file_name (a_name (sp_spec sm))) s t).
Proof. intros S nt p g ps sm F E. destruct (gen_parts_inv nt g ps sm E) as (_ & I1 & I2 & _). exact (gen_named nt p ps sm F I1 I2). Qed.
Print Assumptions C70_file_names.
(** Four or five words ask for the analysis, whatever the structures are; any other wrong number of words is an error, and nothing is written. *)
Theorem C70_analysis : forall (S : scalar) (nt : numtext S) p g ps sm body analysis prog ws, gen_parts nt g = Some (ps, sm) -> length ws = 4 \/ length ws = 5 ->
  gen_main p ps sm body analysis (prog :: ws) = analysis ws.
Proof. intros S nt p g ps sm body analysis prog ws _. exact (gen_analysis p ps sm body analysis prog ws). Qed.
Print Assumptions C70_analysis.
Theorem C70_wrong_number : forall (S : scalar) (nt : numtext S) p g ps sm body analysis prog ws, gen_parts nt g = Some (ps, sm) ->
  length ws <> 4 -> length ws <> 5 -> length ws <> total_num_args (part_specs ps ++ [sp_spec sm]) ->
  gen_main p ps sm body analysis (prog :: ws) = ([], Err InvalidNumberOfArguments).
Proof. intros S nt p g ps sm body analysis prog ws _. exact (gen_wrong p ps sm body analysis prog ws). Qed.
Print Assumptions C70_wrong_number.
(** The number of words of a run is never that of an analysis. *)
Theorem C70_no_confusion : forall (S : scalar) (nt : numtext S) g ps sm, gen_parts nt g = Some (ps, sm) -> 10 <= total_num_args (part_specs ps ++ [sp_spec sm]).
Proof. intros S nt g ps sm E. destruct (gen_parts_inv nt g ps sm E) as (L & I1 & I2 & _). exact (gen_specs_many nt ps sm L I1 I2). Qed.
Print Assumptions C70_no_confusion.
(** If a word is not the text of a value, or if a structure refuses its values, no file is written and the run does not succeed. *)
Theorem C70_unreadable_word : forall (S : scalar) (nt : numtext S) p g ps sm body analysis prog ws blocks, gen_parts nt g = Some (ps, sm) ->
  blocks_of (part_specs ps ++ [sp_spec sm]) ws blocks -> (forall w, ~ reads (part_specs ps ++ [sp_spec sm]) blocks w) ->
  fst (gen_main p ps sm body analysis (prog :: ws)) = [] /\ snd (gen_main p ps sm body analysis (prog :: ws)) <> Ok tt.
Proof. intros S nt. exact (gen_unreadable nt). Qed.
Print Assumptions C70_unreadable_word.
Theorem C70_refused : forall (S : scalar) (nt : numtext S) p g ps sm body analysis prog ws blocks v s, gen_parts nt g = Some (ps, sm) ->
  blocks_of (part_specs ps ++ [sp_spec sm]) ws blocks -> reads (part_specs ps ++ [sp_spec sm]) blocks (join_args (part_specs ps) v s) -> build_parts ps v <> Ok tt ->
  fst (gen_main p ps sm body analysis (prog :: ws)) = [] /\ snd (gen_main p ps sm body analysis (prog :: ws)) <> Ok tt.
Proof. intros S nt. exact (gen_refused nt). Qed.
Print Assumptions C70_refused.
(** Every choice of values that can be written has a call. *)
Theorem C70_calls_exist : forall (S : scalar) (nt : numtext S), faithful nt -> forall specs v, incl specs (all_specs nt) -> args_typed specs v -> args_survive nt specs v ->
  exists ws blocks, blocks_of specs ws blocks /\ reads specs blocks v.
Proof. intros S nt. exact (call_exists nt). Qed.
Print Assumptions C70_calls_exist.
(** The structures are built exactly if each of them accepts its values. *)
Theorem C70_building : forall qs v, build_parts qs v = Ok tt <-> each_accepts qs v.
Proof. exact build_each. Qed.
Print Assumptions C70_building.
(** The example program is the generated program, with the code of examples/mfpt_exp.rs after the macro. *)
Theorem C70_example : forall (S : scalar) (G : rng S) (nt : numtext S) as_u128 (rng_seed : N -> rstate G) inner pf fuel show_e sip texts summary args,
  exp_main nt as_u128 rng_seed inner pf fuel show_e sip texts summary args =
  gen_main exp_prefix (example_parts nt) varsim_part (example_body nt as_u128 rng_seed inner pf fuel)
    (fun a => match (do '(req, dir) <- analyze_args nt a; exp_analyze nt show_e sip (summary dir) req (texts dir)) with
              | Ok fs => (fs, Ok tt) | Err e => ([], Err e) | Panic => ([], Panic) | Fuel => ([], Fuel) end) args.
Proof. intros S G nt as_u128 rng_seed. exact (example_main nt as_u128 rng_seed). Qed.
Print Assumptions C70_example.

(** * C43 *)
(** The words of each structure, in order, and the field each of them sets: these and no other words give the structure [a]. *)
Theorem C43_systems_from_words : forall (S : scalar) (nt : numtext S) ws,
  (forall a, (exists v, read_args_from_vec (circ_spec nt) ws = Ok v /\ circ_of_args nt v = a) <->
    exists w1 w2, ws = [w1; w2] /\ n_parse nt (trim w1) = Some (ci_size a) /\ parse_usize (trim w2) = Some (ci_dim a) /\ ci_type a = ContinuousCircular /\ ci_bc a = Reflection) /\
  (forall a, (exists v, read_args_from_vec (cubic_spec nt) ws = Ok v /\ cubic_of_args nt v = a) <->
    exists w1 w2 w3, ws = [w1; w2; w3] /\ bcond_parse (trim w1) = Ok (cu_bc a) /\ n_parse nt (trim w2) = Some (cu_size a) /\ parse_usize (trim w3) = Some (cu_dim a) /\ cu_type a = ContinuousRectangular) /\
  (forall a, (exists v, read_args_from_vec (cyl_spec nt) ws = Ok v /\ cyl_of_args nt v = a) <->
    exists w1 w2 w3 w4 w5, ws = [w1; w2; w3; w4; w5] /\ systype_parse (trim w1) = Ok (cy_type a) /\ bcond_parse (trim w2) = Ok (cy_bc a) /\ n_parse nt (trim w3) = Some (cy_radius a) /\
      n_parse nt (trim w4) = Some (cy_length a) /\ parse_usize (trim w5) = Some (cy_dim a)) /\
  (forall a, (exists v, read_args_from_vec (bulk_spec nt) ws = Ok v /\ target_of_args nt v = a) <->
    exists w1 w2, ws = [w1; w2] /\ pos_parse nt (trim w1) = Ok (tg_pos a) /\ n_parse nt (trim w2) = Some (tg_size a) /\ tg_type a = ContinuousInBulk).
Proof. intros S nt ws. split; [exact (circ_words nt ws)|]. split; [exact (cubic_words nt ws)|]. split; [exact (cyl_words nt ws)|exact (target_words nt ws)]. Qed.
Print Assumptions C43_systems_from_words.
Theorem C43_agents_from_words : forall (S : scalar) (nt : numtext S) ws,
  (forall a, (exists v, read_args_from_vec (indep_spec nt) ws = Ok v /\ indep_of_args nt v = a) <->
    exists w1 w2 w3, ws = [w1; w2; w3] /\ movetype_parse nt (trim w1) = Ok (ia_mtype a) /\ inittype_parse nt (trim w2) = Ok (ia_itype a) /\ parse_usize (trim w3) = Some (ia_num a) /\
      ia_type a = ContinuousPassiveIndependent) /\
  (forall a, (exists v, read_args_from_vec (merge_spec nt) ws = Ok v /\ merger_of_args nt v = a) <->
    exists w1 w2 w3 w4 w5, ws = [w1; w2; w3; w4; w5] /\ movetype_parse nt (trim w1) = Ok (ma_mtype a) /\ inittype_parse nt (trim w2) = Ok (ma_itype a) /\ n_parse nt (trim w3) = Some (ma_radius a) /\
      n_parse nt (trim w4) = Some (ma_alpha a) /\ parse_usize (trim w5) = Some (ma_num a) /\ ma_type a = ContinuousPassiveInteracting) /\
  (forall a, (exists v, read_args_from_vec (exp_spec nt) ws = Ok v /\ expag_of_args nt v = a) <->
    exists w1 w2 w3 w4 w5 w6, ws = [w1; w2; w3; w4; w5; w6] /\ movetype_parse nt (trim w1) = Ok (ea_mtype a) /\ inittype_parse nt (trim w2) = Ok (ea_itype a) /\ n_parse nt (trim w3) = Some (ea_gamma a) /\
      parse_usize (trim w4) = Some (ea_dim a) /\ n_parse nt (trim w5) = Some (ea_strength a) /\ parse_usize (trim w6) = Some (ea_num a) /\ ea_type a = ContinuousPassiveInteracting) /\
  (forall a, (exists v, read_args_from_vec (lj_spec nt) ws = Ok v /\ ljag_of_args nt v = a) <->
    exists w1 w2 w3 w4 w5, ws = [w1; w2; w3; w4; w5] /\ movetype_parse nt (trim w1) = Ok (la_mtype a) /\ inittype_parse nt (trim w2) = Ok (la_itype a) /\ n_parse nt (trim w3) = Some (la_psize a) /\
      n_parse nt (trim w4) = Some (la_strength a) /\ parse_usize (trim w5) = Some (la_num a) /\ la_type a = ContinuousPassiveInteracting).
Proof. intros S nt ws. split; [exact (indep_words nt ws)|]. split; [exact (merger_words nt ws)|]. split; [exact (expag_words nt ws)|exact (ljag_words nt ws)]. Qed.
Print Assumptions C43_agents_from_words.

(** * The hypotheses are met *)
(** A generated program with structures other than those of the example. *)
Definition cube_tokens : list token := invocation "CUBE" "TimeAnalysis" "ContCubicSystem" "ContBulkTarget" "ContPassiveIndepAgent" "ConstStep" "ProcessSimulation".
Definition cube_gen : generated := match simulation_macro cube_tokens with Some g => g | None => Generated "" "" [] [] [] [] end.
Definition cube_parts (lm : libm) : list part := [cubic_part (prog_text lm); bulk_part (prog_text lm); indep_part (prog_text lm); const_part (prog_text lm)].
Example cube_generated : forall lm, gen_parts (prog_text lm) cube_gen = Some (cube_parts lm, procsim_part (prog_text lm)) /\ g_prefix cube_gen = "CUBE".
Proof. intros lm. split; reflexivity. Qed.
Definition cube_values (lm : libm) : all_args (part_specs (cube_parts lm)) :=
  ((ContinuousRectangular, (Periodic, ((b64_of_Z 10 : F64 lm), (2, tt)))),
  ((ContinuousInBulk, (([b64_of_Z 0; b64_of_Z 0] : pos (F64 lm)), ((b64_of_Z 1 : F64 lm), tt))),
  ((ContinuousPassiveIndependent, (Brownian (b64_of_Z 1 : F64 lm), (Uniform, (5, tt)))),
  (((b64_of_Z 1 : F64 lm), ((b64_of_Z 100 : F64 lm), tt)), tt)))).
Definition cube_sim (lm : libm) : args_of (sp_spec (procsim_part (prog_text lm))) := (3, ((b64_of_Z 1 : F64 lm), (1, (7%N, ("data", tt))))).
Lemma data_name : one_line "data" /\ trimmed "data".
Proof. split; [now apply lit_one_line|]. split; right; [exists "d"%char, "ata"|exists "dat", "a"%char]; (split; [reflexivity|]); cbn; lia. Qed.
Example cube_survive : forall lm, args_survive (prog_text lm) (part_specs (cube_parts lm) ++ [sp_spec (procsim_part (prog_text lm))]) (join_args (part_specs (cube_parts lm)) (cube_values lm) (cube_sim lm)).
Proof.
  intros lm. cbn [part_specs cube_parts map app args_survive join_args cube_values cube_sim fst snd pt_spec sp_spec cubic_part bulk_part indep_part const_part procsim_part].
  cbn [all_survive a_fields a_types a_vars app cubic_spec bulk_spec indep_spec const_spec procsim_spec fst snd].
  repeat match goal with |- _ /\ _ => split | |- True => exact I end; constructor; try discriminate; try reflexivity; try apply data_name; try (intros q E; discriminate E).
Qed.
Example cube_storable : forall lm, args_storable (prog_text lm) (part_specs (cube_parts lm) ++ [sp_spec (procsim_part (prog_text lm))]) (join_args (part_specs (cube_parts lm)) (cube_values lm) (cube_sim lm)).
Proof.
  intros lm. cbn [part_specs cube_parts map app args_storable join_args cube_values cube_sim fst snd pt_spec sp_spec cubic_part bulk_part indep_part const_part procsim_part].
  cbn [all_storable a_fields a_types a_vars app cubic_spec bulk_spec indep_spec const_spec procsim_spec fst snd].
  repeat match goal with |- _ /\ _ => split | |- True => exact I end; constructor; try discriminate; try reflexivity; try apply data_name.
Qed.
Example cube_typed : forall lm, args_typed (part_specs (cube_parts lm) ++ [sp_spec (procsim_part (prog_text lm))]) (join_args (part_specs (cube_parts lm)) (cube_values lm) (cube_sim lm)).
Proof.
  intros lm. cbn [part_specs cube_parts map app args_typed join_args cube_values cube_sim fst snd pt_spec sp_spec cubic_part bulk_part indep_part const_part procsim_part].
  split; [eexists (_, (_, (_, _))); reflexivity|]. split; [eexists (_, (_, _)); reflexivity|]. split; [eexists (_, (_, (_, _))); reflexivity|]. split; [eexists; reflexivity|]. split; [eexists; reflexivity|exact I].
Qed.
Example cube_built : forall lm, build_parts (cube_parts lm) (cube_values lm) = Ok tt.
Proof. intros lm. vm_compute. reflexivity. Qed.
(** C70_run, C70_calls_exist: for every code after the macro there is a call of this program that writes one file, from which these values are read back. *)
Example C70_case : forall lm body analysis prog, exists ws path text,
  gen_main "CUBE" (cube_parts lm) (procsim_part (prog_text lm)) body analysis (prog :: ws) = ([(path, text)], snd (body (cube_values lm) (cube_sim lm))) /\
  read_data (part_specs (cube_parts lm)) (sp_spec (procsim_part (prog_text lm))) text = Ok (cube_values lm, cube_sim lm, data_line :: text_lines (fst (body (cube_values lm) (cube_sim lm)))).
Proof.
  intros lm body analysis prog. destruct (prog_text_faithful lm) as [F _]. destruct (cube_generated lm) as [G P]. destruct (gen_parts_inv (prog_text lm) _ _ _ G) as (_ & I1 & I2 & _).
  destruct (C70_calls_exist _ (prog_text lm) F _ _ (gen_specs_known (prog_text lm) _ _ I1 I2) (cube_typed lm) (cube_survive lm)) as (ws & blocks & B & R).
  destruct (C70_run _ (prog_text lm) cube_gen _ _ body analysis prog ws blocks _ _ F G B R (cube_storable lm) (cube_built lm)) as (head & name & _ & _ & E & D).
  exists ws, (path_in (sp_dir (procsim_part (prog_text lm)) (cube_sim lm)) name), (head ++ fst (body (cube_values lm) (cube_sim lm)))%string. rewrite <- P. split; [exact E|exact D].
Qed.
(** C70_wrong_number, C70_no_confusion: this program asks for 15 words. *)
Example C70_words : forall lm, total_num_args (part_specs (cube_parts lm) ++ [sp_spec (procsim_part (prog_text lm))]) = 15.
Proof. reflexivity. Qed.
(** C70_refused: a system of size 0; C70_unreadable_word: "two" for the dimension. *)
Example C70_refused_case : forall lm v, build_parts (cube_parts lm) ((ContinuousRectangular, (Periodic, ((b64_of_Z 0 : F64 lm), (2, tt)))), v) = Panic.
Proof. intros lm v. cbn [build_parts cube_parts fst snd pt_build cubic_part]. replace (built _) with (Panic : outcome unit) by (vm_compute; reflexivity). reflexivity. Qed.
Example C70_unreadable_case : forall (S : scalar) (nt : numtext S) blocks v, ~ reads [cubic_spec nt] (["Periodic"; "10"; "two"] :: blocks) v.
Proof.
  intros S nt blocks v [H _]. destruct (proj1 (cubic_words nt _ (cubic_of_args nt (fst v))) (ex_intro _ (fst v) (conj H eq_refl))) as (w1 & w2 & w3 & E & _ & _ & P & _).
  assert (X : w3 = "two") by congruence. subst w3. vm_compute in P. discriminate P.
Qed.
(** C70_example: the structures of the example are those found for its invocation. *)
Example C70_example_case : forall (S : scalar) (nt : numtext S), exists g,
  simulation_macro (invocation "RTS_N_PTL_EXP_Agent" "TimeAnalysis" "ContCircSystem" "ContBulkTarget" "ContPassiveExpAgent" "ExponentialStep" "VariableSimulation") = Some g /\
  g_prefix g = exp_prefix /\ gen_parts nt g = Some (example_parts nt, varsim_part).
Proof. intros S nt. eexists. split; [reflexivity|]. split; reflexivity. Qed.
(** C43: the words of merging agents. *)
Example C43_merger_case : forall (S : scalar) (nt : numtext S) (x r a : S) (F : faithful nt), trim (n_show nt x) = n_show nt x -> 
  movetype_parse nt (n_show nt x) = Ok (Brownian x) -> trim (n_show nt r) = n_show nt r -> trim (n_show nt a) = n_show nt a ->
  exists v, read_args_from_vec (merge_spec nt) [n_show nt x; "Uniform"; n_show nt r; n_show nt a; "5"] = Ok v /\ merger_of_args nt v = MergerArgs ContinuousPassiveInteracting (Brownian x) Uniform r a 5.
Proof.
  intros S nt x r a F T1 M T2 T3. apply merger_words. exists (n_show nt x), "Uniform", (n_show nt r), (n_show nt a), "5". split; [reflexivity|]. rewrite T1, T2, T3. split; [exact M|]. split; [reflexivity|].
  split; [exact (proj1 (F r))|]. split; [exact (proj1 (F a))|]. split; reflexivity.
Qed.
