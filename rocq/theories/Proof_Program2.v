(** What one call of the program leaves behind (C54). *)
From Coq Require Import String Ascii NArith ZArith Lia.
From Verif Require Import Base Scalar Model_LinkedList Model_Position Model_System Spec_System Model_Agent Spec_Agent Model_Time Model_Text Spec_Text Proof_Text Proof_Text3 Proof_Text5
  Model_Args Spec_Args Proof_Args Proof_Args2 Proof_Args3 Model_Analysis Spec_Analysis Model_Run Spec_Run Spec_Run2 Proof_Run10 Model_Program Spec_Program Proof_Program.
Local Open Scope nat_scope.
Local Open Scope string_scope.
Local Open Scope list_scope.
Local Notation length := List.length.

Section Run.
Context {S : scalar} {G : rng S} (nt : numtext S) (as_u128 : S -> N) (rng_seed : N -> rstate G).
Lemma specs_known : incl (exp_structs nt ++ [varsim_spec]) (all_specs nt).
Proof. intros x H. cbn in H. cbn. tauto. Qed.
Lemma settings_survive (p : settings S) : writable p -> args_survive nt (exp_structs nt ++ [varsim_spec]) (join_args (exp_structs nt) (data_part nt p) (sim_part p)).
Proof.
  intros [W1 W2 W3 W4 W5 W6 W7 W8 W9 [W10 W11]]. cbn -[fld_f64 fld_usize fld_u128 fld_string fld_pos fld_sys fld_bc fld_target fld_agent fld_move fld_init].
  repeat (match goal with |- _ /\ _ => split | |- True => exact I end).
  all: try (constructor; auto; congruence).
Qed.
Lemma path_is (p : settings S) : exists name, output_file exp_prefix (exp_structs nt) varsim_spec (data_part nt p) (sim_part p) = Some name /\ path_in (p_dir p) name = run_path nt p.
Proof. eexists. split; [reflexivity|]. unfold path_in, run_path, export_file, exp_prefix. cbn [fold_right app]. unfold var_part. cbn [fst snd].
  repeat match goal with |- context [String ?a ?b] => let s := fresh "s" in set (s := String a b) end.
  rewrite ?app_s_assoc. reflexivity. Qed.
Lemma header_is (p : settings S) : faithful nt -> writable p -> exists head, file_header (exp_structs nt ++ [varsim_spec]) exp_width (join_args (exp_structs nt) (data_part nt p) (sim_part p)) = Ok head.
Proof.
  intros F W. destruct (file_read_back nt _ exp_width _ "" F specs_known (settings_survive p W)) as (t & E & _). eauto.
Qed.
Definition the_args (p : settings S) : expag_args S := ExpagArgs ContinuousPassiveInteracting (p_move p) (p_init p) (p_gamma p) (p_idim p) (p_strength p) (p_agents p).
Definition the_system (p : settings S) : circ S := Circ ContinuousCircular Reflection (p_size p) (p_dim p).
Definition the_target (p : settings S) : target S := Target ContinuousInBulk (p_target p) (p_tsize p).
Lemma clock_is (p : settings S) : accepted p -> es_convert (p_dtmin p) (p_dtmax p) (p_len p) (p_tmax p) = Ok (run_clock p).
Proof.
  intros [A1 A2 A3 A4 A5 A6 A7 A8 A9 A10]. unfold es_convert. rewrite A7, A8, A9. destruct (Nat.ltb_spec (p_len p) 10); [lia|]. reflexivity.
Qed.
Lemma system_is (p : settings S) : accepted p -> circ_convert_from (the_system p) = Ok (the_system p).
Proof. intros [A1 A2 A3 A4 A5 A6 A7 A8 A9 A10]. unfold circ_convert_from. cbn [the_system ci_size ci_dim ci_type ci_bc]. rewrite A1. destruct (Nat.eqb_spec (p_dim p) 0); [lia|]. reflexivity. Qed.
Lemma args_for (p : settings S) : accepted p -> exp_args_for (p_dim p) (the_args p).
Proof. intros [A1 A2 A3 A4 A5 A6 A7 A8 A9 A10]. split; [exact A4|]. split; [exact A5|]. cbn. destruct (p_init p); auto. Qed.
Lemma agents_built (p : settings S) : accepted p -> exists v, expag_convert_from (the_args p) = Ok v.
Proof.
  intros [A1 A2 A3 A4 A5 A6 A7 A8 A9 A10]. unfold expag_convert_from, the_args. cbn [ea_itype ea_dim ea_gamma ea_strength ea_num ea_mtype].
  destruct (p_init p) as [q|].
  - unfold dim. rewrite (A6 q eq_refl). destruct (Nat.eqb_spec (p_dim p) 0); [lia|]. rewrite A4, Nat.eqb_refl. cbn. eauto.
  - cbn. eauto.
Qed.
Lemma program_eq (p : settings S) inner pf fuel head sd ts g o : accepted p ->
  file_header (exp_structs nt ++ [varsim_spec]) exp_width (join_args (exp_structs nt) (data_part nt p) (sim_part p)) = Ok head ->
  run_seed as_u128 (p_seed p) (run_hash p) = Ok sd ->
  mfpt_exp (diff_next es_next es_dt) inner pf fuel (p_num p) (circ_core (the_system p)) (p_dim p) (the_target p) (the_args p) (exp_limit (p_tsize p) (p_gamma p)) (run_clock p) (rng_seed sd) = (ts, g, o) ->
  exp_program nt as_u128 rng_seed inner pf fuel (data_part nt p) (sim_part p) = RunResult (Some (run_path nt p, head ++ data_text nt ts)%string) o.
Proof.
  intros A Hh Hs Hm. destruct (path_is p) as (name & E1 & E2). destruct (agents_built p A) as (v & Ev).
  unfold exp_program. cbv beta iota zeta delta [data_part sys_part target_part agent_part clock_part sim_part] in *. rewrite E1.
  cbv beta iota zeta delta [circ_of_args target_of_args expag_of_args]. fold (the_system p). fold (the_args p). fold (the_target p).
  rewrite (system_is p A). cbn [bind]. rewrite Ev. cbn [bind]. rewrite (clock_is p A). cbn [bind]. rewrite Hh. cbn [bind].
  assert (D : ea_dim (the_args p) = p_dim p) by apply (args_for p A). rewrite D. change (ci_dim (the_system p)) with (p_dim p). rewrite Nat.eqb_refl. cbn [negb].
  change (seed_hash _ _ _ _ _ _ _) with (run_hash p). rewrite Hs.
  change (tg_size (the_target p)) with (p_tsize p). change (ea_gamma (the_args p)) with (p_gamma p). rewrite Hm. rewrite E2. reflexivity.
Qed.
Lemma program_stops (p : settings S) inner pf fuel head : accepted p ->
  file_header (exp_structs nt ++ [varsim_spec]) exp_width (join_args (exp_structs nt) (data_part nt p) (sim_part p)) = Ok head ->
  run_seed as_u128 (p_seed p) (run_hash p) = Panic ->
  exp_program nt as_u128 rng_seed inner pf fuel (data_part nt p) (sim_part p) = RunResult (Some (run_path nt p, head)) Panic.
Proof.
  intros A Hh Hs. destruct (path_is p) as (name & E1 & E2). destruct (agents_built p A) as (v & Ev).
  unfold exp_program. cbv beta iota zeta delta [data_part sys_part target_part agent_part clock_part sim_part] in *. rewrite E1.
  cbv beta iota zeta delta [circ_of_args target_of_args expag_of_args]. fold (the_system p). fold (the_args p). fold (the_target p).
  rewrite (system_is p A). cbn [bind]. rewrite Ev. cbn [bind]. rewrite (clock_is p A). cbn [bind]. rewrite Hh. cbn [bind].
  assert (D : ea_dim (the_args p) = p_dim p) by apply (args_for p A). rewrite D. change (ci_dim (the_system p)) with (p_dim p). rewrite Nat.eqb_refl. cbn [negb].
  change (seed_hash _ _ _ _ _ _ _) with (run_hash p). rewrite Hs, E2. reflexivity.
Qed.
Lemma run_outcomes (p : settings S) inner pf fuel sd : faithful nt -> writable p -> accepted p -> run_seed as_u128 (p_seed p) (run_hash p) = Ok sd ->
  exists head ts o, exp_program nt as_u128 rng_seed inner pf fuel (data_part nt p) (sim_part p) = RunResult (Some (run_path nt p, head ++ lines_text (map (n_sci nt) ts))%string) o /\
    file_header (exp_structs nt ++ [varsim_spec]) exp_width (join_args (exp_structs nt) (data_part nt p) (sim_part p)) = Ok head /\
    Forall (exp_value (diff_next es_next es_dt) (run_clock p)) ts /\
    ((o = Ok tt /\ length ts = p_num p) \/ (length ts < p_num p /\ (o = Fuel \/ o = Err TooLargeTimeStep))).
Proof.
  intros F W A Hs. destruct (header_is p F W) as (head & Hh).
  destruct (mfpt_exp_any (G := G) (ACirc (the_system p)) (the_target p) (the_args p) (exp_limit (p_tsize p) (p_gamma p)) (run_clock p) inner pf fuel (p_num p) (rng_seed sd) (p_dtmin p) (p_dtmax p) (p_len p))
    as (ts & g' & o & Hm & H1 & H2).
  - cbn. right. exists (the_system p). now apply system_is.
  - apply (a_target _ A).
  - now apply args_for.
  - reflexivity.
  - exists head, ts, o. rewrite <- data_lines. split; [|auto]. eapply program_eq; eauto.
Qed.
(** The dimension of the interaction differs: the file holds the configuration only. *)
Lemma run_dim (p : settings S) inner pf fuel : faithful nt -> writable p -> (p_size p <=? s0)%S = false -> p_dim p <> 0 -> p_idim p <> p_dim p -> p_init p = Uniform ->
  (p_tmax p <? s0)%S = false -> (p_dtmin p <? s0)%S = false -> (p_dtmax p <? p_dtmin p)%S = false -> 10 <= p_len p ->
  exists head, file_header (exp_structs nt ++ [varsim_spec]) exp_width (join_args (exp_structs nt) (data_part nt p) (sim_part p)) = Ok head /\
    exp_program nt as_u128 rng_seed inner pf fuel (data_part nt p) (sim_part p) = RunResult (Some (run_path nt p, head)) Panic.
Proof.
  intros F W A1 A2 A4 A6 A7 A8 A9 A10. destruct (header_is p F W) as (head & Hh). exists head. split; [exact Hh|].
  destruct (path_is p) as (name & E1 & E2).
  unfold exp_program. cbv beta iota zeta delta [data_part sys_part target_part agent_part clock_part sim_part] in *. rewrite E1.
  cbv beta iota zeta delta [circ_of_args target_of_args expag_of_args]. fold (the_system p). fold (the_args p). fold (the_target p).
  assert (Es : circ_convert_from (the_system p) = Ok (the_system p)).
  { unfold circ_convert_from. cbn [the_system ci_size ci_dim ci_type ci_bc]. rewrite A1. destruct (Nat.eqb_spec (p_dim p) 0); [lia|]. reflexivity. }
  assert (Ea : exists v, expag_convert_from (the_args p) = Ok v).
  { unfold expag_convert_from. cbn [the_args ea_itype]. rewrite A6. cbn. eauto. }
  destruct Ea as (va & Ea). rewrite Es. cbn [bind]. rewrite Ea. cbn [bind].
  unfold es_convert. rewrite A7, A8, A9. destruct (Nat.ltb_spec (p_len p) 10); [lia|]. cbn [orb bind]. rewrite Hh. cbn [bind].
  change (ci_dim (the_system p)) with (p_dim p). change (ea_dim (the_args p)) with (p_idim p). destruct (Nat.eqb_spec (p_dim p) (p_idim p)); [lia|]. cbn [negb]. now rewrite E2.
Qed.
(** Reading the command line. *)
Lemma value_reads fs ws (v : vals fs) : word_values fs ws v -> read_words fs ws = Ok v /\ length ws = length fs.
Proof. apply read_words_spec. Qed.
Lemma vec_reads sp ws (v : vals (a_vars sp)) : a_num sp = length (a_vars sp) -> word_values (a_vars sp) ws v -> read_args_from_vec sp ws = Ok (vals_app (a_defaults sp) v).
Proof. intros L H. apply value_reads in H as [E Ew]. unfold read_args_from_vec. rewrite Ew, <- L, Nat.eqb_refl. cbn [negb]. now rewrite E. Qed.
Lemma command_reads (p : settings S) ws prog : command nt p ws ->
  setup false exp_skip analysis_num_args (exp_specs nt) (prog :: ws) = Ok (Simulate (specs := exp_specs nt) (sys_part nt p, (target_part nt p, (agent_part nt p, (clock_part nt p, (sim_part p, tt)))))).
Proof.
  intros (b1 & b2 & b3 & b4 & b5 & -> & H1 & H2 & H3 & H4 & H5).
  pose proof (proj2 (value_reads _ _ _ H1)) as L1. pose proof (proj2 (value_reads _ _ _ H2)) as L2. pose proof (proj2 (value_reads _ _ _ H3)) as L3.
  pose proof (proj2 (value_reads _ _ _ H4)) as L4. pose proof (proj2 (value_reads _ _ _ H5)) as L5. cbn in L1, L2, L3, L4, L5.
  apply (vec_reads (circ_spec nt)) in H1; [|reflexivity]. apply (vec_reads (bulk_spec nt)) in H2; [|reflexivity]. apply (vec_reads (exp_spec nt)) in H3; [|reflexivity].
  apply (vec_reads (expstep_spec nt)) in H4; [|reflexivity]. apply (vec_reads varsim_spec) in H5; [|reflexivity].
  set (args := prog :: b1 ++ b2 ++ b3 ++ b4 ++ b5).
  assert (L : length args = 19) by (unfold args; cbn [List.length]; rewrite !app_length, L1, L2, L3, L4, L5; reflexivity).
  assert (BL : blocks_of (exp_specs nt) (skipn exp_skip args) [b1; b2; b3; b4; b5]).
  { split; [unfold args; cbn; now rewrite app_nil_r|]. cbn. now rewrite L1, L2, L3, L4, L5. }
  assert (P1 : exp_skip <= length args) by (rewrite L; unfold exp_skip; lia).
  assert (P2 : length args - exp_skip <> analysis_num_args) by (rewrite L; vm_compute; lia).
  assert (P3 : length args - exp_skip <> analysis_num_args + 1) by (rewrite L; vm_compute; lia).
  assert (P4 : length args - exp_skip = total_num_args (exp_specs nt)) by (rewrite L; reflexivity).
  destruct (setup_run false exp_skip analysis_num_args (exp_specs nt) args P1 P2 P3 P4) as (bs & B & R).
  pose proof (reads_blocks (exp_specs nt) (skipn exp_skip args)) as U. destruct U as (b0 & _ & U); [rewrite skipn_length, L; reflexivity|].
  assert (E : bs = [b1; b2; b3; b4; b5]) by (rewrite <- (U bs B); apply U, BL). subst bs.
  apply R. eexists. split; [reflexivity|]. cbn [exp_specs exp_structs app reads fst snd]. auto 10.
Qed.
Lemma main_runs (p : settings S) ws prog inner pf fuel show_e sip texts summary : command nt p ws ->
  exp_main nt as_u128 rng_seed inner pf fuel show_e sip texts summary (prog :: ws) =
    (let r := exp_program nt as_u128 rng_seed inner pf fuel (data_part nt p) (sim_part p) in (match rr_file r with Some f => [f] | None => [] end, rr_end r)).
Proof. intros H. unfold exp_main. rewrite (command_reads p ws prog H). reflexivity. Qed.
End Run.
