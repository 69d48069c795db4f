(** What a call of tests/test_setup.rs leaves behind. *)
From Coq Require Import String Ascii NArith ZArith Lia.
From Verif Require Import Base Scalar Model_LinkedList Model_Position Spec_Position Model_System Spec_System Model_Agent Spec_Agent Model_Time Model_Text Spec_Text Proof_Text Proof_Text3 Proof_Text5
  Model_Args Spec_Args Proof_Args Proof_Args2 Proof_Args3 Model_Analysis Spec_Analysis Model_Run Spec_Run Spec_Search Model_Program Spec_Program Proof_Program Proof_Program2
  Model_Program3 Spec_Program3 Proof_Race.
Local Open Scope nat_scope.
Local Open Scope string_scope.
Local Open Scope list_scope.
Local Notation length := List.length.

Section Run.
Context {S : scalar} {G : rng S} (nt : numtext S) (as_u128 : S -> N) (rng_seed : N -> rstate G).
Lemma ind_known : incl (ind_structs nt) (all_specs nt).
Proof. intros x H. cbn in H. cbn. tauto. Qed.
Lemma written_known : incl (race_written nt) (all_specs nt).
Proof. intros x H. cbn in H. cbn. tauto. Qed.
Lemma ind_survive (p : ind_settings S) : ind_writable p -> args_survive nt (ind_structs nt) (ind_part nt p).
Proof.
  intros [W1 W2 W3 W4 W5 W6 W7 [W8 W9]]. cbn -[fld_f64 fld_usize fld_u128 fld_string fld_pos fld_sys fld_bc fld_target fld_agent fld_move fld_init].
  repeat (match goal with |- _ /\ _ => split | |- True => exact I end).
  all: try (constructor; auto; congruence).
Qed.
Lemma written_survive (p : ind_settings S) : ind_writable p -> args_survive nt (race_written nt) (written_part nt p).
Proof.
  intros [W1 W2 W3 W4 W5 W6 W7 [W8 W9]]. cbn -[fld_f64 fld_usize fld_u128 fld_string fld_pos fld_sys fld_bc fld_target fld_agent fld_move fld_init].
  repeat (match goal with |- _ /\ _ => split | |- True => exact I end).
  all: try (constructor; auto; congruence).
Qed.
Lemma ind_name_is (p : ind_settings S) prefix : ind_file nt prefix (ind_part nt p) = i_name nt prefix p.
Proof.
  unfold ind_file, i_name, export_file, ind_names. cbv beta iota zeta delta [ind_entries ind_part i_sys_part i_target_part i_agent_part i_clock_part i_sim_part].
  cbn [map combine fold_right app]. unfold var_part. cbn [fst snd field_shown].
  repeat match goal with |- context [String ?a ?b] => let s := fresh "s" in set (s := String a b) end.
  rewrite ?app_s_assoc. cbn [append]. rewrite ?app_s_assoc. reflexivity.
Qed.
Lemma written_header (p : ind_settings S) : faithful nt -> ind_writable p -> exists head, file_header (race_written nt) ind_width (written_part nt p) = Ok head.
Proof. intros F W. destruct (file_read_back nt _ ind_width _ "" F written_known (written_survive p W)) as (t & E & _). eauto. Qed.
Lemma ind_header (p : ind_settings S) : faithful nt -> ind_writable p -> exists head, file_header (ind_structs nt) ind_width (ind_part nt p) = Ok head.
Proof. intros F W. destruct (file_read_back nt _ ind_width _ "" F ind_known (ind_survive p W)) as (t & E & _). eauto. Qed.
Lemma i_system_is (p : ind_settings S) : race_accepted p -> circ_convert_from (i_system p) = Ok (i_system p).
Proof. intros [A1 A2 A3 A4]. unfold circ_convert_from. cbn [i_system ci_size ci_dim ci_type ci_bc]. rewrite A1. destruct (Nat.eqb_spec (i_dim p) 0); [lia|]. reflexivity. Qed.
Lemma i_built (p : ind_settings S) : race_accepted p -> built (ACirc (i_system p)).
Proof. intros A. right. exists (i_system p). now apply i_system_is. Qed.

Lemma race_program_eq (p : ind_settings S) inner pf fuel head sd : race_accepted p -> file_header (race_written nt) ind_width (written_part nt p) = Ok head ->
  run_seed as_u128 (i_seed p) (i_hash p) = Ok sd ->
  race_program nt as_u128 rng_seed inner pf fuel (ind_part nt p) =
    let '(ts, _, o) := races inner pf fuel (circ_core (i_system p)) (i_the_target p) (i_move p) (i_dt p) (i_agents p) (i_num p) (repeat s0 (i_dim p)) (rng_seed sd) in
    RunResult (Some (path_in (i_dir p) (i_name nt race_prefix p), head ++ lines_text (map (n_sci nt) ts))%string) o.
Proof.
  intros A Hh Hs. unfold race_program. rewrite ind_name_is. cbv beta iota zeta delta [ind_part written_part i_sys_part i_target_part i_agent_part i_clock_part i_sim_part] in *.
  cbv beta iota zeta delta [circ_of_args target_of_args indep_of_args]. fold (i_system p). fold (i_the_target p).
  change (ind_hash _ _ _ _ _) with (i_hash p). rewrite Hs. cbn [bind]. rewrite (i_system_is p A). cbn [bind]. rewrite Hh. cbn [bind].
  change (ci_dim (i_system p)) with (i_dim p). cbn [ia_num ia_mtype].
  destruct (races inner pf fuel (circ_core (i_system p)) (i_the_target p) (i_move p) (i_dt p) (i_agents p) (i_num p) (repeat s0 (i_dim p)) (rng_seed sd)) as [[ts g] o].
  now rewrite data_lines.
Qed.
(** The seed overflows: nothing is written. *)
Lemma race_no_seed (p : ind_settings S) inner pf fuel : run_seed as_u128 (i_seed p) (i_hash p) = Panic -> race_program nt as_u128 rng_seed inner pf fuel (ind_part nt p) = RunResult None Panic.
Proof.
  intros Hs. unfold race_program. cbv beta iota zeta delta [ind_part i_sys_part i_target_part i_agent_part i_clock_part i_sim_part].
  cbv beta iota zeta delta [circ_of_args target_of_args indep_of_args]. fold (i_system p). fold (i_the_target p).
  change (ind_hash _ _ _ _ _) with (i_hash p). rewrite Hs. reflexivity.
Qed.
(** A system that cannot be built: neither. *)
Lemma race_no_system (p : ind_settings S) inner pf fuel sd : run_seed as_u128 (i_seed p) (i_hash p) = Ok sd -> (i_size p <=? s0)%S = true \/ i_dim p = 0 ->
  race_program nt as_u128 rng_seed inner pf fuel (ind_part nt p) = RunResult None Panic.
Proof.
  intros Hs Hb. unfold race_program. cbv beta iota zeta delta [ind_part i_sys_part i_target_part i_agent_part i_clock_part i_sim_part].
  cbv beta iota zeta delta [circ_of_args target_of_args indep_of_args]. fold (i_system p). fold (i_the_target p).
  change (ind_hash _ _ _ _ _) with (i_hash p). rewrite Hs. cbn [bind].
  assert (E : circ_convert_from (i_system p) = Panic).
  { unfold circ_convert_from. cbn [i_system ci_size ci_dim]. destruct Hb as [->| ->]; [reflexivity|]. cbn [Nat.eqb]. now rewrite Bool.orb_true_r. }
  rewrite E. reflexivity.
Qed.

Section Ordered.
Hypothesis trans : forall x y z : S, (x <? y)%S = true -> (y <? z)%S = true -> (x <? z)%S = true.
Hypothesis irr : forall x : S, (x <? x)%S = false.
Lemma race_sample_ends (p : ind_settings S) c inner pf fuel (g : rstate G) : race_accepted p -> i_move p = Brownian c ->
  let o := snd (race_sample inner pf fuel (circ_core (i_system p)) (i_dim p) (i_the_target p) (Brownian c) (i_dt p) (i_agents p) g) in
  (exists t, o = Ok t) \/ o = Err TooLargeTimeStep \/ o = Fuel.
Proof.
  intros A M. unfold race_sample.
  destruct (race_ends (G := G) (ACirc (i_system p)) (i_the_target p) c (i_dt p) inner pf fuel (i_built p A) (ra_target p A) trans irr (i_agents p) fmax (repeat s0 (i_dim p)) g (repeat_length _ _))
    as (v' & _ & [(runs & g' & m & _ & _ & _ & _ & _ & E)|[(runs & g1 & g2 & a & k & q & q' & _ & _ & _ & _ & _ & _ & _ & E)|(runs & g1 & g' & _ & _ & _ & E)]]);
    cbn [core] in E; rewrite E; cbn [snd]; eauto.
Qed.
Lemma race_file (p : ind_settings S) inner pf fuel sd : faithful nt -> ind_writable p -> race_accepted p -> run_seed as_u128 (i_seed p) (i_hash p) = Ok sd ->
  exists head ts g o, race_program nt as_u128 rng_seed inner pf fuel (ind_part nt p) =
      RunResult (Some (path_in (i_dir p) (i_name nt race_prefix p), head ++ lines_text (map (n_sci nt) ts))%string) o /\
    file_header (race_written nt) ind_width (written_part nt p) = Ok head /\
    sampled (race_sample inner pf fuel (circ_core (i_system p)) (i_dim p) (i_the_target p) (i_move p) (i_dt p) (i_agents p)) (rng_seed sd) ts g /\
    ((o = Ok tt /\ length ts = i_num p) \/ (length ts < i_num p /\ (o = Fuel \/ o = Err TooLargeTimeStep))).
Proof.
  intros F W A Hs. destruct (written_header p F W) as (head & Hh). pose proof (race_program_eq p inner pf fuel head sd A Hh Hs) as E. destruct (ra_move p A) as (c & M).
  pose proof (races_sampled inner pf fuel (circ_core (i_system p)) (i_the_target p) (i_move p) (i_dt p) (i_agents p) (i_dim p) (i_num p) (repeat s0 (i_dim p)) (rng_seed sd) (repeat_length _ _)) as R.
  cbn zeta in R. rewrite M in *.
  destruct (races inner pf fuel (circ_core (i_system p)) (i_the_target p) (Brownian c) (i_dt p) (i_agents p) (i_num p) (repeat s0 (i_dim p)) (rng_seed sd)) as [[ts g] o].
  assert (Bad : forall g1, let o := snd (race_sample inner pf fuel (circ_core (i_system p)) (i_dim p) (i_the_target p) (Brownian c) (i_dt p) (i_agents p) g1) in
     (exists t, o = Ok t) \/ o = Err TooLargeTimeStep \/ o = Fuel) by (intros g1; now apply race_sample_ends).
  exists head, ts. destruct o as [[]|e| |].
  - exists g, (Ok tt). destruct R as (R & L). auto 10.
  - destruct R as (L & g1 & R & R1). specialize (Bad g1). rewrite R1 in Bad. cbn [snd] in Bad. destruct Bad as [(t & X)|[X|X]]; try discriminate X. injection X as ->.
    exists g1, (Err TooLargeTimeStep). auto 12.
  - destruct R as (L & g1 & R & R1). specialize (Bad g1). rewrite R1 in Bad. cbn [snd] in Bad. destruct Bad as [(t & X)|[X|X]]; discriminate X.
  - destruct R as (L & g1 & R & R1). exists g1, Fuel. auto 12.
Qed.
End Ordered.

(** ** The command line *)
Lemma ind_reads fixed skip (p : ind_settings S) ws pre : ind_command nt p ws -> length pre = skip -> skip <= 1 ->
  setup fixed skip analysis_num_args (ind_structs nt) (pre ++ ws) = Ok (Simulate (specs := ind_structs nt) (ind_part nt p)).
Proof.
  intros (b1 & b2 & b3 & b4 & b5 & -> & H1 & H2 & H3 & H4 & H5) Lp Hskip.
  pose proof (proj2 (value_reads _ _ _ H1)) as L1. pose proof (proj2 (value_reads _ _ _ H2)) as L2. pose proof (proj2 (value_reads _ _ _ H3)) as L3.
  pose proof (proj2 (value_reads _ _ _ H4)) as L4. pose proof (proj2 (value_reads _ _ _ H5)) as L5. cbn in L1, L2, L3, L4, L5.
  apply (vec_reads (circ_spec nt)) in H1; [|reflexivity]. apply (vec_reads (bulk_spec nt)) in H2; [|reflexivity]. apply (vec_reads (indep_spec nt)) in H3; [|reflexivity].
  apply (vec_reads (const_spec nt)) in H4; [|reflexivity]. apply (vec_reads varsim_spec) in H5; [|reflexivity].
  set (args := pre ++ b1 ++ b2 ++ b3 ++ b4 ++ b5).
  assert (L : length args = skip + 13) by (unfold args; rewrite !app_length, L1, L2, L3, L4, L5, Lp; reflexivity).
  assert (Sk : skipn skip args = b1 ++ b2 ++ b3 ++ b4 ++ b5) by (unfold args; rewrite <- Lp, skipn_app, skipn_all, Nat.sub_diag; reflexivity).
  assert (BL : blocks_of (ind_structs nt) (skipn skip args) [b1; b2; b3; b4; b5]).
  { split; [rewrite Sk; cbn; now rewrite app_nil_r|]. cbn. now rewrite L1, L2, L3, L4, L5. }
  assert (P1 : skip <= length args) by lia.
  assert (P2 : length args - skip <> analysis_num_args) by (unfold analysis_num_args; lia).
  assert (P3 : length args - skip <> analysis_num_args + 1) by (unfold analysis_num_args; lia).
  assert (P4 : length args - skip = total_num_args (ind_structs nt)) by (rewrite L; cbn; lia).
  destruct (setup_run fixed skip analysis_num_args (ind_structs nt) args P1 P2 P3 P4) as (bs & B & R).
  pose proof (reads_blocks (ind_structs nt) (skipn skip args)) as U. destruct U as (b0 & _ & U); [rewrite skipn_length, L; cbn; lia|].
  assert (E : bs = [b1; b2; b3; b4; b5]) by (rewrite <- (U bs B); apply U, BL). subst bs.
  apply R. eexists. split; [reflexivity|]. cbn [ind_structs app reads fst snd]. auto 10.
Qed.
Lemma race_main_runs (p : ind_settings S) ws inner pf fuel show_e sip texts summary : ind_command nt p ws ->
  race_main nt as_u128 rng_seed inner pf fuel show_e sip texts summary ws =
    (let r := race_program nt as_u128 rng_seed inner pf fuel (ind_part nt p) in (match rr_file r with Some f => [f] | None => [] end, rr_end r)).
Proof. intros H. unfold race_main. rewrite (ind_reads true 0 p ws [] H eq_refl ltac:(lia) : setup true 0 analysis_num_args (ind_structs nt) ws = _). reflexivity. Qed.
Lemma crowd_main_runs (p : ind_settings S) ws prog inner pf fuel show_e sip texts summary : ind_command nt p ws ->
  crowd_main nt as_u128 rng_seed inner pf fuel show_e sip texts summary (prog :: ws) =
    (let r := crowd_program nt as_u128 rng_seed inner pf fuel (ind_part nt p) in (match rr_file r with Some f => [f] | None => [] end, rr_end r)).
Proof. intros H. unfold crowd_main. rewrite (ind_reads false 1 p ws [prog] H eq_refl ltac:(lia) : setup false 1 analysis_num_args (ind_structs nt) (prog :: ws) = _). reflexivity. Qed.
End Run.
