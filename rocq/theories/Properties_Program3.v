(** Property C66: the program tests/test_setup.rs, from the command line to its data file, and the analysis of such files.
    Statements use [Model_Program3] and the vocabulary of [Spec_Program3]: [ind_settings] (the 13 values of a call), [ind_command] (they stand on the command
    line), [ind_writable], [race_accepted], [race_result] (what a value means), [race_refusal]; [sampled] (Spec_Search): values drawn one after the other. *)
From Coq Require Import String Ascii NArith Reals ZArith List Lra Lia.
From Flocq.IEEE754 Require Import BinarySingleNaN.
From Verif Require Import Base Scalar Float64 Model_LinkedList Model_Position Model_System Spec_System Model_Agent Spec_Agent Model_Time Model_Text Spec_Text Proof_Text Proof_Text3 Proof_Text4
  Model_Args Spec_Args Proof_Args Proof_Args2 Proof_Args3 Model_Analysis Spec_Analysis Model_Run Spec_Run Spec_Search Model_Program Spec_Program
  Model_Program3 Spec_Program3 Proof_Search3 Proof_Race2 Proof_Race3 Proof_Race4 Properties_Program Properties_Search.
Import ListNotations.
Local Open Scope nat_scope.
Local Open Scope string_scope.
Local Open Scope list_scope.
Local Notation length := List.length.

(** * C66: searchers one at a time, the shortest time *)
(** A call with the words of the settings runs the program with exactly these values; nothing else is written. *)
Theorem C66_command_line : forall (S : scalar) (G : rng S) (nt : numtext S) as_u128 (rng_seed : N -> rstate G) (p : ind_settings S) ws inner pf fuel show_e sip texts summary,
  ind_command nt p ws ->
  race_main nt as_u128 rng_seed inner pf fuel show_e sip texts summary ws =
    (let r := race_program nt as_u128 rng_seed inner pf fuel (ind_part nt p) in (match rr_file r with Some f => [f] | None => [] end, rr_end r)).
Proof. exact @race_main_runs. Qed.
Print Assumptions C66_command_line.

(** The run leaves one file, at the path that shows the parameters, with the configuration and one line for each finished ensemble member; a run that ends
    normally has all of them, any other ends by a refused step (or the fuel of the model) and has fewer.  Doubles, *)
Theorem C66_f64_run_file : forall lm (G : rng (F64 lm)) (nt : numtext (car (F64 lm))) as_u128 (rng_seed : N -> rstate G) (p : ind_settings (F64 lm)) inner pf fuel sd,
  faithful nt -> ind_writable p -> race_accepted p -> run_seed as_u128 (i_seed p) (i_hash p) = Ok sd ->
  exists head ts g o, race_program nt as_u128 rng_seed inner pf fuel (ind_part nt p) =
      RunResult (Some (path_in (i_dir p) (i_name nt "RTS_N_PTL_INDEP_Agent_SYS_SIZE" p), append head (lines_text (map (n_sci nt) ts)))) o /\
    file_header (race_written nt) 15 (written_part nt p) = Ok head /\
    sampled (race_sample inner pf fuel (circ_core (i_system p)) (i_dim p) (i_the_target p) (i_move p) (i_dt p) (i_agents p)) (rng_seed sd) ts g /\
    ((o = Ok tt /\ length ts = i_num p) \/ (length ts < i_num p /\ (o = Fuel \/ o = Err TooLargeTimeStep))).
Proof. intros lm G nt as_u128 rng_seed. exact (race_file (S := F64 lm) nt as_u128 rng_seed Bltb_trans Bltb_irr). Qed.
Print Assumptions C66_f64_run_file.

(** and the value of each member: the least time at which one of the searchers finds the target.  A searcher is no longer followed when the best time so far has
    passed, which changes nothing as long as dt is not negative.  Exact arithmetic, *)
Theorem C66_exact_value : forall (G : rng RR) (p : ind_settings RR) c inner pf fuel (g g' : rstate G) t, (i_dt p <? s0)%S = false -> race_accepted p -> i_move p = Brownian c ->
  race_sample inner pf fuel (circ_core (i_system p)) (i_dim p) (i_the_target p) (i_move p) (i_dt p) (i_agents p) g = (g', Ok t) -> race_result inner pf p c g t g'.
Proof. intros G p c inner pf fuel g g' t H. exact (race_value Rltb_trans Rltb_irr p c inner pf fuel g g' t (Rup p H)). Qed.
Print Assumptions C66_exact_value.
(** and doubles, NaN and infinity included. *)
Theorem C66_f64_value : forall lm (G : rng (F64 lm)) (p : ind_settings (F64 lm)) c inner pf fuel (g g' : rstate G) t, (i_dt p <? s0)%S = false -> race_accepted p -> i_move p = Brownian c ->
  race_sample inner pf fuel (circ_core (i_system p)) (i_dim p) (i_the_target p) (i_move p) (i_dt p) (i_agents p) g = (g', Ok t) -> race_result inner pf p c g t g'.
Proof. intros lm G p c inner pf fuel g g' t H. exact (race_value (S := F64 lm) Bltb_trans Bltb_irr p c inner pf fuel g g' t (Bup lm p H)). Qed.
Print Assumptions C66_f64_value.
(** The only error: a displacement the boundary refuses, made by a searcher that had not found the target. *)
Theorem C66_f64_refused : forall lm (G : rng (F64 lm)) (p : ind_settings (F64 lm)) c inner pf fuel (g g' : rstate G) e, race_accepted p -> i_move p = Brownian c ->
  race_sample inner pf fuel (circ_core (i_system p)) (i_dim p) (i_the_target p) (i_move p) (i_dt p) (i_agents p) g = (g', Err e) -> e = TooLargeTimeStep /\ race_refusal inner pf p c g.
Proof. intros lm G p c inner pf fuel g g' e. exact (race_refused (S := F64 lm) Bltb_trans Bltb_irr p c inner pf fuel g g' e). Qed.
Print Assumptions C66_f64_refused.
Theorem C66_exact_refused : forall (G : rng RR) (p : ind_settings RR) c inner pf fuel (g g' : rstate G) e, race_accepted p -> i_move p = Brownian c ->
  race_sample inner pf fuel (circ_core (i_system p)) (i_dim p) (i_the_target p) (i_move p) (i_dt p) (i_agents p) g = (g', Err e) -> e = TooLargeTimeStep /\ race_refusal inner pf p c g.
Proof. intros G p c inner pf fuel g g' e. exact (race_refused Rltb_trans Rltb_irr p c inner pf fuel g g' e). Qed.
Print Assumptions C66_exact_refused.

(** A seed that overflows, a size that is not positive, a system without dimensions: the program panics before it creates a file. *)
Theorem C66_nothing_written : forall (S : scalar) (G : rng S) (nt : numtext S) as_u128 (rng_seed : N -> rstate G) (p : ind_settings S) inner pf fuel,
  (run_seed as_u128 (i_seed p) (i_hash p) = Panic \/ (exists sd, run_seed as_u128 (i_seed p) (i_hash p) = Ok sd) /\ ((i_size p <=? s0)%S = true \/ i_dim p = 0)) ->
  race_program nt as_u128 rng_seed inner pf fuel (ind_part nt p) = RunResult None Panic.
Proof.
  intros S G nt as_u128 rng_seed p inner pf fuel [H|((sd & H) & B)]; [now apply race_no_seed|now apply race_no_system with sd].
Qed.
Print Assumptions C66_nothing_written.

(** Limit of C66: the time limit on the command line has no effect, neither on the values nor on the file. *)
Theorem C66_time_limit_ignored_counterexample : forall (S : scalar) (G : rng S) (nt : numtext S) as_u128 (rng_seed : N -> rstate G) size dim tgt ts mv ini n dt tmax tmax' num idx seed dir inner pf fuel,
  race_program nt as_u128 rng_seed inner pf fuel (ind_part nt (IndSettings S size dim tgt ts mv ini n dt tmax num idx seed dir)) =
  race_program nt as_u128 rng_seed inner pf fuel (ind_part nt (IndSettings S size dim tgt ts mv ini n dt tmax' num idx seed dir)).
Proof. reflexivity. Qed.
Print Assumptions C66_time_limit_ignored_counterexample.
(** Limit of C66: the step is not written to the configuration (only to the name of the file): runs with different steps have the same configuration lines. *)
Theorem C66_step_not_recorded_counterexample : forall (S : scalar) (nt : numtext S) size dim tgt ts mv ini n dt dt' tmax num idx seed dir,
  file_header (race_written nt) 15 (written_part nt (IndSettings S size dim tgt ts mv ini n dt tmax num idx seed dir)) =
  file_header (race_written nt) 15 (written_part nt (IndSettings S size dim tgt ts mv ini n dt' tmax num idx seed dir)).
Proof. reflexivity. Qed.
Print Assumptions C66_step_not_recorded_counterexample.
(** Limit of C66: as the lines of the clock are missing, the analysis of the same program cannot read any file the program writes: on a directory of such files it panics
    or gives no result at all, and it panics as soon as one run had an output directory whose name is not a number. *)
Theorem C66_analysis_cannot_read_counterexample : forall (S : scalar) (nt : numtext S) sip req b ps texts, faithful nt -> Forall ind_writable ps -> bin_sizes req = Ok b ->
  Forall2 (fun p text => exists head ts, file_header (race_written nt) 15 (written_part nt p) = Ok head /\ text = append head (lines_text (map (n_sci nt) ts))) ps texts ->
  (ind_groups nt sip req texts = Panic \/ ind_groups nt sip req texts = Ok []) /\
  (Exists (fun p => parse_usize (i_dir p) = None) ps -> ind_groups nt sip req texts = Panic).
Proof. intros S nt sip req b ps texts F W B H. exact (race_groups nt F sip req b ps texts H W B). Qed.
Print Assumptions C66_analysis_cannot_read_counterexample.

(** * The hypotheses are met *)
(** The call "10 2 0,0 1 1 Uniform 3 0.5 100 4 1 42 data". *)
Definition race_p (lm : libm) : ind_settings (F64 lm) :=
  IndSettings (F64 lm) (b64_of_Z 10) 2 [b64_of_Z 0; b64_of_Z 0] (b64_of_Z 1) (Brownian (b64_of_Z 1 : F64 lm)) Uniform 3 (lit (s := F64 lm) 1 2) (b64_of_Z 100) 4 1 42 "data".
Example race_p_writable : forall lm, ind_writable (race_p lm).
Proof.
  intros lm. constructor; cbn [race_p i_dim i_target i_init i_agents i_num i_idx i_seed i_dir]; try reflexivity; try discriminate.
  split; [now apply lit_one_line|]. split; right; [exists "d"%char, "ata"|exists "dat", "a"%char]; (split; [reflexivity|]); cbn; lia.
Qed.
Example race_p_accepted : forall lm, race_accepted (race_p lm).
Proof. intros lm. constructor; cbn [race_p i_size i_dim i_target i_move]; [vm_compute; reflexivity|discriminate|reflexivity|eexists; reflexivity]. Qed.
Example race_p_seed : forall lm, exists sd, run_seed (S := F64 lm) b64_as_u128 (i_seed (race_p lm)) (i_hash (race_p lm)) = Ok sd.
Proof. intros lm. eexists. vm_compute. reflexivity. Qed.
Example race_p_command : forall lm, exists ws, ind_command (prog_text lm) (race_p lm) ws.
Proof. intros lm. apply ind_command_exists; [apply prog_text_faithful|apply race_p_writable]. Qed.
(** Its step is not negative, *)
Example race_p_step : forall lm, (i_dt (race_p lm) <? s0)%S = false.
Proof. intros lm. vm_compute. reflexivity. Qed.
(** and with the generator of Properties_Search a member of the ensemble has the value 1. *)
Example race_p_value : forall lm,
  found lm (race_sample (G := down_rng lm) 3 3 9 (circ_core (i_system (race_p lm))) (i_dim (race_p lm)) (i_the_target (race_p lm)) (i_move (race_p lm)) (i_dt (race_p lm)) (i_agents (race_p lm)) 0%Z)
    = Some (12%Z, true).
Proof. intros lm. vm_compute. reflexivity. Qed.
(** "data" is not a number. *)
Example race_p_dir : forall lm, parse_usize (i_dir (race_p lm)) = None.
Proof. reflexivity. Qed.
