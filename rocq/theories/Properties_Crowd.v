(** Property C67: the program tests/arguments.rs, from the command line to its data file, and the analysis of such files.
    Statements use [Model_Program3] and the vocabulary of [Spec_Program3]: [ind_settings] (the 13 values of a call), [ind_command] (they stand on the command
    line), [ind_writable], [crowd_accepted], [crowd_value] (what a value means), [crowd_refusal], [in_order] (values that follow each other);
    [directory_file], [rereads], [data_of], [rows_of] as in C54 and C55. *)
From Coq Require Import String Ascii NArith Reals ZArith List Lra Lia.
From Flocq.IEEE754 Require Import BinarySingleNaN.
From Verif Require Import Base Scalar Float64 Model_LinkedList Model_Position Model_System Spec_System Model_Agent Spec_Agent Model_Time Model_Text Spec_Text Proof_Text Proof_Text3 Proof_Text4
  Model_Args Spec_Args Proof_Args Proof_Args2 Proof_Args3 Model_Analysis Spec_Analysis Model_Run Spec_Run Spec_Search Model_Program Spec_Program
  Model_Program3 Spec_Program3 Spec_Disk Proof_Race2 Proof_Crowd2 Proof_Crowd3 Proof_Crowd4 Properties_Program Properties_Search Properties_Program3.
Import ListNotations.
Local Open Scope nat_scope.
Local Open Scope string_scope.
Local Open Scope list_scope.
Local Notation length := List.length.

(** * C67: searchers that move together, the time of the step in which one finds the target *)
(** A call with the words of the settings (after the name of the program) runs the program with exactly these values; nothing else is written. *)
Theorem C67_command_line : forall (S : scalar) (G : rng S) (nt : numtext S) as_u128 (rng_seed : N -> rstate G) (p : ind_settings S) ws prog inner pf fuel show_e sip texts summary,
  ind_command nt p ws ->
  crowd_main nt as_u128 rng_seed inner pf fuel show_e sip texts summary (prog :: ws) =
    (let r := crowd_program nt as_u128 rng_seed inner pf fuel (ind_part nt p) in (match rr_file r with Some f => [f] | None => [] end, rr_end r)).
Proof. exact @crowd_main_runs. Qed.
Print Assumptions C67_command_line.

(** The run leaves one file, at the path that shows the parameters, with the configuration and one line for each finished member of the ensemble, each with the value that
    [crowd_value] describes.  A run that ends normally has all of them; any other ends by a refused displacement of the next member (or the fuel of the model) and has fewer. *)
Theorem C67_run_file : forall (S : scalar) (G : rng S) (nt : numtext S) as_u128 (rng_seed : N -> rstate G) (p : ind_settings S) c inner pf fuel sd,
  faithful nt -> ind_writable p -> crowd_accepted p -> i_move p = Brownian c -> run_seed as_u128 (i_seed p) (i_hash p) = Ok sd ->
  exists head ts g o, crowd_program nt as_u128 rng_seed inner pf fuel (ind_part nt p) =
      RunResult (Some (path_in (i_dir p) (i_name nt "RTS_N_PTL_MERGEABLE_SEARCHER" p), append head (lines_text (map (n_sci nt) ts)))) o /\
    file_header (ind_structs nt) 15 (ind_part nt p) = Ok head /\ in_order (crowd_value inner pf p c) (rng_seed sd) ts g /\
    ((o = Ok tt /\ length ts = i_num p) \/ (length ts < i_num p /\ (o = Fuel \/ (o = Err TooLargeTimeStep /\ crowd_refusal inner pf p c g)))).
Proof. exact @crowd_file. Qed.
Print Assumptions C67_run_file.

(** There is at most one value from a given state of the generator: the seed determines the file, up to the place where a run that fails ends. *)
Theorem C67_value_determined : forall (S : scalar) (G : rng S) inner pf (p : ind_settings S) c (g g' g'' : rstate G) t u,
  crowd_value inner pf p c g t g' -> crowd_value inner pf p c g u g'' -> t = u /\ g' = g''.
Proof. intros S G inner pf p c g g' g'' t u. exact (crowd_value_same inner pf p c g t g' u g''). Qed.
Print Assumptions C67_value_determined.

(** A seed that overflows, a size that is not positive, a system without dimensions, a negative step or time limit: the program panics before it creates a file. *)
Theorem C67_nothing_written : forall (S : scalar) (G : rng S) (nt : numtext S) as_u128 (rng_seed : N -> rstate G) (p : ind_settings S) inner pf fuel,
  (run_seed as_u128 (i_seed p) (i_hash p) = Panic \/
    (exists sd, run_seed as_u128 (i_seed p) (i_hash p) = Ok sd) /\ ((i_size p <=? s0)%S = true \/ i_dim p = 0 \/ (i_dt p <? s0)%S = true \/ (i_tmax p <? s0)%S = true)) ->
  crowd_program nt as_u128 rng_seed inner pf fuel (ind_part nt p) = RunResult None Panic.
Proof. exact @crowd_nothing. Qed.
Print Assumptions C67_nothing_written.

(** The file of a run, finished or not, is a data file of the analysis; reading it gives back all 13 values, and a run with the values read gives the same file. *)
Theorem C67_run_again : forall (S : scalar) (nt : numtext S) r (p : ind_settings S) c (G : rng S) as_u128 (rng_seed : N -> rstate G) inner pf fuel sd,
  faithful nt -> rereads nt r -> ind_writable p -> crowd_accepted p -> i_move p = Brownian c -> run_seed as_u128 (i_seed p) (i_hash p) = Ok sd ->
  exists path text o ts v ls, crowd_program nt as_u128 rng_seed inner pf fuel (ind_part nt p) = RunResult (Some (path, text)) o /\
    directory_file nt (ind_structs nt) no_sim 15 (number_line nt) (Some (ind_part nt p, tt, ts)) text /\
    read_data (ind_structs nt) no_sim text = Ok (v, tt, ls) /\
    crowd_program nt as_u128 rng_seed inner pf fuel v = RunResult (Some (path, text)) o.
Proof.
  intros S nt r p c G as_u128 rng_seed inner pf fuel sd F R W A M Hs. destruct (crowd_file nt as_u128 rng_seed p c inner pf fuel sd F W A M Hs) as (head & ts & g & o & E & Hh & _).
  destruct (crowd_reads nt r F R p ts head W Hh) as (ls & E2). do 3 eexists. exists ts, (ind_part nt p). eexists. split; [exact E|]. split; [exact (crowd_is_file nt p ts head W Hh)|]. split; [exact E2|exact E].
Qed.
Print Assumptions C67_run_again.

(** The analysis of a directory of such files: each group has the number, the mean and the deviation of exactly the values of its data set, each data set has a group, no
    two groups the same data set. *)
Theorem C67_groups : forall (S : scalar) (nt : numtext S) r, faithful nt -> rereads nt r -> forall sip req files texts gs,
  Forall2 (directory_file nt (ind_structs nt) no_sim 15 (number_line nt)) files texts -> ind_groups nt sip req texts = Ok gs ->
  (forall v a, In (v, a) gs -> (exists s xs, In (Some (v, s, xs)) files) /\
     let xs := map r (data_of sip (ind_values nt) v files) in let n := of_Z (Z.of_nat (length xs)) in
     ta_ens a = length xs /\ ta_mean a = (fold_left add xs s0 / n)%S /\
     ta_sq a = fsqrt (fold_left (fun s x => s + x * x) xs s0 / n - fold_left add xs s0 / n * (fold_left add xs s0 / n))%S) /\
  (forall v s xs, In (Some (v, s, xs)) files -> exists w a, In (w, a) gs /\ same_dataset sip (ind_values nt w) (ind_values nt v) = true) /\
  ForallOrdPairs (fun e e' => same_dataset sip (ind_values nt (fst e)) (ind_values nt (fst e')) = false) gs.
Proof. exact @ind_groups_hold. Qed.
Print Assumptions C67_groups.

(** The files the analysis writes: the summary with one row for each group, and two histograms for each group, all under different names. *)
Theorem C67_result_files : forall (S : scalar) (nt : numtext S) r, faithful nt -> rereads nt r -> forall show_e : S -> string, (forall x, number_word (show_e x)) ->
  forall prefix sip dir req files texts out,
  Forall2 (directory_file nt (ind_structs nt) no_sim 15 (number_line nt)) files texts -> ind_analyze nt show_e sip prefix dir req texts = Ok out ->
  exists gs brief, ind_groups nt sip req texts = Ok gs /\
    map fst out = path_in dir "brief_result.dat" :: flat_map (fun g => [path_in dir (path_in "linear_distribution" (ind_file nt prefix (fst g))); path_in dir (path_in "logarithmic_distribution" (ind_file nt prefix (fst g)))]) gs /\
    NoDup (map fst out) /\
    In (path_in dir "brief_result.dat", brief) out /\
    rows_of brief ((["sys_size"; "dim"; "target_size"; "num_agent"; "dt"; "idx_set"; "ensemble"; "mean"; "stddev"]) :: map (fun g => summary_words show_e (ind_entries nt (fst g)) (snd g)) gs) /\
    (forall v a, In (v, a) gs -> exists lin lg t1 t2, ta_export_lin a = Ok lin /\ ta_export_log a = Ok lg /\
       In (path_in dir (path_in "linear_distribution" (ind_file nt prefix v)), t1) out /\ rows_of t1 (map (histogram_words show_e) lin) /\
       In (path_in dir (path_in "logarithmic_distribution" (ind_file nt prefix v)), t2) out /\ rows_of t2 (map (histogram_words show_e) lg)).
Proof. exact @ind_writes. Qed.
Print Assumptions C67_result_files.

(** A call with the words of an analysis writes these files and no other, with the names beginning "RTS_N_PTL_MERGEABLE_Agent" (unlike those of the data files). *)
Theorem C67_analysis_command : forall (S : scalar) (G : rng S) (nt : numtext S) as_u128 (rng_seed : N -> rstate G) ws req dir prog inner pf fuel show_e sip texts summary,
  analysis_words nt ws req dir ->
  crowd_main nt as_u128 rng_seed inner pf fuel show_e sip texts summary (prog :: ws) =
    match ind_analyze nt show_e sip "RTS_N_PTL_MERGEABLE_Agent" (summary dir) req (texts dir) with
    | Ok fs => (fs, Ok tt) | Err e => ([], Err e) | Panic => ([], Panic) | Fuel => ([], Fuel)
    end.
Proof. exact @crowd_main_analyzes. Qed.
Print Assumptions C67_analysis_command.
(** The same for the program of C66. *)
Theorem C66_analysis_command : forall (S : scalar) (G : rng S) (nt : numtext S) as_u128 (rng_seed : N -> rstate G) ws req dir inner pf fuel show_e sip texts summary,
  analysis_words nt ws req dir ->
  race_main nt as_u128 rng_seed inner pf fuel show_e sip texts summary ws =
    match ind_analyze nt show_e sip "RTS_N_PTL_INDEP_Agent_SYS_SIZE" (summary dir) req (texts dir) with
    | Ok fs => (fs, Ok tt) | Err e => ([], Err e) | Panic => ([], Panic) | Fuel => ([], Fuel)
    end.
Proof. exact @race_main_analyzes. Qed.
Print Assumptions C66_analysis_command.

(** The analysis succeeds on every such directory, if the histograms can count all values (C36 and C55 give conditions on doubles for this). *)
Theorem C67_analysis_succeeds : forall (S : scalar) (nt : numtext S) r show_e sip prefix dir req mn mx size lsize (a0 : tana S) files texts, faithful nt -> rereads nt r ->
  bin_sizes req = Ok (mn, mx, size, lsize) -> ta_fresh mn mx size lsize = Ok a0 -> (forall xs, exists a, ta_adds a0 xs = Ok a) ->
  Forall2 (directory_file nt (ind_structs nt) no_sim 15 (number_line nt)) files texts ->
  exists out, ind_analyze nt show_e sip prefix dir req texts = Ok out.
Proof. exact @ind_analysis_succeeds. Qed.
Print Assumptions C67_analysis_succeeds.

(** Limit of C67: a search that succeeds in the first step is recorded as zero, as one that does not succeed within the time limit. *)
Theorem C67_first_step_is_zero_counterexample : forall (S : scalar) (G : rng S) inner pf (p : ind_settings S) c (g : rstate G) t g' ps g1 i,
  crowd_value inner pf p c g t g' -> sampled (new_place inner pf p c) g ps g1 -> length ps = i_agents p ->
  crowd_found (sc_check_bc (circ_core (G := G) (i_system p))) (i_the_target p) c (i_dt p) (i_dim p) ps g1 0 i -> t = s0.
Proof. exact @crowd_first_step. Qed.
Print Assumptions C67_first_step_is_zero_counterexample.
(** Limit of C67: without searchers every value is zero. *)
Theorem C67_no_searchers_counterexample : forall (S : scalar) (G : rng S) inner pf (p : ind_settings S) c (g : rstate G) t g', i_agents p = 0 -> crowd_value inner pf p c g t g' -> t = s0.
Proof. exact @crowd_nobody. Qed.
Print Assumptions C67_no_searchers_counterexample.
(** Limit of C67: the initial positions on the command line have no effect on the values. *)
Theorem C67_start_ignored_counterexample : forall (S : scalar) (G : rng S) inner pf size dim tgt ts mv ini ini' n dt tmax num idx seed dir c (g : rstate G) t g',
  crowd_value inner pf (IndSettings S size dim tgt ts mv ini n dt tmax num idx seed dir) c g t g' <->
  crowd_value inner pf (IndSettings S size dim tgt ts mv ini' n dt tmax num idx seed dir) c g t g'.
Proof. intros. split; intros H; exact H. Qed.
Print Assumptions C67_start_ignored_counterexample.
(** Limit of C67: runs with different [idx_set], made to enlarge the ensemble, are never averaged together (doubles, no collision of the two digests). *)
Theorem C67_f64_idx_set_not_averaged_counterexample : forall lm (nt : numtext (car (F64 lm))) sip (p q : ind_settings (F64 lm)), i_idx p < i_idx q -> (Z.of_nat (i_idx q) <= 900000)%Z ->
  let a := ind_values nt (ind_part nt p) in let b := ind_values nt (ind_part nt q) in
  (sip (keys (S := F64 lm) a) = sip (keys (S := F64 lm) b) -> keys (S := F64 lm) a = keys (S := F64 lm) b) -> same_dataset (S := F64 lm) sip a b = false.
Proof. exact idx_apart. Qed.
Print Assumptions C67_f64_idx_set_not_averaged_counterexample.

(** * The hypotheses are met *)
(** By the call of Properties_Program3: "10 2 0,0 1 1 Uniform 3 0.5 100 4 1 42 data". *)
Example crowd_p_accepted : forall lm, crowd_accepted (race_p lm).
Proof. intros lm. constructor; [apply race_p_accepted|vm_compute; reflexivity|vm_compute; reflexivity]. Qed.
Example crowd_p_file : forall lm (G : rng (F64 lm)) (rng_seed : N -> rstate G) inner pf fuel, exists text o ts,
  crowd_program (prog_text lm) b64_as_u128 rng_seed inner pf fuel (ind_part (prog_text lm) (race_p lm)) =
    RunResult (Some (path_in "data" (i_name (prog_text lm) "RTS_N_PTL_MERGEABLE_SEARCHER" (race_p lm)), text)) o /\
  Forall2 (directory_file (prog_text lm) (ind_structs (prog_text lm)) no_sim 15 (number_line (prog_text lm))) [Some (ind_part (prog_text lm) (race_p lm), tt, ts)] [text].
Proof.
  intros lm G rng_seed inner pf fuel. destruct (prog_text_faithful lm) as [F _]. destruct (race_p_seed lm) as (sd & Hs).
  destruct (C67_run_file _ G (prog_text lm) b64_as_u128 rng_seed (race_p lm) _ inner pf fuel sd F (race_p_writable lm) (crowd_p_accepted lm) eq_refl Hs) as (head & ts & g & o & E & Hh & _).
  do 2 eexists. exists ts. split; [exact E|]. constructor; [|constructor]. exact (crowd_is_file (prog_text lm) (race_p lm) ts head (race_p_writable lm) Hh).
Qed.
(** With the generator of Properties_Search the first searcher finds a target of size 1 in the second step (0.5, after four moves of two coordinates), and one of size 3 in the
    first step, which is recorded as 0. *)
Definition crowd_demo (lm : libm) (p : ind_settings (F64 lm)) : option (Z * bool * bool) :=
  match ll_from (indep_convert_from (indep_of_args (prog_text lm) (i_agent_part (prog_text lm) p))) with
  | Ok l =>
    match crowd_sample (S := F64 lm) (G := down_rng lm) 3 3 9 (circ_core (i_system p)) (i_the_target p) (i_dt p) (crowd_clock p) l (repeat (s0 (s := F64 lm)) 2) 0%Z with
    | (_, _, g, Ok t) => Some (g, Beqb (t : b64) (lit (s := F64 lm) 1 2), Beqb (t : b64) (s0 (s := F64 lm))) | _ => None
    end
  | _ => None
  end.
Example crowd_p_value : forall lm, crowd_demo lm (race_p lm) = Some (8%Z, true, false).
Proof. intros lm. vm_compute. reflexivity. Qed.
Example crowd_p_first_step : forall lm,
  crowd_demo lm (IndSettings (F64 lm) (b64_of_Z 10) 2 [b64_of_Z 0; b64_of_Z 0] (b64_of_Z 3) (Brownian (b64_of_Z 1 : F64 lm)) Uniform 3 (lit (s := F64 lm) 1 2) (b64_of_Z 100) 4 1 42 "data") =
    Some (2%Z, false, true).
Proof. intros lm. vm_compute. reflexivity. Qed.
