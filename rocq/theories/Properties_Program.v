(** Properties C54 to C56: the program examples/mfpt_exp.rs from the command line to the data file, the analysis of a directory of data files, the seeds.
    Statements use [Model_Program] and the vocabulary of [Spec_Program]: [settings] (the 18 values of a call), [command] (they stand on the command line),
    [writable], [accepted], [directory_file] (a data file with its configuration and data, or a file whose configuration cannot be read), [rereads]
    (what reading gives for a number written with five digits), [data_of] (the data of all files of one data set), [rows_of] (the lines of a text, cut at white space). *)
From Coq Require Import String Ascii NArith Reals ZArith List Lra Lia.
From Flocq.IEEE754 Require Import BinarySingleNaN.
From Verif Require Import Base Scalar Float64 Model_LinkedList Model_Position Model_System Spec_System Model_Agent Spec_Agent Model_Time Model_Text Spec_Text Proof_Text Proof_Text3 Proof_Text4
  Model_Args Spec_Args Proof_Args Proof_Args2 Proof_Args3 Model_Analysis Spec_Analysis Proof_Analysis10 Model_Run Spec_Run Spec_Run2 Model_Program Spec_Program
  Proof_Program Proof_Program2 Proof_Program3 Proof_Program4 Proof_Program5 Proof_Program6.
Import ListNotations.
Local Open Scope nat_scope.
Local Open Scope string_scope.
Local Open Scope list_scope.
Local Notation length := List.length.

(** * C54: from the command line to the data file and back *)
(** A call with the words of the settings runs the program with exactly these values; nothing else is written. *)
Theorem C54_command_line : forall (S : scalar) (G : rng S) (nt : numtext S) as_u128 (rng_seed : N -> rstate G) (p : settings S) ws prog inner pf fuel show_e sip texts summary,
  command nt p ws ->
  exp_main nt as_u128 rng_seed inner pf fuel show_e sip texts summary (prog :: ws) =
    (let r := exp_program nt as_u128 rng_seed inner pf fuel (data_part nt p) (sim_part p) in (match rr_file r with Some f => [f] | None => [] end, rr_end r)).
Proof. exact @main_runs. Qed.
Print Assumptions C54_command_line.

(** The run leaves one file, at the path that shows the parameters, with the configuration and one line for each finished search.  Every value is a time of
    the clock or 0; a run that ends normally has all of them, any other ends by a refused step (or the fuel of the model) and has fewer; it never panics. *)
Theorem C54_run_file : forall (S : scalar) (G : rng S) (nt : numtext S) as_u128 (rng_seed : N -> rstate G) (p : settings S) inner pf fuel sd,
  faithful nt -> writable p -> accepted p -> run_seed as_u128 (p_seed p) (run_hash p) = Ok sd ->
  exists head ts o, exp_program nt as_u128 rng_seed inner pf fuel (data_part nt p) (sim_part p) = RunResult (Some (run_path nt p, head ++ lines_text (map (n_sci nt) ts))%string) o /\
    file_header (exp_structs nt ++ [varsim_spec]) 15 (join_args (exp_structs nt) (data_part nt p) (sim_part p)) = Ok head /\
    Forall (exp_value (diff_next es_next es_dt) (run_clock p)) ts /\
    ((o = Ok tt /\ length ts = p_num p) \/ (length ts < p_num p /\ (o = Fuel \/ o = Err TooLargeTimeStep))).
Proof. exact @run_outcomes. Qed.
Print Assumptions C54_run_file.

(** Dimensions that do not agree: the program panics, after it has written the configuration. *)
Theorem C54_dimension_mismatch_panics : forall (S : scalar) (G : rng S) (nt : numtext S) as_u128 (rng_seed : N -> rstate G) (p : settings S) inner pf fuel,
  faithful nt -> writable p -> (p_size p <=? s0)%S = false -> p_dim p <> 0 -> p_idim p <> p_dim p -> p_init p = Uniform ->
  (p_tmax p <? s0)%S = false -> (p_dtmin p <? s0)%S = false -> (p_dtmax p <? p_dtmin p)%S = false -> 10 <= p_len p ->
  exists head, file_header (exp_structs nt ++ [varsim_spec]) 15 (join_args (exp_structs nt) (data_part nt p) (sim_part p)) = Ok head /\
    exp_program nt as_u128 rng_seed inner pf fuel (data_part nt p) (sim_part p) = RunResult (Some (run_path nt p, head)) Panic.
Proof. exact @run_dim. Qed.
Print Assumptions C54_dimension_mismatch_panics.

(** The file of a run tells how to repeat it: reading it gives back all the values, and a call with them gives the same file. *)
Theorem C54_run_again : forall (S : scalar) (nt : numtext S) r (p : settings S) (G : rng S) as_u128 (rng_seed : N -> rstate G) inner pf fuel sd,
  faithful nt -> rereads nt r -> writable p -> accepted p -> run_seed as_u128 (p_seed p) (run_hash p) = Ok sd ->
  exists path text o v s ls, exp_program nt as_u128 rng_seed inner pf fuel (data_part nt p) (sim_part p) = RunResult (Some (path, text)) o /\
    read_data (exp_structs nt) varsim_spec text = Ok (v, s, ls) /\
    exp_program nt as_u128 rng_seed inner pf fuel v s = RunResult (Some (path, text)) o.
Proof.
  intros S nt r p G as_u128 rng_seed inner pf fuel sd F R W A H. destruct (run_again nt r F R p G as_u128 rng_seed inner pf fuel sd W A H) as (path & text & o & ls & E1 & E2).
  exists path, text, o, (data_part nt p), (sim_part p), (data_line :: ls). auto.
Qed.
Print Assumptions C54_run_again.

(** Whatever a run leaves - all values, only some, or the configuration alone - is a data file of the directory. *)
Theorem C54_run_leaves_data_file : forall (S : scalar) (nt : numtext S) (p : settings S) (G : rng S) as_u128 (rng_seed : N -> rstate G) inner pf fuel path text o,
  faithful nt -> writable p -> accepted p ->
  exp_program nt as_u128 rng_seed inner pf fuel (data_part nt p) (sim_part p) = RunResult (Some (path, text)) o ->
  exists ts, directory_file nt (exp_structs nt) varsim_spec 15 (number_line nt) (Some (data_part nt p, sim_part p, ts)) text.
Proof. intros S nt p G as_u128 rng_seed inner pf fuel path text o F. exact (run_is_file nt F p G as_u128 rng_seed inner pf fuel path text o). Qed.
Print Assumptions C54_run_leaves_data_file.

(** Analysing the texts of a directory is the analysis of C37 to C41 of the parameters and the values as they are read back: one number per line, *)
Theorem C54_time_data_read : forall (S : scalar) (nt : numtext S) r specs sim width (values : all_args specs -> list S) sip, faithful nt -> rereads nt r -> incl (specs ++ [sim]) (all_specs nt) ->
  forall mn mx size lsize files texts, Forall2 (directory_file nt specs sim width (number_line nt)) files texts ->
  report values (analyze_dir specs sim values sip (ta_fresh mn mx size lsize) (ta_text_line nt) ta_draw (fun _ => false) texts) =
  ta_analyze sip mn mx size lsize (map (as_read values r) files).
Proof. intros S nt r specs sim width values sip F R I mn mx size lsize. exact (time_files nt r specs sim width values sip mn mx size lsize F R (known_incl nt _ I)). Qed.
Print Assumptions C54_time_data_read.
(** a number for each column, *)
Theorem C54_vector_data_read : forall (S : scalar) (nt : numtext S) r specs sim width (values : all_args specs -> list S) sip, faithful nt -> rereads nt r -> incl (specs ++ [sim]) (all_specs nt) ->
  forall mn mx size lsize n files texts, Forall2 (directory_file nt specs sim width (vector_line nt)) files texts ->
  report values (analyze_dir specs sim values sip (tv_fresh mn mx size lsize n) (tv_text_line nt) tv_draw (fun a => Nat.eqb (tv_ens a) 0) texts) =
  tv_analyze sip mn mx size lsize n (map (as_read values (map r)) files).
Proof. intros S nt r specs sim width values sip F R I mn mx size lsize. exact (vector_files nt r specs sim width values sip mn mx size lsize F R (known_incl nt _ I)). Qed.
Print Assumptions C54_vector_data_read.
(** or pairs "(time,value)". *)
Theorem C54_process_data_read : forall (S : scalar) (nt : numtext S) r specs sim width (values : all_args specs -> list S) sip, faithful nt -> rereads nt r -> incl (specs ++ [sim]) (all_specs nt) ->
  forall mn mx size lsize files texts, Forall2 (directory_file nt specs sim width (process_line nt)) files texts ->
  report values (analyze_dir specs sim values sip (pa_fresh mn mx size lsize) (pa_text_line nt) pa_draw (fun a => Nat.eqb (pa_ens a) 0) texts) =
  pa_analyze sip mn mx size lsize (map (as_read values (map (both r))) files).
Proof. intros S nt r specs sim width values sip F R I mn mx size lsize. exact (process_files nt r specs sim width values sip mn mx size lsize F R (known_incl nt _ I)). Qed.
Print Assumptions C54_process_data_read.

(** The results of the analysis of a directory of runs: one for each data set of a file, with the number, mean and deviation of the values of all its files. *)
Theorem C54_groups : forall (S : scalar) (nt : numtext S) r, faithful nt -> rereads nt r -> forall sip req files texts gs,
  Forall2 (directory_file nt (exp_structs nt) varsim_spec 15 (number_line nt)) files texts -> exp_groups nt sip req texts = Ok gs ->
  (forall v a, In (v, a) gs -> (exists s xs, In (Some (v, s, xs)) files) /\
     let xs := map r (data_of sip (exp_values nt) v files) in let n := of_Z (Z.of_nat (length xs)) in
     ta_ens a = length xs /\ ta_mean a = (fold_left add xs s0 / n)%S /\
     ta_sq a = fsqrt (fold_left (fun s x => s + x * x) xs s0 / n - fold_left add xs s0 / n * (fold_left add xs s0 / n))%S) /\
  (forall v s xs, In (Some (v, s, xs)) files -> exists w a, In (w, a) gs /\ same_dataset sip (exp_values nt w) (exp_values nt v) = true) /\
  ForallOrdPairs (fun e e' => same_dataset sip (exp_values nt (fst e)) (exp_values nt (fst e')) = false) gs.
Proof. exact @groups_hold. Qed.
Print Assumptions C54_groups.

(** Interrupted runs: a data file cut at the end of any line.  If the configuration is not complete the file is skipped, otherwise it is read with the values up to the cut. *)
Theorem C54_cut_file : forall specs sim text text' k v s ls, read_data specs sim text = Ok (v, s, ls) -> text_lines text' = firstn k (text_lines text) ->
  let n := fold_right (fun sp m => length (a_fields sp) + m) 0 (specs ++ [sim]) in
  (k <= n -> 0 < n -> read_data specs sim text' = Err InvalidFile) /\ (n < k -> read_data specs sim text' = Ok (v, s, firstn (k - n - 1) ls)).
Proof. exact cut_file. Qed.
Print Assumptions C54_cut_file.

(** Other files in the directory are skipped if they have fewer than two lines or the second line does not have exactly one colon ... *)
Theorem C54_other_files_skipped : forall (S : scalar) (nt : numtext S) text,
  (length (text_lines text) <= 1 \/ exists l1 l2 ls, text_lines text = l1 :: l2 :: ls /\ forall a b, without ":" a -> without ":" b -> l2 <> (a ++ ":" ++ b)%string) ->
  exists e, read_data (exp_structs nt) varsim_spec text = Err e /\ directory_file nt (exp_structs nt) varsim_spec 15 (number_line nt) None text.
Proof.
  intros S nt text [H|(l1 & l2 & ls & E & H)].
  - exists InvalidFile. pose proof (short_file nt text H) as X. split; [exact X|]. econstructor. exact X.
  - exists InvalidFormat. assert (X : read_data (exp_structs nt) varsim_spec text = Err InvalidFormat).
    { apply (other_file nt text l1 l2 ls E). intros L. destruct (split_on (is_char ":") l2) as [|a [|b [|]]] eqn:Es; try discriminate L.
      destruct (cut_two _ _ _ _ Es) as (c & E2 & Hc & Ha & Hb). apply (H a b).
      - revert Ha. apply all_impl. intros x Hx ->. discriminate Hx.
      - revert Hb. apply all_impl. intros x Hx ->. discriminate Hx.
      - rewrite E2. unfold is_char in Hc. apply Ascii.eqb_eq in Hc. now subst c. }
    split; [exact X|]. econstructor. exact X.
Qed.
Print Assumptions C54_other_files_skipped.
(** Limit of C54: ... but a note with a line "author: me" makes the whole analysis panic. *)
Theorem C54_note_in_directory_panics_counterexample : forall (S : scalar) (nt : numtext S) sip req b, bin_sizes req = Ok b ->
  exp_groups nt sip req ["notes" ++ newline ++ "author: me" ++ newline]%string = Panic.
Proof. intros S nt sip req [[[mn mx] size] lsize] H. unfold exp_groups. rewrite H. reflexivity. Qed.
Print Assumptions C54_note_in_directory_panics_counterexample.

(** * C55: the files an analysis writes *)
(** One summary and two histograms for each data set, all with different names; the summary has a title line and a row for each data set, with its parameters and
    mean, deviation and number of samples; the rows of the histograms are those of C38. *)
Theorem C55_result_files : forall (S : scalar) (nt : numtext S) (show_e : S -> string) r, faithful nt -> rereads nt r -> (forall x, number_word (show_e x)) ->
  forall sip dir req files texts out, Forall2 (directory_file nt (exp_structs nt) varsim_spec 15 (number_line nt)) files texts ->
  exp_analyze nt show_e sip dir req texts = Ok out ->
  exists gs brief, exp_groups nt sip req texts = Ok gs /\
    map fst out = path_in dir "brief_result.dat" :: flat_map (fun g => [path_in dir (path_in "linear_distribution" (group_name nt (fst g))); path_in dir (path_in "logarithmic_distribution" (group_name nt (fst g)))]) gs /\
    NoDup (map fst out) /\
    In (path_in dir "brief_result.dat", brief) out /\
    rows_of brief (["sys_size"; "dim"; "target_size"; "gamma"; "strength"; "num_agent"; "dt_min"; "dt_max"; "length"; "tmax"; "ensemble"; "mean"; "stddev"] ::
                   map (fun g => summary_words show_e (exp_entries nt (fst g)) (snd g)) gs) /\
    (forall v a, In (v, a) gs -> exists lin lg t1 t2, ta_export_lin a = Ok lin /\ ta_export_log a = Ok lg /\
       In (path_in dir (path_in "linear_distribution" (group_name nt v)), t1) out /\ rows_of t1 (map (histogram_words show_e) lin) /\
       In (path_in dir (path_in "logarithmic_distribution" (group_name nt v)), t2) out /\ rows_of t2 (map (histogram_words show_e) lg)).
Proof. exact @analysis_writes. Qed.
Print Assumptions C55_result_files.

(** Data sets with different file names have different parameters, and equal names mean equal parameters. *)
Theorem C55_names_identify : forall (S : scalar) (nt : numtext S) v w, faithful nt -> group_name nt v = group_name nt w <-> exp_entries nt v = exp_entries nt w.
Proof. intros S nt v w F. split; [now apply name_inj|]. intros E. unfold group_name. now rewrite E. Qed.
Print Assumptions C55_names_identify.

(** The analysis cannot fail if no value can make a histogram fail ... *)
Theorem C55_analysis_succeeds : forall (S : scalar) (nt : numtext S) r show_e sip dir req mn mx size lsize (a0 : tana S) files texts, faithful nt -> rereads nt r ->
  bin_sizes req = Ok (mn, mx, size, lsize) -> ta_fresh mn mx size lsize = Ok a0 -> (forall xs, exists a, ta_adds a0 xs = Ok a) ->
  Forall2 (directory_file nt (exp_structs nt) varsim_spec 15 (number_line nt)) files texts ->
  exists out, exp_analyze nt show_e sip dir req texts = Ok out.
Proof. exact @analysis_succeeds. Qed.
Print Assumptions C55_analysis_succeeds.
(** ... as with doubles and bins given by their size (see C37). *)
Theorem C55_f64_analysis_succeeds : forall lm (nt : numtext (car (F64 lm))) r show_e sip dir (mn mx size lsize : b64) (a0 : tana (F64 lm)) files texts,
  faithful nt -> rereads nt r -> ta_fresh (S := F64 lm) mn mx size lsize = Ok a0 -> sane_log2 lm ->
  let m : b64 := raised (S := F64 lm) mn in
  let q := Bdiv mode_NE (Bminus mode_NE mx m) size in
  let lq := Bdiv mode_NE (m_log2 lm (Bdiv mode_NE mx m)) (m_log2 lm lsize) in
  is_finite m = true -> is_finite mx = true -> is_finite size = true -> (0 < B2R m <= B2R mx)%R -> (0 < B2R size)%R -> is_finite q = true -> (B2R q < IZR (2 ^ 52))%R ->
  is_finite (Bdiv mode_NE mx m) = true -> is_finite (m_log2 lm lsize) = true -> (0 < B2R (m_log2 lm lsize))%R -> is_finite lq = true -> (B2R lq < IZR (2 ^ 52))%R ->
  Forall2 (directory_file nt (exp_structs nt) varsim_spec 15 (number_line nt)) files texts ->
  exists out, exp_analyze nt show_e sip dir (BySize (S := F64 lm) mn mx size lsize) texts = Ok out.
Proof.
  intros lm nt r show_e sip dir mn mx size lsize a0 files texts F R Fr L m q lq H1 H2 H3 H4 H5 H6 H7 H8 H9 H10 H11 H12 H.
  apply (analysis_succeeds nt r show_e sip dir (BySize (S := F64 lm) mn mx size lsize) mn mx size lsize a0 files texts F R eq_refl Fr); [|exact H].
  exact (f64_safe lm mn mx size lsize a0 Fr L H1 H2 H3 H4 H5 H6 H7 H8 H9 H10 H11 H12).
Qed.
Print Assumptions C55_f64_analysis_succeeds.

(** Limit of C55: in every row of the summary the word under the title "ensemble" is the mean, and the number of samples stands under "stddev". *)
Theorem C55_ensemble_column_is_mean_counterexample : forall (S : scalar) (nt : numtext S) (show_e : S -> string) (v : all_args (exp_structs nt)) (a : tana S),
  nth_error (["sys_size"; "dim"; "target_size"; "gamma"; "strength"; "num_agent"; "dt_min"; "dt_max"; "length"; "tmax"; "ensemble"; "mean"; "stddev"]) 10 = Some "ensemble" /\
  nth_error (summary_words show_e (exp_entries nt v) a) 10 = Some (show_e (ta_mean a)) /\
  nth_error (summary_words show_e (exp_entries nt v) a) 12 = Some (show_usize (ta_ens a)).
Proof.
  intros S nt show_e v a. destruct v as ((? & ? & ? & ? & ?) & (? & ? & ? & ?) & (? & ? & ? & ? & ? & ? & ? & ?) & (? & ? & ? & ? & ?) & ?). repeat split.
Qed.
Print Assumptions C55_ensemble_column_is_mean_counterexample.

(** * C56: seeds *)
(** Exact arithmetic: runs that differ only in idx_set have seeds that differ by 570914867 for each step of the index. *)
Theorem C56_exact_seeds : forall (size ts st g : RR) dim n i j seed s t,
  let h k : R := seed_hash (S := RR) size dim ts n st g k in
  (0 <= h i < IZR (2 ^ 128))%R -> (0 <= h j < IZR (2 ^ 128))%R ->
  run_seed (S := RR) R_as_u128 seed (h i) = Ok s -> run_seed (S := RR) R_as_u128 seed (h j) = Ok t ->
  (Z.of_N s - Z.of_N t = 570914867 * (Z.of_nat i - Z.of_nat j))%Z.
Proof. exact real_seeds. Qed.
Print Assumptions C56_exact_seeds.

(** Doubles: as long as the hash is not negative and at most 2^53 the seed grows with the index, so no two index sets repeat the same random numbers. *)
Theorem C56_f64_seeds_increase : forall lm (size ts st g : F64 lm) dim n i j seed s t,
  let h k : b64 := seed_hash (S := F64 lm) size dim ts n st g k in
  is_finite (h 0%nat) = true -> (0 <= B2R (h 0%nat))%R -> (B2R (h 0%nat) + 570914867 * INR j <= IZR (2 ^ 53))%R -> i < j ->
  run_seed (S := F64 lm) b64_as_u128 seed (h i) = Ok s -> run_seed (S := F64 lm) b64_as_u128 seed (h j) = Ok t -> (s < t)%N.
Proof. exact f64_seeds_lt. Qed.
Print Assumptions C56_f64_seeds_increase.

(** Runs with the same parameters and the same resulting seed write the same data, whatever their index, seed argument and directory. *)
Theorem C56_same_seed_same_data : forall (S : scalar) (G : rng S) (nt : numtext S) as_u128 (rng_seed : N -> rstate G) (p : settings S) idx seed dir inner pf fuel sd,
  faithful nt -> writable p -> writable (with_index p idx seed dir) -> accepted p ->
  run_seed as_u128 (p_seed p) (run_hash p) = Ok sd -> run_seed as_u128 seed (run_hash (with_index p idx seed dir)) = Ok sd ->
  exists head1 head2 ts o, let q := with_index p idx seed dir in
    exp_program nt as_u128 rng_seed inner pf fuel (data_part nt p) (sim_part p) = RunResult (Some (run_path nt p, append head1 (lines_text (map (n_sci nt) ts)))) o /\
    exp_program nt as_u128 rng_seed inner pf fuel (data_part nt q) (sim_part q) = RunResult (Some (run_path nt q, append head2 (lines_text (map (n_sci nt) ts)))) o /\
    file_header (exp_structs nt ++ [varsim_spec]) 15 (join_args (exp_structs nt) (data_part nt p) (sim_part p)) = Ok head1 /\
    file_header (exp_structs nt ++ [varsim_spec]) 15 (join_args (exp_structs nt) (data_part nt q) (sim_part q)) = Ok head2.
Proof. exact @same_seed_data. Qed.
Print Assumptions C56_same_seed_same_data.

(** Limits of C56: for a system of size 1e20, and for a repulsion of strength -20, index sets 1 and 2 get the same seed (and so, by the theorem above, the same data). *)
Theorem C56_large_system_counterexample : forall lm,
  let h k : b64 := seed_hash (S := F64 lm) (b64_of_Z (10 ^ 20)) 2 (b64_of_Z 1) 10 (b64_of_Z 1) (b64_of_Z 1) k in
  run_seed (S := F64 lm) b64_as_u128 7 (h 1) = run_seed (S := F64 lm) b64_as_u128 7 (h 2) /\ exists s, run_seed (S := F64 lm) b64_as_u128 7 (h 1) = Ok s.
Proof. exact large_size. Qed.
Print Assumptions C56_large_system_counterexample.
Theorem C56_negative_strength_counterexample : forall lm,
  let h k : b64 := seed_hash (S := F64 lm) (b64_of_Z 10) 2 (b64_of_Z 1) 3 (b64_of_Z (- 20)) (b64_of_Z 1) k in
  forall seed, (seed <= u128_maxN)%N -> run_seed (S := F64 lm) b64_as_u128 seed (h 1) = Ok seed /\ run_seed (S := F64 lm) b64_as_u128 seed (h 2) = Ok seed.
Proof. exact negative_strength. Qed.
Print Assumptions C56_negative_strength_counterexample.
(** Limit of C56: a seed that overflows 128 bits makes the (debug) program panic. *)
Theorem C56_seed_overflow_counterexample : forall (S : scalar) as_u128 (h : S), (0 < as_u128 h)%N -> run_seed as_u128 u128_maxN h = Panic.
Proof. intros S as_u128 h H. unfold run_seed. cbv zeta. destruct (N.leb_spec (u128_maxN + as_u128 h) u128_maxN); [lia|reflexivity]. Qed.
Print Assumptions C56_seed_overflow_counterexample.

(** * The hypotheses are met *)
(** Doubles with a text form that is faithful for parameters and keeps the whole part of data ([whole]). *)
Definition whole (x : b64) : b64 := b64_of_Z (Btrunc x).
Definition prog_text (lm : libm) : numtext (car (F64 lm)) := NumText b64 b64_show (fun x => b64_show (whole x)) b64_parse (B754_zero false).
Example prog_text_faithful : forall lm, faithful (prog_text lm) /\ rereads (S := F64 lm) (prog_text lm) whole.
Proof.
  intros lm. split.
  - intros x. destruct (b64_faithful x) as (H1 & H2 & _). destruct (b64_faithful (whole x)) as (_ & H3 & _). repeat split; try exact H1; try apply H2; try apply H3.
  - intros x. exact (proj1 (b64_faithful (whole x))).
Qed.
(** The call "10 2 0,0 1 1 Uniform 1 2 1 20 0.25 1 10 100 1000 1 42 data" (numbers in this text form). *)
Definition demo_p (lm : libm) : settings (F64 lm) :=
  Settings (F64 lm) (b64_of_Z 10) 2 [b64_of_Z 0; b64_of_Z 0] (b64_of_Z 1) (Brownian (b64_of_Z 1 : F64 lm)) Uniform (b64_of_Z 1) 2 (b64_of_Z 1) 20
    (lit (s := F64 lm) 1 4) (b64_of_Z 1) 10 (b64_of_Z 100) 1000 1 42 "data".
Example demo_writable : forall lm, writable (demo_p lm).
Proof.
  intros lm. constructor; cbn [demo_p p_dim p_target p_init p_idim p_agents p_len p_num p_idx p_seed p_dir]; try reflexivity; try discriminate.
  split; [now apply lit_one_line|]. split; right; [exists "d"%char, "ata"|exists "dat", "a"%char]; (split; [reflexivity|]); cbn; lia.
Qed.
Example demo_accepted : forall lm, accepted (demo_p lm).
Proof.
  intros lm. constructor; cbn [demo_p p_size p_dim p_target p_init p_idim p_move p_len p_tmax p_dtmin p_dtmax]; 
    [vm_compute; reflexivity|discriminate|reflexivity|reflexivity|eexists; reflexivity|discriminate|vm_compute; reflexivity|vm_compute; reflexivity|vm_compute; reflexivity|lia].
Qed.
Example demo_seed : forall lm, run_seed (S := F64 lm) b64_as_u128 (p_seed (demo_p lm)) (run_hash (demo_p lm)) = Ok 23665254044%N.
Proof. intros lm. vm_compute. reflexivity. Qed.

(** C54_command_line: this call, and every call with writable values, has words. *)
Example demo_command : forall lm, exists ws, command (prog_text lm) (demo_p lm) ws.
Proof. intros lm. apply command_exists; [apply prog_text_faithful|apply demo_writable]. Qed.
(** C54_run_file, C54_run_again, C54_run_leaves_data_file: for every generator the call writes a file, which is a file of C54_time_data_read, C54_groups and C55_result_files. *)
Example demo_run : forall lm (G : rng (F64 lm)) (rng_seed : N -> rstate G) inner pf fuel, exists text o ts,
  exp_program (prog_text lm) b64_as_u128 rng_seed inner pf fuel (data_part (prog_text lm) (demo_p lm)) (sim_part (demo_p lm)) = RunResult (Some (run_path (prog_text lm) (demo_p lm), text)) o /\
  directory_file (prog_text lm) (exp_structs (prog_text lm)) varsim_spec 15 (number_line (prog_text lm)) (Some (data_part (prog_text lm) (demo_p lm), sim_part (demo_p lm), ts)) text.
Proof.
  intros lm G rng_seed inner pf fuel. destruct (prog_text_faithful lm) as [F _].
  destruct (C54_run_file _ G (prog_text lm) b64_as_u128 rng_seed (demo_p lm) inner pf fuel _ F (demo_writable lm) (demo_accepted lm) (demo_seed lm)) as (head & ts & o & E & _).
  destruct (C54_run_leaves_data_file _ _ _ G b64_as_u128 rng_seed inner pf fuel _ _ _ F (demo_writable lm) (demo_accepted lm) E) as (ts' & D). eauto.
Qed.
(** C54_dimension_mismatch_panics: the same call with agents of three dimensions. *)
Definition demo_p3 (lm : libm) : settings (F64 lm) :=
  Settings (F64 lm) (b64_of_Z 10) 2 [b64_of_Z 0; b64_of_Z 0] (b64_of_Z 1) (Brownian (b64_of_Z 1 : F64 lm)) Uniform (b64_of_Z 1) 3 (b64_of_Z 1) 20
    (lit (s := F64 lm) 1 4) (b64_of_Z 1) 10 (b64_of_Z 100) 1000 1 42 "data".
Example demo_mismatch : forall lm (G : rng (F64 lm)) (rng_seed : N -> rstate G) inner pf fuel, exists text,
  exp_program (prog_text lm) b64_as_u128 rng_seed inner pf fuel (data_part (prog_text lm) (demo_p3 lm)) (sim_part (demo_p3 lm)) = RunResult (Some (run_path (prog_text lm) (demo_p3 lm), text)) Panic.
Proof.
  intros lm G rng_seed inner pf fuel. destruct (prog_text_faithful lm) as [F _].
  assert (W : writable (demo_p3 lm)).
  { destruct (demo_writable lm) as [W1 W2 W3 W4 W5 W6 W7 W8 W9 W10]. constructor; auto. }
  destruct (demo_accepted lm) as [A1 A2 A3 A4 A5 A6 A7 A8 A9 A10].
  assert (Ne : p_idim (demo_p3 lm) <> p_dim (demo_p3 lm)) by discriminate.
  destruct (C54_dimension_mismatch_panics _ G (prog_text lm) b64_as_u128 rng_seed (demo_p3 lm) inner pf fuel F W A1 A2 Ne eq_refl A7 A8 A9 A10) as (head & _ & E). eauto.
Qed.
(** C54_cut_file and C54_groups: a directory with the file of the call and a file with a single line. *)
Example demo_directory : forall lm (G : rng (F64 lm)) (rng_seed : N -> rstate G) inner pf fuel, exists text ts,
  rr_file (exp_program (prog_text lm) b64_as_u128 rng_seed inner pf fuel (data_part (prog_text lm) (demo_p lm)) (sim_part (demo_p lm))) = Some (run_path (prog_text lm) (demo_p lm), text) /\
  Forall2 (directory_file (prog_text lm) (exp_structs (prog_text lm)) varsim_spec 15 (number_line (prog_text lm)))
    [Some (data_part (prog_text lm) (demo_p lm), sim_part (demo_p lm), ts); None] [text; "todo"%string].
Proof.
  intros lm G rng_seed inner pf fuel. destruct (demo_run lm G rng_seed inner pf fuel) as (text & o & ts & E & D). exists text, ts. rewrite E. split; [reflexivity|].
  constructor; [exact D|]. constructor; [|constructor]. destruct (C54_other_files_skipped _ (prog_text lm) "todo") as (e & _ & H); [left; cbn; lia|exact H].
Qed.
(** C56: for this call the hash is finite, at least 0 and far below 2^53, *)
Example demo_seeds : forall lm i j s t, i < j -> j < 1000 ->
  let h k : b64 := seed_hash (S := F64 lm) (b64_of_Z 10) 2 (b64_of_Z 1) 20 (b64_of_Z 1) (b64_of_Z 1) k in
  run_seed (S := F64 lm) b64_as_u128 42 (h i) = Ok s -> run_seed (S := F64 lm) b64_as_u128 42 (h j) = Ok t -> (s < t)%N.
Proof.
  intros lm i j s t Hij Hj h. assert (E : B2SF (h 0%nat) = SpecFloat.S754_finite false (Z.to_pos (23094339135 * 2 ^ 18)) (- 18)%Z) by (vm_compute; reflexivity).
  assert (E0 : B2R (h 0%nat) = 23094339135%R).
  { rewrite <- SF2R_B2SF, E. unfold SF2R, Defs.F2R. cbn [Defs.Fnum Defs.Fexp]. change (Raux.bpow Zaux.radix2 (-18)%Z) with (/ IZR 262144)%R.
    change (SpecFloat.cond_Zopp false (Z.pos (Z.to_pos (23094339135 * 2 ^ 18)))) with (23094339135 * 262144)%Z. rewrite mult_IZR. field. }
  assert (Hr : (INR j <= 1000)%R) by (replace 1000%R with (INR 1000) by (rewrite INR_IZR_INZ; reflexivity); apply le_INR; lia).
  apply (C56_f64_seeds_increase lm (b64_of_Z 10) (b64_of_Z 1) (b64_of_Z 1) (b64_of_Z 1) 2 20 i j 42 s t); auto.
  - fold (h 0%nat). rewrite E0. lra.
  - fold (h 0%nat). rewrite E0. change (2 ^ 53)%Z with 9007199254740992%Z. lra.
Qed.
(** and the run with index 0 and the seed 42 + 570914867 repeats the data of the run with index 1 and seed 42. *)
Example demo_same_seed : forall lm, writable (with_index (demo_p lm) 0 570914909 "data") /\
  run_seed (S := F64 lm) b64_as_u128 570914909 (run_hash (with_index (demo_p lm) 0 570914909 "data")) = Ok 23665254044%N.
Proof.
  intros lm. split; [|vm_compute; reflexivity]. destruct (demo_writable lm) as [W1 W2 W3 W4 W5 W6 W7 W8 W9 W10]. constructor; auto; reflexivity.
Qed.
