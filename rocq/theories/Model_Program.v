(** Model of the program built by [simulation!] (examples/mfpt_exp.rs, src/setup.rs 49-93) as a whole, and of [analyze]
    (src/analysis.rs 501-610, 864-979, 1246-1362) on the texts of the data files.

    Simplifications: a directory is a list of files, a file is its path and its text; no input/output errors; the debug build
    (integer overflow panics); a panic while the configuration is printed (an empty position, which no text gives) leaves no
    file; the data set is represented by all values read from the file, of which only the listed ones are used. *)
From Coq Require Import String Ascii NArith ZArith.
From Flocq Require Import Core IEEE754.BinarySingleNaN.
From Verif Require Import Base Scalar Model_LinkedList Model_Position Model_System Model_Agent Model_Time Model_Text Model_Args Model_Analysis Model_Run.
Local Open Scope nat_scope.
Local Open Scope string_scope.
Local Open Scope list_scope.
Local Notation length := List.length.

(** ** The data file of a run *)
(** The values of the data set structures followed by those of the simulation structure. *)
(* src/setup.rs 75-93; src/analysis.rs 54-70 [from_file] *)
Fixpoint join_args {sim : argspec} (specs : list argspec) : all_args specs -> args_of sim -> all_args (specs ++ [sim]) :=
  match specs with
  | [] => fun _ s => (s, tt)
  | sp :: r => fun v s => (fst v, join_args r (snd v) s)
  end.
(** One line per value, [{0:.5e}\n]. *)
(* examples/mfpt_exp.rs 81 *)
Definition data_text {S : scalar} (nt : numtext S) (ts : list S) : string :=
  fold_right (fun t acc => n_sci nt t ++ newline ++ acc)%string "" ts.
(** [fs::create_dir_all(dir)], [File::create(format!("{}/{}", dir, filename))]. *)
(* src/setup.rs 56-59 *)
Definition path_in (dir name : string) : string := (dir ++ "/" ++ name)%string.

(** ** Reading the files of a directory *)
Section Texts.
Context {S : scalar} (specs : list argspec) (sim : argspec) (values : all_args specs -> list S) {A : Type}.
Variables (sip : list Z -> Z) (fresh : outcome A) (add_line : A -> string -> outcome A) (draw : A -> outcome A) (empty : A -> bool).
(** [from_file]: the values of the two parts and the lines left. *)
(* src/analysis.rs 54-70 [from_file] *)
Definition read_data (text : string) : outcome (all_args specs * args_of sim * list string) :=
  do '(v, ls) <- read_all specs (tl (text_lines text));
  do '(s, ls') <- read_args_from_lines sim ls; Ok (v, s, ls').
(** [hashmap.get_mut], [hashmap.insert]. *)
(* HashMap entry of the data set in src/analysis.rs 580-589; src/analysis.rs 946-955; src/analysis.rs 1325-1334 *)
Fixpoint insert_data (ds : all_args specs) (xs : list string) (m : list (all_args specs * A)) : outcome (list (all_args specs * A)) :=
  match m with
  | [] => do a <- fresh; do a' <- add_lines add_line a xs; Ok [(ds, a')]
  | (d, a) :: r =>
    if same_dataset sip (values d) (values ds) then do a' <- add_lines add_line a xs; Ok ((d, a') :: r)
    else do r' <- insert_data ds xs r; Ok ((d, a) :: r')
  end.
(** the loop over the directory: a file that [from_file] rejects is skipped, [lines.next()] drops the line before the data. *)
(* src/analysis.rs 567-599; src/analysis.rs 933-965; src/analysis.rs 1312-1348 *)
Fixpoint read_dir (texts : list string) (m : list (all_args specs * A)) : outcome (list (all_args specs * A)) :=
  match texts with
  | [] => Ok m
  | t :: r => match read_data t with
              | Ok (v, _, ls) => do m' <- insert_data v (tl ls) m; read_dir r m'
              | Err _ => read_dir r m
              | Panic => Panic
              | Fuel => Fuel
              end
  end.
(* src/analysis.rs 601-608; src/analysis.rs 967-977; src/analysis.rs 1350-1360 *)
Fixpoint draw_data (m : list (all_args specs * A)) : outcome (list (all_args specs * A)) :=
  match m with
  | [] => Ok []
  | (d, a) :: r => if empty a then draw_data r else do a' <- draw a; do r' <- draw_data r; Ok ((d, a') :: r')
  end.
(* src/analysis.rs 501-610 [analyze]; src/analysis.rs 864-979 [analyze]; src/analysis.rs 1246-1362 [analyze] *)
Definition analyze_dir (texts : list string) : outcome (list (all_args specs * A)) := do m <- read_dir texts []; draw_data m.
End Texts.

(** The lines of the three kinds of data file. *)
Section Lines.
Context {S : scalar} (nt : numtext S).
(* src/analysis.rs 592-596 *)
Definition ta_text_line (a : tana S) (l : string) : outcome (tana S) := do x <- expect (n_parse nt (trim l)); ta_add a x.
(* src/analysis.rs 958-962 *)
Fixpoint parse_all (ws : list string) : outcome (list S) :=
  match ws with [] => Ok [] | w :: r => do x <- expect (n_parse nt w); do xs <- parse_all r; Ok (x :: xs) end.
(* src/analysis.rs 958-962 *)
Definition tv_text_line (a : tvec S) (l : string) : outcome (tvec S) := do xs <- parse_all (split_ws (trim l)); tv_add a xs.
(* src/analysis.rs 1340-1343 *)
Fixpoint pa_words (a : pana S) (ws : list string) : outcome (pana S) :=
  match ws with [] => Ok a | w :: r => do p <- pair_parse nt w; do a' <- pa_pair a (fst p) (snd p); pa_words a' r end.
(* src/analysis.rs 1337-1345 *)
Definition pa_text_line (a : pana S) (l : string) : outcome (pana S) := do a' <- pa_words a (split_ws (trim l)); Ok (pa_add a').
End Lines.

(** ** What [analyze] writes *)
(** A value of a data set, as stored (not converted to [f64]). *)
(* the field types of moledyn_proc/src/lib.rs 61-163 [ident_to_dataset] *)
Inductive entry (S : Type) : Type := EFloat (x : S) | EInt (n : nat).
Arguments EFloat {S}. Arguments EInt {S}.
Section Output.
Context {S : scalar} (show_e : S -> string).
(** [{:e}] for floats, [{}] for integers. *)
(* src/macros.rs 205-230 *)
Definition entry_text (c : entry S) : string := match c with EFloat x => show_e x | EInt n => show_usize n end.
(** [self.var as f64]. *)
(* src/macros.rs 134-151 *)
Definition entry_value (c : entry S) : S := match c with EFloat x => x | EInt n => of_Z (Z.of_nat n) end.
(** [{1:0$}] of a number: padded on the left. *)
(* std: padding of format! for numbers *)
Definition lpad (w : nat) (s : string) : string := (spaces (w - String.length s) ++ s)%string.
(* std: \t *)
Definition tab : string := String (ascii_of_nat 9) "".
(** [export_mean_stddev] and the line feed of [export]. *)
(* src/analysis.rs 447-449 [export_mean_stddev]; src/analysis.rs 482-485 *)
Definition mean_text (width : nat) (a : tana S) : string :=
  (pad width (show_e (ta_mean a)) ++ tab ++ pad width (show_e (ta_sq a)) ++ tab ++ pad width (show_usize (ta_ens a)) ++ newline)%string.
(** the rows of the two distributions. *)
(* src/analysis.rs 452-464 [export_distribution]; src/analysis.rs 467-480 [export_log_scaled_distribution] *)
Definition dist_text (width : nat) (rows : list (S * nat * S)) : string :=
  fold_right (fun r acc => let '(t, n, x) := r in
    lpad width (show_e t) ++ tab ++ lpad width (show_usize n) ++ tab ++ lpad width (show_e x) ++ newline ++ acc)%string "" rows.
(** the first line of the summary. *)
(* src/analysis.rs 564-565 *)
Definition summary_head (width : nat) (names : list string) : string :=
  (export_form width names ++ export_form width ["ensemble"; "mean"; "stddev"] ++ newline)%string.
(** one group: the line of the summary. *)
(* src/analysis.rs 606-607 *)
Definition summary_row (width : nat) (entries : list (entry S)) (a : tana S) : string :=
  (export_data entry_text width entries ++ mean_text width a)%string.
(** the files written: [brief_result.dat] and two files for each group. *)
(* src/analysis.rs 482-499 [export]; src/analysis.rs 555-565; src/analysis.rs 601-608 *)
Fixpoint group_files (width : nat) (dir : string) (groups : list (string * tana S)) : outcome (list (string * string)) :=
  match groups with
  | [] => Ok []
  | (name, a) :: r =>
    do lin <- ta_export_lin a; do lg <- ta_export_log a; do rest <- group_files width dir r;
    Ok ((path_in dir (path_in "linear_distribution" name), dist_text width lin) ::
        (path_in dir (path_in "logarithmic_distribution" name), dist_text width lg) :: rest)
  end.
(* src/analysis.rs 555-608 *)
Definition result_files (width : nat) (dir : string) (names : list string) (groups : list (string * list (entry S) * tana S)) : outcome (list (string * string)) :=
  do fs <- group_files width dir (map (fun g => (fst (fst g), snd g)) groups);
  Ok ((path_in dir "brief_result.dat",
       summary_head width names ++ fold_right (fun g acc => summary_row width (snd (fst g)) (snd g) ++ acc) "" groups)%string :: fs).
End Output.

(** ** examples/mfpt_exp.rs *)
(** [as u128] of an integral float: saturating, not-a-number to 0 ([floor] and truncation agree where the result is not 0). *)
(* std: f64 as u128, exact reals *)
Definition R_as_u128 (x : R) : N := Z.to_N (Z.max 0 (Z.min (Zfloor x) (2 ^ 128 - 1))).
(* std: f64 as u128 *)
Definition b64_as_u128 (x : b64) : N :=
  match x with
  | B754_infinity false => u128_maxN
  | B754_infinity true | B754_nan => 0%N
  | _ => Z.to_N (Z.max 0 (Z.min (Btrunc x) (2 ^ 128 - 1)))
  end.
Section Exp.
Context {S : scalar} {G : rng S} (nt : numtext S) (as_u128 : S -> N) (rng_seed : N -> rstate G).
Local Open Scope s_scope.
(** [simulation!("RTS_N_PTL_EXP_Agent", TimeAnalysis, ContCircSystem, ContBulkTarget, ContPassiveExpAgent, ExponentialStep, VariableSimulation)]. *)
(* examples/mfpt_exp.rs 14-16 *)
Definition exp_prefix : string := "RTS_N_PTL_EXP_Agent".
(* examples/mfpt_exp.rs 14-16 *)
Definition exp_structs : list argspec := [circ_spec nt; bulk_spec nt; exp_spec nt; expstep_spec nt].
(* examples/mfpt_exp.rs 14-16 *)
Definition exp_specs : list argspec := exp_structs ++ [varsim_spec].
(** [WIDTH], [NUM_SKIP]. *)
(* moledyn_proc/src/lib.rs 184-200 [proc_setup_simulation] *)
Definition exp_width : nat := 15.
(* moledyn_proc/src/lib.rs 184-200 [proc_setup_simulation] *)
Definition exp_skip : nat := 1.
(** The fields of the data set [SimulationData]. *)
(* moledyn_proc/src/lib.rs 61-163 [ident_to_dataset]; src/analysis.rs 36-51 *)
Definition exp_entries (v : all_args exp_structs) : list (entry S) :=
  let '((_, (_, (sys_size, (dim, _)))), ((_, (_, (target_size, _))), ((_, (_, (_, (gamma, (_, (strength, (num_agent, _))))))), ((dt_min, (dt_max, (len, (tmax, _)))), _)))) := v in
  [EFloat sys_size; EInt dim; EFloat target_size; EFloat gamma; EFloat strength; EInt num_agent; EFloat dt_min; EFloat dt_max; EInt len; EFloat tmax].
(* src/macros.rs 134-151 *)
Definition exp_values (v : all_args exp_structs) : list S := map entry_value (exp_entries v).
(** The hash of the parameters and the seed of the generator. *)
(* examples/mfpt_exp.rs 23-29 *)
Definition seed_hash (sys_size : S) (dim : nat) (target_size : S) (num_agent : nat) (strength gamma : S) (idx_set : nat) : S :=
  of_Z 628398227 * sys_size + of_Z 431710567 * of_Z (Z.of_nat dim) + of_Z 277627711 * target_size + of_Z 719236607 * of_Z (Z.of_nat num_agent) +
  of_Z 917299259 * strength + of_Z 367276621 * gamma + of_Z 570914867 * of_Z (Z.of_nat idx_set).
(* examples/mfpt_exp.rs 23-29 *)
Definition run_seed (seed : N) (hash : S) : outcome N :=
  let s := (seed + as_u128 hash)%N in if (s <=? u128_maxN)%N then Ok s else Panic.
(** What a run leaves: the file it created, if it got so far, and how it ended. *)
(* examples/mfpt_exp.rs 5-87 [main] *)
Record run_result := RunResult { rr_file : option (string * string); rr_end : outcome unit }.
(** [convert_from] of the five structures, the file and its configuration, the test of the dimensions, the seed, the ensemble. *)
(* src/setup.rs 49-70; examples/mfpt_exp.rs 14-87 *)
Definition exp_program (inner place_fuel fuel : nat) (v : all_args exp_structs) (s : args_of varsim_spec) : run_result :=
  let '(sysv, (tgv, (agv, (timev, _)))) := v in
  let '(dt_min, (dt_max, (len, (tmax, _)))) := timev in
  let '(num_ensemble, (idx_set, (seed, (output_dir, _)))) := s in
  let tg := target_of_args nt tgv in let aa := expag_of_args nt agv in
  match (do sys <- circ_convert_from (circ_of_args nt sysv); do _ <- expag_convert_from aa;
         do clock <- es_convert dt_min dt_max len tmax;
         do head <- file_header (exp_structs ++ [varsim_spec]) exp_width (join_args exp_structs v s); Ok (sys, clock, head)),
        output_file exp_prefix exp_structs varsim_spec v s with
  | Ok (sys, clock, head), Some name =>
    let path := path_in output_dir name in
    if negb (ci_dim sys =? ea_dim aa)%nat then RunResult (Some (path, head)) Panic
    else match run_seed seed (seed_hash (ci_size sys) (ci_dim sys) (tg_size tg) (ea_num aa) (ea_strength aa) (ea_gamma aa) idx_set) with
         | Ok sd =>
           let '(ts, _, o) := mfpt_exp (diff_next es_next es_dt) inner place_fuel fuel num_ensemble (circ_core sys) (ci_dim sys) tg aa
                                (exp_limit (tg_size tg) (ea_gamma aa)) clock (rng_seed sd) in
           RunResult (Some (path, head ++ data_text nt ts)%string) o
         | Err e => RunResult (Some (path, head)) (Err e) | Panic => RunResult (Some (path, head)) Panic | Fuel => RunResult (Some (path, head)) Fuel
         end
  | Ok _, None => RunResult None Panic
  | Err e, _ => RunResult None (Err e) | Panic, _ => RunResult None Panic | Fuel, _ => RunResult None Fuel
  end.
(** The data set's name without the index, used for the histograms. *)
(* src/analysis.rs 88-97 [export_file_removed_idx] *)
Definition exp_name (v : all_args exp_structs) : option string :=
  match dataset_texts exp_structs v with Some a => Some (export_file_removed_idx exp_prefix a) | None => None end.
(* moledyn_proc/src/lib.rs 169-181 [proc_construct_dataset] *)
Definition exp_names : list string := ["sys_size"; "dim"; "target_size"; "gamma"; "strength"; "num_agent"; "dt_min"; "dt_max"; "length"; "tmax"].
(** Values of a simulation: the structures of the data set and the simulation structure. *)
(* src/setup.rs 37-45 *)
Definition split_exp (v : all_args exp_specs) : all_args exp_structs * args_of varsim_spec :=
  let '(a, (b, (c, (d, (s, _))))) := v in ((a, (b, (c, (d, tt)))), s).
(** [analyze] on the texts found in the data directory. *)
(* src/analysis.rs 501-610 [analyze] *)
Definition bin_sizes (r : bin_request S) : outcome (S * S * S * S) :=
  match r with
  | ByNumber mn mx n => do sz <- convert_num_bin mn mx (Z.of_nat n); Ok (mn, mx, fst sz, snd sz)
  | BySize mn mx b l => Ok (mn, mx, b, l)
  end.
(* src/analysis.rs 501-610 [analyze] *)
Definition exp_groups (sip : list Z -> Z) (req : bin_request S) (texts : list string) : outcome (list (all_args exp_structs * tana S)) :=
  do b <- bin_sizes req; let '(mn, mx, size, lsize) := b in
  analyze_dir exp_structs varsim_spec exp_values sip (ta_fresh mn mx size lsize) (ta_text_line nt) ta_draw (fun _ => false) texts.
(* src/analysis.rs 501-610 [analyze] *)
Fixpoint name_groups (gs : list (all_args exp_structs * tana S)) : option (list (string * list (entry S) * tana S)) :=
  match gs with
  | [] => Some []
  | (v, a) :: r => match exp_name v, name_groups r with Some n, Some l => Some ((n, exp_entries v, a) :: l) | _, _ => None end
  end.
(* src/analysis.rs 501-610 [analyze] *)
Definition exp_analyze (show_e : S -> string) (sip : list Z -> Z) (summary : string) (req : bin_request S) (texts : list string) : outcome (list (string * string)) :=
  do gs <- exp_groups sip req texts;
  match name_groups gs with Some l => result_files show_e exp_width summary exp_names l | None => Panic end.
(** [main]: one call of the program.  [texts dir] are the texts of the files of a directory in the order [read_dir] lists them,
    [summary dir] is the new directory chosen for the results (Model_Analysis.summary_dir). *)
(* examples/mfpt_exp.rs 5-87 [main]; src/setup.rs 75-93 *)
Definition exp_main (inner place_fuel fuel : nat) (show_e : S -> string) (sip : list Z -> Z) (texts : string -> list string) (summary : string -> string)
    (args : list string) : list (string * string) * outcome unit :=
  match setup false exp_skip analysis_num_args exp_specs args with
  | Ok (Analyze a) =>
    match (do '(req, dir) <- analyze_args nt a; exp_analyze show_e sip (summary dir) req (texts dir)) with
    | Ok fs => (fs, Ok tt) | Err e => ([], Err e) | Panic => ([], Panic) | Fuel => ([], Fuel)
    end
  | Ok (Simulate v) =>
    let '(d, s) := split_exp v in
    let r := exp_program inner place_fuel fuel d s in
    (match rr_file r with Some f => [f] | None => [] end, rr_end r)
  | Err e => ([], Err e) | Panic => ([], Panic) | Fuel => ([], Fuel)
  end.
End Exp.
