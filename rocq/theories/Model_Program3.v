(** Model of two more whole programs built with the macros of src/setup.rs and src/analysis.rs: tests/test_setup.rs (independent searchers one at a time) and
    tests/arguments.rs (independent searchers moving together).  Both use the same structures and the same data set, which contains [idx_set].
    Simplifications as in [Model_Program]. *)
From Coq Require Import String Ascii NArith ZArith.
From Verif Require Import Base Scalar Model_LinkedList Model_Position Model_System Model_Agent Model_Time Model_Text Model_Args Model_Analysis Model_Run Model_Program.
Local Open Scope nat_scope.
Local Open Scope string_scope.
Local Open Scope list_scope.
Local Notation length := List.length.

Section Ind.
Context {S : scalar} {G : rng S} (nt : numtext S) (as_u128 : S -> N) (rng_seed : N -> rstate G).
Notation gen := (rstate G).
Local Open Scope s_scope.

(** ** What the programs share *)
(* tests/test_setup.rs 8-17; tests/arguments.rs 14-23 *)
Definition ind_structs : list argspec := [circ_spec nt; bulk_spec nt; indep_spec nt; const_spec nt; varsim_spec].
(** There is no separate simulation part in this data set. *)
(* src/analysis.rs 31-33 *)
Definition no_sim : argspec := ArgSpec "" "" 0 [] tt [].
(* tests/test_setup.rs 23; tests/arguments.rs 27 *)
Definition ind_width : nat := 15.
(* tests/test_setup.rs 8-17; tests/arguments.rs 14-23; src/analysis.rs 36-51 *)
Definition ind_entries (v : all_args ind_structs) : list (entry S) :=
  let '((_, (_, (sys_size, (dim, _)))), ((_, (_, (target_size, _))), ((_, (_, (_, (num_agent, _)))), ((dt, (_, _)), ((_, (idx_set, _)), _))))) := v in
  [EFloat sys_size; EInt dim; EFloat target_size; EInt num_agent; EFloat dt; EInt idx_set].
(* tests/test_setup.rs 8-17; tests/arguments.rs 14-23 *)
Definition ind_names : list string := ["sys_size"; "dim"; "target_size"; "num_agent"; "dt"; "idx_set"].
(* src/macros.rs 134-151 *)
Definition ind_values (v : all_args ind_structs) : list S := map entry_value (ind_entries v).
(** [{}] of a field of the data set. *)
(* src/analysis.rs 73-97 *)
Definition field_shown (e : entry S) : string := match e with EFloat x => n_show nt x | EInt n => show_usize n end.
(** [export_file] and, as there is no simulation part, also [export_file_removed_idx]. *)
(* src/analysis.rs 73-85 [export_file]; src/analysis.rs 88-97 [export_file_removed_idx] *)
Definition ind_file (prefix : string) (v : all_args ind_structs) : string :=
  export_file prefix (combine ind_names (map field_shown (ind_entries v))) [].
(** The hash of the parameters. *)
(* tests/test_setup.rs 46-50; tests/arguments.rs 49-53 *)
Definition ind_hash (sys_size : S) (dim : nat) (target_size : S) (num_agent idx_set : nat) : S :=
  of_Z 628398227 * sys_size + of_Z 431710567 * of_Z (Z.of_nat dim) + of_Z 277627711 * target_size + of_Z 719236607 * of_Z (Z.of_nat num_agent) +
  of_Z 570914867 * of_Z (Z.of_nat idx_set).

(** [analyze] on the texts found in the data directory. *)
(* src/analysis.rs 501-610 [analyze] *)
Definition ind_groups (sip : list Z -> Z) (req : bin_request S) (texts : list string) : outcome (list (all_args ind_structs * tana S)) :=
  do b <- bin_sizes req; let '(mn, mx, size, lsize) := b in
  analyze_dir ind_structs no_sim ind_values sip (ta_fresh mn mx size lsize) (ta_text_line nt) ta_draw (fun _ => false) texts.
(* src/analysis.rs 501-610 [analyze] *)
Definition ind_analyze (show_e : S -> string) (sip : list Z -> Z) (prefix summary : string) (req : bin_request S) (texts : list string) : outcome (list (string * string)) :=
  do gs <- ind_groups sip req texts;
  result_files show_e ind_width summary ind_names (map (fun g => (ind_file prefix (fst g), ind_entries (fst g), snd g)) gs).

(** ** tests/test_setup.rs *)
(** [while !target.check_find(&agent.pos)? && time < fpt{ .. }]. *)
(* tests/test_setup.rs 68-73 *)
Fixpoint race_loop (sys : syscore S G) (tg : target S) (dt fpt : S) (fuel : nat) (time : S) (a : indep S) (v : pos S) (g : gen)
  : indep S * pos S * gen * outcome S :=
  match fuel with
  | 0%nat => (a, v, g, Fuel)
  | Datatypes.S k =>
    match check_find tg (in_pos a) with
    | Ok true => (a, v, g, Ok time)
    | Ok false =>
      if negb (time <? fpt) then (a, v, g, Ok time) else
      let '(v1, g1, mv) := indep_random_move_to_vec a g dt (pos_clear v) in
      match mv with
      | Ok _ =>
        let (p, r) := sc_check_bc sys (in_pos a) v1 in
        let a1 := in_set a (in_dim a) p in
        match r with
        | Ok _ => race_loop sys tg dt fpt k (time + dt) a1 v1 g1
        | Err e => (a1, v1, g1, Err e) | Panic => (a1, v1, g1, Panic) | Fuel => (a1, v1, g1, Fuel)
        end
      | Err e => (a, v1, g1, Err e) | Panic => (a, v1, g1, Panic) | Fuel => (a, v1, g1, Fuel)
      end
    | Err e => (a, v, g, Err e) | Panic => (a, v, g, Panic) | Fuel => (a, v, g, Fuel)
    end
  end.
(** [for _j in 0..num_agent{ .. if time < fpt{ fpt = time; } }]. *)
(* tests/test_setup.rs 63-78 *)
Fixpoint race (inner place_fuel fuel : nat) (sys : syscore S G) (tg : target S) (mt : movetype S) (dt : S) (n : nat) (fpt : S) (v : pos S) (g : gen)
  : pos S * gen * outcome S :=
  match n with
  | 0%nat => (v, g, Ok fpt)
  | Datatypes.S k =>
    let (g1, r) := indep_new_uniform inner place_fuel sys tg g mt in
    match r with
    | Ok a =>
      let '(_, v1, g2, t) := race_loop sys tg dt fpt fuel s0 a v g1 in
      match t with
      | Ok time => race inner place_fuel fuel sys tg mt dt k (if time <? fpt then time else fpt) v1 g2
      | Err e => (v1, g2, Err e) | Panic => (v1, g2, Panic) | Fuel => (v1, g2, Fuel)
      end
    | Err e => (v, g1, Err e) | Panic => (v, g1, Panic) | Fuel => (v, g1, Fuel)
    end
  end.
(** [for _i in 0..num_ensemble]; the values written before a failure stay in the file. *)
(* tests/test_setup.rs 62-83 *)
Fixpoint races (inner place_fuel fuel : nat) (sys : syscore S G) (tg : target S) (mt : movetype S) (dt : S) (n num : nat) (v : pos S) (g : gen) : list S * gen * outcome unit :=
  match num with
  | 0%nat => ([], g, Ok tt)
  | Datatypes.S k =>
    match race inner place_fuel fuel sys tg mt dt n fmax v g with
    | (v1, g1, Ok t) => let '(ts, g2, o) := races inner place_fuel fuel sys tg mt dt n k v1 g1 in (t :: ts, g2, o)
    | (_, g1, Err e) => ([], g1, Err e) | (_, g1, Panic) => ([], g1, Panic) | (_, g1, Fuel) => ([], g1, Fuel)
    end
  end.
(* tests/test_setup.rs 23 *)
Definition race_prefix : string := "RTS_N_PTL_INDEP_Agent_SYS_SIZE".
(** The structures whose configuration is written to the file: [ConstStep] is missing. *)
(* tests/test_setup.rs 54-58 *)
Definition race_written : list argspec := [circ_spec nt; bulk_spec nt; indep_spec nt; varsim_spec].
(** The seed, [convert_from] of four structures, the file and its configuration, the ensemble. *)
(* tests/test_setup.rs 28-84; src/setup.rs 49-70 *)
Definition race_program (inner place_fuel fuel : nat) (v : all_args ind_structs) : run_result :=
  let '(sysv, (tgv, (agv, (timev, (simv, _))))) := v in
  let '(dt, (_, _)) := timev in
  let '(num_ensemble, (idx_set, (seed, (output_dir, _)))) := simv in
  let sysa := circ_of_args nt sysv in let tg := target_of_args nt tgv in let aa := indep_of_args nt agv in
  match (do sd <- run_seed as_u128 seed (ind_hash (ci_size sysa) (ci_dim sysa) (tg_size tg) (ia_num aa) idx_set);
         do sys <- circ_convert_from sysa;
         do head <- file_header race_written ind_width (sysv, (tgv, (agv, (simv, tt)))); Ok (sd, sys, head)) with
  | Ok (sd, sys, head) =>
    let '(ts, _, o) := races inner place_fuel fuel (circ_core sys) tg (ia_mtype aa) dt (ia_num aa) num_ensemble (repeat s0 (ci_dim sysa)) (rng_seed sd) in
    RunResult (Some (path_in output_dir (ind_file race_prefix v), head ++ data_text nt ts)%string) o
  | Err e => RunResult None (Err e) | Panic => RunResult None Panic | Fuel => RunResult None Fuel
  end.
(** The whole test, with its arguments as a parameter. *)
(* tests/test_setup.rs 20-85 [test_setup]; src/setup.rs 97-115 *)
Definition race_main (inner place_fuel fuel : nat) (show_e : S -> string) (sip : list Z -> Z) (texts : string -> list string) (summary : string -> string)
    (args : list string) : list (string * string) * outcome unit :=
  match setup true 0 analysis_num_args ind_structs args with
  | Ok (Analyze a) =>
    match (do '(req, dir) <- analyze_args nt a; ind_analyze show_e sip race_prefix (summary dir) req (texts dir)) with
    | Ok fs => (fs, Ok tt) | Err e => ([], Err e) | Panic => ([], Panic) | Fuel => ([], Fuel)
    end
  | Ok (Simulate v) =>
    let r := race_program inner place_fuel fuel v in (match rr_file r with Some f => [f] | None => [] end, rr_end r)
  | Err e => ([], Err e) | Panic => ([], Panic) | Fuel => ([], Fuel)
  end.

(** ** tests/arguments.rs *)
(** [while let Some(searcher) = list_searchers.get_mut(){ .. }]; [Ok true]: the target is found. *)
(* tests/arguments.rs 77-85 *)
Fixpoint crowd_loop (sys : syscore S G) (tg : target S) (dt : S) (fuel : nat) (l : llist (indep S)) (v : pos S) (g : gen) : llist (indep S) * pos S * gen * outcome bool :=
  match fuel with
  | 0%nat => (l, v, g, Fuel)
  | Datatypes.S k =>
    match enumerate l with
    | Ok (l1, None) => (l1, v, g, Ok false)
    | Ok (l1, Some (i, a)) =>
      let '(v1, g1, mv) := indep_random_move_to_vec a g dt (pos_clear v) in
      match mv with
      | Ok _ =>
        let (p, r) := sc_check_bc sys (in_pos a) v1 in
        let l2 := with_contents l1 (replace_nth i (in_set a (in_dim a) p) (contents l1)) in
        match r with
        | Ok _ =>
          match check_find tg p with
          | Ok true => (l2, v1, g1, Ok true)
          | Ok false => crowd_loop sys tg dt k l2 v1 g1
          | Err e => (l2, v1, g1, Err e) | Panic => (l2, v1, g1, Panic) | Fuel => (l2, v1, g1, Fuel)
          end
        | Err e => (l2, v1, g1, Err e) | Panic => (l2, v1, g1, Panic) | Fuel => (l2, v1, g1, Fuel)
        end
      | Err e => (l1, v1, g1, Err e) | Panic => (l1, v1, g1, Panic) | Fuel => (l1, v1, g1, Fuel)
      end
    | Err e => (l, v, g, Err e) | Panic => (l, v, g, Panic) | Fuel => (l, v, g, Fuel)
    end
  end.
(** [list_searchers.into_iter();] and the loop; one round more than searchers is enough fuel. *)
(* tests/arguments.rs 76-85 *)
Definition crowd_step (sys : syscore S G) (tg : target S) (dt : S) (l : llist (indep S)) (v : pos S) (g : gen) :=
  crowd_loop sys tg dt (Datatypes.S (length (contents l))) (into_iter l) v g.
(** ['outer : for time in timeiter{ .. fpt = time; .. }] from [fpt = 0]. *)
(* tests/arguments.rs 68; tests/arguments.rs 75-86 *)
Fixpoint crowd_run (sys : syscore S G) (tg : target S) (dt : S) (fuel : nat) (clock : conststep S) (l : llist (indep S)) (v : pos S) (g : gen)
  : llist (indep S) * pos S * gen * outcome S :=
  match fuel with
  | 0%nat => (l, v, g, Fuel)
  | Datatypes.S k =>
    match cs_next clock with
    | Ok (_, None) => (l, v, g, Ok s0)
    | Ok (c1, Some time) =>
      match crowd_step sys tg dt l v g with
      | (l1, v1, g1, Ok true) => (l1, v1, g1, Ok time)
      | (l1, v1, g1, Ok false) => crowd_run sys tg dt k c1 l1 v1 g1
      | (l1, v1, g1, Err e) => (l1, v1, g1, Err e) | (l1, v1, g1, Panic) => (l1, v1, g1, Panic) | (l1, v1, g1, Fuel) => (l1, v1, g1, Fuel)
      end
    | Err e => (l, v, g, Err e) | Panic => (l, v, g, Panic) | Fuel => (l, v, g, Fuel)
    end
  end.
(** [for s in &mut list_searchers.contents{ s.renew_uniform(..)?; }]. *)
(* tests/arguments.rs 70-72 *)
Fixpoint crowd_renew (inner place_fuel : nat) (sys : syscore S G) (tg : target S) (cs : list (indep S)) (g : gen) : list (indep S) * gen * outcome unit :=
  match cs with
  | [] => ([], g, Ok tt)
  | a :: r =>
    let '(a', g1, o) := indep_renew inner place_fuel sys tg g a in
    match o with
    | Ok _ => let '(r', g2, o2) := crowd_renew inner place_fuel sys tg r g1 in (a' :: r', g2, o2)
    | Err e => (a' :: r, g1, Err e) | Panic => (a' :: r, g1, Panic) | Fuel => (a' :: r, g1, Fuel)
    end
  end.
(** One sample: renew, connect, run.  [for time in timeiter] works on a copy of the clock. *)
(* tests/arguments.rs 67-86 *)
Definition crowd_sample (inner place_fuel fuel : nat) (sys : syscore S G) (tg : target S) (dt : S) (clock : conststep S) (l : llist (indep S)) (v : pos S) (g : gen)
  : llist (indep S) * pos S * gen * outcome S :=
  let '(cs, g1, o) := crowd_renew inner place_fuel sys tg (contents l) g in
  let l1 := with_contents l cs in
  match o with
  | Ok _ =>
    match connect_all l1 with
    | Ok l2 => crowd_run sys tg dt fuel clock l2 v g1
    | Err e => (l1, v, g1, Err e) | Panic => (l1, v, g1, Panic) | Fuel => (l1, v, g1, Fuel)
    end
  | Err e => (l1, v, g1, Err e) | Panic => (l1, v, g1, Panic) | Fuel => (l1, v, g1, Fuel)
  end.
(* tests/arguments.rs 67-91 *)
Fixpoint crowd_ensemble (inner place_fuel fuel : nat) (sys : syscore S G) (tg : target S) (dt : S) (clock : conststep S) (num : nat) (l : llist (indep S)) (v : pos S) (g : gen)
  : list S * gen * outcome unit :=
  match num with
  | 0%nat => ([], g, Ok tt)
  | Datatypes.S k =>
    match crowd_sample inner place_fuel fuel sys tg dt clock l v g with
    | (l1, v1, g1, Ok t) => let '(ts, g2, o) := crowd_ensemble inner place_fuel fuel sys tg dt clock k l1 v1 g1 in (t :: ts, g2, o)
    | (_, _, g1, Err e) => ([], g1, Err e) | (_, _, g1, Panic) => ([], g1, Panic) | (_, _, g1, Fuel) => ([], g1, Fuel)
    end
  end.
(** The prefix of the data file, *)
(* tests/arguments.rs 57 *)
Definition crowd_prefix : string := "RTS_N_PTL_MERGEABLE_SEARCHER".
(** and that of the histograms. *)
(* tests/arguments.rs 27 *)
Definition crowd_analysis_prefix : string := "RTS_N_PTL_MERGEABLE_Agent".
(* tests/arguments.rs 31-92; src/setup.rs 49-70 *)
Definition crowd_program (inner place_fuel fuel : nat) (v : all_args ind_structs) : run_result :=
  let '(sysv, (tgv, (agv, (timev, (simv, _))))) := v in
  let '(dt, (tmax, _)) := timev in
  let '(num_ensemble, (idx_set, (seed, (output_dir, _)))) := simv in
  let sysa := circ_of_args nt sysv in let tg := target_of_args nt tgv in let aa := indep_of_args nt agv in
  match (do sd <- run_seed as_u128 seed (ind_hash (ci_size sysa) (ci_dim sysa) (tg_size tg) (ia_num aa) idx_set);
         do sys <- circ_convert_from sysa; do clock <- cs_convert dt tmax;
         do head <- file_header ind_structs ind_width v; Ok (sd, sys, clock, head)) with
  | Ok (sd, sys, clock, head) =>
    let path := path_in output_dir (ind_file crowd_prefix v) in
    match ll_from (indep_convert_from aa) with
    | Ok l =>
      let '(ts, _, o) := crowd_ensemble inner place_fuel fuel (circ_core sys) tg dt clock num_ensemble l (repeat s0 (ci_dim sysa)) (rng_seed sd) in
      RunResult (Some (path, head ++ data_text nt ts)%string) o
    | Err e => RunResult (Some (path, head)) (Err e) | Panic => RunResult (Some (path, head)) Panic | Fuel => RunResult (Some (path, head)) Fuel
    end
  | Err e => RunResult None (Err e) | Panic => RunResult None Panic | Fuel => RunResult None Fuel
  end.
(* tests/arguments.rs 26-93 [main]; src/setup.rs 75-93 *)
Definition crowd_main (inner place_fuel fuel : nat) (show_e : S -> string) (sip : list Z -> Z) (texts : string -> list string) (summary : string -> string)
    (args : list string) : list (string * string) * outcome unit :=
  match setup false 1 analysis_num_args ind_structs args with
  | Ok (Analyze a) =>
    match (do '(req, dir) <- analyze_args nt a; ind_analyze show_e sip crowd_analysis_prefix (summary dir) req (texts dir)) with
    | Ok fs => (fs, Ok tt) | Err e => ([], Err e) | Panic => ([], Panic) | Fuel => ([], Fuel)
    end
  | Ok (Simulate v) =>
    let r := crowd_program inner place_fuel fuel v in (match rr_file r with Some f => [f] | None => [] end, rr_end r)
  | Err e => ([], Err e) | Panic => ([], Panic) | Fuel => ([], Fuel)
  end.
End Ind.
