(** Model of the program that [simulation!] generates (moledyn_proc/src/lib.rs 169-359, src/setup.rs 49-93), for any structures it is called with and for any code that follows it.

    Simplifications: the code that follows is a function of the values read (it draws its random numbers from the seed among them): the text it writes to the data file and how it
    ends; no input/output errors; structures are built for their effect on the run only (a failed [convert_from] ends it), the code that follows builds them again. *)
From Coq Require Import String NArith.
From Verif Require Import Base Scalar Model_Position Model_System Model_Agent Model_Time Model_Text Model_Args Model_Usage Model_LinkedList Model_Run Model_Program.
Local Open Scope string_scope.
Local Open Scope list_scope.
Local Notation length := List.length.

(** A structure: its arguments and [convert_from]. *)
(* src/setup.rs 52-54 *)
Record part := Part { pt_spec : argspec; pt_build : args_of pt_spec -> outcome unit }.
(** A structure for the simulation, with the field [output_dir]. *)
(* src/setup.rs 118-211 *)
Record simpart := SimPart { sp_spec : argspec; sp_dir : args_of sp_spec -> string }.
(* no counterpart: forgets the object that was built *)
Definition built {A} (o : outcome A) : outcome unit := do _ <- o; Ok tt.
Section Parts.
Context {S : scalar} (nt : numtext S).
(* src/system_mod/cont_circ.rs 40-52 [convert_from] *)
Definition circ_part : part := Part (circ_spec nt) (fun v => built (circ_convert_from (circ_of_args nt v))).
(* src/system_mod/cont_cubic.rs 46-64 [convert_from] *)
Definition cubic_part : part := Part (cubic_spec nt) (fun v => built (cubic_convert_from (cubic_of_args nt v))).
(* src/target_mod/cont_bulk.rs 35-41 [convert_from] *)
Definition bulk_part : part := Part (bulk_spec nt) (fun v => built (Ok (target_convert_from (target_of_args nt v)))).
(* src/agent_mod/cont_passive_indep.rs 89-111 [convert_from] *)
Definition indep_part : part := Part (indep_spec nt) (fun v => built (Ok (indep_convert_from (indep_of_args nt v)))).
(* src/agent_mod/cont_passive_exp.rs 160-199 [convert_from] *)
Definition exp_part : part := Part (exp_spec nt) (fun v => built (expag_convert_from (expag_of_args nt v))).
(* src/agent_mod/cont_passive_lj.rs 142-175 [convert_from] *)
Definition lj_part : part := Part (lj_spec nt) (fun v => built (ljag_convert_from (ljag_of_args nt v))).
(* src/time_mod/mod.rs 173-192 [convert_from] *)
Definition const_part : part := Part (const_spec nt) (fun v => let '(dt, (tmax, _)) := v in built (cs_convert dt tmax)).
(* src/time_mod/mod.rs 342-365 [convert_from] *)
Definition expstep_part : part := Part (expstep_spec nt) (fun v => let '(dt_min, (dt_max, (len, (tmax, _)))) := v in built (es_convert dt_min dt_max len tmax)).
(* src/setup.rs 132-139 [convert_from] *)
Definition varsim_part : simpart := SimPart varsim_spec (fun s => vs_output_dir (varsim_of_args s)).
(* src/setup.rs 157-164 [convert_from] *)
Definition parsim_part : simpart := SimPart parsim_spec (fun s => ps_output_dir (parsim_of_args s)).
(* src/setup.rs 184-192 [convert_from] *)
Definition procsim_part : simpart := SimPart (procsim_spec nt) (fun s => pc_output_dir (procsim_of_args nt s)).
(** The structures for which the generated code compiles (C45). *)
(* moledyn_proc/src/lib.rs 61-163 [ident_to_dataset] *)
Definition parts : list part := [circ_part; cubic_part; bulk_part; indep_part; exp_part; lj_part; const_part; expstep_part].
(* moledyn_proc/src/lib.rs 61-163 [ident_to_dataset] *)
Definition simparts : list simpart := [varsim_part; parsim_part; procsim_part].
(* the struct type #id_sys etc. of moledyn_proc/src/lib.rs 184-200 [proc_setup_simulation] *)
Definition part_named (n : string) : option part := find (fun p => String.eqb (a_name (pt_spec p)) n) parts.
(* the struct type #id_sim of moledyn_proc/src/lib.rs 184-200 [proc_setup_simulation] *)
Definition simpart_named (n : string) : option simpart := find (fun p => String.eqb (a_name (sp_spec p)) n) simparts.
(* moledyn_proc/src/lib.rs 321-339 [proc_export_simulation_info] *)
Definition gen_parts (g : generated) : option (list part * simpart) :=
  match g_structs g with
  | [sy; ta; ag; ti; si] =>
    match part_named sy, part_named ta, part_named ag, part_named ti, simpart_named si with
    | Some a, Some b, Some c, Some d, Some e => Some ([a; b; c; d], e)
    | _, _, _, _, _ => None
    end
  | _ => None
  end.
End Parts.

Section Program.
Variables (prefix : string) (ps : list part) (sm : simpart).
(* no counterpart: the structures of the data set *)
Definition part_specs : list argspec := map pt_spec ps.
Variable body : all_args part_specs -> args_of (sp_spec sm) -> string * outcome unit.
(** The analysis that 4 or 5 arguments ask for: the files it writes. *)
Variable analysis : list string -> list (string * string) * outcome unit.
(** [let sys = convert_from(&sys_arg)] and so on, in this order. *)
(* src/setup.rs 52-54 *)
Fixpoint build_parts (qs : list part) : all_args (map pt_spec qs) -> outcome unit :=
  match qs with
  | [] => fun _ => Ok tt
  | q :: r => fun v => do _ <- pt_build q (fst v); build_parts r (snd v)
  end.
(* src/setup.rs 49-70 *)
Definition gen_run (v : all_args part_specs) (s : args_of (sp_spec sm)) : run_result :=
  match (do _ <- build_parts ps v; file_header (part_specs ++ [sp_spec sm]) 15 (join_args part_specs v s)), output_file prefix part_specs (sp_spec sm) v s with
  | Ok head, Some name => let '(text, o) := body v s in RunResult (Some (path_in (sp_dir sm s) name, head ++ text)%string) o
  | Ok _, None => RunResult None Panic
  | Err e, _ => RunResult None (Err e)
  | Panic, _ => RunResult None Panic
  | Fuel, _ => RunResult None Fuel
  end.
(** The values of the data set and those of the simulation. *)
(* src/setup.rs 37-45 *)
Fixpoint split_args (sim : argspec) (specs : list argspec) : all_args (specs ++ [sim]) -> all_args specs * args_of sim :=
  match specs with
  | [] => fun v => (tt, fst v)
  | sp :: r => fun v => let '(a, s) := split_args sim r (snd v) in ((fst v, a), s)
  end.
(* moledyn_proc/src/lib.rs 344-359 [simulation]; src/setup.rs 75-93 *)
Definition gen_main (args : list string) : list (string * string) * outcome unit :=
  match setup false 1 analysis_num_args (part_specs ++ [sp_spec sm]) args with
  | Ok (Analyze a) => analysis a
  | Ok (Simulate w) => let '(v, s) := split_args (sp_spec sm) part_specs w in
                       let r := gen_run v s in (match rr_file r with Some f => [f] | None => [] end, rr_end r)
  | Err e => ([], Err e)
  | Panic => ([], Panic)
  | Fuel => ([], Fuel)
  end.
End Program.

(** The example program, in these terms: its structures and the code after [simulation!]. *)
Section Example.
Context {S : scalar} {G : rng S} (nt : numtext S) (as_u128 : S -> N) (rng_seed : N -> rstate G).
(* examples/mfpt_exp.rs 9-16 *)
Definition example_parts : list part := [circ_part nt; bulk_part nt; exp_part nt; expstep_part nt].
(* examples/mfpt_exp.rs 18-87 [main] *)
Definition example_body (inner place_fuel fuel : nat) (v : all_args (part_specs example_parts)) (s : args_of varsim_spec) : string * outcome unit :=
  let '(sysv, (tgv, (agv, (timev, _)))) := v in
  let '(dt_min, (dt_max, (len, (tmax, _)))) := timev in
  let '(num_ensemble, (idx_set, (seed, (output_dir, _)))) := s in
  let tg := target_of_args nt tgv in let aa := expag_of_args nt agv in
  match (do sys <- circ_convert_from (circ_of_args nt sysv); do clock <- es_convert dt_min dt_max len tmax; Ok (sys, clock)) with
  | Ok (sys, clock) =>
    if negb (ci_dim sys =? ea_dim aa)%nat then ("", Panic)
    else match run_seed as_u128 seed (seed_hash (ci_size sys) (ci_dim sys) (tg_size tg) (ea_num aa) (ea_strength aa) (ea_gamma aa) idx_set) with
         | Ok sd => let '(ts, _, o) := mfpt_exp (diff_next es_next es_dt) inner place_fuel fuel num_ensemble (circ_core sys) (ci_dim sys) tg aa
                                (exp_limit (tg_size tg) (ea_gamma aa)) clock (rng_seed sd) in (data_text nt ts, o)
         | Err e => ("", Err e) | Panic => ("", Panic) | Fuel => ("", Fuel)
         end
  | Err e => ("", Err e) | Panic => ("", Panic) | Fuel => ("", Fuel)
  end.
End Example.
