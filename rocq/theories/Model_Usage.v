(** Model of the message about the expected arguments (src/setup.rs 7-25), of the lists of arguments of the analyses
    (src/analysis.rs), of the [clear] and [new] of an argument structure (src/macros.rs 93-118) and of the [Default] values
    of the field types.

    Simplifications: standard error is the text printed to it by [eprint!]/[eprintln!]; the text printed by the panic of an
    argument that cannot be read is not part of it. *)
From Coq Require Import String Ascii NArith.
From Verif Require Import Base Scalar Model_Position Model_System Model_Agent Model_Time Model_Text Model_Args.
Local Open Scope string_scope.
Local Open Scope list_scope.
Local Notation length := List.length.

(** ** The analyses *)
(** A name with a description: the arguments of an analysis are only listed, not read with these. *)
(* src/analysis.rs 437-442; src/analysis.rs 763-769; src/analysis.rs 1166-1171 *)
Definition label (n d : string) : field := Field n unit (fun _ => Ok "") (fun _ => Ok tt) d.
(** [brief_info] and [info] of an analysis: its description and labels. *)
(* src/analysis.rs 288-291 *)
Record analysis_info := AnalysisInfo { ai_desc : string; ai_labels : list field }.
(* src/analysis.rs 437-442; src/analysis.rs 1166-1171 *)
Definition histogram_labels : list field :=
  [label "min_time" "Minimal time for Histogram"; label "max_time" "Maximal time for Histogram";
   label "bin_size" "Bin size for Linear Histogram"; label "lbin_size" "Bin size for Logarithmic Histogram";
   label "output_dir" "Directory for data files"].
(* src/analysis.rs 436-442 *)
Definition time_info : analysis_info := AnalysisInfo "Single Time" histogram_labels.
(* src/analysis.rs 762-769 *)
Definition vec_info : analysis_info := AnalysisInfo "Vector of Time" (label "num_var" "Number of data for each ensemble" :: histogram_labels).
(* src/analysis.rs 1165-1171 *)
Definition process_info : analysis_info := AnalysisInfo "Random Process analysis" histogram_labels.

(** ** [export_simulation_item!] *)
(* src/setup.rs 14 *)
Definition overview_bar := "======================= OVERVIEW OF ARGUMENTS ==========================".
(* src/setup.rs 17 *)
Definition details_bar := "========================    DESCRIPTIONS     ==========================".
(* src/setup.rs 20 *)
Definition analysis_bar := "========================    FOR ANALYSIS    ===========================".
(** [eprintln!("{}", s)]. *)
(* std: eprintln! *)
Definition println (s : string) : string := (s ++ newline)%string.
(* std: consecutive eprint! *)
Definition prints (l : list string) : string := fold_right append "" l.
(* src/setup.rs 8-23 *)
Definition usage (width skip : nat) (specs : list argspec) (an : analysis_info) (args : list string) : string :=
  (show_usize (length args - skip) ++ " arguments given." ++ newline ++ "Given Arguments : " ++
   prints (map (fun x => x ++ "  ")%string (skipn skip args)) ++
   println (newline ++ "You should give " ++ show_usize (total_num_args specs) ++ " arguments like below") ++
   println overview_bar ++
   prints (map (fun sp => println (brief_info (a_desc sp) (a_vars sp))) specs) ++
   println details_bar ++
   prints (map (fun sp => println (info (a_vars sp) width)) specs) ++
   println analysis_bar ++
   println (brief_info (ai_desc an) (ai_labels an)) ++
   info (ai_labels an) width)%string.
(** What the set-up prints to standard error. *)
(* src/setup.rs 75-93; src/setup.rs 97-115 *)
Definition setup_stderr (width skip analysis_num : nat) (specs : list argspec) (an : analysis_info) (args : list string) : string :=
  if (length args <? skip)%nat then ""
  else let n := (length args - skip)%nat in
       if ((n =? analysis_num) || (n =? analysis_num + 1))%nat then ""
       else if negb (n =? total_num_args specs)%nat then usage width skip specs an args
       else "".

(** ** [Default], [new] and [clear] *)
(** The trait [Default], with the values of the standard library and of the crate. *)
(* std: Default *)
Class default (A : Type) := Default : A.
(* std: Default for usize *)
Global Instance default_usize : default nat := 0%nat.
(* std: Default for u128 *)
Global Instance default_u128 : default N := 0%N.
(* std: Default for String *)
Global Instance default_string : default string := "".
(* std: Default for f64 *)
Global Instance default_f64 (S : scalar) : default (car S) := s0.
(* src/position.rs 9 *)
Global Instance default_pos (S : scalar) : default (pos S) := [].
(* src/system_mod/mod.rs 101-105 [default] *)
Global Instance default_systype : default systype := ContinuousCircular.
(* src/system_mod/mod.rs 158-162 [default] *)
Global Instance default_bcond : default bcond := Reflection.
(* src/target_mod/mod.rs 55-59 [default] *)
Global Instance default_targettype : default targettype := ContinuousInBulk.
(* src/agent_mod/types.rs 141-145 [default] *)
Global Instance default_agenttype : default agenttype := ContinuousPassiveIndependent.
(* src/agent_mod/types.rs 191-195 [default] *)
Global Instance default_movetype (S : scalar) : default (movetype S) := Brownian s1.
(* src/agent_mod/types.rs 245-249 [default] *)
Global Instance default_inittype (S : scalar) : default (inittype S) := Uniform.
(** [new]: the type fields get their defaults, the others the values given. *)
(* src/macros.rs 99-106 [new] *)
Definition args_new (sp : argspec) (v : vals (a_vars sp)) : args_of sp := vals_app (a_defaults sp) v.
(** [clear]. *)
(* src/macros.rs 108-115 [clear] *)
Definition args_clear (sp : argspec) {d : default (vals (a_vars sp))} (_ : args_of sp) : args_of sp := vals_app (a_defaults sp) d.

Section Instances.
Context {S : scalar} (nt : numtext S).
(* the instances of src/macros.rs 93-118 *)
Global Instance circ_default : default (vals (a_vars (circ_spec nt))) := (default_f64 S, (default_usize, tt)).
(* the instances of src/macros.rs 93-118 *)
Global Instance cubic_default : default (vals (a_vars (cubic_spec nt))) := (default_bcond, (default_f64 S, (default_usize, tt))).
(* the instances of src/macros.rs 93-118 *)
Global Instance cyl_default : default (vals (a_vars (cyl_spec nt))) := (default_systype, (default_bcond, (default_f64 S, (default_f64 S, (default_usize, tt))))).
(* the instances of src/macros.rs 93-118 *)
Global Instance bulk_default : default (vals (a_vars (bulk_spec nt))) := (default_pos S, (default_f64 S, tt)).
(* the instances of src/macros.rs 93-118 *)
Global Instance indep_default : default (vals (a_vars (indep_spec nt))) := (default_movetype S, (default_inittype S, (default_usize, tt))).
(* the instances of src/macros.rs 93-118 *)
Global Instance merge_default : default (vals (a_vars (merge_spec nt))) := (default_movetype S, (default_inittype S, (default_f64 S, (default_f64 S, (default_usize, tt))))).
(* the instances of src/macros.rs 93-118 *)
Global Instance exp_default : default (vals (a_vars (exp_spec nt))) := (default_movetype S, (default_inittype S, (default_f64 S, (default_usize, (default_f64 S, (default_usize, tt)))))).
(* the instances of src/macros.rs 93-118 *)
Global Instance lj_default : default (vals (a_vars (lj_spec nt))) := (default_movetype S, (default_inittype S, (default_f64 S, (default_f64 S, (default_usize, tt))))).
(* the instances of src/macros.rs 93-118 *)
Global Instance const_default : default (vals (a_vars (const_spec nt))) := (default_f64 S, (default_f64 S, tt)).
(* the instances of src/macros.rs 93-118 *)
Global Instance expstep_default : default (vals (a_vars (expstep_spec nt))) := (default_f64 S, (default_f64 S, (default_usize, (default_f64 S, tt)))).
(* the instances of src/macros.rs 93-118 *)
Global Instance varsim_default : default (vals (a_vars varsim_spec)) := (default_usize, (default_usize, (default_u128, (default_string, tt)))).
(* the instances of src/macros.rs 93-118 *)
Global Instance parsim_default : default (vals (a_vars parsim_spec)) := (default_usize, (default_u128, (default_usize, (default_string, tt)))).
(* the instances of src/macros.rs 93-118 *)
Global Instance procsim_default : default (vals (a_vars (procsim_spec nt))) := (default_usize, (default_f64 S, (default_usize, (default_u128, (default_string, tt))))).
End Instances.

(** ** [VariableSimulation], [ParVariableSimulation], [ProcessSimulation] *)
(* src/setup.rs 117-122 *)
Record varsim := VarSim { vs_num_ensemble : nat; vs_idx_set : nat; vs_seed : N; vs_output_dir : string }.
(* src/setup.rs 132-139 [convert_from] *)
Definition varsim_of_args (v : args_of varsim_spec) : varsim := let '(n, (i, (s, (d, _)))) := v in VarSim n i s d.
(* src/setup.rs 142-147 *)
Record parsim := ParSim { ps_num_ensemble : nat; ps_seed : N; ps_n_thrd : nat; ps_output_dir : string }.
(* src/setup.rs 157-164 [convert_from] *)
Definition parsim_of_args (v : args_of parsim_spec) : parsim := let '(n, (s, (k, (d, _)))) := v in ParSim n s k d.
(* src/setup.rs 167-173 *)
Record procsim (S : Type) := ProcSim { pc_num_ensemble : nat; pc_period : S; pc_idx_set : nat; pc_seed : N; pc_output_dir : string }.
Arguments ProcSim {S}. Arguments pc_num_ensemble {S}. Arguments pc_period {S}. Arguments pc_idx_set {S}. Arguments pc_seed {S}. Arguments pc_output_dir {S}.
(* src/setup.rs 184-192 [convert_from] *)
Definition procsim_of_args {S : scalar} (nt : numtext S) (v : args_of (procsim_spec nt)) : procsim S :=
  let '(n, (p, (i, (s, (d, _))))) := v in ProcSim n p i s d.
