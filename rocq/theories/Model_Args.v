(** Model of the argument structures (src/argument.rs 44-196, src/macros.rs), of their instances, of the set-up of a
    simulation (src/setup.rs 5-112), of the data sets (src/analysis.rs 10-121) and of the code generator
    (moledyn_proc/src/lib.rs).

    Simplifications: an argument structure generated by [impl_argument_trait!] is the list of its fields and a tuple of
    values; a file is the list of its lines, without reading errors; [usize] subtraction below zero is the panic of a debug build. *)
From Coq Require Import String Ascii NArith.
From Verif Require Import Base Scalar Model_Position Model_System Model_Agent Model_Time Model_Text.
Local Open Scope string_scope.
Local Open Scope list_scope.
Local Notation length := List.length.

(** ** Fields and structures *)
(** One field [$var, $t, $description] of [impl_argument_trait!], with [Display] and [FromStr] of its type. *)
(* one field of src/argument.rs 165-193 *)
Record field := Field { f_name : string; f_ty : Type; f_show : f_ty -> outcome string; f_parse : string -> outcome f_ty; f_desc : string }.
(** [define_structure!]: the values of the fields. *)
(* src/macros.rs 64-74 *)
Fixpoint vals (fs : list field) : Type := match fs with [] => unit | f :: r => (f_ty f * vals r)%type end.
(* type fields followed by variables in src/argument.rs 165-193 *)
Fixpoint vals_app {a b : list field} : vals a -> vals b -> vals (a ++ b) :=
  match a with [] => fun _ w => w | f :: r => fun v w => (fst v, vals_app (snd v) w) end.

(* std: padding of format! *)
Fixpoint spaces (n : nat) : string := match n with O => "" | S k => String " " (spaces k) end.
(** [{0:1$}] and [{0:<1$}] of a text. *)
(* std: padding of format! *)
Definition pad (w : nat) (s : string) : string := (s ++ spaces (w - String.length s))%string.
(* std: \n *)
Definition newline : string := String (ascii_of_nat 10) "".

(** [impl_fn_info!], [impl_fn_brief_info!]. *)
(* src/argument.rs 70-81 *)
Fixpoint info (fs : list field) (width : nat) : string :=
  match fs with [] => "" | f :: r => (pad width (f_name f) ++ ": " ++ f_desc f ++ newline ++ info r width)%string end.
(* src/argument.rs 85-96 *)
Definition brief_info (desc : string) (fs : list field) : string :=
  (desc ++ " arguments : " ++ fold_right (fun f acc => "(" ++ f_name f ++ ") " ++ acc) "" fs)%string.
(** [impl_fn_print_configuration!]. *)
(* src/argument.rs 124-134 *)
Fixpoint print_configuration (fs : list field) (width : nat) : vals fs -> outcome string :=
  match fs with
  | [] => fun _ => Ok ""
  | f :: r => fun v =>
      do t <- f_show f (fst v); do rest <- print_configuration r width (snd v);
      Ok (pad width (f_name f) ++ ": " ++ t ++ newline ++ rest)%string
  end.
(** [impl_fn_read_args_from_vec!]: the part after the length test. *)
(* std: Result::expect in src/argument.rs 100-120 *)
Definition expect_ok {A} (o : outcome A) : outcome A := match o with Ok a => Ok a | Fuel => Fuel | _ => Panic end.
(* src/argument.rs 100-120 *)
Fixpoint read_words (fs : list field) (args : list string) : outcome (vals fs) :=
  match fs with
  | [] => Ok tt
  | f :: r => match args with
              | [] => Panic
              | w :: ws => do a <- expect_ok (f_parse f (trim w)); do v <- read_words r ws; Ok (a, v)
              end
  end.
(** [impl_fn_read_args_from_lines!]: returns the values and the lines not read. *)
(* src/argument.rs 138-159 *)
Fixpoint read_lines (fs : list field) (lines : list string) : outcome (vals fs * list string) :=
  match fs with
  | [] => Ok (tt, lines)
  | f :: r => match lines with
              | [] => Err InvalidFile
              | l :: ls =>
                  let split := split_on (is_char ":") l in
                  if negb (length split =? 2)%nat then Err InvalidFormat
                  else do s <- idx split 1; do a <- expect_ok (f_parse f (trim s));
                       do '(v, rest) <- read_lines r ls; Ok ((a, v), rest)
              end
  end.
(** [impl_argument_trait!($struct_name, $struct_description, $arg_name, $num_args, types..; vars..)]. *)
(* src/argument.rs 165-193 *)
Record argspec := ArgSpec { a_name : string; a_desc : string; a_num : nat; a_types : list field; a_defaults : vals a_types; a_vars : list field }.
(* src/argument.rs 165-193 *)
Definition a_fields (sp : argspec) : list field := a_types sp ++ a_vars sp.
(* src/argument.rs 165-193 *)
Definition args_of (sp : argspec) : Type := vals (a_fields sp).
(** [read_args_from_vec]. *)
(* src/argument.rs 100-120 *)
Definition read_args_from_vec (sp : argspec) (args : list string) : outcome (args_of sp) :=
  if negb (length args =? a_num sp)%nat then Err InvalidNumberOfArguments
  else do v <- read_words (a_vars sp) args; Ok (vals_app (a_defaults sp) v).
(** [read_args_from_lines]. *)
(* src/argument.rs 138-159 *)
Definition read_args_from_lines (sp : argspec) (lines : list string) : outcome (args_of sp * list string) := read_lines (a_fields sp) lines.

(** ** The instances *)
Section Specs.
Context {S : scalar} (nt : numtext S).
(* std: str::parse *)
Definition parsed {A} (o : option A) : outcome A := or_err o.
(* a field of type f64 *)
Definition fld_f64 (n d : string) : field := Field n S (fun x => Ok (n_show nt x)) (fun s => parsed (n_parse nt s)) d.
(* a field of type usize *)
Definition fld_usize (n d : string) : field := Field n nat (fun x => Ok (show_usize x)) (fun s => parsed (parse_usize s)) d.
(* a field of type u128 *)
Definition fld_u128 (n d : string) : field := Field n N (fun x => Ok (show_uint x)) (fun s => parsed (parse_uint u128_maxN s)) d.
(* a field of type String *)
Definition fld_string (n d : string) : field := Field n string (fun x => Ok x) (fun s => Ok s) d.
(* a field of type Position<f64> *)
Definition fld_pos (n d : string) : field := Field n (pos S) (pos_show nt) (pos_parse nt) d.
(* a field of type SystemType *)
Definition fld_sys (n d : string) : field := Field n systype (fun x => Ok (systype_show x)) systype_parse d.
(* a field of type BoundaryCond *)
Definition fld_bc (n d : string) : field := Field n bcond (fun x => Ok (bcond_show x)) bcond_parse d.
(* a field of type TargetType *)
Definition fld_target (n d : string) : field := Field n targettype (fun x => Ok (targettype_show x)) targettype_parse d.
(* a field of type AgentType *)
Definition fld_agent (n d : string) : field := Field n agenttype (fun x => Ok (agenttype_show x)) agenttype_parse d.
(* a field of type MoveType *)
Definition fld_move (n d : string) : field := Field n (movetype S) (fun x => Ok (movetype_show nt x)) (movetype_parse nt) d.
(* a field of type InitType<f64> *)
Definition fld_init (n d : string) : field := Field n (inittype S) (inittype_show nt) (inittype_parse nt) d.

(* src/system_mod/cont_circ.rs 32-36 *)
Definition circ_spec : argspec := ArgSpec "ContCircSystem" "System" 2
  [fld_sys "sys_type" ""; fld_bc "bctype" ""] (ContinuousCircular, (Reflection, tt))
  [fld_f64 "sys_size" "Size of System"; fld_usize "dim" "Dimension of System"].
(* src/system_mod/cont_cubic.rs 38-42 *)
Definition cubic_spec : argspec := ArgSpec "ContCubicSystem" "System" 3
  [fld_sys "sys_type" ""] (ContinuousRectangular, tt)
  [fld_bc "bctype" "Boundary condition. ex) Reflective, Periodic, integer indicates Mixed";
   fld_f64 "sys_size" "Size of System"; fld_usize "dim" "Dimension of System"].
(* src/system_mod/cont_cyl.rs 34-39 *)
Definition cyl_spec : argspec := ArgSpec "ContCylindricalSystem" "System" 5 [] tt
  [fld_sys "sys_type" "Dimension of circular domain.";
   fld_bc "bctype" "Boundary condition. ex) Reflective, Periodic, integer indicates Mixed";
   fld_f64 "sys_radius" "Radius of Circular Domain"; fld_f64 "sys_length" "Length of Rectangular Domain (-length, length)";
   fld_usize "dim" "Dimension of System"].
(* src/target_mod/cont_bulk.rs 28-31 *)
Definition bulk_spec : argspec := ArgSpec "ContBulkTarget" "Target" 2 [fld_target "target_type" ""] (ContinuousInBulk, tt)
  [fld_pos "target_pos" "Position of Target ex) 0:0 = (0,0), 1.0:2.0 = (1.0, 2.0)"; fld_f64 "target_size" "Size of Target"].
(* src/agent_mod/cont_passive_indep.rs 81-85 *)
Definition mtype_desc := "Random walk Characterstic. ex) 1.0 : Brownian with D=1 / Levy : Levy walk".
(* src/agent_mod/cont_passive_indep.rs 81-85 *)
Definition itype_desc := "Initialization method. ex) 0,0 : All at 0,0 / Uniform : Uniform".
(* src/agent_mod/cont_passive_indep.rs 81-85 *)
Definition indep_spec : argspec := ArgSpec "ContPassiveIndepAgent" "Agent" 3 [fld_agent "agent_type" ""] (ContinuousPassiveIndependent, tt)
  [fld_move "mtype" mtype_desc; fld_init "itype" itype_desc; fld_usize "num_agent" "Number of Agents"].
(* src/agent_mod/cont_passive_merge.rs 107-114 *)
Definition merge_spec : argspec := ArgSpec "ContPassiveMergeAgent" "Agent" 5
  [fld_agent "agent_type" ""; fld_usize "size" ""] (ContinuousPassiveInteracting, (1, tt))
  [fld_move "mtype" mtype_desc; fld_init "itype" itype_desc;
   fld_f64 "ptl_radius" "Radius of particle. When they collide, they merge. ex) 0.1";
   fld_f64 "alpha" "Exponent of diffusion decrease. D ~ n^alpha ex) 1.0"; fld_usize "num_agent" "Number of Agent"].
(* src/agent_mod/cont_passive_exp.rs 149-156 *)
Definition exp_spec : argspec := ArgSpec "ContPassiveExpAgent" "Agent" 6 [fld_agent "agent_type" ""] (ContinuousPassiveInteracting, tt)
  [fld_move "mtype" mtype_desc; fld_init "itype" itype_desc; fld_f64 "gamma" "Typical length scale of interaction. ex) 0.1, 0.5";
   fld_usize "exp_dim" "Dimension of system ex) 2, 3"; fld_f64 "strength" "Strength of interaction"; fld_usize "num_agent" "Number of Agent"].
(* src/agent_mod/cont_passive_lj.rs 132-138 *)
Definition lj_spec : argspec := ArgSpec "ContPassiveLJAgent" "Agent" 5 [fld_agent "agent_type" ""] (ContinuousPassiveInteracting, tt)
  [fld_move "mtype" mtype_desc; fld_init "itype" itype_desc;
   fld_f64 "ptl_size" "Particle size of agent. Should be an order of 1 ex) 1.0, 2.0"; fld_f64 "strength" "Strength of interaction";
   fld_usize "num_agent" "Number of Agent"].
(* src/time_mod/mod.rs 167-169 *)
Definition tmax_desc := "Upper limit of time for computing. ex) 1.0, 0 means INFINITE".
(* src/time_mod/mod.rs 167-169 *)
Definition const_spec : argspec := ArgSpec "ConstStep" "Time Iterator" 2 [] tt [fld_f64 "dt" "Time step size"; fld_f64 "tmax" tmax_desc].
(* src/time_mod/mod.rs 334-338 *)
Definition expstep_spec : argspec := ArgSpec "ExponentialStep" "Time Iterator" 4 [] tt
  [fld_f64 "dt_min" "Initial time step size"; fld_f64 "dt_max" "Maximal time step size";
   fld_usize "length" "Number of step between time step size increase"; fld_f64 "tmax" tmax_desc].
(* src/setup.rs 124-128 *)
Definition dir_desc := "Directory containing output file".
(* src/setup.rs 124-128 *)
Definition seed_desc := "Initial Seed for Random Number Generator".
(* src/setup.rs 124-128 *)
Definition varsim_spec : argspec := ArgSpec "VariableSimulation" "Variable Simulation" 4 [] tt
  [fld_usize "num_ensemble" "Number of Ensemble"; fld_usize "idx_set" "Index of Ensemble Set"; fld_u128 "seed" seed_desc; fld_string "output_dir" dir_desc].
(* src/setup.rs 149-153 *)
Definition parsim_spec : argspec := ArgSpec "ParVariableSimulation" "Variable Simulation" 4 [] tt
  [fld_usize "num_ensemble" "Number of Ensemble"; fld_u128 "seed" seed_desc; fld_usize "n_thrd" "Number of Thread"; fld_string "output_dir" dir_desc].
(* src/setup.rs 175-180 *)
Definition procsim_spec : argspec := ArgSpec "ProcessSimulation" "Process Simulation" 5 [] tt
  [fld_usize "num_ensemble" "Number of Ensemble"; fld_f64 "period" "Time between recording"; fld_usize "idx_set" "Index of Ensemble Set";
   fld_u128 "seed" seed_desc; fld_string "output_dir" dir_desc].
(** Every structure of the crate (target_mod/cont_boundary.rs is not compiled: its [mod] line is commented out, target_mod/mod.rs 24). *)
(* the calls of impl_argument_trait! cited above *)
Definition all_specs : list argspec :=
  [circ_spec; cubic_spec; cyl_spec; bulk_spec; indep_spec; merge_spec; exp_spec; lj_spec; const_spec; expstep_spec; varsim_spec; parsim_spec; procsim_spec].

(** The structures of the other model files, from the fields read (field order of the [impl_argument_trait!] calls). *)
(* src/system_mod/cont_circ.rs 40-52 [convert_from] *)
Definition circ_of_args (v : args_of circ_spec) : circ S := let '(t, (b, (s, (d, _)))) := v in Circ t b s d.
(* src/system_mod/cont_cubic.rs 46-64 [convert_from] *)
Definition cubic_of_args (v : args_of cubic_spec) : cubic S := let '(t, (b, (s, (d, _)))) := v in Cubic t b s d.
(* src/system_mod/cont_cyl.rs 43-68 [convert_from] *)
Definition cyl_of_args (v : args_of cyl_spec) : cyl S := let '(t, (b, (r, (l, (d, _))))) := v in Cyl t b r l d.
(* src/target_mod/cont_bulk.rs 35-41 [convert_from] *)
Definition target_of_args (v : args_of bulk_spec) : target S := let '(t, (p, (r, _))) := v in Target t p r.
(* src/agent_mod/cont_passive_indep.rs 89-111 [convert_from] *)
Definition indep_of_args (v : args_of indep_spec) : indep_args S := let '(t, (m, (i, (n, _)))) := v in IndepArgs t m i n.
(* src/agent_mod/cont_passive_merge.rs 118-142 [convert_from] *)
Definition merger_of_args (v : args_of merge_spec) : merger_args S := let '(t, (_, (m, (i, (r, (a, (n, _))))))) := v in MergerArgs t m i r a n.
(* src/agent_mod/cont_passive_exp.rs 160-199 [convert_from] *)
Definition expag_of_args (v : args_of exp_spec) : expag_args S :=
  let '(t, (m, (i, (g, (d, (s, (n, _))))))) := v in ExpagArgs t m i g d s n.
(* src/agent_mod/cont_passive_lj.rs 142-175 [convert_from] *)
Definition ljag_of_args (v : args_of lj_spec) : ljag_args S := let '(t, (m, (i, (p, (s, (n, _)))))) := v in LjagArgs t m i p s n.
End Specs.

(** ** Setting up: setup.rs *)
(** The values read for a sequence of structures. *)
(* src/setup.rs 37-45 *)
Fixpoint all_args (specs : list argspec) : Type := match specs with [] => unit | sp :: r => (args_of sp * all_args r)%type end.
(** [&args[i..j]]. *)
(* std: &v[i..j] *)
Definition slice {A} (l : list A) (i j : nat) : outcome (list A) :=
  if ((i <=? j) && (j <=? length l))%nat then Ok (firstn (j - i) (skipn i l)) else Panic.
(** [define_total_num_args!]. *)
(* src/setup.rs 29-33 *)
Definition total_num_args (specs : list argspec) : nat := fold_right (fun sp n => a_num sp + n)%nat 0%nat specs.
(** [read_arguments!]. *)
(* src/setup.rs 37-45 *)
Fixpoint read_arguments (specs : list argspec) (args : list string) (i : nat) : outcome (all_args specs) :=
  match specs with
  | [] => Ok tt
  | sp :: r => do s <- slice args i (i + a_num sp); do v <- read_args_from_vec sp s;
               do vs <- read_arguments r args (i + a_num sp); Ok (v, vs)
  end.
(* what the expansion goes on to do:; src/setup.rs 75-93 *)
Inductive setup_result (specs : list argspec) : Type :=
| Analyze (args : list string)
| Simulate (v : all_args specs).
Arguments Analyze {specs}. Arguments Simulate {specs}.
(** [setup_simulation!]; [fixed]: [setup_simulation_fixed!], which hands all of [args] to [analyze]. *)
(* src/setup.rs 75-93; src/setup.rs 97-115 *)
Definition setup (fixed : bool) (skip analysis_num : nat) (specs : list argspec) (args : list string) : outcome (setup_result specs) :=
  if (length args <? skip)%nat then Panic
  else let n := (length args - skip)%nat in
       if ((n =? analysis_num) || (n =? analysis_num + 1))%nat then
         if fixed then Ok (Analyze args)
         else do s <- slice args skip (length args); Ok (Analyze s)
       else if negb (n =? total_num_args specs)%nat then Err InvalidNumberOfArguments
       else do v <- read_arguments specs args skip; Ok (Simulate v).
(** analysis.rs: [NUM_ARGS] of [TimeAnalysis] (425), [TimeVecAnalysis] (750), [ProcessAnalysis] (1148). *)
(* src/analysis.rs 425; src/analysis.rs 750; src/analysis.rs 1148 *)
Definition analysis_num_args : nat := 4.
(** The parameters of [analyze] read from its arguments: analysis.rs 503-528, 1246-1271 ([TimeAnalysis], [ProcessAnalysis]). *)
(* src/analysis.rs 501-610 [analyze]; src/analysis.rs 1246-1362 [analyze] *)
Inductive bin_request (S : Type) : Type := ByNumber (mn mx : S) (num_bin : nat) | BySize (mn mx bin lbin : S).
Arguments ByNumber {S}. Arguments BySize {S}.
Section Analyze.
Context {S : scalar} (nt : numtext S).
(* src/analysis.rs 501-610 [analyze]; src/analysis.rs 1246-1362 [analyze] *)
Definition analyze_args (args : list string) : outcome (bin_request S * string) :=
  match length args with
  | 4 => do a0 <- idx args 0; do mn <- expect (n_parse nt a0); do a1 <- idx args 1; do mx <- expect (n_parse nt a1);
         do a2 <- idx args 2; do n <- expect (parse_usize a2); do dir <- idx args 3; Ok (ByNumber mn mx n, dir)
  | 5 => do a0 <- idx args 0; do mn <- expect (n_parse nt a0); do a1 <- idx args 1; do mx <- expect (n_parse nt a1);
         do a2 <- idx args 2; do b <- expect (n_parse nt a2); do a3 <- idx args 3; do lb <- expect (n_parse nt a3);
         do dir <- idx args 4; Ok (BySize mn mx b lb, dir)
  | _ => Err InvalidNumberOfArguments
  end.
(** analysis.rs 866-900 ([TimeVecAnalysis]). *)
(* src/analysis.rs 864-979 [analyze] *)
Definition analyze_vec_args (args : list string) : outcome (nat * bin_request S * string) :=
  match length args with
  | 5 => do av <- idx args 0; do nv <- expect (parse_usize av);
         do a0 <- idx args 1; do mn <- expect (n_parse nt a0); do a1 <- idx args 2; do mx <- expect (n_parse nt a1);
         do a2 <- idx args 3; do n <- expect (parse_usize a2); do dir <- idx args 4; Ok (nv, ByNumber mn mx n, dir)
  | 6 => do av <- idx args 0; do nv <- expect (parse_usize av);
         do a0 <- idx args 1; do mn <- expect (n_parse nt a0); do a1 <- idx args 2; do mx <- expect (n_parse nt a1);
         do a2 <- idx args 3; do b <- expect (n_parse nt a2); do a3 <- idx args 4; do lb <- expect (n_parse nt a3);
         do dir <- idx args 5; Ok (nv, BySize mn mx b lb, dir)
  | _ => Err InvalidNumberOfArguments
  end.
End Analyze.

(** ** The data file *)
(* src/setup.rs 49-70 *)
Definition description_line := "========================    DESCRIPTIONS    ==========================".
(* src/setup.rs 49-70 *)
Definition data_line := "========================     DATA STARTS    ==========================".
(** [export_simulation_info!]: the text written at the start of the file. *)
(* src/setup.rs 49-70 *)
Fixpoint print_all (specs : list argspec) (width : nat) : all_args specs -> outcome string :=
  match specs with
  | [] => fun _ => Ok ""
  | sp :: r => fun v => do t <- print_configuration (a_fields sp) width (fst v); do ts <- print_all r width (snd v); Ok (t ++ ts)%string
  end.
(* src/setup.rs 49-70 *)
Definition file_header (specs : list argspec) (width : nat) (v : all_args specs) : outcome string :=
  do t <- print_all specs width v; Ok (description_line ++ newline ++ t ++ data_line ++ newline)%string.
(** [BufRead::lines]: the pieces between line feeds, without a carriage return at the end; an empty last piece is not a line. *)
(* std: BufRead::lines *)
Definition strip_cr (s : string) : string :=
  match rev (list_ascii_of_string s) with
  | c :: r => if Ascii.eqb c (ascii_of_nat 13) then string_of_list_ascii (rev r) else s
  | [] => s
  end.
(* std: BufRead::lines *)
Definition text_lines (s : string) : list string :=
  let ps := split_on (is_char (ascii_of_nat 10)) s in
  map strip_cr (if is_empty (last ps "") then removelast ps else ps).
(** [from_file]: the structures read, and the lines not read (the caller skips one of them, 586). *)
(* src/analysis.rs 12-13 [from_file] *)
Fixpoint read_all (specs : list argspec) (lines : list string) : outcome (all_args specs * list string) :=
  match specs with
  | [] => Ok (tt, lines)
  | sp :: r => do '(v, ls) <- read_args_from_lines sp lines; do '(vs, ls') <- read_all r ls; Ok ((v, vs), ls')
  end.
(* src/analysis.rs 12-13 [from_file] *)
Definition from_file (specs : list argspec) (lines : list string) : outcome (all_args specs * list string) := read_all specs (tl lines).

(** names of files: [export_file] takes the variables of the data set and those of the simulation,
    [export_file_removed_idx] only the former.  [vars]: names and printed values. *)
(* src/analysis.rs 73-85 [export_file] *)
Definition var_part (nv : string * string) : string := ("_" ++ fst nv ++ "_" ++ snd nv)%string.
(* src/analysis.rs 73-85 [export_file] *)
Definition export_file (prefix : string) (vars sim : list (string * string)) : string :=
  (prefix ++ fold_right (fun v acc => var_part v ++ acc) "" (vars ++ sim) ++ ".dat")%string.
(* src/analysis.rs 88-97 [export_file_removed_idx] *)
Definition export_file_removed_idx (prefix : string) (vars : list (string * string)) : string :=
  (prefix ++ fold_right (fun v acc => var_part v ++ acc) "" vars ++ ".dat")%string.
(** [export_form!]. *)
(* src/macros.rs 157-167 *)
Definition export_form (width : nat) (names : list string) : string := fold_right (fun n acc => pad width n ++ acc)%string "" names.
(** [export_data!]: every variable is an integer or a float, printed by [show] and padded.  [show] is [{}] for
    integers and [{:e}] for floats. *)
(* src/macros.rs 205-230 *)
Definition export_data {A} (show : A -> string) (prec : nat) (vs : list A) : string :=
  fold_right (fun v acc => pad prec (show v) ++ String (ascii_of_nat 9) acc)%string "" vs.

(** ** The code generator: moledyn_proc/src/lib.rs *)
(** A token of the input of [simulation!]. *)
(* proc_macro2 token *)
Inductive token := TLiteral (s : string) | TIdent (s : string) | TComma | TOther.
(** [ParsedArguments::parse]: [None] is a compile error. *)
(* moledyn_proc/src/lib.rs 13-57 [parse] *)
Fixpoint parse_idents (ts : list token) : option (list string) :=
  match ts with
  | [] => Some []
  | TComma :: [] => Some []
  | TComma :: TIdent i :: r => option_map (cons i) (parse_idents r)
  | _ => None
  end.
(* moledyn_proc/src/lib.rs 13-57 [parse] *)
Definition parse_tokens (ts : list token) : option (string * list string) :=
  let parsed := match ts with
    | [] => Some ("RTS_GENERAL_", [])
    | TLiteral p :: r => option_map (fun is => (p, is)) (parse_idents r)
    | _ => None
    end in
  match parsed with
  | Some (p, is) => if (length is =? 6)%nat then Some (p, is) else None
  | None => None
  end.
(** [ident_to_dataset]: the variables listed for a structure; [None]: the identifier alone is emitted, on which
    [construct_dataset!] does not match. *)
(* moledyn_proc/src/lib.rs 61-163 [ident_to_dataset] *)
Definition dataset_vars (ident : string) : option (list string) :=
  if String.eqb ident "ContCircSystem" then Some ["sys_size"; "dim"]
  else if String.eqb ident "ContCubicSystem" then Some ["sys_size"; "dim"]
  else if String.eqb ident "ContCylindricalSystem" then Some ["radius"; "length"; "dim"]
  else if String.eqb ident "ContBoundaryTarget" then Some ["target_size"]
  else if String.eqb ident "ContBulkTarget" then Some ["target_size"]
  else if String.eqb ident "ContPassiveIndepAgent" then Some ["num_agent"]
  else if String.eqb ident "ContPassiveMergeAgent" then Some ["radius"; "alpha"; "num_agent"]
  else if String.eqb ident "ContPassiveExpAgent" then Some ["gamma"; "strength"; "num_agent"]
  else if String.eqb ident "ContPassiveLJAgent" then Some ["ptl_size"; "strength"; "num_agent"]
  else if String.eqb ident "ConstStep" then Some ["dt"; "tmax"]
  else if String.eqb ident "ExponentialStep" then Some ["dt_min"; "dt_max"; "length"; "tmax"]
  else if String.eqb ident "VariableSimulation" then Some ["idx_set"]
  else if String.eqb ident "ParVariableSimulation" then Some ["n_thrd"]
  else if String.eqb ident "ProcessSimulation" then Some ["period"; "idx_set"]
  else None.
(** [ident_to_variables]. *)
(* moledyn_proc/src/lib.rs 204-293 [ident_to_variables] *)
Definition declared_vars (ident : string) : list string :=
  if String.eqb ident "ContCircSystem" then ["sys_size"; "dim"]
  else if String.eqb ident "ContCubicSystem" then ["sys_size"; "dim"]
  else if String.eqb ident "ContCylindricalSystem" then ["sys_radius"; "sys_length"; "dim"]
  else if String.eqb ident "ContBoundaryTarget" then ["target_pos"; "target_size"]
  else if String.eqb ident "ContBulkTarget" then ["target_pos"; "target_size"]
  else if String.eqb ident "ContPassiveIndepAgent" then ["mtype"; "itype"; "num_agent"]
  else if String.eqb ident "ContPassiveMergeAgent" then ["mtype"; "itype"; "ptl_radius"; "alpha"; "num_agent"]
  else if String.eqb ident "ContPassiveExpAgent" then ["mtype"; "itype"; "gamma"; "exp_dim"; "strength"; "num_agent"]
  else if String.eqb ident "ContPassiveLJAgent" then ["mtype"; "itype"; "ptl_size"; "strength"; "num_agent"]
  else if String.eqb ident "ConstStep" then ["dt"; "tmax"]
  else if String.eqb ident "ExponentialStep" then ["dt_min"; "dt_max"; "length"; "tmax"]
  else if String.eqb ident "VariableSimulation" then ["num_ensemble"; "idx_set"; "seed"; "output_dir"]
  else if String.eqb ident "ParVariableSimulation" then ["num_ensemble"; "seed"; "n_thrd"; "output_dir"]
  else if String.eqb ident "ProcessSimulation" then ["num_ensemble"; "period"; "idx_set"; "seed"; "output_dir"]
  else [].
(** 162-175, 184-203, 292-318: the structures named by the six identifiers, in the order they are used: the first is the
    analysis, then system, target, agent, time, simulation.  Generated: [dataset] variables of the first four structures
    and of the simulation, and one [let x = arg.x] per declared variable. *)
(* moledyn_proc/src/lib.rs 169-181 [proc_construct_dataset]; moledyn_proc/src/lib.rs 184-200 [proc_setup_simulation]; moledyn_proc/src/lib.rs 203-318 [proc_variable_declare] *)
Record generated := Generated { g_prefix : string; g_analysis : string; g_structs : list string;
                                g_dataset : list (list string); g_sim : list string; g_lets : list (list string) }.
(* moledyn_proc/src/lib.rs 344-359 [simulation] *)
Definition simulation_macro (ts : list token) : option generated :=
  match parse_tokens ts with
  | Some (p, [a; sy; ta; ag; ti; si]) =>
      match dataset_vars sy, dataset_vars ta, dataset_vars ag, dataset_vars ti, dataset_vars si with
      | Some v1, Some v2, Some v3, Some v4, Some v5 =>
          Some (Generated p a [sy; ta; ag; ti; si] [v1; v2; v3; v4] v5 (map declared_vars [sy; ta; ag; ti; si]))
      | _, _, _, _, _ => None
      end
  | _ => None
  end.
(** The name of the file a run writes to (setup.rs 59-61 with analysis.rs 73-89): the listed variables of the structures of the
    data set, then those of the simulation, taken from the values read.  [None]: a listed variable is not a field. *)
(* self.arg.field in src/analysis.rs 41-51 [new] *)
Fixpoint field_text (fs : list field) : vals fs -> string -> option string :=
  match fs with
  | [] => fun _ _ => None
  | f :: r => fun v n => if String.eqb (f_name f) n then match f_show f (fst v) with Ok t => Some t | _ => None end
                         else field_text r (snd v) n
  end.
(* src/analysis.rs 73-85 [export_file] *)
Fixpoint named_texts (fs : list field) (v : vals fs) (names : list string) : option (list (string * string)) :=
  match names with
  | [] => Some []
  | n :: r => match field_text fs v n, named_texts fs v r with Some t, Some l => Some ((n, t) :: l) | _, _ => None end
  end.
(* src/analysis.rs 73-85 [export_file] *)
Definition spec_texts (sp : argspec) (v : args_of sp) : option (list (string * string)) :=
  match dataset_vars (a_name sp) with Some names => named_texts (a_fields sp) v names | None => None end.
(* src/analysis.rs 73-85 [export_file] *)
Fixpoint dataset_texts (specs : list argspec) : all_args specs -> option (list (string * string)) :=
  match specs with
  | [] => fun _ => Some []
  | sp :: r => fun v => match spec_texts sp (fst v), dataset_texts r (snd v) with Some a, Some b => Some (a ++ b) | _, _ => None end
  end.
(* src/setup.rs 49-70; src/analysis.rs 73-85 [export_file] *)
Definition output_file (prefix : string) (specs : list argspec) (sim : argspec) (v : all_args specs) (s : args_of sim) : option string :=
  match dataset_texts specs v, spec_texts sim s with Some a, Some b => Some (export_file prefix a b) | _, _ => None end.
(** What the Rust compiler then requires: every structure exists and has the fields that are used, and the fields of the data set are distinct. *)
(* the fields declared by; src/argument.rs 165-193 *)
Definition struct_fields {S : scalar} (nt : numtext S) (name : string) : option (list string) :=
  match find (fun sp => String.eqb (a_name sp) name) (all_specs nt) with
  | Some sp => Some (map f_name (a_fields sp))
  | None => None
  end.
