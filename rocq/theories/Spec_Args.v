(** Specification vocabulary for argument structures, data files and the code generator. *)
From Coq Require Import String Ascii NArith.
From Verif Require Import Base Scalar Model_Position Model_System Model_Agent Model_Time Model_Text Spec_Text Model_Args.
Local Open Scope string_scope.
Local Open Scope list_scope.
Local Notation length := List.length.

Definition line_feed : ascii := ascii_of_nat 10.
Definition carriage_return : ascii := ascii_of_nat 13.
(** A text that can stand after the colon of one line: no colon, no line break. *)
Definition one_line (s : string) : Prop := without ":" s /\ without line_feed s /\ without carriage_return s.
(** A text without white space at its ends. *)
Definition trimmed (s : string) : Prop :=
  (s = "" \/ exists c t, s = String c t /\ ~ whitespace c) /\ (s = "" \/ exists t c, s = (t ++ String c "")%string /\ ~ whitespace c).

Section Fields.
Context {S : scalar} (nt : numtext S).
(** The values that survive being written to a data file and read back, by type of field. *)
Inductive survives : forall f : field, f_ty f -> Prop :=
| SV_f64 n d (x : S) : survives (fld_f64 nt n d) x
| SV_usize n d (x : nat) : usize_fits x -> survives (fld_usize n d) x
| SV_u128 n d (x : N) : (x < 2 ^ 128)%N -> survives (fld_u128 n d) x
| SV_string n d (x : string) : one_line x -> trimmed x -> survives (fld_string n d) x
| SV_pos n d (x : pos S) : x <> [] -> survives (fld_pos nt n d) x
| SV_sys n d (x : systype) : (forall k, x <> ContinuousCylindrical k) -> survives (fld_sys n d) x
| SV_bc n d (x : bcond) : (forall k, x <> Mixed k) -> survives (fld_bc n d) x
| SV_target n d (x : targettype) : survives (fld_target n d) x
| SV_agent n d (x : agenttype) : survives (fld_agent n d) x
| SV_move n d (x : movetype S) : survives (fld_move nt n d) x
| SV_init n d (x : inittype S) : (forall p, x = SpecificPosition p -> p <> []) -> survives (fld_init nt n d) x.
Fixpoint all_survive (fs : list field) : vals fs -> Prop :=
  match fs with [] => fun _ => True | f :: r => fun v => survives f (fst v) /\ all_survive r (snd v) end.
Fixpoint args_survive (specs : list argspec) : all_args specs -> Prop :=
  match specs with [] => fun _ => True | sp :: r => fun v => all_survive (a_fields sp) (fst v) /\ args_survive r (snd v) end.

(** What reading a command line gives, structure by structure: the [i]-th reader gets the [i]-th block of arguments. *)
Fixpoint reads (specs : list argspec) (blocks : list (list string)) : all_args specs -> Prop :=
  match specs, blocks with
  | [], [] => fun _ => True
  | sp :: r, b :: bs => fun v => read_args_from_vec sp b = Ok (fst v) /\ reads r bs (snd v)
  | _, _ => fun _ => False
  end.
End Fields.
(** Every field is the value of the word at its place, white space around the word ignored. *)
Fixpoint word_values (fs : list field) (words : list string) : vals fs -> Prop :=
  match fs, words with
  | [], [] => fun _ => True
  | f :: r, w :: ws => fun v => (exists a t b, w = (a ++ t ++ b)%string /\ blank a /\ blank b /\ trimmed t /\ f_parse f t = Ok (fst v)) /\ word_values r ws (snd v)
  | _, _ => fun _ => False
  end.
(** The arguments cut in consecutive blocks, one for each structure, of the length that structure asks for. *)
Definition blocks_of (specs : list argspec) (args : list string) (blocks : list (list string)) : Prop :=
  args = List.concat blocks /\ map (@length string) blocks = map a_num specs.

(** Two lists of named values with the same names. *)
Definition same_names (a b : list (string * string)) : Prop := map fst a = map fst b.
(** Values printed without an underscore. *)
Definition plain_values (a : list (string * string)) : Prop := Forall (fun nv => without "_" (snd nv)) a.

(** Two readings of a structure give the same value to the fields with one of these names. *)
Fixpoint agree (fs : list field) (names : list string) : vals fs -> vals fs -> Prop :=
  match fs with
  | [] => fun _ _ => True
  | f :: r => fun v w => (In (f_name f) names -> fst v = fst w) /\ agree r names (snd v) (snd w)
  end.
Fixpoint agree_all (specs : list argspec) (listed : string -> list string) : all_args specs -> all_args specs -> Prop :=
  match specs with
  | [] => fun _ _ => True
  | sp :: r => fun v w => agree (a_fields sp) (listed (a_name sp)) (fst v) (fst w) /\ agree_all r listed (snd v) (snd w)
  end.
(** The parameters that enter the name of the data file, by structure. *)
Definition in_file_name (st : string) : list string :=
  if String.eqb st "ContCircSystem" then ["sys_size"; "dim"]
  else if String.eqb st "ContCubicSystem" then ["sys_size"; "dim"]
  else if String.eqb st "ContBulkTarget" then ["target_size"]
  else if String.eqb st "ContPassiveIndepAgent" then ["num_agent"]
  else if String.eqb st "ContPassiveExpAgent" then ["gamma"; "strength"; "num_agent"]
  else if String.eqb st "ContPassiveLJAgent" then ["ptl_size"; "strength"; "num_agent"]
  else if String.eqb st "ConstStep" then ["dt"; "tmax"]
  else if String.eqb st "ExponentialStep" then ["dt_min"; "dt_max"; "length"; "tmax"]
  else if String.eqb st "VariableSimulation" then ["idx_set"]
  else if String.eqb st "ParVariableSimulation" then ["n_thrd"]
  else if String.eqb st "ProcessSimulation" then ["period"; "idx_set"]
  else [].

(** The six kinds of component and the names supported for them. *)
Definition systems := ["ContCircSystem"; "ContCubicSystem"; "ContCylindricalSystem"].
Definition targets := ["ContBulkTarget"].
Definition agents := ["ContPassiveIndepAgent"; "ContPassiveMergeAgent"; "ContPassiveExpAgent"; "ContPassiveLJAgent"].
Definition clocks := ["ConstStep"; "ExponentialStep"].
Definition simulations := ["VariableSimulation"; "ParVariableSimulation"; "ProcessSimulation"].
Definition invocation (p a sy ta ag ti si : string) : list token :=
  [TLiteral p; TComma; TIdent a; TComma; TIdent sy; TComma; TIdent ta; TComma; TIdent ag; TComma; TIdent ti; TComma; TIdent si].
(** The generated code compiles: every structure exists, has the fields that are used, and the data set has no field twice. *)
Definition uses_fields {S : scalar} (nt : numtext S) (st : string) (used : list string) : Prop :=
  exists fs, struct_fields nt st = Some fs /\ incl used fs.
Definition compiles {S : scalar} (nt : numtext S) (g : generated) : Prop :=
  Forall2 (uses_fields nt) (g_structs g) (g_dataset g ++ [g_sim g]) /\
  Forall2 (uses_fields nt) (g_structs g) (g_lets g) /\
  NoDup (List.concat (g_dataset g) ++ g_sim g).
