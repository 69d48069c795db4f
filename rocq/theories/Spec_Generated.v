(** Vocabulary for generated programs: which values given on a command line can be written to a data file so that they are read back. *)
From Coq Require Import String NArith.
From Verif Require Import Base Scalar Model_Position Model_System Model_Agent Model_Time Model_Text Spec_Text Model_Args Spec_Args Model_Generated.
Section Values.
Context {S : scalar} (nt : numtext S).
(** The conditions left for a value that was read from a word: no cylinder, no mixed boundary, no colon and no line break in a directory. *)
Inductive storable : forall f : field, f_ty f -> Prop :=
| ST_f64 n d (x : S) : storable (fld_f64 nt n d) x
| ST_usize n d (x : nat) : storable (fld_usize n d) x
| ST_u128 n d (x : N) : storable (fld_u128 n d) x
| ST_string n d (x : string) : one_line x -> storable (fld_string n d) x
| ST_pos n d (x : pos S) : storable (fld_pos nt n d) x
| ST_sys n d (x : systype) : (forall k, x <> ContinuousCylindrical k) -> storable (fld_sys n d) x
| ST_bc n d (x : bcond) : (forall k, x <> Mixed k) -> storable (fld_bc n d) x
| ST_target n d (x : targettype) : storable (fld_target n d) x
| ST_agent n d (x : agenttype) : storable (fld_agent n d) x
| ST_move n d (x : movetype S) : storable (fld_move nt n d) x
| ST_init n d (x : inittype S) : storable (fld_init nt n d) x.
Fixpoint all_storable (fs : list field) : vals fs -> Prop :=
  match fs with [] => fun _ => True | f :: r => fun v => storable f (fst v) /\ all_storable r (snd v) end.
Fixpoint args_storable (specs : list argspec) : all_args specs -> Prop :=
  match specs with [] => fun _ => True | sp :: r => fun v => all_storable (a_fields sp) (fst v) /\ args_storable r (snd v) end.
End Values.
(** Every structure accepts its values. *)
Fixpoint each_accepts (qs : list part) : all_args (map pt_spec qs) -> Prop :=
  match qs with [] => fun _ => True | q :: r => fun v => pt_build q (fst v) = Ok tt /\ each_accepts r (snd v) end.
(** Values with the type fields that reading a command line gives. *)
Fixpoint args_typed (specs : list argspec) : all_args specs -> Prop :=
  match specs with [] => fun _ => True | sp :: r => fun v => (exists u, fst v = vals_app (a_defaults sp) u) /\ args_typed r (snd v) end.
