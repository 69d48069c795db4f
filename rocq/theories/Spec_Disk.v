(** Specification vocabulary for a sequence of calls of the program examples/mfpt_exp.rs on one disk. *)
From Coq Require Import String Ascii NArith ZArith.
From Verif Require Import Base Scalar Model_LinkedList Model_Position Model_System Model_Agent Model_Time Model_Text Spec_Text Model_Args Spec_Args Model_Analysis Spec_Analysis Model_Run Spec_Run2
  Model_Program Spec_Program Model_Disk.
Local Open Scope nat_scope.
Local Open Scope string_scope.
Local Open Scope list_scope.
Local Notation length := List.length.

Section History.
Context {S : scalar} {G : rng S} (nt : numtext S) (as_u128 : S -> N) (rng_seed : N -> rstate G) (inner place_fuel fuel : nat) (show_e : S -> string) (sip : list Z -> Z).
(** What happens: a run with the given settings, which ends or is killed; or a call with another number of words than 18 (an analysis, or an error). *)
Inductive event : Type := Run (p : settings S) (how : fate) | Other (ws : list string) (how : fate).
Inductive history : disk -> list event -> disk -> Prop :=
| history_nil d : history d [] d
| history_run d p how ws prog d' es d'' : command nt p ws -> process nt as_u128 rng_seed inner place_fuel fuel show_e sip d (prog :: ws) how d' ->
    history d' es d'' -> history d (Run p how :: es) d''
| history_other d ws how prog d' es d'' : length ws <> 18 -> process nt as_u128 rng_seed inner place_fuel fuel show_e sip d (prog :: ws) how d' ->
    history d' es d'' -> history d (Other ws how :: es) d''.
(** The runs of a history that created a file in a directory. *)
Fixpoint runs_into (dir : string) (es : list event) : list (settings S * fate) :=
  match es with
  | [] => []
  | Run p how :: r => if String.eqb (p_dir p) dir then match how with KilledFirst => runs_into dir r | _ => (p, how) :: runs_into dir r end else runs_into dir r
  | Other _ _ :: r => runs_into dir r
  end.
(** Those whose file was not replaced by a later run. *)
Fixpoint surviving (l : list (settings S * fate)) : list (settings S * fate) :=
  match l with
  | [] => []
  | e :: r => if existsb (fun e' => String.eqb (run_path nt (fst e')) (run_path nt (fst e))) r then surviving r else e :: surviving r
  end.
(** [times] are the values a run with settings [p] writes. *)
Definition writes_values (p : settings S) (times : list S) : Prop := exists head o,
  file_header (exp_specs nt) 15 (join_args (exp_structs nt) (data_part nt p) (sim_part p)) = Ok head /\
  exp_program nt as_u128 rng_seed inner place_fuel fuel (data_part nt p) (sim_part p) = RunResult (Some (run_path nt p, head ++ lines_text (map (n_sci nt) times))%string) o.
(** What such a run leaves in its file. *)
Definition left_by (times : settings S -> list S) (e : settings S * fate) : option (all_args (exp_structs nt) * args_of varsim_spec * list S) :=
  let (p, how) := e in
  match how with
  | Finished => Some (data_part nt p, sim_part p, times p)
  | KilledAfter n => Some (data_part nt p, sim_part p, firstn n (times p))
  | KilledFirst | KilledEmpty => None
  end.
End History.
Arguments event S : clear implicits.
Arguments Run {S}. Arguments Other {S}.
(** The words of an analysis: lower and upper bound, number of bins or the two sizes of bins, directory. *)
Inductive analysis_words {S : scalar} (nt : numtext S) : list string -> bin_request S -> string -> Prop :=
| words_by_number w1 w2 w3 dir mn mx n : n_parse nt w1 = Some mn -> n_parse nt w2 = Some mx -> parse_usize w3 = Some n ->
    analysis_words nt [w1; w2; w3; dir] (ByNumber mn mx n) dir
| words_by_size w1 w2 w3 w4 dir mn mx b lb : n_parse nt w1 = Some mn -> n_parse nt w2 = Some mx -> n_parse nt w3 = Some b -> n_parse nt w4 = Some lb ->
    analysis_words nt [w1; w2; w3; w4; dir] (BySize mn mx b lb) dir.
(** The values in files. *)
Definition values_in {A B L : Type} (files : list (option (A * B * list L))) : list L := flat_map (fun f => match f with Some (_, _, xs) => xs | None => [] end) files.
