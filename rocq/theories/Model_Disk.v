(** Model of the disk under a sequence of calls of the program examples/mfpt_exp.rs: files created by runs (also by runs that are killed), the listing of a
    directory, the directories of analyses.

    Simplifications: a disk is the list of its files with their whole paths; paths are compared as texts (no links, no "..", no double slashes); the calls follow
    one another. *)
From Coq Require Import String Ascii NArith ZArith Permutation.
From Verif Require Import Base Scalar Model_LinkedList Model_Position Model_System Model_Agent Model_Time Model_Text Model_Args Model_Analysis Model_Run Model_Program.
Local Open Scope nat_scope.
Local Open Scope string_scope.
Local Open Scope list_scope.
Local Notation length := List.length.

(* std: the file system *)
Definition disk : Type := list (string * string).
(** [File::create] replaces a file of the same path. *)
(* std: fs::File::create; src/setup.rs 57-58 *)
Definition put (d : disk) (f : string * string) : disk := f :: filter (fun g => negb (String.eqb (fst g) (fst f))) d.
(** The rest of a text after a given beginning. *)
(* std: read_dir *)
Fixpoint after (p s : string) : option string :=
  match p, s with
  | "", _ => Some s
  | String a p', String b s' => if Ascii.eqb a b then after p' s' else None
  | String _ _, "" => None
  end.
(* std: read_dir *)
Fixpoint has_char (c : ascii) (s : string) : bool := match s with "" => false | String a r => Ascii.eqb a c || has_char c r end.
(** [fs::read_dir(&data_dir)] without the directories: the files directly in a directory. *)
(* src/analysis.rs 567-572 *)
Definition directly_in (dir path : string) : bool :=
  match after (dir ++ "/")%string path with Some name => negb (has_char "/"%char name) | None => false end.
(* src/analysis.rs 567-572 *)
Definition files_in (dir : string) (d : disk) : list string := map snd (filter (fun f => directly_in dir (fst f)) d).
(** The beginning of a text up to and with its [n]-th line feed. *)
(* std: a file written up to a flush *)
Fixpoint keep_lines (n : nat) (s : string) : string :=
  match n, s with
  | 0, _ | _, "" => ""
  | S m, String c r => String c (if Ascii.eqb c (ascii_of_nat 10) then keep_lines m r else keep_lines n r)
  end.
(** How a process ends: by itself (also by a panic or an error), or killed.  A run that is killed leaves nothing, an empty file, or the configuration and the
    first lines of data: the writer is flushed after the configuration and after each value. *)
(* src/setup.rs 57-69; examples/mfpt_exp.rs 81-82 *)
Inductive fate : Type := Finished | KilledFirst | KilledEmpty | KilledAfter (values : nat).

Section Calls.
Context {S : scalar} {G : rng S} (nt : numtext S) (as_u128 : S -> N) (rng_seed : N -> rstate G) (inner place_fuel fuel : nat) (show_e : S -> string) (sip : list Z -> Z).
(** The directory of the results, format!("{}/analysis_{}", data_dir, date), possibly with a number. *)
(* src/analysis.rs 533-553 *)
Definition summary_for (dir summary : string) : Prop := exists date, summary = (dir ++ "/analysis_" ++ date)%string.
(** One call with arguments [args]: the disk before and after it.  An analysis that fails or is killed leaves some files in its own directory. *)
(* examples/mfpt_exp.rs 5-87 [main]; src/setup.rs 49-93 *)
Inductive process (d : disk) (args : list string) : fate -> disk -> Prop :=
| process_finished texts summary fs o : (forall dir, Permutation (texts dir) (files_in dir d)) -> (forall dir, summary_for dir (summary dir)) ->
    exp_main nt as_u128 rng_seed inner place_fuel fuel show_e sip texts summary args = (fs, o) -> process d args Finished (fold_left put fs d)
| process_analysis_failed a req dir summary fs how : setup false exp_skip analysis_num_args (exp_specs nt) args = Ok (Analyze a) -> analyze_args nt a = Ok (req, dir) ->
    summary_for dir summary -> Forall (fun f => exists name, fst f = path_in summary name) fs -> process d args how (fold_left put fs d)
| process_killed_first : process d args KilledFirst d
| process_killed_empty v path text o texts summary : setup false exp_skip analysis_num_args (exp_specs nt) args = Ok (Simulate v) ->
    exp_main nt as_u128 rng_seed inner place_fuel fuel show_e sip texts summary args = ([(path, text)], o) -> process d args KilledEmpty (put d (path, ""))
| process_killed_after v path head body o n texts summary : setup false exp_skip analysis_num_args (exp_specs nt) args = Ok (Simulate v) ->
    exp_main nt as_u128 rng_seed inner place_fuel fuel show_e sip texts summary args = ([(path, head ++ body)%string], o) ->
    file_header (exp_specs nt) exp_width v = Ok head -> process d args (KilledAfter n) (put d (path, head ++ keep_lines n body)%string).
End Calls.
