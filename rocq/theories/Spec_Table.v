(** What a table in a text file is, in terms of the positions of its characters.  Nothing here refers to the functions that write the tables. *)
From Coq Require Import String Ascii.
From Verif Require Import Base Scalar Model_Text Model_Args Model_Table Spec_Program Spec_Disk.
Local Notation length := List.length.

(** [s] stands in [line] from column [c] on. *)
Definition stands_at (line : string) (c : nat) (s : string) : Prop := String.substring c (String.length s) line = s.
(** The characters of [line] from column [a] up to column [b] (not included) are blanks. *)
Definition blank_between (line : string) (a b : nat) : Prop := forall j, a <= j < b -> String.get j line = Some " "%char.
(** The room taken by the first [k] cells: a cell takes [w] columns, more if its text is longer, and [gap] columns after it. *)
Definition room (w gap : nat) (texts : list string) (k : nat) : nat := list_sum (map (fun s => Nat.max w (String.length s) + gap) (firstn k texts)).
(** Cell [k] of a line of cells: its text [s] stands at the beginning of the cell and blanks fill it. *)
Definition cell_of (line : string) (w gap : nat) (texts : list string) (k : nat) (s : string) : Prop :=
  nth_error texts k = Some s /\ stands_at line (room w gap texts k) s /\
  blank_between line (room w gap texts k + String.length s) (room w gap texts k + Nat.max w (String.length s)).
(** The texts of the values of a structure, in the order of its fields. *)
Fixpoint texts_of (fs : list field) : vals fs -> list string -> Prop :=
  match fs with
  | [] => fun _ ts => ts = []
  | f :: r => fun v ts => exists t ts', ts = t :: ts' /\ f_show f (fst v) = Ok t /\ texts_of r (snd v) ts'
  end.
(** A line of a configuration: the name, blanks up to column [w], a colon, a blank and the value. *)
Definition config_line (line : string) (w : nat) (name value : string) : Prop :=
  stands_at line 0 name /\ blank_between line (String.length name) (Nat.max w (String.length name)) /\
  stands_at line (Nat.max w (String.length name)) ": " /\ stands_at line (Nat.max w (String.length name) + 2) value /\
  String.length line = Nat.max w (String.length name) + 2 + String.length value.
(** The words of an analysis of vectors: the number of columns, and then as for the other analyses. *)
Inductive vec_words {S : scalar} (nt : numtext S) : list string -> nat -> bin_request S -> string -> Prop :=
| words_of_vec w ws nv req dir : parse_usize w = Some nv -> analysis_words nt ws req dir -> vec_words nt (w :: ws) nv req dir.
(** Cell [k] of a line of cells whose texts stand at the end of their cells. *)
Definition right_cell_of (line : string) (w gap : nat) (texts : list string) (k : nat) (s : string) : Prop :=
  nth_error texts k = Some s /\ stands_at line (room w gap texts k + (Nat.max w (String.length s) - String.length s)) s /\
  blank_between line (room w gap texts k) (room w gap texts k + (Nat.max w (String.length s) - String.length s)).
(** The text of a value, the values that are numbers, and the cell of the public form: an integer padded, a float as it is. *)
Section Values.
Context {S : scalar}.
Definition val_text (show_f : S -> string) (v : tableval S) : string := match v with TInt z => show_int z | TFloat x => show_f x | TText s => s end.
Definition numeric (v : tableval S) : Prop := match v with TText _ => False | _ => True end.
Definition pub_cell (show_p : nat -> S -> string) (w : nat) (v : tableval S) : string := match v with TInt z => pad w (show_int z) | TFloat x => show_p w x | TText s => s end.
End Values.
