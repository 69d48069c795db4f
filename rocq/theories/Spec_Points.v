(** Specification vocabulary: files with one point per line. *)
From Coq Require Import Reals List String Ascii.
Import ListNotations.
Local Open Scope string_scope.
(** A point on a line: the two numbers, separated by one tab. *)
Definition written_point {T} (show : T -> string) (p : list T) (line : string) : Prop :=
  exists x y, p = [x; y] /\ line = show x ++ String (ascii_of_nat 9) "" ++ show y.
(** A text made of the lines, each ended by a line feed. *)
Definition text_of (ls : list string) : string := fold_right (fun l t => l ++ String (ascii_of_nat 10) "" ++ t) "" ls.
Definition point_file {T} (show : T -> string) (ps : list (list T)) (text : string) : Prop :=
  exists ls, Forall2 (written_point show) ps ls /\ text = text_of ls.
(** [bs] cuts the interval from [a] to [b] in [n] pieces of the same width. *)
Definition cuts (a b : R) (n : nat) (bs : list R) : Prop :=
  List.length bs = Datatypes.S n /\ forall k, (k <= n)%nat -> nth k bs 0%R = (a + INR k * ((b - a) / INR n))%R.
