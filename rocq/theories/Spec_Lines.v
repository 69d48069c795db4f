(** Specification vocabulary: line ends. *)
From Coq Require Import String Ascii.
Local Open Scope string_scope.
(** The text with "\r\n" for each end of a line. *)
Fixpoint with_crlf (s : string) : string :=
  match s with
  | "" => ""
  | String c r => if Ascii.eqb c (ascii_of_nat 10) then String (ascii_of_nat 13) (String c (with_crlf r)) else String c (with_crlf r)
  end.
