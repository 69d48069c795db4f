(** Specifications for integer vectors, slices and the order of positions. *)
From Coq Require Import ZArith List Reals.
From Flocq.IEEE754 Require Import BinarySingleNaN.
From Verif Require Import Base Scalar Float64.
Import ListNotations.

(** The values of [i32]. *)
Definition fits (z : Z) : Prop := (- 2 ^ 31 <= z <= 2 ^ 31 - 1)%Z.

(** Coordinatewise results in the integers. *)
Definition pairwise (op : Z -> Z -> Z) (p q : list Z) : list Z := map (fun xy => op (fst xy) (snd xy)) (combine p q).

(** [w] is the two's complement reading of [z]. *)
Definition wraps_to (z w : Z) : Prop := fits w /\ exists k, w = (z + k * 2 ^ 32)%Z.

(** Lexicographic comparison of two sequences, by an order and an equality of their elements. *)
Inductive lex {T} (lt eq : T -> T -> Prop) : list T -> list T -> comparison -> Prop :=
| lex_same : lex lt eq [] [] Eq
| lex_shorter y q : lex lt eq [] (y :: q) Lt
| lex_longer x p : lex lt eq (x :: p) [] Gt
| lex_less x y p q : lt x y -> lex lt eq (x :: p) (y :: q) Lt
| lex_more x y p q : lt y x -> lex lt eq (x :: p) (y :: q) Gt
| lex_equal x y p q c : eq x y -> lex lt eq p q c -> lex lt eq (x :: p) (y :: q) c.

(** [p] and [q] have [k] equal coordinates and then a pair with a NaN in it. *)
Inductive undecided : list b64 -> list b64 -> Prop :=
| und_here x y p q : nan x = true \/ nan y = true -> undecided (x :: p) (y :: q)
| und_later x y p q : val x = val y -> nan x = false -> nan y = false -> undecided p q -> undecided (x :: p) (y :: q).
