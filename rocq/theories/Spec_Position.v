(** Specification vocabulary for positions: coordinates by index, Euclidean distance on reals. *)
From Coq Require Import Reals ZArith List.
From Verif Require Import Base Scalar Float64.
Import ListNotations.

Definition rsum (l : list R) : R := fold_right Rplus 0%R l.
Definition zsum (l : list Z) : Z := fold_right Z.add 0%Z l.

(** The Euclidean norm and distance of [n]-dimensional real vectors, by coordinates. *)
Definition euclid_norm (p : list R) : R := sqrt (rsum (map (fun x => x ^ 2)%R p)).
Definition euclid (p q : list R) : R :=
  sqrt (rsum (map (fun i => (nth i p 0 - nth i q 0) ^ 2)%R (seq 0 (length p)))).

(** All coordinates are ordinary numbers. *)
Definition finite_pos (p : list b64) : Prop := Forall (fun x => fin x = true) p.

(** A double whose value is exactly [r]. *)
Definition is_exactly (x : b64) (r : R) : Prop := fin x = true /\ B2 x = r.
(** A double that is the correctly rounded value of [r] (no overflow). *)
Definition is_rounded (x : b64) (r : R) : Prop := fin x = true /\ B2 x = rnd64 r.

(** The differences of corresponding coordinates, through [f]. *)
Definition zdiffs (f : Z -> Z) (p q : list Z) : list Z := map (fun xy => f (fst xy - snd xy)%Z) (combine p q).

(** The first [n] samples a generator delivers from state [g], and the state after them. *)
Fixpoint draws {G X : Type} (draw : G -> X * G) (n : nat) (g : G) : list X * G :=
  match n with
  | 0 => ([], g)
  | Datatypes.S k => let '(r, g1) := draw g in let '(l, g2) := draws draw k g1 in (r :: l, g2)
  end.

(** Binary64 rounding: relative error of one operation, absolute error of one underflowing operation. *)
Definition u64 : R := (/ 2 ^ 53)%R.
Definition eta64 : R := (/ 2 ^ 1075)%R.
(** The real vector a finite position stands for. *)
Definition reals (p : list b64) : list R := map B2 p.

(** The generator after [k] blocks of [n] samples. *)
Fixpoint after_blocks {G X : Type} (draw : G -> X * G) (n k : nat) (g : G) : G :=
  match k with 0 => g | Datatypes.S j => after_blocks draw n j (snd (draws draw n g)) end.
(** The [k]-th block (from 0) of [n] samples. *)
Definition nth_block {G X : Type} (draw : G -> X * G) (n k : nat) (g : G) : list X := fst (draws draw n (after_blocks draw n k g)).
