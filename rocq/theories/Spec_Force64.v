(** Vocabulary for the accuracy of forces and walks in double precision. *)
From Coq Require Import Reals ZArith List.
From Flocq.IEEE754 Require Import BinarySingleNaN.
From Verif Require Import Base Scalar Float64 Model_Position Spec_Position Model_System Spec_System Model_Agent Spec_Agent.
Import ListNotations.
Open Scope R_scope.
(** The exponential function of libm is accurate up to [k] roundings on [-700, 700]. *)
Definition exp_accurate (lm : libm) (k : R) : Prop := forall x : b64, is_finite x = true -> Rabs (B2R x) <= 700 ->
  is_finite (m_exp lm x) = true /\ Rabs (B2R (m_exp lm x) - exp (B2R x)) <= k * u64 * exp (B2R x).

(** A double whose magnitude lies between 2^-k and 2^k. *)
Definition sized (k : nat) (x : b64) : Prop := is_finite x = true /\ / 2 ^ k <= Rabs (B2R x) <= 2 ^ k.

(** Successive boundary steps with the displacements [vs], all accepted, lead from [p] to [q]. *)
Fixpoint walked {S : scalar} (bc : pos S -> pos S -> pos S * outcome unit) (p : pos S) (vs : list (pos S)) (q : pos S) : Prop :=
  match vs with
  | [] => q = p
  | v :: r => exists p1, bc p v = (p1, Ok tt) /\ walked bc p1 r q
  end.
(** No step of the walk meets the wall: position plus displacement is always inside. *)
Fixpoint unhindered {S : scalar} (incl : pos S -> outcome bool) (p : pos S) (vs : list (pos S)) : Prop :=
  match vs with
  | [] => True
  | v :: r => incl (vsum p v) = Ok true /\ unhindered incl (vsum p v) r
  end.
(** Coordinate [i] of a position, and of every displacement of a list, as real numbers. *)
Definition coord (i : nat) (p : list b64) : R := B2 (nth i p (b64_of_Z 0)).
Definition coords (i : nat) (vs : list (list b64)) : list R := map (coord i) vs.
(** Sum of magnitudes. *)
Definition magnitude (xs : list R) : R := rsum (map Rabs xs).
(** Successive random moves of an agent give the displacements [vs]. *)
Fixpoint drawn_moves {S : scalar} {G : rng S} (a : anyagent S) (dt : S) (g : rstate G) (vs : list (pos S)) (g' : rstate G) : Prop :=
  match vs with
  | [] => g' = g
  | v :: r => exists g1, a_random_move a g dt = (g1, Ok v) /\ drawn_moves a dt g1 r g'
  end.
(** Two coordinates are equal, or their distance lies between 2^-200 and 2^200. *)
Definition comparable (x y : b64) : Prop := B2R x = B2R y \/ / 2 ^ 200 <= Rabs (B2R y - B2R x) <= 2 ^ 200.
(** A sample is zero or lies between 2^-300 and 2^300 in magnitude. *)
Definition ordinary (z : b64) : Prop := is_finite z = true /\ (B2R z = 0 \/ sized 300 z).
(** Exact inner product, and the sum of the magnitudes of its terms. *)
Definition dot (p q : list R) : R := rsum (map (fun xy => fst xy * snd xy) (combine p q)).
Definition dot_abs (p q : list R) : R := rsum (map (fun xy => Rabs (fst xy * snd xy)) (combine p q)).
