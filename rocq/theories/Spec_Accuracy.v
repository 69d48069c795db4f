(** Vocabulary for rounding errors: how far a reported double may be from the exact value.  [u64] = 2^-53 is the relative error of one
    rounded operation, [eta64] = 2^-1075 the absolute error of one underflowing operation. *)
From Coq Require Import Reals ZArith List.
From Flocq Require Import Core.
From Flocq.IEEE754 Require Import BinarySingleNaN.
From Verif Require Import Base Scalar Float64 Spec_Position Spec_Analysis.
Import ListNotations.
Open Scope R_scope.

(** At least one sample, at most 2^50, all of them numbers of magnitude at most 2^480. *)
Definition moderate (xs : list b64) : Prop :=
  xs <> [] /\ INR (length xs) <= 2 ^ 50 /\ Forall (fun x => is_finite x = true /\ Rabs (B2R x) <= 2 ^ 480) xs.

(** [m] is the average of [xs] up to 2 (n + 1) roundings of the average magnitude. *)
Definition near_average (m : b64) (xs : list b64) : Prop :=
  is_finite m = true /\
  Rabs (B2R m - average (map B2R xs)) <= 2 * (INR (length xs) + 1) * u64 * average (map (fun x => Rabs (B2R x)) xs) + eta64.

(** [d] squared is the variance of [xs] up to 8 (n + 3) roundings of the mean square; when the variance itself is not larger
    than that, [d] may be NaN. *)
Definition near_deviation (d : b64) (xs : list b64) : Prop :=
  let v := deviation (map B2R xs) ^ 2 in
  let q := average (map (fun x => B2R x ^ 2) xs) in
  let B := 8 * (INR (length xs) + 3) * u64 * q + 21 * eta64 * (1 + q) in
  (is_finite d = true /\ 0 <= B2R d /\ Rabs (B2R d ^ 2 - v) <= B) \/ (is_nan d = true /\ v <= B).

(** The values of the pairs whose time is put into bin [i] by the rule [pos]. *)
Definition values_at {S : scalar} (pos : S -> option Z) (i : nat) (ps : list (S * S)) : list S :=
  map snd (filter (fun tv => match pos (fst tv) with Some z => Nat.eqb i (Z.to_nat z) | None => false end) ps).

(** [x] is [r] up to [n] roundings. *)
Definition close (n : R) (x : b64) (r : R) : Prop := is_finite x = true /\ Rabs (B2R x - r) <= 2 * n * u64 * Rabs r.
