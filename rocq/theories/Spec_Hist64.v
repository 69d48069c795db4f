(** Vocabulary for histograms of doubles against exact intervals. *)
From Coq Require Import Reals ZArith List Bool.
From Flocq.IEEE754 Require Import BinarySingleNaN.
From Verif Require Import Base Scalar Spec_Position Model_Analysis Spec_Analysis.
Import ListNotations.
Open Scope R_scope.

(** The number of samples with m <= x <= M and lo <= x < hi, all four taken as exact real numbers. *)
Definition counted (m M lo hi : R) (xs : list b64) : nat :=
  number_of (fun x : b64 => between (S := RR) m M (B2R x) && cell lo hi (B2R x))%bool xs.
(** The platform's [log2] has the relative error [e] on numbers from 1 on. *)
Definition accurate_log2 (lm : libm) (e : R) : Prop :=
  forall x : b64, is_finite x = true -> 1 <= B2R x ->
  is_finite (m_log2 lm x) = true /\ Rabs (B2R (m_log2 lm x) - ln (B2R x) / ln 2) <= e * (ln (B2R x) / ln 2).
(** The edges of linear bin [i], moved inwards (d > 0) or outwards (d < 0) by the fraction [d] of their distance from the low end. *)
Definition bin_lo (m w d : R) (i : nat) : R := m + INR i * w * (1 + d).
Definition bin_hi (m w d : R) (i : nat) : R := m + (INR i + 1) * w * (1 - d).
(** The edges of logarithmic bin [i], moved inwards or outwards by the fraction [d] in the exponent and the fraction [v] of their value. *)
Definition lbin_lo (m l d v : R) (i : nat) : R := m * Rpower l (INR i * (1 + d)) * (1 + v).
Definition lbin_hi (m l d v : R) (i : nat) : R := m * Rpower l ((INR i + 1) * (1 - d)) * (1 - v).
(** [n] is at least the number of samples surely inside and at most the number of samples possibly inside linear bin [i]: the bin with
    its edges moved inwards and outwards by 2^-51. *)
Definition lin_count (m M w : R) (i : nat) (xs : list b64) (n : nat) : Prop :=
  (counted m M (bin_lo m w (4 * u64) i) (bin_hi m w (4 * u64) i) xs <= n <= counted m M (bin_lo m w (- (4 * u64)) i) (bin_hi m w (- (4 * u64)) i) xs)%nat.
(** The same for logarithmic bin [i]; [e] is the relative error of the platform's log2. *)
Definition log_count (e m M l : R) (i : nat) (xs : list b64) (n : nat) : Prop :=
  let d := 2 * u64 + 4 * e in let v := 2 * u64 in
  (counted m M (lbin_lo m l d v i) (lbin_hi m l d v i) xs <= n <= counted m M (lbin_lo m l (- d) (- v) i) (lbin_hi m l (- d) (- v) i) xs)%nat.
