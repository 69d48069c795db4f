(** Requests of bins, in double precision, for which the analyses of vectors of times and of processes are proved to succeed. *)
From Coq Require Import Reals.
From Flocq.IEEE754 Require Import BinarySingleNaN.
From Verif Require Import Base Scalar Spec_Position Model_Analysis Spec_Analysis Spec_Hist64.
Local Open Scope R_scope.

(** Linear bins: the minimum, raised to 1e-15, is not above the maximum, the maximum is at most 2^700, the bin at most 2^800, and at most 2^24 bins
    would cover the times from 0 to the maximum. *)
Definition ample_lin (lm : libm) (mn mx size : b64) : Prop :=
  is_finite mn = true /\ is_finite mx = true /\ is_finite size = true /\ 0 <= B2R mn /\
  B2R (raised (S := F64 lm) mn) <= B2R mx <= 2 ^ 700 /\ 0 < B2R size <= 2 ^ 800 /\ B2R mx <= 2 ^ 24 * B2R size.
(** Logarithmic bins: the factor is between 1 + 2^-19 and 2^50. *)
Definition ample_log (lsize : b64) : Prop := is_finite lsize = true /\ 1 + / 2 ^ 19 <= B2R lsize <= 2 ^ 50.
(** The platform's [log2] is increasing and has a relative error of at most 2^-40. *)
Definition fine_log2 (lm : libm) : Prop := sane_log2 lm /\ exists e, 0 <= e <= / 2 ^ 40 /\ accurate_log2 lm e.
