(** C65, continued: the default analyses in double precision, for every platform with a fine log2. *)
From Coq Require Import Reals ZArith List.
From Flocq.IEEE754 Require Import BinarySingleNaN.
From Verif Require Import Base Scalar Float64 Model_Analysis Spec_Analysis Spec_Position Spec_Hist64 Spec_Export64 Model_Default Proof_Default Proof_Hist64e Proof_Export64c Proof_Default64.
Import ListNotations.
Local Open Scope R_scope.

(** If log2 is increasing with a relative error up to 2^-40, the hard-coded numbers of bins of the three default analyses are the computed ones: each of them is what
    [update_from_bin_size] sets up for times from 0 (or 1e-15) to 1e13, bins of 1e10 and the factor 1.2. *)
Theorem C65_f64_fine_default_is_set_up : forall lm (mn : b64), fine_log2 lm -> let factor : b64 := lit (s := F64 lm) 12 10 in
  mn = lit (s := F64 lm) 1 (10 ^ 15) \/ mn = b64_of_Z 0 ->
  ta_fresh (S := F64 lm) mn (b64_of_Z (10 ^ 13)) (b64_of_Z (10 ^ 10)) factor = Ok ta_default /\
  tv_fresh (S := F64 lm) mn (b64_of_Z (10 ^ 13)) (b64_of_Z (10 ^ 10)) factor 10 = Ok tv_default /\
  pa_fresh (S := F64 lm) mn (b64_of_Z (10 ^ 13)) (b64_of_Z (10 ^ 10)) factor = Ok pa_default.
Proof. intros lm mn H factor E. exact (fine_set_up lm H mn E). Qed.
Print Assumptions C65_f64_fine_default_is_set_up.
(** No samples - rows of ten numbers, lines of pairs - make them fail, and the loops of the exports end inside their columns. *)
Theorem C65_f64_fine_defaults_never_fail : forall lm, fine_log2 lm ->
  (forall xs : list b64, exists a, ta_adds (ta_default (S := F64 lm)) xs = Ok a) /\
  (forall rows : list (list b64), Forall (fun row => length row = 10%nat) rows -> exists a, tv_adds (tv_default (S := F64 lm)) rows = Ok a) /\
  (forall ls : list (list (b64 * b64)), exists a, add_lines (pa_line (S := F64 lm)) pa_default ls = Ok a) /\
  exists N,
  (forall rows a d, tv_adds (tv_default (S := F64 lm)) rows = Ok a -> tv_draw a = Ok d ->
     exists lin lg, forall fuel, (N < fuel)%nat -> tv_export_lin fuel d = Ok lin /\ tv_export_log fuel d = Ok lg) /\
  (forall ls a d, add_lines (pa_line (S := F64 lm)) pa_default ls = Ok a -> pa_draw a = Ok d ->
     exists lin lg, forall fuel, (N < fuel)%nat -> pa_export_lin fuel d = Ok lin /\ pa_export_log fuel d = Ok lg).
Proof.
  intros lm H. destruct (fine_vec lm H) as (V & N1 & VE). destruct (fine_proc lm H) as (P & N2 & PE).
  split; [exact (fine_time lm H)|]. split; [exact V|]. split; [exact P|]. exists (Nat.max N1 N2). split.
  - intros rows a d Ha Hd. destruct (VE rows a d Ha Hd) as (l1 & l2 & E). exists l1, l2. intros fuel Hf. apply E. exact (Nat.le_lt_trans _ _ _ (Nat.le_max_l N1 N2) Hf).
  - intros ls a d Ha Hd. destruct (PE ls a d Ha Hd) as (l1 & l2 & E). exists l1, l2. intros fuel Hf. apply E. exact (Nat.le_lt_trans _ _ _ (Nat.le_max_r N1 N2) Hf).
Qed.
Print Assumptions C65_f64_fine_defaults_never_fail.

(** The hypothesis is met by the correctly rounded log2. *)
Example rounded_log2_is_fine : fine_log2 good. Proof. exact good_fine. Qed.
