(** Relative errors of products and quotients of doubles, and the densities of the histograms. *)
From Coq Require Import Reals ZArith List Lra Lia.
From Flocq Require Import Core.
From Flocq.IEEE754 Require Import BinarySingleNaN.
From Verif Require Import Base Scalar Float64 Model_Position Spec_Position Proof_Position Proof_Norm64 Proof_Sum64.
Open Scope R_scope.

(** [x] is [r] up to [n] relative roundings. *)
Definition rel (n : nat) (x : b64) (r : R) : Prop :=
  fin x = true /\ exists t, B2 x = r * t /\ (1 - u64) ^ n <= t <= / (1 - u64) ^ n.

Definition LO : R := bpow radix2 (-1000).
Definition HI : R := bpow radix2 1000.

Lemma v_pos : 0 < 1 - u64. Proof. pose proof u64_lt1. lra. Qed.
Lemma vn_pos n : 0 < (1 - u64) ^ n. Proof. apply pow_lt, v_pos. Qed.
Lemma vn_le1 n : (1 - u64) ^ n <= 1. Proof. pose proof u64_pos. pose proof v_pos. apply pow_le1; lra. Qed.
Lemma vn_inv n : 1 <= / (1 - u64) ^ n.
Proof. apply Rle_trans with (/ 1); [rewrite Rinv_1; lra|]. apply Rinv_le_contravar; [apply vn_pos|apply vn_le1]. Qed.

Lemma rel_exact (x : b64) : fin x = true -> rel 0 x (B2 x).
Proof. intros F. split; auto. exists 1. simpl. rewrite Rinv_1. lra. Qed.

Lemma rel_mono n m x r : (n <= m)%nat -> rel n x r -> rel m x r.
Proof.
  intros L (F & t & E & A & B). split; auto. exists t. split; auto.
  assert (P : (1 - u64) ^ m <= (1 - u64) ^ n).
  { replace m with (n + (m - n))%nat by lia. rewrite pow_add. rewrite <- (Rmult_1_r ((1 - u64) ^ n)) at 2.
    apply Rmult_le_compat_l; [apply Rlt_le, vn_pos|apply vn_le1]. }
  split; [lra|]. apply Rle_trans with (1 := B). apply Rinv_le_contravar; [apply vn_pos|exact P].
Qed.

(** At most 2^51 roundings change a number by at most a factor two. *)
Lemma half n : INR n * u64 <= 1 / 2 -> 1 / 2 <= (1 - u64) ^ n. Proof. intros H. pose proof (l_lin n). lra. Qed.

Lemma one_round r : bpow radix2 (-1022) <= Rabs r -> exists t, rnd64 r = r * t /\ 1 - u64 <= t <= / (1 - u64).
Proof.
  intros H. pose proof (rnd64_rel r H) as E. pose proof (bpow_gt_0 radix2 (-1022)) as P.
  assert (N : r <> 0). { intros ->. rewrite Rabs_R0 in H. lra. }
  exists (rnd64 r / r). split; [now field|].
  assert (Q : Rabs (rnd64 r / r - 1) <= u64).
  { replace (rnd64 r / r - 1) with ((rnd64 r - r) / r) by (field; auto). unfold Rdiv. rewrite Rabs_mult, Rabs_inv.
    apply Rmult_le_reg_r with (Rabs r); [lra|]. rewrite Rmult_assoc, Rinv_l by lra. lra. }
  apply Rabs_le_inv in Q. pose proof v_pos. pose proof u64_pos. split; [lra|].
  apply Rle_trans with (1 + u64); [lra|]. apply Rmult_le_reg_r with (1 - u64); [lra|]. rewrite Rinv_l by lra. nra.
Qed.

Lemma range_ok r t : LO <= Rabs r <= HI -> 1 / 2 <= t <= 2 -> bpow radix2 (-1022) <= Rabs (r * t) /\ Rabs (rnd64 (r * t)) < top.
Proof.
  intros (L & H) (A & B). rewrite Rabs_mult, (Rabs_pos_eq t) by lra. pose proof (bpow_gt_0 radix2 (-1000)) as P. unfold LO, HI in *. split.
  - assert (X : bpow radix2 (-1022) <= bpow radix2 (-1000) * (1 / 2)).
    { replace (1 / 2) with (bpow radix2 (-1)) by (simpl; lra). rewrite <- bpow_plus. apply bpow_le. lia. }
    apply Rle_trans with (1 := X). apply Rmult_le_compat; lra.
  - apply Rle_lt_trans with (bpow radix2 1001).
    + apply abs_round_le_generic; auto with typeclass_instances.
      * apply generic_format_bpow. unfold fexp64, SpecFloat.fexp, SpecFloat.emin; lia.
      * rewrite Rabs_mult, (Rabs_pos_eq t) by lra. replace (bpow radix2 1001) with (bpow radix2 1000 * 2) by (change 1001%Z with (1000 + 1)%Z; rewrite bpow_plus; f_equal; simpl; ring).
        apply Rmult_le_compat; lra.
    + apply bpow_lt. lia.
Qed.

Lemma theta_mul n m s t : (1 - u64) ^ n <= s <= / (1 - u64) ^ n -> (1 - u64) ^ m <= t <= / (1 - u64) ^ m ->
  (1 - u64) ^ (n + m) <= s * t <= / (1 - u64) ^ (n + m).
Proof.
  intros (A & B) (C & D). pose proof (vn_pos n). pose proof (vn_pos m). rewrite pow_add, Rinv_mult.
  split; apply Rmult_le_compat; lra.
Qed.
Lemma theta_inv n t : (1 - u64) ^ n <= t <= / (1 - u64) ^ n -> (1 - u64) ^ n <= / t <= / (1 - u64) ^ n.
Proof.
  intros (A & B). pose proof (vn_pos n) as P. split.
  - rewrite <- (Rinv_inv ((1 - u64) ^ n)). apply Rinv_le_contravar; lra.
  - apply Rinv_le_contravar; lra.
Qed.
Lemma theta_two n t : INR n * u64 <= 1 / 2 -> (1 - u64) ^ n <= t <= / (1 - u64) ^ n -> 1 / 2 <= t <= 2.
Proof.
  intros H (A & B). pose proof (half n H) as Q. split; [lra|]. apply Rle_trans with (1 := B). replace 2 with (/ (1 / 2)) by lra. apply Rinv_le_contravar; lra.
Qed.

Lemma rel_mul n m (x y : b64) a b : rel n x a -> rel m y b -> LO <= Rabs (a * b) <= HI -> INR (n + m) * u64 <= 1 / 2 ->
  rel (n + m + 1) (Bmult mode_NE x y) (a * b).
Proof.
  intros (Fx & s & Ex & S1) (Fy & t & Ey & T1) R1 K. pose proof (theta_mul _ _ _ _ S1 T1) as ST. pose proof (theta_two _ _ K ST) as T2.
  assert (E : B2 x * B2 y = a * b * (s * t)) by (rewrite Ex, Ey; ring).
  destruct (range_ok _ _ R1 T2) as (R2 & R3). rewrite <- E in R2, R3.
  destruct (mult_val x y Fx Fy) as (Nn & V). pose proof (rnd64_lt_fin _ _ Nn V R3) as F. split; auto.
  rewrite (fin_mult_eq x y F). destruct (one_round _ R2) as (w & Ew & W). exists (s * t * w). rewrite Ew, E. split; [ring|].
  apply theta_mul; auto. rewrite !pow_1. exact W.
Qed.
Lemma rel_div n m (x y : b64) a b : rel n x a -> rel m y b -> b <> 0 -> LO <= Rabs (a / b) <= HI -> INR (n + m) * u64 <= 1 / 2 ->
  rel (n + m + 1) (Bdiv mode_NE x y) (a / b).
Proof.
  intros (Fx & s & Ex & S1) (Fy & t & Ey & T1) Nb R1 K. pose proof (vn_pos m) as Vm. assert (T0 : t <> 0) by lra.
  pose proof (theta_mul _ _ _ _ S1 (theta_inv _ _ T1)) as ST. pose proof (theta_two _ _ K ST) as T2.
  assert (E : B2 x / B2 y = a / b * (s * / t)) by (rewrite Ex, Ey; field; auto).
  destruct (range_ok _ _ R1 T2) as (R2 & R3). rewrite <- E in R2, R3.
  assert (Z : B2 y <> 0) by (rewrite Ey; apply Rmult_integral_contrapositive; auto).
  destruct (div_val x y Fx Fy Z) as (Nn & V). pose proof (rnd64_lt_fin _ _ Nn V R3) as F. split; auto.
  rewrite (fin_div_eq x y Fx Fy Z F). destruct (one_round _ R2) as (w & Ew & W). exists (s * / t * w). rewrite Ew, E. split; [ring|].
  apply theta_mul; auto. rewrite !pow_1. exact W.
Qed.
(** One subtraction has a relative error even when it underflows. *)
Lemma rel_minus (x y : b64) : fin x = true -> fin y = true -> B2 x - B2 y <> 0 -> Rabs (B2 x - B2 y) <= HI -> rel 1 (Bminus mode_NE x y) (B2 x - B2 y).
Proof.
  intros Fx Fy N H. destruct (minus_val x y Fx Fy) as (Nn & V). pose proof (rnd64_minus x y) as E. pose proof u64_pos. pose proof v_pos.
  set (r := B2 x - B2 y) in *. assert (P : 0 < Rabs r) by now apply Rabs_pos_lt.
  assert (F : fin (Bminus mode_NE x y) = true).
  { apply (rnd64_lt_fin _ _ Nn V). fold r. apply Rle_lt_trans with HI; [|unfold HI; apply bpow_lt; lia].
    apply abs_round_le_generic; auto with typeclass_instances. apply generic_format_bpow. unfold fexp64, SpecFloat.fexp, SpecFloat.emin; lia. }
  split; auto. rewrite (fin_minus_eq x y F). fold r. exists (rnd64 r / r). split; [field; auto|].
  assert (Q : Rabs (rnd64 r / r - 1) <= u64).
  { replace (rnd64 r / r - 1) with ((rnd64 r - r) / r) by (field; auto). unfold Rdiv. rewrite Rabs_mult, Rabs_inv.
    apply Rmult_le_reg_r with (Rabs r); [lra|]. rewrite Rmult_assoc, Rinv_l by lra. lra. }
  apply Rabs_le_inv in Q. rewrite !pow_1. split; [lra|].
  apply Rle_trans with (1 + u64); [lra|]. apply Rmult_le_reg_r with (1 - u64); [lra|]. rewrite Rinv_l by lra. nra.
Qed.

Lemma rel_bound n x r : rel n x r -> INR n * u64 <= 1 / 2 -> fin x = true /\ Rabs (B2 x - r) <= 2 * INR n * u64 * Rabs r.
Proof.
  intros (F & t & E & A & B) K. split; auto. rewrite E. replace (r * t - r) with (r * (t - 1)) by ring. rewrite Rabs_mult, (Rmult_comm _ (Rabs r)).
  apply Rmult_le_compat_l; [apply Rabs_pos|]. pose proof u64_pos. pose proof (pos_INR n) as N0. pose proof (l_lin n) as L. pose proof (vn_pos n).
  set (q := INR n * u64) in *. assert (q0 : 0 <= q) by (apply Rmult_le_pos; lra). replace (2 * INR n * u64) with (2 * q) by (unfold q; ring).
  apply Rabs_le. split; [lra|].
  assert (/ (1 - u64) ^ n <= / (1 - q)) by (apply Rinv_le_contravar; lra).
  assert (/ (1 - q) <= 1 + 2 * q). { apply Rmult_le_reg_r with (1 - q); [lra|]. rewrite Rinv_l by lra. nra. }
  lra.
Qed.
