(** Rounding errors of forces and of random steps. *)
From Coq Require Import Reals ZArith List Lra Lia.
From Flocq Require Import Core.
From Flocq.IEEE754 Require Import BinarySingleNaN.
From Verif Require Import Base Scalar Float64 Model_Position Spec_Position Proof_Position Proof_Norm64 Proof_Sum64 Proof_Rel64.
Open Scope R_scope.

Lemma u64_small : u64 <= / 2 ^ 20.
Proof. unfold u64. apply Rinv_le_contravar; [apply pow_lt; lra|]. apply Rle_pow; [lra|lia]. Qed.
Lemma u64_tiny : u64 * 1000000 <= 1.
Proof. pose proof u64_small. assert (/ 2 ^ 20 * 1000000 <= 1) by (simpl; lra). lra. Qed.
Lemma few n : (n <= 100)%nat -> INR n * u64 <= 1 / 2.
Proof. intros H. apply le_INR in H. replace (INR 100) with 100 in H by (simpl; lra). pose proof u64_tiny. pose proof u64_pos. nra. Qed.
Lemma eta_u : eta64 <= u64.
Proof. unfold eta64, u64. apply Rinv_le_contravar; [apply pow_lt; lra|]. apply Rle_pow; [lra|lia]. Qed.

Lemma rel_sqrt n (x : b64) a : rel n x a -> 0 < a -> INR n * u64 <= 1 / 2 -> rel (n + 1) (Bsqrt mode_NE x) (sqrt a).
Proof.
  intros (F & t & E & T1) Pa K. pose proof (theta_two _ _ K T1) as T2. assert (Px : 0 < B2 x) by (rewrite E; nra).
  destruct (sqrt_val x F (Rlt_le _ _ Px)) as (Fs & Es). split; [exact Fs|]. pose proof (rnd64_sqrt x (Rlt_le _ _ Px)) as D. rewrite <- Es in D.
  assert (Ss : sqrt (B2 x) = sqrt a * sqrt t) by (rewrite E; apply sqrt_mult; lra). set (q := B2 (Bsqrt mode_NE x)) in *. pose proof (sqrt_lt_R0 a Pa) as Sa. pose proof (sqrt_lt_R0 t ltac:(lra)) as St.
  assert (Pq : 0 < sqrt (B2 x)) by now apply sqrt_lt_R0.
  pose proof v_pos as V. pose proof u64_pos as U. set (w := q / sqrt (B2 x)).
  assert (W : 1 - u64 <= w <= / (1 - u64)).
  { assert (Q : Rabs (w - 1) <= u64).
    { unfold w. replace (q / sqrt (B2 x) - 1) with ((q - sqrt (B2 x)) / sqrt (B2 x)) by (field; lra). unfold Rdiv. rewrite Rabs_mult, Rabs_inv, (Rabs_pos_eq (sqrt (B2 x))) by lra.
      apply Rmult_le_reg_r with (sqrt (B2 x)); [exact Pq|]. rewrite Rmult_assoc, Rinv_l by lra. lra. }
    apply Rabs_le_inv in Q. split; [lra|]. apply Rle_trans with (1 + u64); [lra|]. apply Rmult_le_reg_r with (1 - u64); [lra|]. rewrite Rinv_l by lra. nra. }
  exists (sqrt t * w). split. { unfold w. rewrite Ss. field. split; lra. }
  apply theta_mul; [|rewrite !pow_1; exact W]. destruct T1 as (A & B). pose proof (vn_pos n). pose proof (vn_le1 n). pose proof (vn_inv n) as Vi. assert (S2 : sqrt t * sqrt t = t) by (apply sqrt_sqrt; lra).
  split.
  - destruct (Rle_lt_dec 1 (sqrt t)); [lra|]. nra.
  - destruct (Rle_lt_dec (sqrt t) 1); [lra|]. nra.
Qed.
(** [w - 1] for a positive [w]. *)
Lemma minus_one n (w : b64) W : rel n w W -> (n <= 12)%nat -> 0 < W <= 2 ^ 400 ->
  fin (Bminus mode_NE w (b64_of_Z 1)) = true /\ Rabs (B2 (Bminus mode_NE w (b64_of_Z 1)) - (W - 1)) <= 26 * u64 * (W + 1).
Proof.
  intros Rw L (P & M). assert (K : INR n * u64 <= 1 / 2) by (apply few; lia). destruct (rel_bound n w W Rw K) as (F & D). rewrite (Rabs_pos_eq W) in D by lra.
  apply le_INR in L. replace (INR 12) with 12 in L by (simpl; lra). pose proof u64_pos as U. pose proof u64_tiny as Ut. pose proof (pos_INR n) as N0.
  assert (D' : Rabs (B2 w - W) <= 24 * u64 * W). { eapply Rle_trans; [exact D|]. apply Rmult_le_compat_r; [lra|]. nra. }
  destruct (of_Z_exact 1) as (F1 & E1); [lia|].
  assert (B : Rabs (B2 w - B2 (b64_of_Z 1)) <= 2 * W + 1).
  { rewrite E1. apply Rabs_le_inv in D'. apply Rabs_le. nra. }
  destruct (minus_val w (b64_of_Z 1) F F1) as (Nn & Vv). assert (Fm : fin (Bminus mode_NE w (b64_of_Z 1)) = true).
  { apply (rnd64_lt_fin _ _ Nn Vv). apply Rle_lt_trans with HI; [|unfold HI; apply bpow_lt; lia].
    apply abs_round_le_generic; auto with typeclass_instances. { apply generic_format_bpow. unfold fexp64, SpecFloat.fexp, SpecFloat.emin; lia. }
    eapply Rle_trans; [exact B|]. unfold HI. rewrite bpow_powerRZ. change (IZR radix2) with 2. replace (powerRZ 2 1000) with (2 ^ 1000) by reflexivity.
    replace 1000%nat with (400 + (2 + 598))%nat by reflexivity. rewrite pow_add. rewrite (pow_add 2 2 598). assert (1 <= 2 ^ 598) by (apply pow_R1_Rle; lra). assert (1 <= 2 ^ 400) by (apply pow_R1_Rle; lra).
    set (a := 2 ^ 400) in *. set (b := 2 ^ 598) in *. replace (2 ^ 2) with 4 by (simpl; ring). nra. }
  split; [exact Fm|]. rewrite (fin_minus_eq w (b64_of_Z 1) Fm). pose proof (rnd64_minus w (b64_of_Z 1)) as R1. rewrite E1 in *.
  replace (rnd64 (B2 w - 1) - (W - 1)) with ((rnd64 (B2 w - 1) - (B2 w - 1)) + (B2 w - W)) by ring. eapply Rle_trans; [apply Rabs_triang|]. nra.
Qed.
(** A product of a number known up to relative errors and of one known up to absolute errors. *)
Lemma mixed n (a y : b64) A Y M : rel n a A -> (n <= 16)%nat -> / 2 ^ 900 <= Rabs A -> Rabs A * M <= 2 ^ 990 -> fin y = true -> Rabs Y <= M -> 1 <= M -> Rabs (B2 y - Y) <= 26 * u64 * M ->
  fin (Bmult mode_NE a y) = true /\ Rabs (B2 (Bmult mode_NE a y) - A * Y) <= 64 * u64 * (Rabs A * M).
Proof.
  intros Ra L Lo Hi Fy HY HM Dy. assert (K : INR n * u64 <= 1 / 2) by (apply few; lia). destruct (rel_bound n a A Ra K) as (Fa & D).
  apply le_INR in L. replace (INR 16) with 16 in L by (simpl; lra). pose proof u64_pos as U. pose proof u64_tiny as Ut. pose proof (pos_INR n) as N0. pose proof (Rabs_pos A) as A0.
  assert (D' : Rabs (B2 a - A) <= 32 * u64 * Rabs A). { eapply Rle_trans; [exact D|]. apply Rmult_le_compat_r; [lra|]. nra. }
  assert (Py : Rabs (B2 y) <= M + 26 * u64 * M). { replace (B2 y) with (Y + (B2 y - Y)) by ring. eapply Rle_trans; [apply Rabs_triang|]. lra. }
  assert (AM : 0 <= Rabs A * M) by (apply Rmult_le_pos; lra). set (Q := Rabs A * M) in *.
  assert (E1 : Rabs (B2 a * B2 y - A * Y) <= 59 * u64 * Q).
  { replace (B2 a * B2 y - A * Y) with ((B2 a - A) * B2 y + A * (B2 y - Y)) by ring. eapply Rle_trans; [apply Rabs_triang|]. rewrite !Rabs_mult.
    assert (X1 : Rabs (B2 a - A) * Rabs (B2 y) <= 32 * u64 * Rabs A * (M + 26 * u64 * M)) by (apply Rmult_le_compat; try apply Rabs_pos; assumption).
    assert (X2 : Rabs A * Rabs (B2 y - Y) <= Rabs A * (26 * u64 * M)) by (apply Rmult_le_compat_l; assumption).
    replace (32 * u64 * Rabs A * (M + 26 * u64 * M)) with ((32 + 832 * u64) * u64 * Q) in X1 by (unfold Q; ring). replace (Rabs A * (26 * u64 * M)) with (26 * u64 * Q) in X2 by (unfold Q; ring).
    assert (0 <= u64 * Q) by (apply Rmult_le_pos; lra). nra. }
  assert (E2 : Rabs (B2 a * B2 y) <= Q + 59 * u64 * Q).
  { replace (B2 a * B2 y) with (A * Y + (B2 a * B2 y - A * Y)) by ring. eapply Rle_trans; [apply Rabs_triang|]. assert (Rabs (A * Y) <= Q) by (rewrite Rabs_mult; apply Rmult_le_compat_l; lra). lra. }
  destruct (mult_val a y Fa Fy) as (Nn & Vv). assert (Fm : fin (Bmult mode_NE a y) = true).
  { apply (rnd64_lt_fin _ _ Nn Vv). apply Rle_lt_trans with HI; [|unfold HI; apply bpow_lt; lia].
    apply abs_round_le_generic; auto with typeclass_instances. { apply generic_format_bpow. unfold fexp64, SpecFloat.fexp, SpecFloat.emin; lia. }
    eapply Rle_trans; [exact E2|]. unfold HI. rewrite bpow_powerRZ. change (IZR radix2) with 2. replace (powerRZ 2 1000) with (2 ^ 1000) by reflexivity.
    replace 1000%nat with (990 + (2 + 8))%nat by reflexivity. rewrite pow_add, (pow_add 2 2 8). assert (1 <= 2 ^ 8) by (apply pow_R1_Rle; lra). assert (1 <= 2 ^ 990) by (apply pow_R1_Rle; lra).
    set (p := 2 ^ 990) in *. set (b := 2 ^ 8) in *. replace (2 ^ 2) with 4 by (simpl; ring). nra. }
  split; [exact Fm|]. rewrite (fin_mult_eq a y Fm). pose proof (rnd64_err (B2 a * B2 y)) as R1.
  assert (H9 : eta64 <= u64 * Q).
  { apply Rle_trans with (u64 * / 2 ^ 900); [|apply Rmult_le_compat_l; [lra|]; apply Rle_trans with (1 := Lo); unfold Q; rewrite <- (Rmult_1_r (Rabs A)) at 1; apply Rmult_le_compat_l; lra].
    unfold eta64, u64. rewrite <- Rinv_mult, <- pow_add. apply Rinv_le_contravar; [apply pow_lt; lra|]. apply Rle_pow; [lra|lia]. }
  replace (rnd64 (B2 a * B2 y) - A * Y) with ((rnd64 (B2 a * B2 y) - B2 a * B2 y) + (B2 a * B2 y - A * Y)) by ring. eapply Rle_trans; [apply Rabs_triang|].
  assert (0 <= u64 * Q) by (apply Rmult_le_pos; lra). nra.
Qed.
