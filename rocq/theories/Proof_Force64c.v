(** Rounding errors of the exponential interaction; a libm whose [exp] is correctly rounded. *)
From Coq Require Import Reals ZArith List Lra Lia.
From Flocq Require Import Core.
From Flocq.IEEE754 Require Import BinarySingleNaN.
From Verif Require Import Base Scalar Float64 Model_Position Spec_Position Proof_Position Proof_Norm64 Proof_Sum64 Proof_Rel64 Proof_Force64 Proof_Force64b Spec_Force64.
Open Scope R_scope.

Lemma u64_tiny9 : u64 * 1000000000 <= 1.
Proof.
  assert (u64 <= / 2 ^ 30). { unfold u64. apply Rinv_le_contravar; [apply pow_lt; lra|]. apply Rle_pow; [lra|lia]. }
  assert (/ 2 ^ 30 * 1000000000 <= 1) by (simpl; lra). lra.
Qed.
Lemma exp_near h d : Rabs h <= d -> d <= 1 / 2 -> 1 - 2 * d <= exp h <= 1 + 2 * d.
Proof.
  intros H D. apply Rabs_le_inv in H. pose proof (exp_ineq1_le h) as A. pose proof (exp_ineq1_le (- h)) as B. split; [lra|].
  rewrite exp_Ropp in B. pose proof (exp_pos h) as P. assert (C : (1 - h) * exp h <= 1). { apply Rmult_le_reg_r with (/ exp h); [now apply Rinv_0_lt_compat|]. rewrite Rmult_assoc, Rinv_r by lra. lra. }
  assert (exp h <= exp d). { destruct (Req_dec h d) as [->|N]; [lra|]. left. apply exp_increasing. lra. }
  assert (C' : (1 - d) * exp d <= 1).
  { pose proof (exp_ineq1_le (- d)) as B'. rewrite exp_Ropp in B'. pose proof (exp_pos d). apply Rmult_le_reg_r with (/ exp d); [now apply Rinv_0_lt_compat|]. rewrite Rmult_assoc, Rinv_r by lra. lra. }
  assert (exp d <= 1 + 2 * d). { apply Rmult_le_reg_l with (1 - d); [lra|]. nra. } lra.
Qed.
Lemma exp_err lm k (r ga c : b64) n C : exp_accurate lm k -> 0 <= k <= 1000 -> fin r = true -> fin ga = true -> 0 <= B2 r -> 0 < B2 ga -> B2 r / B2 ga <= 600 ->
  rel n c C -> (n <= 1)%nat -> Rabs C <= 2 ^ 900 ->
  let T := - B2 r / B2 ga in let f := Bmult mode_NE c (m_exp lm (Bdiv mode_NE (Bopp r) ga)) in
  fin f = true /\ Rabs (B2 f - C * exp T) <= (k + 2 * Rabs T + 7) * u64 * Rabs (C * exp T) + eta64.
Proof.
  intros Ex K Fr Fg Pr Pg Tr Rc Ln HC. cbv zeta. pose proof u64_pos as U. pose proof u64_tiny as Ut. pose proof eta_u as Eu. pose proof eta64_pos as Ep.
  set (T := - B2 r / B2 ga). assert (T0 : -600 <= T <= 0).
  { unfold T. assert (0 <= B2 r / B2 ga) by (apply Rmult_le_pos; [lra|left; now apply Rinv_0_lt_compat]). replace (- B2 r / B2 ga) with (- (B2 r / B2 ga)) by (field; lra). lra. }
  assert (AT : Rabs T = - T) by (apply Rabs_left1; lra).
  assert (Fo : fin (Bopp r) = true) by now rewrite is_finite_Bopp. assert (Eo : B2 (Bopp r) = - B2 r) by apply B2R_Bopp.
  destruct (div_val (Bopp r) ga Fo Fg ltac:(lra)) as (Nn & Vv). rewrite Eo in Vv. fold T in Vv. pose proof (rnd64_err T) as R1. rewrite AT in R1.
  assert (Ft : fin (Bdiv mode_NE (Bopp r) ga) = true).
  { apply (rnd64_lt_fin _ _ Nn Vv). apply Rle_lt_trans with 700; [|apply Rlt_le_trans with (bpow radix2 10); [simpl; lra|apply bpow_le; lia]]. apply Rabs_le_inv in R1. apply Rabs_le. nra. }
  set (tt := Bdiv mode_NE (Bopp r) ga) in *. assert (Et : B2 tt = rnd64 T). { unfold tt. rewrite (fin_div_eq _ _ Fo Fg ltac:(lra) Ft), Eo. reflexivity. }
  rewrite <- Et in R1. set (d := u64 * (- T + 1)). assert (Hd : Rabs (B2 tt - T) <= d) by (unfold d; nra). assert (D1 : 0 <= d) by (unfold d; apply Rmult_le_pos; lra). assert (D2 : d <= 1 / 1000) by (unfold d; nra).
  assert (At : Rabs (B2 tt) <= 700). { apply Rabs_le_inv in Hd. apply Rabs_le. lra. }
  destruct (Ex tt Ft At) as (Fe & De). set (e := m_exp lm tt) in *.
  pose proof (exp_near _ _ Hd ltac:(lra)) as Nr. assert (Xt : exp (B2 tt) = exp T * exp (B2 tt - T)) by (rewrite <- exp_plus; f_equal; ring). rewrite Xt in De. set (h := exp (B2 tt - T)) in *.
  pose proof (exp_pos T) as PE. assert (E1 : exp T <= 1). { rewrite <- exp_0. destruct (Req_dec T 0) as [->|N]; [lra|]. left. apply exp_increasing. lra. } set (E := exp T) in *.
  set (ka := k + 1 + 2 * - T + 2).
  assert (D3 : 2 * d * k <= 1). { assert (d * k <= d * 1000) by (apply Rmult_le_compat_l; lra). assert (d <= u64 * 601) by (unfold d; apply Rmult_le_compat_l; lra). pose proof u64_tiny9. lra. }
  assert (De' : Rabs (B2 e - E) <= u64 * ka * E).
  { replace (B2 e - E) with ((B2 e - E * h) + E * (h - 1)) by ring. eapply Rle_trans; [apply Rabs_triang|].
    assert (X1 : Rabs (E * (h - 1)) <= E * (2 * d)). { rewrite Rabs_mult, (Rabs_pos_eq E) by lra. apply Rmult_le_compat_l; [lra|]. apply Rabs_le. lra. }
    assert (X2 : k * u64 * (E * h) <= k * u64 * (E * (1 + 2 * d))). { apply Rmult_le_compat_l; [apply Rmult_le_pos; lra|]. apply Rmult_le_compat_l; lra. }
    assert (X3 : k * u64 * (E * (1 + 2 * d)) = u64 * E * (k + 2 * d * k)) by ring. assert (X4 : E * (2 * d) = u64 * E * (2 * - T + 2)) by (unfold d; ring).
    assert (X5 : u64 * E * (k + 2 * d * k) <= u64 * E * (k + 1)) by (apply Rmult_le_compat_l; [apply Rmult_le_pos; lra|lra]). unfold ka. nra. }
  assert (Ka : 0 <= ka <= 2203) by (unfold ka; lra). assert (Uk : u64 * ka <= 1 / 100) by nra.
  destruct (rel_bound n c C Rc (few n ltac:(lia))) as (Fc & Dc). apply le_INR in Ln. replace (INR 1) with 1 in Ln by reflexivity.
  assert (Dc' : Rabs (B2 c - C) <= 2 * u64 * Rabs C). { eapply Rle_trans; [exact Dc|]. apply Rmult_le_compat_r; [apply Rabs_pos|]. pose proof (pos_INR n). nra. }
  pose proof (Rabs_pos C) as C0. set (Q := Rabs (C * E)). assert (EQ : Q = Rabs C * E) by (unfold Q; rewrite Rabs_mult, (Rabs_pos_eq E) by lra; reflexivity).
  assert (Q0 : 0 <= Q) by apply Rabs_pos. assert (UQ : 0 <= u64 * Q) by (apply Rmult_le_pos; lra).
  assert (Pe : Rabs (B2 e) <= E * (1 + u64 * ka)). { replace (B2 e) with (E + (B2 e - E)) by ring. eapply Rle_trans; [apply Rabs_triang|]. rewrite (Rabs_pos_eq E) by lra. lra. }
  assert (P1 : Rabs (B2 c * B2 e - C * E) <= u64 * Q * (ka + 21 / 10)).
  { replace (B2 c * B2 e - C * E) with ((B2 c - C) * B2 e + C * (B2 e - E)) by ring. eapply Rle_trans; [apply Rabs_triang|]. rewrite !Rabs_mult.
    assert (X1 : Rabs (B2 c - C) * Rabs (B2 e) <= 2 * u64 * Rabs C * (E * (1 + u64 * ka))) by (apply Rmult_le_compat; try apply Rabs_pos; assumption).
    assert (X2 : Rabs C * Rabs (B2 e - E) <= Rabs C * (u64 * ka * E)) by (apply Rmult_le_compat_l; assumption).
    replace (2 * u64 * Rabs C * (E * (1 + u64 * ka))) with (u64 * Q * (2 * (1 + u64 * ka))) in X1 by (rewrite EQ; ring). replace (Rabs C * (u64 * ka * E)) with (u64 * Q * ka) in X2 by (rewrite EQ; ring).
    assert (u64 * Q * (2 * (1 + u64 * ka)) <= u64 * Q * (202 / 100)) by (apply Rmult_le_compat_l; lra). lra. }
  assert (P2 : Rabs (B2 c * B2 e) <= Q * (102 / 100)).
  { replace (B2 c * B2 e) with (C * E + (B2 c * B2 e - C * E)) by ring. eapply Rle_trans; [apply Rabs_triang|]. fold Q. assert (u64 * Q * (ka + 21 / 10) = Q * (u64 * ka + 21 / 10 * u64)) by ring.
    assert (Q * (u64 * ka + 21 / 10 * u64) <= Q * (2 / 100)) by (apply Rmult_le_compat_l; lra). lra. }
  destruct (mult_val c e Fc Fe) as (Nm & Vm). assert (Fm : fin (Bmult mode_NE c e) = true).
  { apply (rnd64_lt_fin _ _ Nm Vm). apply Rle_lt_trans with HI; [|unfold HI; apply bpow_lt; lia].
    apply abs_round_le_generic; auto with typeclass_instances. { apply generic_format_bpow. unfold fexp64, SpecFloat.fexp, SpecFloat.emin; lia. }
    eapply Rle_trans; [exact P2|]. unfold HI. rewrite bpow_powerRZ. change (IZR radix2) with 2. replace (powerRZ 2 1000) with (2 ^ 1000) by reflexivity.
    assert (Q <= 2 ^ 900). { rewrite EQ. apply Rle_trans with (Rabs C * 1); [apply Rmult_le_compat_l; lra|lra]. }
    replace 1000%nat with (900 + (1 + 99))%nat by reflexivity. rewrite pow_add, (pow_add 2 1 99), pow_1. assert (1 <= 2 ^ 99) by (apply pow_R1_Rle; lra). pose proof (p2 900).
    set (p := 2 ^ 900) in *. set (b := 2 ^ 99) in *. nra. }
  split; [exact Fm|]. rewrite (fin_mult_eq c e Fm). pose proof (rnd64_err (B2 c * B2 e)) as R2.
  replace (rnd64 (B2 c * B2 e) - C * E) with ((rnd64 (B2 c * B2 e) - B2 c * B2 e) + (B2 c * B2 e - C * E)) by ring. eapply Rle_trans; [apply Rabs_triang|].
  rewrite AT. fold Q. unfold ka in P1.
  assert (u64 * Rabs (B2 c * B2 e) <= u64 * (Q * (102 / 100))) by (apply Rmult_le_compat_l; lra).
  assert ((k + 2 * - T + 7) * u64 * Q = u64 * Q * (k + 1 + 2 * - T + 2 + 21 / 10) + u64 * (Q * (102 / 100)) + u64 * Q * (7 - 3 - 21 / 10 - 102 / 100)) by field. lra.
Qed.

(** The double nearest to a real number. *)
Definition round_b64 (r : R) : b64 := binary_normalize 53 1024 _ _ mode_NE (Ztrunc (scaled_mantissa radix2 fexp64 (rnd64 r))) (cexp radix2 fexp64 (rnd64 r)) false.
Lemma round_b64_val r : Rabs (rnd64 r) < top -> fin (round_b64 r) = true /\ B2 (round_b64 r) = rnd64 r.
Proof.
  intros H. unfold round_b64. pose proof (binary_normalize_correct 53 1024 _ _ mode_NE (Ztrunc (scaled_mantissa radix2 fexp64 (rnd64 r))) (cexp radix2 fexp64 (rnd64 r)) false) as B.
  assert (G : F2R (Float radix2 (Ztrunc (scaled_mantissa radix2 fexp64 (rnd64 r))) (cexp radix2 fexp64 (rnd64 r))) = rnd64 r).
  { symmetry. apply (generic_format_round radix2 fexp64 (round_mode mode_NE)). }
  rewrite G in B. cbv zeta in B. rewrite (round_generic radix2 fexp64 (round_mode mode_NE) (rnd64 r)) in B by (apply generic_format_round; auto with typeclass_instances).
  rewrite Rlt_bool_true in B by exact H. destruct B as (B1 & B2' & _). now split.
Qed.
Lemma exp_one : exp 1 <= 11 / 4.
Proof.
  assert (B := exp_ineq1_le (- (1 / 64))). rewrite exp_Ropp in B. assert (P := exp_pos (1 / 64)).
  assert (C : exp (1 / 64) <= 64 / 63). { apply Rmult_le_reg_r with (/ exp (1 / 64)); [now apply Rinv_0_lt_compat|]. rewrite Rinv_r by lra. lra. }
  assert (D : exp 1 = exp (1 / 64) ^ 64). { replace 1 with (INR 64 * (1 / 64)) at 1 by (simpl; lra). generalize 64%nat (1 / 64). induction n as [|n IH]; intros y; [cbn [INR pow]; rewrite Rmult_0_l; apply exp_0|].
    rewrite S_INR, Rmult_plus_distr_r, Rmult_1_l, exp_plus, IH, <- tech_pow_Rmult. ring. }
  rewrite D. eapply Rle_trans; [apply pow_incr; split; [lra|exact C]|].
  unfold Rdiv. rewrite Rpow_mult_distr, pow_inv. apply Rmult_le_reg_r with (63 ^ 64); [apply pow_lt; lra|]. rewrite Rmult_assoc, Rinv_l, Rmult_1_r by (apply pow_nonzero; lra).
  apply Rmult_le_reg_r with 4; [lra|]. replace (11 * / 4 * 63 ^ 64 * 4) with (11 * 63 ^ 64) by field. rewrite !pow_IZR, <- !mult_IZR. apply IZR_le. vm_compute. discriminate.
Qed.
Lemma exp_pow n y : exp (INR n * y) = exp y ^ n.
Proof. induction n as [|n IH]; [cbn [INR pow]; rewrite Rmult_0_l; apply exp_0|]. rewrite S_INR, Rmult_plus_distr_r, Rmult_1_l, exp_plus, IH, <- tech_pow_Rmult. ring. Qed.
Lemma exp_700 : exp 700 <= 2 ^ 1022.
Proof.
  replace 700 with (INR 700 * 1) by (rewrite INR_IZR_INZ; change (Z.of_nat 700) with 700%Z; ring). rewrite exp_pow. eapply Rle_trans; [apply pow_incr; split; [left; apply exp_pos|apply exp_one]|].
  unfold Rdiv. rewrite Rpow_mult_distr, pow_inv. apply Rmult_le_reg_r with (4 ^ 700); [apply pow_lt; lra|]. rewrite Rmult_assoc, Rinv_l, Rmult_1_r by (apply pow_nonzero; lra).
  rewrite !pow_IZR, <- mult_IZR. apply IZR_le. vm_compute. discriminate.
Qed.
Lemma exp_mono a b : a <= b -> exp a <= exp b.
Proof. intros H. destruct (Req_dec a b) as [->|N]; [lra|]. left. apply exp_increasing. lra. Qed.
(** A libm with a correctly rounded [exp]. *)
Definition round_lm : libm := Libm (fun x => round_b64 (exp (B2 x))) (fun x => x) (fun x _ => x).
Lemma round_lm_accurate : exp_accurate round_lm 1.
Proof.
  intros x F H. cbn [m_exp round_lm]. apply Rabs_le_inv in H. pose proof (exp_mono _ _ (proj2 H)) as Hi. pose proof (exp_mono _ _ (proj1 H)) as Lo. pose proof exp_700 as E7.
  assert (Lo' : bpow radix2 (-1022) <= exp (B2 x)).
  { eapply Rle_trans; [|exact Lo]. replace (exp (-(700))) with (/ exp 700) by (symmetry; apply exp_Ropp). change (-1022)%Z with (- Z.of_nat 1022)%Z. rewrite bpow_inv_pow. apply Rinv_le_contravar; [apply exp_pos|exact E7]. }
  pose proof (exp_pos (B2 x)) as P. assert (A : Rabs (exp (B2 x)) = exp (B2 x)) by (apply Rabs_pos_eq; lra).
  destruct (round_b64_val (exp (B2 x))) as (Ff & Ef).
  { apply Rle_lt_trans with (bpow radix2 1022); [|apply bpow_lt; lia]. apply abs_round_le_generic; auto with typeclass_instances.
    - apply generic_format_bpow. unfold fexp64, SpecFloat.fexp, SpecFloat.emin; lia.
    - rewrite A. rewrite bpow_powerRZ. apply Rle_trans with (1 := Hi). exact E7. }
  split; [exact Ff|]. rewrite Ef. pose proof (rnd64_rel (exp (B2 x)) ltac:(rewrite A; exact Lo')) as R1. rewrite A in R1. lra.
Qed.
