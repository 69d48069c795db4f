(** Absolute error calculus used for the exact reflection at a sphere in double precision. *)
From Coq Require Import Reals ZArith List Lra Lia.
From Flocq Require Import Core.
From Flocq.IEEE754 Require Import BinarySingleNaN.
From Verif Require Import Base Scalar Float64 Model_Position Spec_Position Proof_Norm64 Proof_Sum64 Proof_Force64 Proof_System4.
Import ListNotations.
Local Open Scope R_scope.

(** The double [x] stands for the real [y], of size at most [W], up to [e * W]. *)
Definition ap (x : b64) (y W e : R) : Prop := fin x = true /\ Rabs y <= W /\ Rabs (B2 x - y) <= e * W.
Definition okW (W : R) : Prop := / 2 ^ 900 <= W <= 2 ^ 900.

Lemma okW_pos W : okW W -> 0 < W.
Proof. intros (A & _). apply Rlt_le_trans with (2 := A). apply Rinv_0_lt_compat, pow_lt. lra. Qed.
Lemma eta_W W : okW W -> eta64 <= u64 * W.
Proof.
  intros (A & _). unfold eta64, u64 in *. apply Rle_trans with (/ 2 ^ 53 * / 2 ^ 900).
  - rewrite <- Rinv_mult, <- pow_add. apply Rinv_le_contravar; [apply pow_lt; lra|]. apply Rle_pow; [lra|lia].
  - apply Rmult_le_compat_l; [apply Rlt_le, Rinv_0_lt_compat, pow_lt; lra|exact A].
Qed.
Lemma top_900 : 16 * 2 ^ 900 < top.
Proof.
  assert (Tp : top = 2 ^ 124 * 2 ^ 900). { rewrite <- pow_add. change (124 + 900)%nat with 1024%nat. rewrite <- (Proof_System4.bpow_pow 1024). reflexivity. }
  rewrite Tp. apply Rmult_lt_compat_r; [apply pow_lt; lra|]. replace 16 with (2 ^ 4) by (simpl; lra). apply Rlt_pow; [lra|lia].
Qed.
Lemma rnd_near z V : Rabs z <= 4 * V -> okW V -> Rabs (rnd64 z - z) <= 5 * u64 * V /\ Rabs (rnd64 z) < top.
Proof.
  intros H O. pose proof (rnd64_err z) as E. pose proof (eta_W V O) as ET. pose proof u64_pos as U. pose proof (okW_pos V O) as V0.
  assert (Q : u64 * Rabs z <= u64 * (4 * V)) by (apply Rmult_le_compat_l; lra).
  assert (K : Rabs (rnd64 z - z) <= 5 * u64 * V) by lra. split; [exact K|].
  pose proof (Rabs_triang (rnd64 z - z) z) as T. replace (rnd64 z - z + z) with (rnd64 z) in T by ring. pose proof u64_tiny as U1.
  assert (5 * u64 * V <= 1 * V) by (apply Rmult_le_compat_r; lra). destruct O as (_ & O). pose proof top_900. lra.
Qed.
Lemma ap_abs x y W e : ap x y W e -> Rabs (B2 x) <= (1 + e) * W.
Proof. intros (_ & A & B). pose proof (Rabs_triang (B2 x - y) y) as T. replace (B2 x - y + y) with (B2 x) in T by ring. lra. Qed.
Lemma ap_scale x y W e W' e' : ap x y W e -> Rabs y <= W' -> e * W <= e' * W' -> ap x y W' e'.
Proof. intros (A & B & C) H1 H2. repeat split; auto. lra. Qed.
Lemma ap_weak x y W e e' : ap x y W e -> 0 <= W -> e <= e' -> ap x y W e'.
Proof. intros H W0 L. apply (ap_scale x y W e W e' H); [exact (proj1 (proj2 H))|apply Rmult_le_compat_r; auto]. Qed.
Lemma ap_exact (x : b64) W : fin x = true -> Rabs (B2 x) <= W -> ap x (B2 x) W 0.
Proof. intros F H. repeat split; auto. rewrite Rminus_diag_eq, Rabs_R0 by reflexivity. lra. Qed.

Lemma ap_mul x y W e x' y' W' e' : ap x y W e -> ap x' y' W' e' -> 0 <= e <= 1 -> 0 <= e' <= 1 -> okW (W * W') ->
  ap (Bmult mode_NE x x') (y * y') (W * W') (e + e' + e * e' + 5 * u64).
Proof.
  intros X X' H H' O. pose proof (ap_abs _ _ _ _ X) as AX. pose proof (ap_abs _ _ _ _ X') as AX'.
  destruct X as (F & Y & E), X' as (F' & Y' & E'). pose proof (Rabs_pos y). pose proof (Rabs_pos y').
  assert (M : Rabs (B2 x * B2 x') <= 4 * (W * W')).
  { rewrite Rabs_mult. apply Rle_trans with ((2 * W) * (2 * W')); [|lra]. apply Rmult_le_compat; try apply Rabs_pos.
    - apply Rle_trans with (1 := AX). apply Rmult_le_compat_r; lra.
    - apply Rle_trans with (1 := AX'). apply Rmult_le_compat_r; lra. }
  destruct (rnd_near _ _ M O) as (N & T). destruct (mult_val x x' F F') as (NN & V).
  assert (Fz : fin (Bmult mode_NE x x') = true) by exact (rnd64_lt_fin _ _ NN V T). split; [exact Fz|]. split.
  - rewrite Rabs_mult. apply Rmult_le_compat; auto.
  - rewrite (fin_mult_eq _ _ Fz). replace (rnd64 (B2 x * B2 x') - y * y') with ((rnd64 (B2 x * B2 x') - B2 x * B2 x') + (y * (B2 x' - y') + (B2 x - y) * y' + (B2 x - y) * (B2 x' - y'))) by ring.
    pose proof (Rabs_triang (rnd64 (B2 x * B2 x') - B2 x * B2 x') (y * (B2 x' - y') + (B2 x - y) * y' + (B2 x - y) * (B2 x' - y'))) as T1.
    pose proof (Rabs_triang (y * (B2 x' - y') + (B2 x - y) * y') ((B2 x - y) * (B2 x' - y'))) as T2. pose proof (Rabs_triang (y * (B2 x' - y')) ((B2 x - y) * y')) as T3.
    rewrite !Rabs_mult in T2, T3.
    pose proof (Rmult_le_compat _ _ _ _ (Rabs_pos y) (Rabs_pos (B2 x' - y')) Y E') as P1.
    pose proof (Rmult_le_compat _ _ _ _ (Rabs_pos (B2 x - y)) (Rabs_pos y') E Y') as P2.
    pose proof (Rmult_le_compat _ _ _ _ (Rabs_pos (B2 x - y)) (Rabs_pos (B2 x' - y')) E E') as P3.
    rewrite !Rabs_mult in T3. lra.
Qed.
Lemma ap_plus x y W e x' y' W' e' V f : ap x y W e -> ap x' y' W' e' -> Rabs (y + y') <= V -> e * W + e' * W' + u64 * (V + (e * W + e' * W')) <= f * V -> f <= 1 -> 0 <= V <= 2 ^ 900 ->
  ap (Bplus mode_NE x x') (y + y') V f.
Proof.
  intros (F & Y & E) (F' & Y' & E') H K f1 (V0 & V9). set (s := e * W + e' * W') in *.
  assert (D : Rabs ((B2 x + B2 x') - (y + y')) <= s).
  { replace ((B2 x + B2 x') - (y + y')) with ((B2 x - y) + (B2 x' - y')) by ring. apply Rle_trans with (1 := Rabs_triang _ _). unfold s. lra. }
  pose proof (Rabs_triang (B2 x + B2 x' - (y + y')) (y + y')) as T. replace (B2 x + B2 x' - (y + y') + (y + y')) with (B2 x + B2 x') in T by ring.
  pose proof (rnd64_plus x x') as R1. pose proof u64_pos as U. assert (Q : u64 * Rabs (B2 x + B2 x') <= u64 * (V + s)) by (apply Rmult_le_compat_l; lra).
  assert (s0 : 0 <= s) by (pose proof (Rabs_pos ((B2 x + B2 x') - (y + y'))); lra).
  assert (us : 0 <= u64 * (V + s)) by (apply Rmult_le_pos; lra).
  assert (G : Rabs (rnd64 (B2 x + B2 x') - (y + y')) <= f * V).
  { replace (rnd64 (B2 x + B2 x') - (y + y')) with ((rnd64 (B2 x + B2 x') - (B2 x + B2 x')) + (B2 x + B2 x' - (y + y'))) by ring. apply Rle_trans with (1 := Rabs_triang _ _). lra. }
  assert (FV : f * V <= 1 * V) by (apply Rmult_le_compat_r; lra).
  assert (T9 : Rabs (rnd64 (B2 x + B2 x')) < top).
  { pose proof (Rabs_triang (rnd64 (B2 x + B2 x') - (y + y')) (y + y')) as T2. replace (rnd64 (B2 x + B2 x') - (y + y') + (y + y')) with (rnd64 (B2 x + B2 x')) in T2 by ring. pose proof top_900. assert (0 < 2 ^ 900) by (apply pow_lt; lra). lra. }
  destruct (plus_val x x' F F') as (NN & Vl). assert (Fz : fin (Bplus mode_NE x x') = true) by exact (rnd64_lt_fin _ _ NN Vl T9).
  split; [exact Fz|]. split; [exact H|]. rewrite (fin_plus_eq _ _ Fz). exact G.
Qed.
Lemma ap_opp x y W e : ap x y W e -> ap (Bopp x) (- y) W e.
Proof.
  intros (F & Y & E). repeat split.
  - now rewrite is_finite_Bopp.
  - now rewrite Rabs_Ropp.
  - rewrite B2R_Bopp. replace (- B2R x - - y) with (- (B2 x - y)) by ring. now rewrite Rabs_Ropp.
Qed.
Lemma minus_plus x y : fin x = true -> fin y = true -> val (Bminus mode_NE x y) = val (Bplus mode_NE x (Bopp y)) /\ nan (Bminus mode_NE x y) = false.
Proof.
  intros Fx Fy. assert (Fo : fin (Bopp y) = true) by now rewrite is_finite_Bopp.
  destruct (minus_val x y Fx Fy) as (N1 & V1). destruct (plus_val x (Bopp y) Fx Fo) as (N2 & V2). split; [|exact N1]. rewrite V1, V2, B2R_Bopp. f_equal.
Qed.
Lemma ap_minus x y W e x' y' W' e' V f : ap x y W e -> ap x' y' W' e' -> Rabs (y - y') <= V -> e * W + e' * W' + u64 * (V + (e * W + e' * W')) <= f * V -> f <= 1 -> 0 <= V <= 2 ^ 900 ->
  ap (Bminus mode_NE x x') (y - y') V f.
Proof.
  intros X X' H K f1 V9. pose proof (ap_plus x y W e (Bopp x') (- y') W' e' V f X (ap_opp _ _ _ _ X') H K f1 V9) as (F & A & B).
  destruct (minus_plus x x' (proj1 X) (proj1 X')) as (EV & N). set (z := Bminus mode_NE x x') in *. set (w := Bplus mode_NE x (Bopp x')) in *.
  assert (Ew : val w = B2 w) by now apply val_fin.
  assert (Fz : fin z = true). { apply val_lt_fin; [exact N|]. rewrite EV, Ew. pose proof (abs_B2R_lt_emax 53 1024 w) as L. apply Rabs_def2 in L. change (bpow radix2 1024) with top in L. lra. }
  split; [exact Fz|]. split; [exact A|]. rewrite <- (val_fin z Fz), EV, Ew. exact B.
Qed.
Lemma ap_div x y W e x' D e' : ap x y W e -> ap x' D D e' -> 0 < D -> 0 <= e <= 1 -> 0 <= e' <= / 4 -> okW (W / D) ->
  ap (Bdiv mode_NE x x') (y / D) (W / D) ((e + e') * (1 + 2 * e') + 5 * u64).
Proof.
  intros X (F' & _ & E') D0 H H' O. pose proof (ap_abs _ _ _ _ X) as AX. destruct X as (F & Y & E). pose proof (okW_pos _ O) as O0.
  assert (W0 : 0 <= W) by (pose proof (Rabs_pos y); lra). set (v := B2 x') in *.
  assert (B : D * (1 - e') <= v <= D * (1 + e')). { apply Rabs_le_inv in E'. lra. }
  assert (v0 : 3 / 4 * D <= v) by nra. assert (vp : 0 < v) by lra.
  assert (IV : / v <= (1 + 2 * e') * / D).
  { apply Rmult_le_reg_r with v; [exact vp|]. rewrite Rinv_l by lra. apply Rmult_le_reg_l with D; [exact D0|]. replace (D * ((1 + 2 * e') * / D * v)) with ((1 + 2 * e') * v) by (field; lra). nra. }
  assert (I0 : 0 < / v) by now apply Rinv_0_lt_compat. assert (ID : 0 < / D) by now apply Rinv_0_lt_compat.
  assert (WD : W * / D = W / D) by reflexivity.
  assert (M : Rabs (B2 x / v) <= 4 * (W / D)).
  { unfold Rdiv. rewrite Rabs_mult, (Rabs_pos_eq (/ v)) by lra. apply Rle_trans with ((2 * W) * (2 * / D)); [|lra]. apply Rmult_le_compat; [apply Rabs_pos|lra|nra|nra]. }
  destruct (rnd_near _ _ M O) as (N & T). destruct (div_val x x' F F' ltac:(unfold v in vp; lra)) as (NN & V).
  assert (Fz : fin (Bdiv mode_NE x x') = true) by exact (rnd64_lt_fin _ _ NN V T). split; [exact Fz|]. split.
  - unfold Rdiv. rewrite Rabs_mult, (Rabs_pos_eq (/ D)) by lra. apply Rmult_le_compat_r; lra.
  - rewrite (fin_div_eq _ _ F F' ltac:(unfold v in vp; lra) Fz). fold v.
    assert (G : Rabs (B2 x / v - y / D) <= (e + e') * (1 + 2 * e') * (W / D)).
    { replace (B2 x / v - y / D) with (((B2 x - y) + y * ((D - v) / D)) * / v) by (field; lra). rewrite Rabs_mult, (Rabs_pos_eq (/ v)) by lra.
      assert (Q : Rabs (B2 x - y + y * ((D - v) / D)) <= (e + e') * W).
      { apply Rle_trans with (1 := Rabs_triang _ _). rewrite Rabs_mult. assert (Z : Rabs ((D - v) / D) <= e').
        { unfold Rdiv. rewrite Rabs_mult, (Rabs_pos_eq (/ D)) by lra. apply Rmult_le_reg_r with D; [exact D0|]. rewrite Rmult_assoc, Rinv_l, Rmult_1_r by lra. apply Rabs_le. lra. }
        pose proof (Rmult_le_compat _ _ _ _ (Rabs_pos y) (Rabs_pos _) Y Z). lra. }
      apply Rle_trans with ((e + e') * W * ((1 + 2 * e') * / D)); [apply Rmult_le_compat; [apply Rabs_pos|lra|exact Q|exact IV]|]. unfold Rdiv. lra. }
    replace (rnd64 (B2 x / v) - y / D) with ((rnd64 (B2 x / v) - B2 x / v) + (B2 x / v - y / D)) by ring.
    apply Rle_trans with (1 := Rabs_triang _ _). lra.
Qed.
Lemma ap_sqrt x y V e c : ap x y (V * V) e -> 0 < V -> 0 < c <= 1 -> (c * V) * (c * V) <= y -> 0 <= e <= c * c / 2 -> ap (Bsqrt mode_NE x) (sqrt y) V (e / c + 2 * u64).
Proof.
  intros (F & Y & E) V0 C L H. assert (y0 : 0 < y) by (apply Rlt_le_trans with (2 := L); apply Rmult_lt_0_compat; apply Rmult_lt_0_compat; lra).
  rewrite Rabs_pos_eq in Y by lra. set (a := B2 x) in *. assert (eV : e * (V * V) <= y / 2). { apply Rle_trans with (c * c / 2 * (V * V)); [apply Rmult_le_compat_r; nra|lra]. }
  apply Rabs_le_inv in E as E2. assert (a0 : 0 < a) by lra.
  destruct (sqrt_val x F ltac:(fold a; lra)) as (Fz & Vz). fold a in Vz. split; [exact Fz|].
  set (s := sqrt y) in *. set (z := sqrt a) in *. assert (s2 : s * s = y) by (apply sqrt_sqrt; lra). assert (z2 : z * z = a) by (apply sqrt_sqrt; lra).
  assert (s0 : 0 < s) by (apply sqrt_lt_R0; lra). assert (z0 : 0 < z) by (apply sqrt_lt_R0; lra).
  assert (sV : s <= V) by (apply Rnot_lt_le; intros Q; nra). assert (cs : c * V <= s) by (apply Rnot_lt_le; intros Q; nra).
  assert (zV : z <= 2 * V) by (apply Rnot_lt_le; intros Q; nra).
  split; [rewrite Rabs_pos_eq; lra|]. rewrite Vz. pose proof (rnd64_sqrt x ltac:(fold a; lra)) as R1. fold a in R1. fold z in R1.
  assert (G : Rabs (z - s) <= e / c * V).
  { apply Rmult_le_reg_r with (c * V); [apply Rmult_lt_0_compat; lra|]. replace (e / c * V * (c * V)) with (e * (V * V)) by (field; lra).
    apply Rle_trans with (2 := E). replace (a - y) with ((z - s) * (z + s)) by (rewrite <- s2, <- z2; ring). rewrite Rabs_mult. apply Rmult_le_compat_l; [apply Rabs_pos|]. rewrite Rabs_pos_eq; lra. }
  pose proof u64_pos. assert (u64 * z <= u64 * (2 * V)) by (apply Rmult_le_compat_l; lra).
  replace (rnd64 z - s) with ((rnd64 z - z) + (z - s)) by ring. apply Rle_trans with (1 := Rabs_triang _ _). lra.
Qed.
