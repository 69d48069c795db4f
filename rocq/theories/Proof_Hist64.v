(** Which bin a double is counted in, against the exact intervals. *)
From Coq Require Import Reals ZArith List Lra Lia Bool.
From Flocq Require Import Core.
From Flocq.IEEE754 Require Import BinarySingleNaN.
From Verif Require Import Base Scalar Float64 Model_Position Spec_Position Proof_Position Proof_Norm64 Proof_Sum64 Proof_Rel64
  Model_Analysis Spec_Analysis Proof_Analysis Proof_Analysis4 Proof_Analysis8 Proof_System4 Spec_Accuracy Spec_Hist64.
Import ListNotations.
Open Scope R_scope.

(** ** Rounding against integers *)
Lemma u_small : 0 < u64 <= / 1000.
Proof. split; [apply u64_pos|]. unfold u64. apply Rinv_le_contravar; [lra|]. apply Rle_trans with (2 ^ 10); [simpl; lra|]. apply Rle_pow; [lra|lia]. Qed.
Lemma rnd64_half r : 0 <= r <= 1 / 2 -> 0 <= rnd64 r <= 1 / 2.
Proof.
  intros (A & B). split; [now apply rnd64_pos|].
  assert (G : rnd64 (1 / 2) = 1 / 2).
  { apply round_generic; auto with typeclass_instances. replace (1 / 2) with (bpow radix2 (-1)) by (simpl; lra). apply generic_format_bpow. unfold SpecFloat.fexp, SpecFloat.emin. lia. }
  rewrite <- G. apply round_le; auto with typeclass_instances.
Qed.
Lemma rnd64_near r : 1 / 2 <= r -> r * (1 - u64) <= rnd64 r <= r * (1 + u64).
Proof.
  intros H. assert (P : bpow radix2 (-1022) <= Rabs r).
  { rewrite Rabs_pos_eq by lra. apply Rle_trans with (bpow radix2 (-1)); [apply bpow_le; lia|]. simpl. lra. }
  pose proof (rnd64_rel r P) as E. rewrite (Rabs_pos_eq r) in E by lra. apply Rabs_le_inv in E. lra.
Qed.
Lemma floor_out r k : 0 <= r -> 0 <= k -> (k = 0 \/ 1 <= k) -> k <= rnd64 r < k + 1 -> k * (1 - 2 * u64) <= r < (k + 1) * (1 + 2 * u64).
Proof.
  intros P K D (A & B). pose proof u_small as U. destruct (Rle_lt_dec r (1 / 2)) as [S1|S1].
  - pose proof (rnd64_half r (conj P S1)) as H. destruct D as [-> | D]; [split; lra|lra].
  - pose proof (rnd64_near r ltac:(lra)) as H. split.
    + assert (k <= r * (1 + u64)) by lra. nra.
    + assert (r * (1 - u64) < k + 1) by lra. nra.
Qed.
Lemma floor_in r k : 0 <= r -> 0 <= k -> (k = 0 \/ 1 <= k) -> k * (1 + 2 * u64) <= r < (k + 1) * (1 - 2 * u64) -> k <= rnd64 r < k + 1.
Proof.
  intros P K D (A & B). pose proof u_small as U. destruct (Rle_lt_dec r (1 / 2)) as [S1|S1].
  - pose proof (rnd64_half r (conj P S1)) as H. destruct D as [-> | D]; [split; lra|]. exfalso. nra.
  - pose proof (rnd64_near r ltac:(lra)) as H. split; [nra|]. nra.
Qed.

Notation "x ./ y" := (Bdiv mode_NE x y) (at level 40, left associativity).
Notation "x .- y" := (Bminus mode_NE x y) (at level 50, left associativity).

Lemma big_top : IZR (2 ^ 64) < top.
Proof. change (IZR (2 ^ 64)) with (bpow radix2 64). apply bpow_lt. lia. Qed.
Lemma usize_below : (usize_max < 2 ^ 64)%Z. Proof. reflexivity. Qed.

(** The integer part of a quotient of non-negative doubles. *)
Lemma quotient_out (n s : b64) (k : Z) : fin n = true -> fin s = true -> 0 <= B2 n -> 0 < B2 s -> (k < usize_max)%Z ->
  b64_as_usize (n ./ s) = k -> IZR k * (1 - 2 * u64) <= B2 n / B2 s < (IZR k + 1) * (1 + 2 * u64).
Proof.
  intros Fn Fs Pn Ps Hk E. destruct (div_val n s Fn Fs ltac:(lra)) as (Nn & V).
  assert (Q0 : 0 <= B2 n / B2 s) by (apply Rmult_le_pos; [lra|apply Rlt_le, Rinv_0_lt_compat; lra]).
  pose proof (rnd_pos _ Q0) as R0. pose proof (usize_range (n ./ s)) as UR. rewrite E in UR. pose proof top_pos as TP.
  assert (F : fin (n ./ s) = true).
  { set (q := n ./ s) in *. destruct q as [ |[|]| |] eqn:Eq; try reflexivity; try discriminate.
    - cbn [val] in V. lra.
    - cbn [b64_as_usize] in E. lia. }
  rewrite (usize_fin _ F) in E. pose proof (fin_div_eq n s Fn Fs ltac:(lra) F) as D. rewrite D in E.
  rewrite Ztrunc_floor in E by (apply rnd64_pos; lra).
  assert (Z0 : (Zfloor (rnd64 (B2 n / B2 s)) = k)%Z).
  { assert (0 <= Zfloor (rnd64 (B2 n / B2 s)))%Z by (apply Zfloor_lub; cbn [IZR]; apply rnd64_pos; lra). unfold sat_usize in E. lia. }
  pose proof (Zfloor_lb (rnd64 (B2 n / B2 s))) as L1. pose proof (Zfloor_ub (rnd64 (B2 n / B2 s))) as L2. rewrite Z0 in L1, L2.
  apply floor_out; auto; [apply (IZR_le 0); lia|]. destruct (Z.eq_dec k 0) as [-> | ]; [now left|right; apply (IZR_le 1); lia].
Qed.
Lemma quotient_in (n s : b64) (k : Z) : fin n = true -> fin s = true -> 0 <= B2 n -> 0 < B2 s -> (0 <= k < usize_max)%Z ->
  IZR k * (1 + 2 * u64) <= B2 n / B2 s < (IZR k + 1) * (1 - 2 * u64) -> b64_as_usize (n ./ s) = k.
Proof.
  intros Fn Fs Pn Ps Hk E. destruct (div_val n s Fn Fs ltac:(lra)) as (Nn & V).
  assert (Q0 : 0 <= B2 n / B2 s) by (apply Rmult_le_pos; [lra|apply Rlt_le, Rinv_0_lt_compat; lra]).
  assert (I : IZR k <= rnd64 (B2 n / B2 s) < IZR k + 1).
  { apply floor_in; auto; [apply (IZR_le 0); lia|]. destruct (Z.eq_dec k 0) as [-> | ]; [now left|right; apply (IZR_le 1); lia]. }
  pose proof big_top as BT. pose proof usize_below as UB.
  assert (K1 : 0 <= IZR k) by (apply (IZR_le 0); lia).
  assert (K2 : IZR k + 1 <= IZR (2 ^ 64)). { rewrite <- (plus_IZR k 1). apply IZR_le. lia. }
  assert (F : fin (n ./ s) = true). { apply (rnd64_lt_fin _ _ Nn V). rewrite Rabs_pos_eq; lra. }
  rewrite (usize_fin _ F), (fin_div_eq n s Fn Fs ltac:(lra) F), Ztrunc_floor by lra.
  rewrite (Zfloor_imp k) by (rewrite plus_IZR; lra). unfold sat_usize. lia.
Qed.

(** ** Linear bins *)
Definition slack : R := 4 * u64.
Lemma minus_near (x m : b64) : fin x = true -> fin m = true -> 0 <= B2 m <= B2 x -> fin (x .- m) = true /\ 0 <= B2 (x .- m) /\
  (B2 x - B2 m) * (1 - u64) <= B2 (x .- m) <= (B2 x - B2 m) * (1 + u64).
Proof.
  intros Fx Fm (M0 & L). destruct (minus_val x m Fx Fm) as [N V].
  assert (R0 : 0 <= rnd (B2 x - B2 m)) by (apply rnd_pos; lra).
  assert (R1 : rnd (B2 x - B2 m) <= B2 x) by (rewrite <- (rnd_B2 x) at 2; apply rnd_le; lra).
  assert (G : fin (x .- m) = true). { apply val_lt_fin; [exact N|]. rewrite V. pose proof (B2_bound x). pose proof top_pos. lra. }
  split; [exact G|]. rewrite (fin_minus_eq x m G). split; [apply rnd64_pos; lra|].
  pose proof (rnd64_minus x m) as E. rewrite (Rabs_pos_eq (B2 x - B2 m)) in E by lra. apply Rabs_le_inv in E. lra.
Qed.

Lemma lin_out (x m s : b64) (k : Z) : fin x = true -> fin m = true -> fin s = true -> 0 <= B2 m <= B2 x -> 0 < B2 s -> (k < usize_max)%Z ->
  b64_as_usize ((x .- m) ./ s) = k -> B2 m + IZR k * B2 s * (1 - slack) <= B2 x < B2 m + (IZR k + 1) * B2 s * (1 + slack).
Proof.
  intros Fx Fm Fs L Ps Hk E. destruct (minus_near x m Fx Fm L) as (Fd & P & D1 & D2). pose proof (usize_range ((x .- m) ./ s)) as UR. rewrite E in UR.
  assert (K0 : 0 <= IZR k) by (apply (IZR_le 0); lia).
  pose proof (quotient_out _ _ _ Fd Fs P Ps Hk E) as (A & B). pose proof u_small as U. unfold slack.
  set (d := B2 (x .- m)) in *. set (w := B2 s) in *. set (D := B2 x - B2 m) in *. set (K := IZR k) in *.
  assert (A' : K * w * (1 - 2 * u64) <= d). { apply Rmult_le_compat_r with (r := w) in A; [|lra]. replace (d / w * w) with d in A by (field; lra). lra. }
  assert (B' : d < (K + 1) * w * (1 + 2 * u64)). { apply Rmult_lt_compat_r with (r := w) in B; [|lra]. replace (d / w * w) with d in B by (field; lra). lra. }
  assert (Kw : 0 <= K * w) by (apply Rmult_le_pos; lra). assert (Kw1 : 0 < (K + 1) * w) by (apply Rmult_lt_0_compat; lra).
  replace (B2 x) with (B2 m + D) by (unfold D; ring). clear -A' B' Kw Kw1 D1 D2 U. split.
  - assert (K * w * (1 - 4 * u64) <= D); [|lra]. set (Q := K * w) in *. assert (Q * (1 - 2 * u64) <= D * (1 + u64)) by lra.
    apply Rmult_le_reg_r with (1 + u64); [lra|]. assert (Q * (1 - 4 * u64) * (1 + u64) <= Q * (1 - 2 * u64)); [|lra]. rewrite Rmult_assoc. apply Rmult_le_compat_l; nra.
  - assert (D < (K + 1) * w * (1 + 4 * u64)); [|lra]. set (Q := (K + 1) * w) in *. assert (D * (1 - u64) < Q * (1 + 2 * u64)) by lra.
    apply Rmult_lt_reg_r with (1 - u64); [lra|]. assert (Q * (1 + 2 * u64) <= Q * (1 + 4 * u64) * (1 - u64)); [|lra]. rewrite Rmult_assoc. apply Rmult_le_compat_l; nra.
Qed.
Lemma lin_in (x m s : b64) (k : Z) : fin x = true -> fin m = true -> fin s = true -> 0 <= B2 m <= B2 x -> 0 < B2 s -> (0 <= k < usize_max)%Z ->
  B2 m + IZR k * B2 s * (1 + slack) <= B2 x < B2 m + (IZR k + 1) * B2 s * (1 - slack) -> b64_as_usize ((x .- m) ./ s) = k.
Proof.
  intros Fx Fm Fs L Ps Hk (A & B). destruct (minus_near x m Fx Fm L) as (Fd & P & D1 & D2).
  apply quotient_in; auto. assert (K0 : 0 <= IZR k) by (apply (IZR_le 0); lia). pose proof u_small as U. unfold slack in *.
  set (d := B2 (x .- m)) in *. set (w := B2 s) in *. set (D := B2 x - B2 m) in *. set (K := IZR k) in *.
  assert (Kw : 0 <= K * w) by (apply Rmult_le_pos; lra). assert (Kw1 : 0 < (K + 1) * w) by (apply Rmult_lt_0_compat; lra).
  assert (A' : K * w * (1 + 4 * u64) <= D) by (unfold D; lra). assert (B' : D < (K + 1) * w * (1 - 4 * u64)) by (unfold D; lra).
  split.
  - apply Rmult_le_reg_r with w; [lra|]. replace (d / w * w) with d by (field; lra).
    clear -A' Kw D1 U. set (Q := K * w) in *. replace (K * (1 + 2 * u64) * w) with (Q * (1 + 2 * u64)) by (unfold Q; ring).
    assert (Q * (1 + 4 * u64) * (1 - u64) <= D * (1 - u64)) by (apply Rmult_le_compat_r; lra).
    assert (Q * (1 + 2 * u64) <= Q * (1 + 4 * u64) * (1 - u64)); [|lra]. rewrite Rmult_assoc. apply Rmult_le_compat_l; nra.
  - apply Rmult_lt_reg_r with w; [lra|]. replace (d / w * w) with d by (field; lra).
    clear -B' Kw1 D2 U. set (Q := (K + 1) * w) in *. replace ((K + 1) * (1 - 2 * u64) * w) with (Q * (1 - 2 * u64)) by (unfold Q; ring).
    assert (D * (1 + u64) < Q * (1 - 4 * u64) * (1 + u64)) by (apply Rmult_lt_compat_r; lra).
    assert (Q * (1 - 4 * u64) * (1 + u64) <= Q * (1 - 2 * u64)); [|lra]. rewrite Rmult_assoc. apply Rmult_le_compat_l; nra.
Qed.

(** ** Logarithmic bins *)
Lemma ratio_near (x m : b64) : fin x = true -> fin m = true -> 0 < B2 m <= B2 x -> fin (x ./ m) = true ->
  1 <= B2 (x ./ m) /\ B2 x / B2 m * (1 - u64) <= B2 (x ./ m) <= B2 x / B2 m * (1 + u64).
Proof.
  intros Fx Fm (P & L) F. assert (Q : 1 <= B2 x / B2 m). { apply Rmult_le_reg_r with (B2 m); [lra|]. unfold Rdiv. rewrite Rmult_assoc, Rinv_l by lra. lra. }
  rewrite (fin_div_eq x m Fx Fm ltac:(lra) F). split; [|apply rnd64_near; lra].
  assert (G : rnd64 1 = 1). { apply round_generic; auto with typeclass_instances. change 1 with (bpow radix2 0). apply generic_format_bpow. unfold SpecFloat.fexp, SpecFloat.emin. lia. }
  rewrite <- G. apply round_le; auto with typeclass_instances.
Qed.
Lemma ln2_pos : 0 < ln 2. Proof. rewrite <- ln_1. apply ln_increasing; lra. Qed.
Lemma ln_ge a l r : 0 < r -> 1 < l -> (Rpower l a <= r <-> a <= ln r / ln l).
Proof.
  intros Pr Pl. assert (Q : 0 < ln l) by (rewrite <- ln_1; apply ln_increasing; lra).
  assert (T : ln r = ln r / ln l * ln l) by (field; lra). unfold Rpower. split; intros H.
  - apply Rmult_le_reg_r with (ln l); auto. rewrite <- T. rewrite <- (ln_exp (a * ln l)). destruct H as [H|H]; [left; apply ln_increasing; auto; apply exp_pos|right; congruence].
  - rewrite <- (exp_ln r) by auto. assert (a * ln l <= ln r) by (rewrite T; apply Rmult_le_compat_r; lra). destruct H0 as [H0|H0]; [left; now apply exp_increasing|right; congruence].
Qed.
Lemma ln_lt a l r : 0 < r -> 1 < l -> (r < Rpower l a <-> ln r / ln l < a).
Proof. intros Pr Pl. pose proof (ln_ge a l r Pr Pl) as (A & B). split; intros H; apply Rnot_le_lt; intros C; [apply B in C|apply A in C]; lra. Qed.

Section Log.
Variables (lm : libm) (e : R).
Hypothesis (ACC : accurate_log2 lm e) (E0 : 0 <= e <= 1 / 8).
Definition lslack : R := 2 * u64 + 4 * e.

Lemma logs_near (r l : b64) : fin r = true -> fin l = true -> 1 <= B2 r -> 1 < B2 l ->
  let t := ln (B2 r) / ln (B2 l) in
  fin (m_log2 lm r) = true /\ fin (m_log2 lm l) = true /\ 0 <= B2 (m_log2 lm r) /\ 0 < B2 (m_log2 lm l) /\ 0 <= t /\
  t * (1 - 2 * e) <= B2 (m_log2 lm r) / B2 (m_log2 lm l) <= t * (1 + 3 * e).
Proof.
  intros Fr Fl P Q t. destruct (ACC r Fr P) as (F1 & A1), (ACC l Fl ltac:(lra)) as (F2 & A2). pose proof ln2_pos as L2.
  assert (LL : 0 < ln (B2 l)) by (rewrite <- ln_1; apply ln_increasing; lra).
  assert (LR : 0 <= ln (B2 r)) by (rewrite <- ln_1; destruct P as [P|P]; [left; apply ln_increasing; lra|right; congruence]).
  assert (J : 0 < / ln 2) by now apply Rinv_0_lt_compat.
  assert (X0 : 0 <= ln (B2 r) / ln 2) by (apply Rmult_le_pos; lra). assert (Y0 : 0 < ln (B2 l) / ln 2) by (apply Rmult_lt_0_compat; lra).
  assert (T : t = (ln (B2 r) / ln 2) / (ln (B2 l) / ln 2)) by (unfold t; field; split; lra).
  set (X := ln (B2 r) / ln 2) in *. set (Y := ln (B2 l) / ln 2) in *. set (x := B2 (m_log2 lm r)) in *. set (y := B2 (m_log2 lm l)) in *.
  apply Rabs_le_inv in A1, A2. assert (y0 : 0 < y) by nra. assert (x0 : 0 <= x) by nra. assert (iy : 0 < / y) by now apply Rinv_0_lt_compat. assert (iY : 0 < / Y) by now apply Rinv_0_lt_compat.
  assert (t0 : 0 <= t) by (rewrite T; apply Rmult_le_pos; lra).
  repeat (split; [assumption|]). assert (XE : X = t * Y) by (rewrite T; field; lra). split.
  - apply Rmult_le_reg_r with y; [lra|]. replace (x / y * y) with x by (field; lra).
    assert (x1 : t * Y * (1 - e) <= x) by (rewrite <- XE; lra). apply Rle_trans with (2 := x1).
    assert (y1 : y <= Y * (1 + e)) by lra. apply Rle_trans with (t * (1 - 2 * e) * (Y * (1 + e))); [apply Rmult_le_compat_l; nra|].
    replace (t * (1 - 2 * e) * (Y * (1 + e))) with (t * Y * ((1 - 2 * e) * (1 + e))) by ring. apply Rmult_le_compat_l; nra.
  - apply Rmult_le_reg_r with y; [lra|]. replace (x / y * y) with x by (field; lra).
    assert (x1 : x <= t * Y * (1 + e)) by (rewrite <- XE; lra). apply Rle_trans with (1 := x1).
    assert (y1 : Y * (1 - e) <= y) by lra. apply Rle_trans with (t * (1 + 3 * e) * (Y * (1 - e))); [|apply Rmult_le_compat_l; nra].
    replace (t * (1 + 3 * e) * (Y * (1 - e))) with (t * Y * ((1 + 3 * e) * (1 - e))) by ring. apply Rmult_le_compat_l; nra.
Qed.

Lemma log_out (x m l : b64) (k : Z) : fin x = true -> fin m = true -> fin l = true -> 0 < B2 m <= B2 x -> 1 < B2 l -> fin (x ./ m) = true -> (k < usize_max)%Z ->
  b64_as_usize (m_log2 lm (x ./ m) ./ m_log2 lm l) = k ->
  B2 m * Rpower (B2 l) (IZR k * (1 - lslack)) * (1 - 2 * u64) <= B2 x < B2 m * Rpower (B2 l) ((IZR k + 1) * (1 + lslack)) * (1 + 2 * u64).
Proof.
  intros Fx Fm Fl L Pl F Hk E. destruct (ratio_near x m Fx Fm L F) as (R1 & R2 & R3).
  destruct (logs_near _ _ F Fl R1 Pl) as (G1 & G2 & P1 & P2 & t0 & T1 & T2).
  pose proof (usize_range (m_log2 lm (x ./ m) ./ m_log2 lm l)) as UR. rewrite E in UR. assert (K0 : 0 <= IZR k) by (apply (IZR_le 0); lia).
  pose proof (quotient_out _ _ _ G1 G2 P1 P2 Hk E) as (A & B). pose proof u_small as U.
  set (q := B2 (m_log2 lm (x ./ m)) / B2 (m_log2 lm l)) in *. set (r := B2 (x ./ m)) in *. set (K := IZR k) in *.
  assert (I1 : Rpower (B2 l) (K * (1 - lslack)) <= r).
  { apply ln_ge; [lra|lra|]. set (t := ln r / ln (B2 l)) in *. unfold lslack. clear -A T2 K0 t0 U E0.
    assert (H : K * (1 - 2 * u64) <= t * (1 + 3 * e)) by lra. apply Rmult_le_reg_r with (1 + 3 * e); [lra|]. apply Rle_trans with (2 := H).
    rewrite Rmult_assoc. apply Rmult_le_compat_l; nra. }
  assert (I2 : r < Rpower (B2 l) ((K + 1) * (1 + lslack))).
  { apply ln_lt; [lra|lra|]. set (t := ln r / ln (B2 l)) in *. unfold lslack. clear -B T1 K0 t0 U E0.
    assert (H : t * (1 - 2 * e) < (K + 1) * (1 + 2 * u64)) by lra. apply Rmult_lt_reg_r with (1 - 2 * e); [lra|]. apply Rlt_le_trans with (1 := H).
    rewrite Rmult_assoc. apply Rmult_le_compat_l; nra. }
  assert (XM : B2 x = B2 m * (B2 x / B2 m)) by (field; lra). set (z := B2 x / B2 m) in *. rewrite XM.
  assert (W1 : 0 < Rpower (B2 l) (K * (1 - lslack))) by apply exp_pos. set (w1 := Rpower (B2 l) (K * (1 - lslack))) in *. set (w2 := Rpower (B2 l) ((K + 1) * (1 + lslack))) in *.
  rewrite !(Rmult_assoc (B2 m)). split; [apply Rmult_le_compat_l; [lra|]|apply Rmult_lt_compat_l; [lra|]].
  - clear -I1 R3 W1 U. assert (w1 <= z * (1 + u64)) by lra. apply Rmult_le_reg_r with (1 + u64); [lra|]. apply Rle_trans with w1; [|lra].
    rewrite Rmult_assoc. rewrite <- (Rmult_1_r w1) at 2. apply Rmult_le_compat_l; nra.
  - clear -I2 R2 R1 U. assert (z * (1 - u64) < w2) by lra. assert (0 < w2) by lra. apply Rmult_lt_reg_r with (1 - u64); [lra|]. apply Rlt_le_trans with w2; [lra|].
    rewrite Rmult_assoc. rewrite <- (Rmult_1_r w2) at 1. apply Rmult_le_compat_l; nra.
Qed.
Lemma log_in (x m l : b64) (k : Z) : fin x = true -> fin m = true -> fin l = true -> 0 < B2 m <= B2 x -> 1 < B2 l -> fin (x ./ m) = true -> (0 <= k < usize_max)%Z ->
  B2 m * Rpower (B2 l) (IZR k * (1 + lslack)) * (1 + 2 * u64) <= B2 x < B2 m * Rpower (B2 l) ((IZR k + 1) * (1 - lslack)) * (1 - 2 * u64) ->
  b64_as_usize (m_log2 lm (x ./ m) ./ m_log2 lm l) = k.
Proof.
  intros Fx Fm Fl L Pl F Hk (A & B). destruct (ratio_near x m Fx Fm L F) as (R1 & R2 & R3).
  destruct (logs_near _ _ F Fl R1 Pl) as (G1 & G2 & P1 & P2 & t0 & T1 & T2). apply quotient_in; auto.
  assert (K0 : 0 <= IZR k) by (apply (IZR_le 0); lia). pose proof u_small as U.
  set (q := B2 (m_log2 lm (x ./ m)) / B2 (m_log2 lm l)) in *. set (r := B2 (x ./ m)) in *. set (K := IZR k) in *.
  assert (XM : B2 x = B2 m * (B2 x / B2 m)) by (field; lra). set (z := B2 x / B2 m) in *. rewrite XM in A, B.
  rewrite !(Rmult_assoc (B2 m)) in A, B. apply Rmult_le_reg_l in A; [|lra]. apply Rmult_lt_reg_l in B; [|lra].
  assert (I1 : K * (1 + lslack) <= ln r / ln (B2 l)).
  { apply ln_ge; [lra|lra|]. set (w := Rpower (B2 l) (K * (1 + lslack))) in *. assert (W : 0 < w) by apply exp_pos. clear -A R2 W U.
    apply Rle_trans with (z * (1 - u64)); [|exact R2]. apply Rle_trans with (w * (1 + 2 * u64) * (1 - u64)); [|apply Rmult_le_compat_r; lra].
    rewrite Rmult_assoc. rewrite <- (Rmult_1_r w) at 1. apply Rmult_le_compat_l; nra. }
  assert (I2 : ln r / ln (B2 l) < (K + 1) * (1 - lslack)).
  { apply ln_lt; [lra|lra|]. set (w := Rpower (B2 l) ((K + 1) * (1 - lslack))) in *. assert (W : 0 < w) by apply exp_pos. clear -B R3 W U.
    apply Rle_lt_trans with (1 := R3). apply Rlt_le_trans with (w * (1 - 2 * u64) * (1 + u64)); [apply Rmult_lt_compat_r; lra|].
    rewrite Rmult_assoc. rewrite <- (Rmult_1_r w) at 2. apply Rmult_le_compat_l; nra. }
  set (t := ln r / ln (B2 l)) in *. unfold lslack in *. clear -I1 I2 T1 T2 K0 t0 U E0. split.
  - apply Rle_trans with (2 := T1). apply Rle_trans with (K * (1 + (2 * u64 + 4 * e)) * (1 - 2 * e)); [|apply Rmult_le_compat_r; lra].
    rewrite Rmult_assoc. apply Rmult_le_compat_l; [lra|]. nra.
  - apply Rle_lt_trans with (1 := T2). apply Rlt_le_trans with ((K + 1) * (1 - (2 * u64 + 4 * e)) * (1 + 3 * e)); [apply Rmult_lt_compat_r; lra|].
    rewrite Rmult_assoc. apply Rmult_le_compat_l; [lra|]. nra.
Qed.
End Log.
