(** Rounding errors of the summing loops on doubles: sums, means, variances. *)
From Coq Require Import Reals ZArith List Lra Lia.
From Flocq Require Import Core.
From Flocq.IEEE754 Require Import BinarySingleNaN.
From Verif Require Import Base Scalar Float64 Model_Position Spec_Position Proof_Position Proof_Norm64.
Open Scope R_scope.

Definition sum64 (a : b64) (xs : list b64) : b64 := fold_left (Bplus mode_NE) xs a.
Definition asum (xs : list b64) : R := rsum (map (fun x => Rabs (B2 x)) xs).
Definition vsum (xs : list b64) : R := rsum (map B2 xs).

Lemma asum_nonneg xs : 0 <= asum xs.
Proof. induction xs as [|x xs IH]; unfold asum in *; cbn [map rsum fold_right]; [lra|]. pose proof (Rabs_pos (B2 x)). unfold rsum in IH. lra. Qed.
Lemma asum_cons x xs : asum (x :: xs) = Rabs (B2 x) + asum xs. Proof. reflexivity. Qed.
Lemma vsum_cons x xs : vsum (x :: xs) = B2 x + vsum xs. Proof. reflexivity. Qed.

Lemma sum64_fin xs : forall a, fin (sum64 a xs) = true -> fin a = true /\ Forall (fun x => fin x = true) xs.
Proof.
  induction xs as [|x xs IH]; intros a H; [split; [exact H|constructor]|].
  destruct (IH _ H) as (F & FP). apply plus_fin_inv in F as (Fa & Fx). split; auto.
Qed.

Lemma g_pow n : 1 <= (1 + u64) ^ n.
Proof. apply pow_R1_Rle. pose proof u64_pos. lra. Qed.

Lemma plus_abs (a x : b64) : fin (Bplus mode_NE a x) = true ->
  Rabs (B2 (Bplus mode_NE a x) - (B2 a + B2 x)) <= u64 * (Rabs (B2 a) + Rabs (B2 x)) /\
  Rabs (B2 (Bplus mode_NE a x)) <= (1 + u64) * (Rabs (B2 a) + Rabs (B2 x)).
Proof.
  intros F. rewrite fin_plus_eq by auto. pose proof (rnd64_plus a x) as E. pose proof (Rabs_triang (B2 a) (B2 x)) as T.
  pose proof u64_pos as U.
  assert (M : u64 * Rabs (B2 a + B2 x) <= u64 * (Rabs (B2 a) + Rabs (B2 x))) by (apply Rmult_le_compat_l; lra).
  split; [lra|].
  pose proof (Rabs_triang (rnd64 (B2 a + B2 x) - (B2 a + B2 x)) (B2 a + B2 x)) as T2.
  replace (rnd64 (B2 a + B2 x) - (B2 a + B2 x) + (B2 a + B2 x)) with (rnd64 (B2 a + B2 x)) in T2 by ring. lra.
Qed.

Lemma sum64_err xs : forall a, fin (sum64 a xs) = true ->
  Rabs (B2 (sum64 a xs) - (B2 a + vsum xs)) <= ((1 + u64) ^ length xs - 1) * (Rabs (B2 a) + asum xs).
Proof.
  pose proof u64_pos as U.
  induction xs as [|x xs IH]; intros a H.
  - unfold sum64, vsum, asum, rsum. cbn [fold_left map fold_right length pow]. rewrite Rplus_0_r, Rminus_diag_eq, Rabs_R0 by reflexivity. lra.
  - change (sum64 a (x :: xs)) with (sum64 (Bplus mode_NE a x) xs) in *. destruct (sum64_fin _ _ H) as (F & _).
    specialize (IH _ H). destruct (plus_abs a x F) as (E1 & E2). rewrite vsum_cons, asum_cons.
    cbn [length]. rewrite <- tech_pow_Rmult. pose proof (g_pow (length xs)) as G. set (g := (1 + u64) ^ length xs) in *.
    set (s := B2 (sum64 (Bplus mode_NE a x) xs)) in *. set (a' := B2 (Bplus mode_NE a x)) in *.
    pose proof (asum_nonneg xs) as T0. set (T := asum xs) in *. set (V := vsum xs) in *.
    pose proof (Rabs_pos (B2 a)). pose proof (Rabs_pos (B2 x)). set (w := Rabs (B2 a) + Rabs (B2 x)) in *.
    replace (s - (B2 a + (B2 x + V))) with ((s - (a' + V)) + (a' - (B2 a + B2 x))) by ring.
    eapply Rle_trans; [apply Rabs_triang|].
    assert (K : (g - 1) * (Rabs a' + T) <= (g - 1) * ((1 + u64) * w + T)) by (apply Rmult_le_compat_l; lra).
    assert (W0 : 0 <= w) by (unfold w; lra).
    assert (Q : ((1 + u64) * g - 1) * (Rabs (B2 a) + (Rabs (B2 x) + T)) = (g - 1) * ((1 + u64) * w + T) + u64 * w + u64 * (g * T)) by (unfold w; ring).
    rewrite Q. assert (0 <= u64 * (g * T)) by (apply Rmult_le_pos; [lra|apply Rmult_le_pos; lra]). lra.
Qed.

Lemma sum64_fin_intro xs : forall a, fin a = true -> Forall (fun x => fin x = true) xs ->
  (1 + u64) ^ length xs * (Rabs (B2 a) + asum xs) < top -> fin (sum64 a xs) = true.
Proof.
  pose proof u64_pos as U.
  induction xs as [|x xs IH]; intros a Fa Fs B; [exact Fa|].
  inversion Fs as [|? ? Fx Fs']; subst.
  change (sum64 a (x :: xs)) with (sum64 (Bplus mode_NE a x) xs). rewrite asum_cons in B. cbn [length] in B. rewrite <- tech_pow_Rmult in B.
  pose proof (g_pow (length xs)) as G. set (g := (1 + u64) ^ length xs) in *. pose proof (asum_nonneg xs) as T0. set (T := asum xs) in *.
  pose proof (Rabs_pos (B2 a)). pose proof (Rabs_pos (B2 x)). set (w := Rabs (B2 a) + Rabs (B2 x)) in *.
  assert (W0 : 0 <= w) by (unfold w; lra).
  assert (Q : (1 + u64) * g * (Rabs (B2 a) + (Rabs (B2 x) + T)) = g * ((1 + u64) * w + T) + u64 * (g * T)) by (unfold w; ring).
  rewrite Q in B. assert (N0 : 0 <= u64 * (g * T)) by (apply Rmult_le_pos; [lra|apply Rmult_le_pos; lra]).
  assert (W1 : 0 <= (1 + u64) * w) by (apply Rmult_le_pos; lra).
  assert (N1 : (1 + u64) * w + T <= g * ((1 + u64) * w + T)) by (rewrite <- (Rmult_1_l ((1 + u64) * w + T)) at 1; apply Rmult_le_compat_r; lra).
  assert (Fp : fin (Bplus mode_NE a x) = true).
  { destruct (plus_val a x Fa Fx) as (Np & Vp). apply (rnd64_lt_fin _ _ Np Vp).
    pose proof (rnd64_plus a x) as E. pose proof (Rabs_triang (B2 a) (B2 x)) as Tr.
    pose proof (Rabs_triang (rnd64 (B2 a + B2 x) - (B2 a + B2 x)) (B2 a + B2 x)) as T2.
    replace (rnd64 (B2 a + B2 x) - (B2 a + B2 x) + (B2 a + B2 x)) with (rnd64 (B2 a + B2 x)) in T2 by ring.
    assert (M : u64 * Rabs (B2 a + B2 x) <= u64 * w) by (apply Rmult_le_compat_l; [lra|exact Tr]). unfold w in *. lra. }
  apply IH; auto. fold g T. destruct (plus_abs a x Fp) as (_ & E2). fold w in E2.
  apply Rle_lt_trans with (g * ((1 + u64) * w + T)); [apply Rmult_le_compat_l; lra|lra].
Qed.

(** Powers of [1 + u64] and [1 - u64] against linear bounds. *)
Lemma g_lin n : 2 * INR n * u64 <= 1 -> (1 + u64) ^ n <= 1 + 2 * INR n * u64.
Proof.
  pose proof u64_pos as U. induction n as [|n IH]; intros H; [simpl; lra|].
  rewrite S_INR in *. rewrite <- tech_pow_Rmult. pose proof (pos_INR n) as N.
  assert (A : 2 * INR n * u64 <= 1) by (pose proof (Rmult_le_pos _ _ N (Rlt_le _ _ U)); nra).
  specialize (IH A). assert (B : (1 + u64) * (1 + u64) ^ n <= (1 + u64) * (1 + 2 * INR n * u64)) by (apply Rmult_le_compat_l; lra).
  assert (C : u64 * (2 * INR n * u64) <= u64 * 1) by (apply Rmult_le_compat_l; lra).
  apply Rle_trans with (1 := B). replace ((1 + u64) * (1 + 2 * INR n * u64)) with (1 + 2 * INR n * u64 + u64 + u64 * (2 * INR n * u64)) by ring. lra.
Qed.
Lemma l_lin n : 1 - INR n * u64 <= (1 - u64) ^ n.
Proof.
  pose proof u64_pos as U. pose proof u64_lt1 as U1. induction n as [|n IH]; [simpl; lra|].
  rewrite S_INR, <- tech_pow_Rmult. pose proof (pos_INR n) as N.
  assert (L1 : (1 - u64) ^ n <= 1) by (apply pow_le1; lra).
  assert (u64 * (1 - u64) ^ n <= u64 * 1) by (apply Rmult_le_compat_l; lra). lra.
Qed.

(** Division by a count. *)
Lemma div_fin_inv (x y : b64) : fin (Bdiv mode_NE x y) = true -> fin x = true.
Proof. destruct x as [|[|]| |], y as [|[|]| |]; simpl; easy. Qed.
Lemma fin_div_eq (x y : b64) : fin x = true -> fin y = true -> B2 y <> 0 -> fin (Bdiv mode_NE x y) = true ->
  B2 (Bdiv mode_NE x y) = rnd64 (B2 x / B2 y).
Proof.
  intros Fx Fy Z H. destruct (div_val x y Fx Fy Z) as (_ & V).
  rewrite val_fin in V by auto. rewrite V. apply rnd_small.
  pose proof (B2_bound (Bdiv mode_NE x y)) as Bd. rewrite V in Bd. unfold rnd, clamp in Bd.
  pose proof top_pos. apply Rabs_def1; repeat destruct Rle_dec; lra.
Qed.
Lemma minus_fin_inv (x y : b64) : fin (Bminus mode_NE x y) = true -> fin x = true /\ fin y = true.
Proof. destruct x as [|[|]| |], y as [|[|]| |]; simpl; easy. Qed.
Lemma fin_minus_eq (x y : b64) : fin (Bminus mode_NE x y) = true -> B2 (Bminus mode_NE x y) = rnd64 (B2 x - B2 y).
Proof.
  intros H. destruct (minus_fin_inv _ _ H) as (Fx & Fy). destruct (minus_val x y Fx Fy) as (_ & V).
  rewrite val_fin in V by auto. rewrite V. apply rnd_small.
  pose proof (B2_bound (Bminus mode_NE x y)) as Bd. rewrite V in Bd. unfold rnd, clamp in Bd.
  pose proof top_pos. apply Rabs_def1; repeat destruct Rle_dec; lra.
Qed.
Lemma rnd64_minus (x y : b64) : Rabs (rnd64 (B2 x - B2 y) - (B2 x - B2 y)) <= u64 * Rabs (B2 x - B2 y).
Proof. pose proof (rnd64_plus x (Bopp y)) as E. rewrite B2R_Bopp in E. exact E. Qed.

Lemma count64 n : (INR n <= 2 ^ 53) -> fin (b64_of_Z (Z.of_nat n)) = true /\ B2 (b64_of_Z (Z.of_nat n)) = INR n.
Proof.
  intros H. destruct (of_Z_exact (Z.of_nat n)) as (F & E).
  - rewrite Z.abs_eq by lia. apply le_IZR. rewrite <- INR_IZR_INZ. apply Rle_trans with (1 := H). right. exact (pow_IZR 2 53).
  - split; auto. now rewrite E, INR_IZR_INZ.
Qed.

(** A finite numerator divided by a count of at least 1 stays finite, with these errors. *)
Lemma div_count (x : b64) n : fin x = true -> (1 <= n)%nat -> INR n <= 2 ^ 53 ->
  fin (Bdiv mode_NE x (b64_of_Z (Z.of_nat n))) = true /\
  Rabs (B2 (Bdiv mode_NE x (b64_of_Z (Z.of_nat n))) - B2 x / INR n) <= u64 * Rabs (B2 x / INR n) + eta64.
Proof.
  intros Fx N1 NB. destruct (count64 n NB) as (Fn & En). set (d := b64_of_Z (Z.of_nat n)) in *.
  assert (P : 1 <= INR n) by (apply (le_INR 1); lia).
  assert (Z : B2 d <> 0) by (rewrite En; lra).
  destruct (div_val x d Fx Fn Z) as (Nn & V).
  assert (F : fin (Bdiv mode_NE x d) = true).
  { apply (rnd64_lt_fin _ _ Nn V). rewrite En.
    assert (A : Rabs (B2 x / INR n) <= Rabs (B2 x)).
    { unfold Rdiv. rewrite Rabs_mult. rewrite <- (Rmult_1_r (Rabs (B2 x))) at 2. apply Rmult_le_compat_l; [apply Rabs_pos|].
      rewrite Rabs_inv, Rabs_pos_eq by lra. rewrite <- Rinv_1. apply Rinv_le_contravar; lra. }
    apply Rle_lt_trans with (Rabs (B2 x)).
    - assert (Q : Rabs (rnd64 (B2 x / INR n)) <= rnd64 (Rabs (B2 x))).
      { rewrite <- round_NE_abs by auto with typeclass_instances. apply round_le; auto with typeclass_instances. }
      rewrite (round_generic radix2 fexp64 (round_mode mode_NE) (Rabs (B2 x))) in Q; auto.
      apply generic_format_abs. apply generic_format_B2R.
    - apply Rabs_def1; pose proof (B2_bound x); lra. }
  split; auto. rewrite (fin_div_eq x d Fx Fn Z F), En. apply rnd64_err.
Qed.
