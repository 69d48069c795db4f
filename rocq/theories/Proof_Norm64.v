(** Rounding error of the sum-of-squares loops: the computed norm against the exact Euclidean norm. *)
From Coq Require Import Reals ZArith List Lra Lia.
From Flocq Require Import Core Relative Plus_error.
From Flocq.IEEE754 Require Import BinarySingleNaN.
From Verif Require Import Base Scalar Float64 Model_Position Spec_Position Proof_Position.
Open Scope R_scope.

Lemma u64_pos : 0 < u64. Proof. unfold u64. apply Rinv_0_lt_compat, pow_lt. lra. Qed.
Lemma u64_lt1 : u64 < 1 / 2.
Proof.
  unfold u64. apply Rmult_lt_reg_l with (2 ^ 53)%R; [apply pow_lt; lra|].
  rewrite Rinv_r by (apply pow_nonzero; lra). assert (2 < 2 ^ 53) by (simpl; lra). lra.
Qed.
Lemma eta64_pos : 0 < eta64. Proof. unfold eta64. apply Rinv_0_lt_compat, pow_lt. lra. Qed.

Lemma bpow_inv_pow (n : nat) : bpow radix2 (- Z.of_nat n) = / 2 ^ n.
Proof. rewrite bpow_opp. f_equal. symmetry. rewrite bpow_powerRZ, <- pow_powerRZ. reflexivity. Qed.
Lemma u64_bpow : u64 = bpow radix2 (-53).
Proof. symmetry. exact (bpow_inv_pow 53). Qed.
Lemma eta64_bpow : eta64 = bpow radix2 (-1075).
Proof. symmetry. exact (bpow_inv_pow 1075). Qed.

Lemma rnd64_rel r : bpow radix2 (-1022) <= Rabs r -> Rabs (rnd64 r - r) <= u64 * Rabs r.
Proof.
  intros H. pose proof (relative_error_N_FLT radix2 (-1074) 53 ltac:(reflexivity) (fun x => negb (Z.even x)) r H) as E.
  rewrite u64_bpow. replace (bpow radix2 (-53)) with (/ 2 * bpow radix2 (-53 + 1)); [exact E|].
  rewrite bpow_plus. simpl (bpow radix2 1). lra.
Qed.

Lemma rnd64_abs r : Rabs r < bpow radix2 (-1022) -> Rabs (rnd64 r - r) <= eta64.
Proof.
  intros H. pose proof (error_le_half_ulp radix2 fexp64 (fun x => negb (Z.even x)) r) as E.
  assert (U : ulp radix2 fexp64 r = bpow radix2 (-1074)).
  { exact (ulp_FLT_small radix2 (-1074) 53 r (Rlt_le_trans _ _ _ H (bpow_le radix2 (-1022) (-1074 + 53) ltac:(lia)))). }
  rewrite U in E. rewrite eta64_bpow. replace (bpow radix2 (-1075)) with (/ 2 * bpow radix2 (-1074)); [exact E|].
  replace (-1074)%Z with (-1075 + 1)%Z by reflexivity. rewrite bpow_plus. simpl (bpow radix2 1). lra.
Qed.

Lemma rnd64_err r : Rabs (rnd64 r - r) <= u64 * Rabs r + eta64.
Proof.
  pose proof u64_pos. pose proof eta64_pos. pose proof (Rabs_pos r).
  destruct (Rle_or_lt (bpow radix2 (-1022)) (Rabs r)) as [K|K].
  - apply rnd64_rel in K. lra.
  - apply rnd64_abs in K. pose proof (Rmult_le_pos u64 (Rabs r)). lra.
Qed.

Lemma rnd64_plus (x y : b64) : Rabs (rnd64 (B2 x + B2 y) - (B2 x + B2 y)) <= u64 * Rabs (B2 x + B2 y).
Proof.
  destruct (FLT_plus_error_N_ex radix2 (-1074) 53 (fun x => negb (Z.even x)) (B2 x) (B2 y)) as (e & E1 & E2).
  - apply (generic_format_B2R 53 1024).
  - apply (generic_format_B2R 53 1024).
  - change (rnd64 (B2 x + B2 y) = (B2 x + B2 y) * (1 + e)) in E2. rewrite E2.
    replace ((B2 x + B2 y) * (1 + e) - (B2 x + B2 y)) with (e * (B2 x + B2 y)) by ring.
    rewrite Rabs_mult. apply Rmult_le_compat_r; [apply Rabs_pos|].
    eapply Rle_trans; [exact E1|]. eapply Rle_trans; [apply (u_rod1pu_ro_le_u_ro radix2 53)|].
    unfold u_ro. rewrite u64_bpow. pose proof (bpow_plus_1 radix2 (-53)) as Q. change (bpow radix2 (- (53) + 1)) with (bpow radix2 (-53 + 1)). rewrite Q. change (IZR radix2) with 2. lra.
Qed.

Lemma rnd64_sqrt (x : b64) : 0 <= B2 x -> Rabs (rnd64 (sqrt (B2 x)) - sqrt (B2 x)) <= u64 * sqrt (B2 x).
Proof.
  intros P. destruct P as [P|P].
  - rewrite <- (Rabs_pos_eq (sqrt (B2 x))) at 3 by apply sqrt_pos. apply rnd64_rel. rewrite Rabs_pos_eq by apply sqrt_pos.
    assert (M : bpow radix2 (-1074) <= B2 x).
    { pose proof (generic_format_B2R 53 1024 x) as F. change (generic_format radix2 (FLT_exp (-1074) 53) (B2 x)) in F.
      apply FLT_format_generic in F; [|reflexivity]. destruct F as [[m e] E1 E2 E3]. cbn [Fexp Fnum] in *.
      rewrite E1 in *. unfold F2R in *. cbn [Fexp Fnum] in *.
      assert (0 < m)%Z. { apply lt_IZR. pose proof (bpow_gt_0 radix2 e). nra. }
      apply Rle_trans with (bpow radix2 e); [now apply bpow_le|].
      pose proof (bpow_gt_0 radix2 e). assert (1 <= IZR m) by (apply IZR_le; lia). nra. }
    eapply Rle_trans; [|apply sqrt_le_1_alt; exact M].
    replace (bpow radix2 (-1074)) with (Rsqr (bpow radix2 (-537))).
    + rewrite sqrt_Rsqr by apply bpow_ge_0. apply bpow_le. lia.
    + unfold Rsqr. rewrite <- bpow_plus. reflexivity.
  - rewrite <- P, sqrt_0, round_0 by auto with typeclass_instances. rewrite Rminus_0_r, Rabs_R0. lra.
Qed.

(** Finite results come from finite operands. *)
Lemma plus_fin_inv (x y : b64) : fin (Bplus mode_NE x y) = true -> fin x = true /\ fin y = true.
Proof. destruct x as [|[|]| |], y as [|[|]| |]; simpl; try easy. Qed.
Lemma mult_fin_inv (x y : b64) : fin (Bmult mode_NE x y) = true -> fin x = true /\ fin y = true.
Proof. destruct x as [|[|]| |], y as [|[|]| |]; simpl; try easy. Qed.
Lemma sqrt_fin_inv (x : b64) : fin (Bsqrt mode_NE x) = true -> fin x = true.
Proof. destruct x as [|[|]| |[|]]; simpl; try easy. Qed.

Lemma fin_plus_eq (x y : b64) : fin (Bplus mode_NE x y) = true -> B2 (Bplus mode_NE x y) = rnd64 (B2 x + B2 y).
Proof.
  intros H. destruct (plus_fin_inv _ _ H) as (Fx & Fy). destruct (plus_val x y Fx Fy) as (_ & V).
  rewrite val_fin in V by auto. rewrite V. apply rnd_small.
  pose proof (B2_bound (Bplus mode_NE x y)) as Bd. rewrite V in Bd. unfold rnd, clamp in Bd.
  pose proof top_pos. apply Rabs_def1; repeat destruct Rle_dec; lra.
Qed.
Lemma fin_mult_eq (x y : b64) : fin (Bmult mode_NE x y) = true -> B2 (Bmult mode_NE x y) = rnd64 (B2 x * B2 y).
Proof.
  intros H. destruct (mult_fin_inv _ _ H) as (Fx & Fy). destruct (mult_val x y Fx Fy) as (_ & V).
  rewrite val_fin in V by auto. rewrite V. apply rnd_small.
  pose proof (B2_bound (Bmult mode_NE x y)) as Bd. rewrite V in Bd. unfold rnd, clamp in Bd.
  pose proof top_pos. apply Rabs_def1; repeat destruct Rle_dec; lra.
Qed.
Lemma rnd64_lt_fin (z : b64) r : nan z = false -> val z = rnd r -> Rabs (rnd64 r) < top -> fin z = true.
Proof.
  intros N V H. apply val_lt_fin; auto. rewrite V, rnd_small by auto. now apply Rabs_def2 in H.
Qed.

Definition ss (a : b64) (d : list b64) : b64 := fold_left (fun r x => Bplus mode_NE r (Bmult mode_NE x x)) d a.
Definition rss (d : list b64) : R := rsum (map (fun x => B2 x ^ 2) d).

Lemma pow_le1 x n : 0 <= x <= 1 -> x ^ n <= 1.
Proof. intros H. rewrite <- (pow1 n). now apply pow_incr. Qed.

Lemma rss_nonneg d : 0 <= rss d.
Proof. unfold rss. induction d as [|x d IH]; simpl; [lra|]. pose proof (pow2_ge_0 (B2 x)). simpl in *. lra. Qed.

Lemma ss_fin d : forall a, fin (ss a d) = true -> fin a = true /\ finite_pos d.
Proof.
  induction d as [|x d IH]; intros a H; [split; [exact H|constructor]|].
  destruct (IH _ H) as (F & FP). apply plus_fin_inv in F as (Fa & Fm). apply mult_fin_inv in Fm as (Fx & _).
  split; auto. constructor; auto.
Qed.

Lemma square_bounds (x : b64) : fin (Bmult mode_NE x x) = true ->
  (1 - u64) * B2 x ^ 2 - eta64 <= B2 (Bmult mode_NE x x) <= (1 + u64) * B2 x ^ 2 + eta64 /\ 0 <= B2 (Bmult mode_NE x x).
Proof.
  intros H. rewrite fin_mult_eq by auto. pose proof (rnd64_err (B2 x * B2 x)) as E.
  assert (P : 0 <= B2 x * B2 x) by nra. rewrite (Rabs_pos_eq (B2 x * B2 x)) in E by auto.
  apply Rabs_le_inv in E. replace (B2 x ^ 2) with (B2 x * B2 x) by ring. split; [lra|]. now apply rnd64_pos.
Qed.

Lemma plus_bounds (x y : b64) : fin (Bplus mode_NE x y) = true -> 0 <= B2 x -> 0 <= B2 y ->
  (1 - u64) * (B2 x + B2 y) <= B2 (Bplus mode_NE x y) <= (1 + u64) * (B2 x + B2 y).
Proof.
  intros H Px Py. rewrite fin_plus_eq by auto. pose proof (rnd64_plus x y) as E.
  rewrite (Rabs_pos_eq (B2 x + B2 y)) in E by lra. apply Rabs_le_inv in E. lra.
Qed.

Lemma ss_bounds d : forall a, fin (ss a d) = true -> 0 <= B2 a ->
  (1 - u64) ^ length d * (B2 a + (1 - u64) * rss d) - INR (length d) * eta64 <= B2 (ss a d)
  <= (1 + u64) ^ length d * (B2 a + (1 + u64) * rss d + INR (length d) * eta64).
Proof.
  pose proof u64_pos as U0. pose proof u64_lt1 as U1. pose proof eta64_pos as E0.
  induction d as [|x d IH]; intros a H Pa.
  - unfold ss, rss. simpl. lra.
  - change (ss a (x :: d)) with (ss (Bplus mode_NE a (Bmult mode_NE x x)) d) in *.
    destruct (ss_fin _ _ H) as (F & _). pose proof F as F'. apply plus_fin_inv in F' as (Fa & Fm).
    destruct (square_bounds x Fm) as ((Q1 & Q2) & Q3).
    pose proof (plus_bounds a _ F Pa Q3) as (A1 & A2).
    assert (Pa' : 0 <= B2 (Bplus mode_NE a (Bmult mode_NE x x))).
    { rewrite fin_plus_eq by auto. apply rnd64_pos. lra. }
    destruct (IH _ H Pa') as (I1 & I2).
    set (a' := B2 (Bplus mode_NE a (Bmult mode_NE x x))) in *. set (q := B2 (Bmult mode_NE x x)) in *.
    assert (R : rss (x :: d) = B2 x ^ 2 + rss d) by reflexivity. rewrite R. clear R.
    pose proof (rss_nonneg d) as RN. pose proof (pow2_ge_0 (B2 x)) as XN. set (T := rss d) in *. set (X := B2 x ^ 2) in *.
    cbn [length]. rewrite S_INR. rewrite <- !tech_pow_Rmult.
    set (n := length d) in *. set (lo := (1 - u64) ^ n) in *. set (hi := (1 + u64) ^ n) in *.
    assert (L0 : 0 < lo) by (apply pow_lt; lra).
    assert (L1 : lo <= 1). { apply pow_le1. lra. }
    assert (H1 : 0 < hi) by (apply pow_lt; lra).
    pose proof (pos_INR n) as N0. set (N := INR n) in *.
    split.
    + assert (S1 : (1 - u64) * (B2 a + (1 - u64) * X) - eta64 <= a').
      { assert (M1 : (1 - u64) * ((1 - u64) * X - eta64) <= (1 - u64) * q) by (apply Rmult_le_compat_l; lra).
        assert (M2 : 0 <= u64 * eta64) by (apply Rmult_le_pos; lra).
        replace ((1 - u64) * (B2 a + (1 - u64) * X) - eta64) with ((1 - u64) * B2 a + (1 - u64) * ((1 - u64) * X - eta64) - u64 * eta64) by ring. lra. }
      assert (S2 : lo * ((1 - u64) * (B2 a + (1 - u64) * X) - eta64) <= lo * a') by (apply Rmult_le_compat_l; lra).
      assert (S3 : lo * eta64 <= eta64) by nra.
      assert (S4 : lo * ((1 - u64) * ((1 - u64) * T)) <= lo * ((1 - u64) * T)).
      { apply Rmult_le_compat_l; [lra|]. assert (M0 : 0 <= (1 - u64) * T) by (apply Rmult_le_pos; lra).
        pose proof (Rmult_le_pos _ _ (Rlt_le _ _ U0) M0). lra. }
      assert (E1 : (1 - u64) * lo * (B2 a + (1 - u64) * (X + T)) = lo * ((1 - u64) * (B2 a + (1 - u64) * X)) + lo * ((1 - u64) * ((1 - u64) * T))) by ring.
      rewrite E1. assert (E2 : lo * (a' + (1 - u64) * T) = lo * a' + lo * ((1 - u64) * T)) by ring. rewrite E2 in I1.
      assert (E3 : lo * ((1 - u64) * (B2 a + (1 - u64) * X) - eta64) = lo * ((1 - u64) * (B2 a + (1 - u64) * X)) - lo * eta64) by ring. rewrite E3 in S2.
      lra.
    + assert (S1 : a' <= (1 + u64) * (B2 a + (1 + u64) * X + eta64)).
      { apply Rle_trans with (1 := A2). apply Rmult_le_compat_l; lra. }
      assert (S2 : a' + (1 + u64) * T + N * eta64 <= (1 + u64) * (B2 a + (1 + u64) * (X + T) + (N + 1) * eta64)).
      { assert (0 <= u64 * ((1 + u64) * T)) by (apply Rmult_le_pos; [lra|apply Rmult_le_pos; lra]).
        assert (0 <= u64 * (N * eta64)) by (apply Rmult_le_pos; [lra|apply Rmult_le_pos; lra]).
        replace ((1 + u64) * (B2 a + (1 + u64) * (X + T) + (N + 1) * eta64)) with
          ((1 + u64) * (B2 a + (1 + u64) * X + eta64) + (1 + u64) * T + u64 * ((1 + u64) * T) + N * eta64 + u64 * (N * eta64)) by ring. lra. }
      apply Rle_trans with (1 := I2).
      replace ((1 + u64) * hi * (B2 a + (1 + u64) * (X + T) + (N + 1) * eta64)) with
        (hi * ((1 + u64) * (B2 a + (1 + u64) * (X + T) + (N + 1) * eta64))) by ring.
      apply Rmult_le_compat_l; lra.
Qed.

Lemma ss_fin_intro d : forall a, fin a = true -> 0 <= B2 a -> finite_pos d ->
  (1 + u64) ^ length d * (B2 a + (1 + u64) * rss d + INR (length d) * eta64) < top -> fin (ss a d) = true.
Proof.
  pose proof u64_pos as U0. pose proof u64_lt1 as U1. pose proof eta64_pos as E0.
  induction d as [|x d IH]; intros a Fa Pa Fd B; [exact Fa|].
  change (ss a (x :: d)) with (ss (Bplus mode_NE a (Bmult mode_NE x x)) d).
  inversion Fd as [|? ? Fx Fd']; subst.
  assert (R : rss (x :: d) = B2 x ^ 2 + rss d) by reflexivity. rewrite R in B. clear R.
  pose proof (rss_nonneg d) as RN. pose proof (pow2_ge_0 (B2 x)) as XN.
  set (T := rss d) in *. set (X := B2 x ^ 2) in *.
  cbn [length] in B. rewrite S_INR in B. rewrite <- !tech_pow_Rmult in B. set (n := length d) in *. set (hi := (1 + u64) ^ n) in *.
  assert (H1 : 1 <= hi). { apply pow_R1_Rle. lra. }
  pose proof (pos_INR n) as N0. set (N := INR n) in *.
  set (W := B2 a + (1 + u64) * X + eta64).
  assert (W0 : 0 <= W) by (unfold W; nra).
  assert (K : (1 + u64) * hi * (B2 a + (1 + u64) * (X + T) + (N + 1) * eta64) = hi * ((1 + u64) * W) + hi * ((1 + u64) * ((1 + u64) * T + N * eta64))) by (unfold W; ring).
  rewrite K in B.
  assert (V0 : 0 <= (1 + u64) * T + N * eta64) by (apply Rplus_le_le_0_compat; apply Rmult_le_pos; lra).
  assert (V1 : 0 <= hi * ((1 + u64) * ((1 + u64) * T + N * eta64))) by (apply Rmult_le_pos; [lra|apply Rmult_le_pos; lra]).
  assert (V2 : (1 + u64) * W <= hi * ((1 + u64) * W)) by (rewrite <- (Rmult_1_l ((1 + u64) * W)) at 1; apply Rmult_le_compat_r; [apply Rmult_le_pos|]; lra).
  assert (V3 : W <= (1 + u64) * W) by nra.
  assert (Fm : fin (Bmult mode_NE x x) = true).
  { destruct (mult_val x x Fx Fx) as (Nm & Vm). apply (rnd64_lt_fin _ _ Nm Vm).
    rewrite Rabs_pos_eq by (apply rnd64_pos; nra). pose proof (rnd64_err (B2 x * B2 x)) as E.
    rewrite (Rabs_pos_eq (B2 x * B2 x)) in E by nra. apply Rabs_le_inv in E.
    assert (X = B2 x * B2 x) by (unfold X; ring). unfold W in *. nra. }
  destruct (square_bounds x Fm) as ((Q1 & Q2) & Q3). fold X in Q1, Q2.
  assert (Fp : fin (Bplus mode_NE a (Bmult mode_NE x x)) = true).
  { destruct (plus_val a (Bmult mode_NE x x) Fa Fm) as (Np & Vp). apply (rnd64_lt_fin _ _ Np Vp).
    rewrite Rabs_pos_eq by (apply rnd64_pos; lra). pose proof (rnd64_plus a (Bmult mode_NE x x)) as E.
    rewrite (Rabs_pos_eq (B2 a + _)) in E by lra. apply Rabs_le_inv in E.
    assert (B2 a + B2 (Bmult mode_NE x x) <= W) by (unfold W; lra).
    assert ((1 + u64) * (B2 a + B2 (Bmult mode_NE x x)) <= (1 + u64) * W) by (apply Rmult_le_compat_l; lra). lra. }
  pose proof (plus_bounds a _ Fp Pa Q3) as (A1 & A2).
  apply IH; auto.
  - rewrite fin_plus_eq by auto. apply rnd64_pos. lra.
  - fold T n hi N. apply Rle_lt_trans with (2 := B).
    rewrite <- Rmult_plus_distr_l. apply Rmult_le_compat_l; [lra|].
    assert (B2 (Bplus mode_NE a (Bmult mode_NE x x)) <= (1 + u64) * W).
    { apply Rle_trans with (1 := A2). apply Rmult_le_compat_l; [lra|]. unfold W. lra. }
    assert ((1 + u64) * T + N * eta64 <= (1 + u64) * ((1 + u64) * T + N * eta64)).
    { rewrite <- (Rmult_1_l ((1 + u64) * T + N * eta64)) at 1. apply Rmult_le_compat_r; lra. }
    lra.
Qed.

(** The computed square root of the sum of squares. *)
Definition n64 (d : list b64) : b64 := Bsqrt mode_NE (ss (b64_of_Z 0) d).

Lemma zero64 : fin (b64_of_Z 0) = true /\ B2 (b64_of_Z 0) = 0.
Proof. apply (of_Z_exact 0). simpl. lia. Qed.

Lemma ss_nonneg d : fin (ss (b64_of_Z 0) d) = true -> 0 <= B2 (ss (b64_of_Z 0) d).
Proof.
  destruct zero64 as (F0 & Z0). assert (G : forall d a, fin (ss a d) = true -> 0 <= B2 a -> 0 <= B2 (ss a d)).
  { clear. induction d as [|x d IH]; intros a H Pa; auto. apply IH; auto.
    destruct (ss_fin d (Bplus mode_NE a (Bmult mode_NE x x)) H) as (F & _). rewrite fin_plus_eq by auto. apply rnd64_pos.
    apply plus_fin_inv in F as (_ & Fm). pose proof (square_bounds x Fm). lra. }
  intros H. apply G; auto. lra.
Qed.

Lemma n64_bounds d : fin (n64 d) = true -> 0 <= B2 (n64 d) /\
  (1 - u64) ^ (length d + 3) * rss d - INR (length d) * eta64 <= B2 (n64 d) ^ 2
  <= (1 + u64) ^ (length d + 3) * rss d + (1 + u64) ^ (length d + 2) * (INR (length d) * eta64).
Proof.
  intros H. apply sqrt_fin_inv in H. destruct zero64 as (F0 & Z0).
  pose proof (ss_nonneg d H) as P. destruct (sqrt_val _ H P) as (_ & V). fold (n64 d) in V.
  pose proof (rnd64_sqrt _ P) as E. apply Rabs_le_inv in E.
  pose proof u64_pos as U0. pose proof u64_lt1 as U1. pose proof eta64_pos as E0.
  destruct (ss_bounds d _ H ltac:(lra)) as (L & Hh). rewrite Z0 in L, Hh.
  set (S := B2 (ss (b64_of_Z 0) d)) in *. set (N := B2 (n64 d)) in *. set (T := rss d) in *. set (n := length d) in *.
  pose proof (rss_nonneg d) as TN. fold T in TN. pose proof (pos_INR n) as N0.
  assert (SS : sqrt S * sqrt S = S) by (apply sqrt_sqrt; auto). pose proof (sqrt_pos S) as SP. set (r := sqrt S) in *.
  assert (B1 : (1 - u64) * r <= N) by (rewrite V; lra). assert (B2' : N <= (1 + u64) * r) by (rewrite V; lra).
  assert (NN : 0 <= N) by (rewrite V; apply rnd64_pos; auto).
  assert (C1 : (1 - u64) ^ 2 * S <= N ^ 2).
  { rewrite <- SS. replace ((1 - u64) ^ 2 * (r * r)) with (((1 - u64) * r) ^ 2) by ring. apply pow_incr. split; auto. apply Rmult_le_pos; lra. }
  assert (C2 : N ^ 2 <= (1 + u64) ^ 2 * S).
  { rewrite <- SS. replace ((1 + u64) ^ 2 * (r * r)) with (((1 + u64) * r) ^ 2) by ring. apply pow_incr. split; auto. }
  split; auto. split.
  - apply Rle_trans with (2 := C1).
    assert (D1 : (1 - u64) ^ 2 * ((1 - u64) ^ n * (0 + (1 - u64) * T) - INR n * eta64) <= (1 - u64) ^ 2 * S) by (apply Rmult_le_compat_l; auto; apply pow2_ge_0).
    apply Rle_trans with (2 := D1). rewrite pow_add. simpl ((1 - u64) ^ 3).
    assert (D2 : (1 - u64) ^ 2 * (INR n * eta64) <= INR n * eta64).
    { rewrite <- (Rmult_1_l (INR n * eta64)) at 2. apply Rmult_le_compat_r; [apply Rmult_le_pos; lra|]. simpl. nra. }
    replace ((1 - u64) ^ 2 * ((1 - u64) ^ n * (0 + (1 - u64) * T) - INR n * eta64)) with
      ((1 - u64) ^ n * ((1 - u64) * ((1 - u64) * ((1 - u64) * 1))) * T - (1 - u64) ^ 2 * (INR n * eta64)) by ring. lra.
  - apply Rle_trans with (1 := C2).
    apply Rle_trans with ((1 + u64) ^ 2 * ((1 + u64) ^ n * (0 + (1 + u64) * T + INR n * eta64))).
    { apply Rmult_le_compat_l; auto; apply pow2_ge_0. }
    rewrite !pow_add. right. ring.
Qed.

Lemma n64_fin_intro d : finite_pos d -> (1 + u64) ^ length d * ((1 + u64) * rss d + INR (length d) * eta64) < top -> fin (n64 d) = true.
Proof.
  intros Fd B. destruct zero64 as (F0 & Z0). apply sqrt_val; [|apply ss_nonneg]; apply ss_fin_intro; auto; rewrite Z0; try lra; rewrite Rplus_0_l; auto.
Qed.
