(** Boundary steps in double precision: the spherical wall, up to rounding. *)
From Coq Require Import Reals ZArith List Lra Lia.
From Flocq Require Import Core.
From Flocq.IEEE754 Require Import BinarySingleNaN.
From Verif Require Import Base Scalar Float64 Model_Position Spec_Position Proof_Position Proof_Norm64 Proof_Sum64
  Model_System Spec_System Proof_System Proof_System2 Proof_System3 Proof_System4 Proof_System5 Proof_System6 Proof_System8 Spec_Wall64 Proof_Wall64.
Import ListNotations.
Local Open Scope R_scope.

(** A rounding error of the norm of [k] coordinates. *)
Definition al (k : nat) : R := (INR k + 4) * u64.
Definition few (k : nat) : Prop := INR k <= 2 ^ 40.

Lemma slack_al k : slack k = 32 * al k. Proof. unfold slack, al, u64, Rdiv. ring. Qed.
Lemma u64_v : u64 = / 2 ^ 53. Proof. reflexivity. Qed.
Lemma al_pos k : 4 * u64 <= al k. Proof. unfold al. pose proof (pos_INR k). pose proof u64_pos. nra. Qed.
Lemma al_small k : few k -> al k <= / 1000.
Proof.
  unfold few, al. rewrite u64_v. intros H. pose proof (pos_INR k).
  assert (E : 2 ^ 53 = 2 ^ 40 * 2 ^ 13) by (rewrite <- pow_add; reflexivity). assert (A : 0 < 2 ^ 40) by (apply pow_lt; lra).
  assert (Bq : 2 ^ 13 = 8192) by (simpl; lra). assert (C : 8 <= 2 ^ 40). { replace 8 with (2 ^ 3) by (simpl; lra). apply Rle_pow; [lra|lia]. }
  apply Rmult_le_reg_r with (2 ^ 53); [apply pow_lt; lra|]. rewrite Rmult_assoc, Rinv_l by (apply pow_nonzero; lra). rewrite E, Bq. lra.
Qed.

(** 2^-410 and the like, kept opaque. *)
Definition T410 : R := / 2 ^ 410.
Lemma T410_pos : 0 < T410. Proof. apply Rinv_0_lt_compat, pow_lt. lra. Qed.
Lemma T400 : / 2 ^ 400 = 2 ^ 10 * T410.
Proof. unfold T410. replace 410%nat with (400 + 10)%nat by lia. rewrite pow_add. field; repeat split; apply pow_nonzero; lra. Qed.
Lemma eta_T k : few k -> INR k * eta64 <= u64 * T410 ^ 2 /\ eta64 <= u64 * T410 ^ 2.
Proof.
  unfold few, eta64, u64, T410. intros H.
  assert (E : / 2 ^ 1075 = / 2 ^ 53 * (/ 2 ^ 410) ^ 2 * / 2 ^ 202).
  { replace 1075%nat with (53 + (410 + 410) + 202)%nat by lia. rewrite !pow_add. field; repeat split; apply pow_nonzero; lra. }
  rewrite E. set (q := / 2 ^ 53 * (/ 2 ^ 410) ^ 2).
  assert (Q : 0 < q). { unfold q. apply Rmult_lt_0_compat; [apply Rinv_0_lt_compat, pow_lt; lra|]. apply pow_lt, Rinv_0_lt_compat, pow_lt. lra. }
  assert (P : 0 < / 2 ^ 202) by (apply Rinv_0_lt_compat, pow_lt; lra).
  assert (A : 2 ^ 40 * / 2 ^ 202 <= 1).
  { apply Rmult_le_reg_r with (2 ^ 202); [apply pow_lt; lra|]. rewrite Rmult_assoc, Rinv_l by (apply pow_nonzero; lra). rewrite Rmult_1_r, Rmult_1_l. apply Rle_pow; [lra|lia]. }
  pose proof (pos_INR k). split.
  - replace (INR k * (q * / 2 ^ 202)) with (q * (INR k * / 2 ^ 202)) by ring. rewrite <- (Rmult_1_r q) at 2. apply Rmult_le_compat_l; [lra|].
    apply Rle_trans with (2 := A). apply Rmult_le_compat_r; lra.
  - rewrite <- (Rmult_1_r q) at 2. apply Rmult_le_compat_l; [lra|]. apply Rle_trans with (2 := A).
    rewrite <- (Rmult_1_l (/ 2 ^ 202)) at 1. apply Rmult_le_compat_r; [lra|]. apply pow_R1_Rle. lra.
Qed.

Lemma sq_le_le a b : 0 <= b -> a ^ 2 <= b ^ 2 -> a <= b. Proof. intros. apply Rnot_lt_le. intros C. nra. Qed.

(** The computed norm. *)
Lemma norm_core (k : nat) (n N : R) : few k -> 0 <= n -> 0 <= N ->
  (1 - u64) ^ (k + 3) * n ^ 2 - INR k * eta64 <= N ^ 2 <= (1 + u64) ^ (k + 3) * n ^ 2 + (1 + u64) ^ (k + 2) * (INR k * eta64) ->
  (T410 <= n -> n * (1 - al k) <= N <= n * (1 + al k)) /\ (n <= T410 -> N <= 2 * T410).
Proof.
  intros Fk n0 N0 (Lo & Hi). pose proof u64_pos as U0. pose proof (al_small k Fk) as As. pose proof (al_pos k) as Ap. pose proof (pos_INR k) as K0. pose proof T410_pos as T0.
  destruct (eta_T k Fk) as (E1 & _). set (e := INR k * eta64) in *. assert (e0 : 0 <= e) by (apply Rmult_le_pos; [auto|apply Rlt_le, eta64_pos]).
  assert (K3 : INR (k + 3) = INR k + 3) by (rewrite plus_INR; simpl; lra). assert (K2 : INR (k + 2) = INR k + 2) by (rewrite plus_INR; simpl; lra).
  unfold al in As, Ap.
  pose proof (l_lin (k + 3)) as L3. rewrite K3 in L3.
  assert (G3 : (1 + u64) ^ (k + 3) <= 1 + 2 * (INR k + 3) * u64) by (rewrite <- K3; apply g_lin; rewrite K3; nra).
  assert (G2 : (1 + u64) ^ (k + 2) <= 2) by (apply Rle_trans with (1 + 2 * (INR k + 2) * u64); [rewrite <- K2; apply g_lin; rewrite K2; nra|nra]).
  assert (n2 : 0 <= n ^ 2) by (apply pow2_ge_0).
  set (A := (1 - u64) ^ (k + 3)) in *. set (B := (1 + u64) ^ (k + 3)) in *. set (C := (1 + u64) ^ (k + 2)) in *.
  assert (M1 : (1 - (INR k + 3) * u64) * n ^ 2 <= A * n ^ 2) by (apply Rmult_le_compat_r; auto).
  assert (M2 : B * n ^ 2 <= (1 + 2 * (INR k + 3) * u64) * n ^ 2) by (apply Rmult_le_compat_r; auto).
  assert (M3 : C * e <= 2 * e) by (apply Rmult_le_compat_r; auto).
  clearbody e A B C. split; intros H.
  - assert (Tn : T410 ^ 2 <= n ^ 2) by (apply pow_incr; lra).
    assert (En : e <= u64 * n ^ 2). { apply Rle_trans with (1 := E1). apply Rmult_le_compat_l; lra. }
    unfold al. set (a := (INR k + 4) * u64) in *. replace ((INR k + 3) * u64) with (a - u64) in M1 by (unfold a; ring).
    replace (2 * (INR k + 3) * u64) with (2 * a - 2 * u64) in M2 by (unfold a; ring). clearbody a. split; apply sq_le_le; nra.
  - assert (Tn : n ^ 2 <= T410 ^ 2) by (apply pow_incr; lra). apply sq_le_le; [lra|].
    set (t := T410 ^ 2) in *. assert (t0 : 0 < t) by (apply pow_lt; auto). replace ((2 * T410) ^ 2) with (4 * t) by (unfold t; ring).
    set (a := (INR k + 4) * u64) in *. replace (2 * (INR k + 3) * u64) with (2 * a - 2 * u64) in M2 by (unfold a; ring). clearbody a t.
    pose proof u64_lt1. nra.
Qed.

Lemma norm_finite (h : list b64) : few (length h) -> finite_pos h -> euclid_norm (reals h) <= 2 ^ 410 -> fin (n64 h) = true.
Proof.
  intros Fk Fh Hn. apply n64_fin_intro; auto. rewrite rss_reals. pose proof (euclid_norm_nonneg (reals h)) as n0. set (n := euclid_norm (reals h)) in *.
  pose proof u64_pos as U0. pose proof (al_small _ Fk) as As. unfold al in As. pose proof (pos_INR (length h)) as K0. destruct (eta_T _ Fk) as (E1 & _).
  assert (G : (1 + u64) ^ length h <= 2). { apply Rle_trans with (1 + 2 * INR (length h) * u64); [apply g_lin; nra|nra]. }
  assert (G0 : 0 <= (1 + u64) ^ length h) by (apply pow_le; lra).
  assert (E2 : INR (length h) * eta64 <= 1).
  { apply Rle_trans with (1 := E1). pose proof u64_lt1. assert (T410 <= 1). { unfold T410. rewrite <- Rinv_1. apply Rinv_le_contravar; [lra|]. apply pow_R1_Rle. lra. }
    pose proof T410_pos. assert (T410 ^ 2 <= 1) by (replace 1 with (1 ^ 2) by ring; apply pow_incr; lra). nra. }
  assert (E0 : 0 <= INR (length h) * eta64) by (apply Rmult_le_pos; [auto|apply Rlt_le, eta64_pos]).
  assert (N2 : n ^ 2 <= 2 ^ 820). { replace (2 ^ 820) with ((2 ^ 410) ^ 2) by (rewrite <- pow_mult; reflexivity). apply pow_incr. lra. }
  assert (P : 1 <= 2 ^ 820) by (apply pow_R1_Rle; lra).
  assert (Tp : top = 2 ^ 204 * 2 ^ 820). { rewrite <- pow_add. change (204 + 820)%nat with 1024%nat. rewrite <- (bpow_pow 1024). reflexivity. }
  rewrite Tp. assert (Q : 2 ^ 3 < 2 ^ 204) by (apply Rlt_pow; [lra|lia]). replace (2 ^ 3) with 8 in Q by (simpl; lra).
  set (b := 2 ^ 820) in *. set (c := 2 ^ 204) in *. set (g := (1 + u64) ^ length h) in *. set (e := INR (length h) * eta64) in *. pose proof u64_lt1.
  assert (n2 : 0 <= n ^ 2) by (apply pow2_ge_0). clearbody b c g e.
  apply Rle_lt_trans with (2 * ((1 + u64) * n ^ 2 + e)); [apply Rmult_le_compat_r; auto; nra|]. nra.
Qed.

Lemma norm_near (h : list b64) : few (length h) -> finite_pos h -> euclid_norm (reals h) <= 2 ^ 410 ->
  let n := euclid_norm (reals h) in
  fin (n64 h) = true /\ 0 <= B2 (n64 h) /\ (T410 <= n -> n * (1 - al (length h)) <= B2 (n64 h) <= n * (1 + al (length h))) /\ (n <= T410 -> B2 (n64 h) <= 2 * T410).
Proof.
  intros Fk Fh Hn n. pose proof (norm_finite h Fk Fh Hn) as Fn. split; auto. destruct (n64_bounds h Fn) as (P & Bd). split; auto. rewrite rss_reals in Bd.
  apply norm_core; auto. apply euclid_norm_nonneg.
Qed.

(** Euclidean norms of real vectors. *)
Lemma norm_sq (v : list R) : euclid_norm v ^ 2 = sq v.
Proof. rewrite euclid_norm_sq, <- Rsqr_pow2, Rsqr_sqrt; [reflexivity|apply sq_nonneg]. Qed.
Lemma coord_le (h : list R) x : In x h -> Rabs x <= euclid_norm h.
Proof.
  intros I. apply sq_le_le; [apply euclid_norm_nonneg|]. rewrite norm_sq, pow2_abs. induction h as [|y h IH]; [easy|].
  change (sq (y :: h)) with (y ^ 2 + sq h). pose proof (sq_nonneg h). pose proof (pow2_ge_0 y). destruct I as [->|I]; [lra|]. specialize (IH I). lra.
Qed.

(** [q] close to [t*h] coordinatewise: the norms are close. *)
Lemma norm_pert (h q : list R) (t c e : R) : 0 <= c -> 0 <= e -> Forall2 (fun x y => Rabs (y - t * x) <= c * Rabs x + e) h q ->
  exists w, 0 <= w /\ w ^ 2 <= 2 * c ^ 2 * euclid_norm h ^ 2 + 2 * INR (length h) * e ^ 2 /\
    Rabs t * euclid_norm h - w <= euclid_norm q <= Rabs t * euclid_norm h + w.
Proof.
  intros c0 e0 H. set (v := vsub q (map (fun x => x * t) h)).
  assert (L : length q = length h) by (clear - H; induction H; cbn; congruence).
  assert (Lt : length (map (fun x => x * t) h) = length h) by apply map_length.
  exists (euclid_norm v). split; [apply euclid_norm_nonneg|]. split.
  - rewrite !norm_sq. unfold v. clear Lt v L. induction H as [|x y h q Hxy H IH]; [cbn; lra|].
    change (sq (vsub (y :: q) (map (fun x => x * t) (x :: h)))) with ((y - x * t) ^ 2 + sq (vsub q (map (fun x => x * t) h))).
    change (sq (x :: h)) with (x ^ 2 + sq h). cbn [length]. rewrite S_INR.
    assert (Q : (y - x * t) ^ 2 <= 2 * c ^ 2 * x ^ 2 + 2 * e ^ 2).
    { rewrite (Rmult_comm x t). rewrite <- pow2_abs. rewrite <- (pow2_abs x). pose proof (Rabs_pos x). pose proof (Rabs_pos (y - t * x)).
      set (z := Rabs (y - t * x)) in *. set (ax := Rabs x) in *. apply Rle_trans with ((c * ax + e) ^ 2); [apply pow_incr; lra|]. pose proof (pow2_ge_0 (c * ax - e)). nra. }
    lra.
  - assert (E : Rabs t * euclid_norm h = euclid_norm (map (fun x => x * t) h)) by (symmetry; apply euclid_norm_scale). rewrite E, !euclid_norm_sq.
    assert (E1 : q = vadd v (map (fun x => x * t) h)).
    { unfold v. clear - L. revert q L. induction h as [|x h IH]; intros [|y q] L; try discriminate; [reflexivity|].
      unfold vadd, vsub in *. cbn [map combine fst snd]. f_equal; [ring|]. apply IH. now injection L. }
    assert (E2 : map (fun x => x * t) h = vadd (vsub (map (fun x => x * t) h) q) q).
    { clear - L. revert q L. induction h as [|x h IH]; intros [|y q] L; try discriminate; [reflexivity|].
      unfold vadd, vsub in *. cbn [map combine fst snd]. f_equal; [ring|]. apply IH. now injection L. }
    split.
    + rewrite E2 at 1. assert (S1 : sq v = sq (vsub (map (fun x => x * t) h) q)) by (unfold v; apply sq_vsub_sym). rewrite S1.
      assert (M := minkowski (vsub (map (fun x => x * t) h) q) q). rewrite vsub_len in M by lia. specialize (M ltac:(lia)). lra.
    + rewrite E1 at 1. assert (M := minkowski v (map (fun x => x * t) h)). unfold v in M at 1. rewrite vsub_len in M by lia. specialize (M ltac:(lia)). lra.
Qed.

(** The factor computed by the wall. *)
Definition fac (r n : b64) : b64 := Bdiv mode_NE (Bminus mode_NE (Bmult mode_NE (b64_of_Z 2) r) n) n.

Lemma rel_err x y c : Rabs (x - y) <= c * Rabs y -> exists e, x = y * (1 + e) /\ Rabs e <= Rmax 0 c.
Proof.
  intros H. destruct (Req_dec y 0) as [->|N].
  - rewrite Rabs_R0, Rmult_0_r in H. exists 0. pose proof (Rabs_pos (x - 0)). assert (Z : x - 0 = 0) by (apply Rabs_eq_R0; lra).
    split; [lra|]. rewrite Rabs_R0. apply Rmax_l.
  - exists ((x - y) / y). split; [field; auto|]. unfold Rdiv. rewrite Rabs_mult, Rabs_inv. apply Rle_trans with c; [|apply Rmax_r].
    assert (0 < Rabs y) by now apply Rabs_pos_lt. apply Rmult_le_reg_r with (Rabs y); auto. rewrite Rmult_assoc, Rinv_l; lra.
Qed.

Lemma middling_fit (r : b64) : middling r -> fit r.
Proof.
  intros (F & L & H). split; auto. assert (0 < / 2 ^ 400) by (apply Rinv_0_lt_compat, pow_lt; lra). split; [lra|].
  apply Rle_trans with (1 := H). apply Rle_pow; [lra|lia].
Qed.

(** |fac - (2r-n)/n| is at most three roundings. *)
Lemma fac_near (r n : b64) : fit r -> fin n = true -> 0 < B2 r -> B2 r < B2 n ->
  fin (fac r n) = true /\ Rabs (B2 (fac r n) - (2 * B2 r - B2 n) / B2 n) <= 3 * u64.
Proof.
  intros Ft Fn R0 Lt. unfold fac. destruct (dbl r Ft) as (F2 & E2). destruct (minus_val _ _ F2 Fn) as (N1 & V1). rewrite E2 in V1.
  pose proof (B2_bound n) as Bn. pose proof u64_pos as U0.
  assert (Up : rnd (2 * B2 r - B2 n) <= B2 n). { eapply Rle_trans; [apply rnd_le with (y := B2 n); lra|]. rewrite rnd_B2. lra. }
  assert (Lo : - B2 n <= rnd (2 * B2 r - B2 n)). { eapply Rle_trans; [|apply rnd_le with (x := - B2 n); lra]. rewrite rnd_opp, rnd_B2. lra. }
  assert (F1 : fin (Bminus mode_NE (Bmult mode_NE (b64_of_Z 2) r) n) = true) by (apply val_lt_fin; auto; lra).
  pose proof (Proof_Sum64.fin_minus_eq _ _ F1) as W1. rewrite E2 in W1. pose proof (rnd64_minus (Bmult mode_NE (b64_of_Z 2) r) n) as D1. rewrite E2 in D1.
  rewrite <- W1 in D1. rewrite val_fin in V1 by auto. rewrite <- V1 in Up, Lo. set (m := Bminus mode_NE (Bmult mode_NE (b64_of_Z 2) r) n) in *.
  destruct (div_val m n F1 Fn ltac:(lra)) as (N3 & V3).
  set (x := (2 * B2 r - B2 n) / B2 n). set (y := B2 m / B2 n) in *.
  assert (Pn : 0 < B2 n) by lra.
  assert (Q : -1 <= y <= 1).
  { unfold y. split; apply Rmult_le_reg_r with (B2 n); try lra; unfold Rdiv; rewrite Rmult_assoc, Rinv_l; lra. }
  assert (Qx : -1 <= x <= 1).
  { unfold x. split; apply Rmult_le_reg_r with (B2 n); try lra; unfold Rdiv; rewrite Rmult_assoc, Rinv_l; lra. }
  assert (D2 : Rabs (y - x) <= u64).
  { unfold y, x. replace (B2 m / B2 n - (2 * B2 r - B2 n) / B2 n) with ((B2 m - (2 * B2 r - B2 n)) * / B2 n) by (field; lra).
    rewrite Rabs_mult, (Rabs_pos_eq (/ B2 n)) by (apply Rlt_le, Rinv_0_lt_compat; lra). apply Rmult_le_reg_r with (B2 n); [lra|].
    rewrite Rmult_assoc, Rinv_l, Rmult_1_r by lra. apply Rle_trans with (1 := D1). apply Rmult_le_compat_l; [lra|]. apply Rabs_le. lra. }
  pose proof (rnd64_err y) as D3. assert (Ay : Rabs y <= 1) by (apply Rabs_le; lra). pose proof u64_lt1.
  assert (Eu : eta64 <= u64). { unfold eta64, u64. apply Rinv_le_contravar; [apply pow_lt; lra|]. apply Rle_pow; [lra|lia]. }
  assert (D4 : Rabs (rnd64 y - y) <= 2 * u64) by nra.
  assert (F3 : fin (Bdiv mode_NE m n) = true).
  { apply (rnd64_lt_fin _ _ N3 V3). apply Rle_lt_trans with 2; [|change 2 with (bpow radix2 1); apply bpow_lt; lia].
    replace (rnd64 y) with ((rnd64 y - y) + y) by ring. pose proof (Rabs_triang (rnd64 y - y) y). lra. }
  split; auto. rewrite (fin_div_eq m n F1 Fn ltac:(lra) F3). fold y.
  replace (rnd64 y - x) with ((rnd64 y - y) + (y - x)) by ring. pose proof (Rabs_triang (rnd64 y - y) (y - x)). lra.
Qed.

(** The wall of the ball, before the final test. *)
Definition shrunk (r : b64) (h : list b64) : list b64 := if Bltb r (n64 h) then map (fun x => Bmult mode_NE x (fac r (n64 h))) h else h.

(** The real computation.  [a] is the relative error of a norm, [v] one rounding. *)
Lemma factor_core (a v r n N t k : R) : 0 < v -> 4 * v <= a <= / 1000 -> 0 < r -> 0 < n -> r < N -> n * (1 - a) <= N <= n * (1 + a) ->
  Rabs (t - (2 * r - N) / N) <= 3 * v -> wall_factor r n k -> Rabs (t - (2 * r - n) / n) <= 2 * a + 3 * v /\ Rabs (t - k) <= 4 * a + 3 * v + 4 * a * a.
Proof.
  intros v0 A r0 n0 RN Nn T (K1 & K2).
  assert (D : Rabs ((2 * r - N) / N - (2 * r - n) / n) <= 2 * a).
  { replace ((2 * r - N) / N - (2 * r - n) / n) with (2 * (r / N) * ((n - N) / n)) by (field; lra).
    assert (Q1 : 0 <= r / N <= 1). { split; [apply Rlt_le, Rdiv_lt_0_compat; lra|]. apply Rmult_le_reg_r with N; [lra|]. unfold Rdiv. rewrite Rmult_assoc, Rinv_l; lra. }
    assert (Q2 : - a <= (n - N) / n <= a). { split; apply Rmult_le_reg_r with n; try lra; unfold Rdiv; rewrite Rmult_assoc, Rinv_l; nra. }
    apply Rabs_le. set (x := r / N) in *. set (y := (n - N) / n) in *. nra. }
  assert (T1 : Rabs (t - (2 * r - n) / n) <= 2 * a + 3 * v).
  { replace (t - (2 * r - n) / n) with ((t - (2 * r - N) / N) + ((2 * r - N) / N - (2 * r - n) / n)) by ring.
    pose proof (Rabs_triang (t - (2 * r - N) / N) ((2 * r - N) / N - (2 * r - n) / n)). lra. }
  split; auto. destruct (Rle_or_lt n r) as [C|C]; [rewrite (K1 C)|rewrite (K2 C); nra].
  assert (Q : 0 <= (2 * r - n) / n - 1 <= 2 * a).
  { replace ((2 * r - n) / n - 1) with (2 * ((r - n) / n)) by (field; lra).
    assert (0 <= (r - n) / n <= a). { split; apply Rmult_le_reg_r with n; try lra; unfold Rdiv; rewrite Rmult_assoc, Rinv_l; nra. } lra. }
  replace (t - 1) with ((t - (2 * r - n) / n) + ((2 * r - n) / n - 1)) by ring.
  pose proof (Rabs_triang (t - (2 * r - n) / n) ((2 * r - n) / n - 1)) as TR. rewrite (Rabs_pos_eq ((2 * r - n) / n - 1)) in TR by lra. nra.
Qed.
