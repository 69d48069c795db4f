(** The first order reflection: its position, and its distance from the exact reflection (C50). *)
From Coq Require Import Reals ZArith List Lra Lia Psatz.
From Verif Require Import Base Scalar Float64 Model_Position Spec_Position Proof_Position Proof_Time Model_System Spec_System
  Proof_System Proof_System2 Proof_System9.
Import ListNotations.
Local Open Scope R_scope.

Lemma leaving_step (s : circ RR) (p dp : list R) : built_circ s -> length p = ci_dim s -> length dp = ci_dim s ->
  ci_size s < euclid_norm (along p dp 1) -> mut_add (S := RR) p dp = Ok (vsum (S := RR) p dp) /\ circ_inclusion s (vsum (S := RR) p dp) = Ok false.
Proof.
  intros Bu Lp Ld Out. assert (L : length p = length dp) by congruence. split; [exact (mut_add_vsum p dp L)|].
  assert (Lm : @length R (vsum (S := RR) p dp) = ci_dim s) by (exact (vsum_len2 (S := RR) p dp _ Lp Ld)).
  destruct (circ_inclusion_R s _ Lm) as [[E I]|[E I]]; [rewrite vsum_along in I; lra|exact E].
Qed.

Lemma first_order_R (s : circ RR) (p dp : list R) : built_circ s -> length p = ci_dim s -> length dp = ci_dim s ->
  0 < euclid_norm p -> ci_size s < euclid_norm (along p dp 1) -> dot p dp <> 0 ->
  exists t k q dp', euclid_norm p + t * (dot p dp / euclid_norm p) = ci_size s /\
    k * (ci_size s : R) ^ 2 = euclid_norm p * (euclid_norm p + dot p dp / euclid_norm p - ci_size s) /\
    q = along (along p dp 1) (along p dp t) (- (2 * k)) /\ dp' = map (fun x => x * (1 - 2 * k * t)) dp /\
    (euclid_norm q <= ci_size s -> circ_check_bc_first_order s p dp = (q, dp', Ok tt)) /\
    (ci_size s < euclid_norm q -> circ_check_bc_first_order s p dp = (q, dp', Err TooLargeTimeStep)).
Proof.
  intros Bu Lp Ld P0 Out B0. pose proof (circ_pos_R s Bu) as P. assert (L : length p = length dp) by congruence.
  destruct (leaving_step s p dp Bu Lp Ld Out) as [E1 E2].
  unfold circ_check_bc_first_order. rewrite E1, E2, (vsub_back p dp L), (inner_R p dp L). cbv zeta. rewrite !rr_norm_euclid.
  set (r := (ci_size s : R)) in *. set (B := dot p dp) in *. set (n := euclid_norm p) in *. set (d := euclid_norm dp).
  change (@sub RR) with Rminus. change (@mul RR) with Rmult. change (@div RR) with Rdiv. change (@s1 RR) with 1. change (@s2 RR) with 2.
  set (t := (1 - n / r) / (d / r * (B / (n * d)))).
  set (k := n / r * (d / r) * (B / (n * d)) - n / r * (1 - n / r)).
  assert (A0 : 0 < d).
  { assert (Hd : 0 <= d) by apply sqrt_pos. destruct (Rle_lt_or_eq_dec 0 d Hd) as [|Z]; [assumption|exfalso].
    pose proof (cauchy p dp L) as CS. change (dotp p dp) with B in CS.
    assert (D : sq dp = d * d) by (symmetry; apply sqrt_sqrt, sq_nonneg). rewrite D, <- Z in CS. nra. }
  set (q := along (along p dp 1) (along p dp t) (- (2 * k))).
  exists t, k, q, (mut_scalar_mul (S := RR) dp (1 - 2 * k * t)).
  split. { unfold t. field. repeat split; lra. }
  split. { unfold k. field. repeat split; lra. }
  split; [reflexivity|]. split; [reflexivity|].
  assert (La : forall u, length (along p dp u) = length p) by (intros u; now apply along_length).
  assert (Lmul : forall x c, @length R x = length p -> @length R (mut_scalar_mul (S := RR) x c) = length p).
  { intros x c Lx. unfold mut_scalar_mul. etransitivity; [exact (map_length _ _)|exact Lx]. }
  rewrite (mut_add_vsum (mut_scalar_mul (S := RR) p (1 - 2 * k)) (mut_scalar_mul (S := RR) dp (1 - 2 * k * t)))
    by (rewrite !Lmul; congruence).
  rewrite (combo_eq p dp k t L). fold q.
  assert (Lq : length q = ci_dim s). { unfold q. rewrite along_length; rewrite !La; congruence. }
  destruct (circ_inclusion_R s q Lq) as [[E' I']|[E' I']]; rewrite E'; split; intros H; auto; fold r in I'; lra.
Qed.

(** ** distance *)
Lemma sq_scale c p : sq (map (fun x => c * x) p) = c ^ 2 * sq p.
Proof. unfold sq. induction p as [|x p IH]; unfold rsum in *; simpl; [ring|]. simpl in IH. rewrite IH. ring. Qed.
Lemma combos_apart (p : list R) : forall d k k' t t', length p = length d ->
  vsub (along (along p d 1) (along p d t) (- (2 * k))) (along (along p d 1) (along p d t') (- (2 * k'))) =
  vadd (map (fun x => 2 * (k' - k) * x) p) (map (fun x => 2 * (k' * t' - k * t) * x) d).
Proof.
  unfold vsub, vadd, along. induction p as [|x p IH]; intros [|y d] k k' t t' L; try discriminate; [reflexivity|].
  injection L as L. cbn [combine map fst snd]. f_equal; [ring|]. now apply IH.
Qed.
Lemma combos_dist (p d : list R) k k' t t' a b : length p = length d -> Rabs (k' - k) <= a -> Rabs (k' * t' - k * t) <= b ->
  euclid (along (along p d 1) (along p d t) (- (2 * k))) (along (along p d 1) (along p d t') (- (2 * k'))) <= 2 * a * euclid_norm p + 2 * b * euclid_norm d.
Proof.
  intros L Ha Hb. assert (La : forall u, length (along p d u) = length p) by (intros u; now apply along_length).
  rewrite euclid_sq by (rewrite !along_length; rewrite ?La; congruence). rewrite combos_apart by exact L.
  eapply Rle_trans; [apply minkowski; rewrite !map_length; exact L|]. rewrite !sq_scale.
  assert (Q : forall c x, sqrt (c ^ 2 * sq x) = Rabs c * euclid_norm x).
  { intros c x. rewrite sqrt_mult; [|apply pow2_ge_0|apply sq_nonneg]. f_equal. rewrite <- sqrt_Rsqr_abs. f_equal. unfold Rsqr. ring. }
  rewrite !Q, !Rabs_mult, (Rabs_right 2) by lra. pose proof (sqrt_pos (sq p)) as N1. pose proof (sqrt_pos (sq d)) as N2.
  change (sqrt (sq p)) with (euclid_norm p) in N1. change (sqrt (sq d)) with (euclid_norm d) in N2. nra.
Qed.

Lemma scalar_bounds r n d B t k k' t' : 0 < r -> 0 < n <= r -> 0 <= d <= r -> r <= n + d -> 0 < B -> B <= n * d -> n * (r - n) <= B ->
  0 <= t <= 1 -> n ^ 2 + 2 * t * B + t ^ 2 * d ^ 2 = r ^ 2 -> k * r ^ 2 = (1 - t) * (B + t * d ^ 2) ->
  t' * B = (r - n) * n -> k' * r ^ 2 = B - n * (r - n) ->
  Rabs (k - k') <= d ^ 2 / 2 / r ^ 2 /\ Rabs (k * t - k' * t') <= r * d / 2 / r ^ 2.
Proof.
  intros Hr Hn Hd Hrd HB HBd HBn Ht E1 E2 E3 E4. assert (R2 : 0 < r ^ 2) by nra.
  assert (G : forall x y, x * r ^ 2 <= y -> - y <= x * r ^ 2 -> Rabs x <= y / r ^ 2).
  { intros x y H1 H2. apply Rabs_le. assert (Y : y = y / r ^ 2 * r ^ 2) by (field; lra). split; nra. }
  split; apply G.
  - assert (K : (k - k') * r ^ 2 = (d ^ 2 - (r - n) ^ 2 - (1 - t) ^ 2 * d ^ 2) / 2) by nra.
    rewrite K. assert (0 <= (r - n) ^ 2) by nra. assert (0 <= (1 - t) ^ 2 * d ^ 2) by (apply Rmult_le_pos; nra). nra.
  - assert (K : (k - k') * r ^ 2 = (d ^ 2 - (r - n) ^ 2 - (1 - t) ^ 2 * d ^ 2) / 2) by nra.
    rewrite K. assert ((r - n) ^ 2 <= d ^ 2) by nra. assert ((1 - t) ^ 2 * d ^ 2 <= d ^ 2) by (assert (0 <= (1 - t) ^ 2 <= 1) by nra; nra). nra.
  - assert (K1 : k * t * r ^ 2 = t * (1 - t) * (B + t * d ^ 2)) by nra.
    assert (K2 : 0 <= k' * t' * r ^ 2).
    { assert (0 <= t') by (apply Rnot_lt_le; intros N; nra). assert (0 <= k' * r ^ 2) by nra. nra. }
    replace ((k * t - k' * t') * r ^ 2) with (k * t * r ^ 2 - k' * t' * r ^ 2) by ring. rewrite K1.
    assert (T : 0 <= t * (1 - t) <= 1 / 4) by (pose proof (pow2_ge_0 (t - 1 / 2)); nra).
    assert (B + t * d ^ 2 <= 2 * r * d) by nra. assert (0 <= B + t * d ^ 2) by nra.
    assert (t * (1 - t) * (B + t * d ^ 2) <= 1 / 4 * (2 * r * d)) by (apply Rmult_le_compat; lra). lra.
  - assert (K1 : 0 <= k * t * r ^ 2).
    { replace (k * t * r ^ 2) with (t * (1 - t) * (B + t * d ^ 2)) by nra. apply Rmult_le_pos; nra. }
    assert (K2 : k' * t' * r ^ 2 <= B / 4).
    { apply (Rmult_le_reg_r B); [lra|]. replace (k' * t' * r ^ 2 * B) with ((k' * r ^ 2) * (t' * B)) by ring. rewrite E3, E4.
      pose proof (pow2_ge_0 (n * (r - n) - B / 2)). nra. }
    assert (B <= r * d) by nra. replace ((k * t - k' * t') * r ^ 2) with (k * t * r ^ 2 - k' * t' * r ^ 2) by ring. nra.
Qed.

Lemma first_order_close (s : circ RR) (p dp qe qf de df : list R) oe of : built_circ s -> length p = ci_dim s -> length dp = ci_dim s ->
  0 < euclid_norm p <= ci_size s -> euclid_norm dp <= ci_size s -> ci_size s < euclid_norm (along p dp 1) ->
  0 < dot p dp -> ci_size s <= euclid_norm p + dot p dp / euclid_norm p ->
  circ_check_bc_exact s p dp = (qe, de, oe) -> circ_check_bc_first_order s p dp = (qf, df, of) ->
  euclid qf qe <= 2 * euclid_norm dp ^ 2 / ci_size s.
Proof.
  intros Bu Lp Ld Hp Hd Out HB Lin Ee Ef. pose proof (circ_pos_R s Bu) as P. assert (L : length p = length dp) by congruence.
  destruct (circ_exact_R s p dp Bu Lp Ld (proj2 Hp) Out) as (t & q & d1 & (T1 & T2 & _) & (k & K1 & K2) & Q1 & Q2).
  destruct (first_order_R s p dp Bu Lp Ld (proj1 Hp) Out) as (t' & k' & q' & d2 & F1 & F2 & F3 & _ & F4 & F5); [lra|].
  assert (Eq : qe = q). { destruct (Rle_lt_dec (euclid_norm q) (ci_size s)) as [H|H]; [rewrite (Q1 H) in Ee|rewrite (Q2 H) in Ee]; congruence. }
  assert (Eq' : qf = q'). { destruct (Rle_lt_dec (euclid_norm q') (ci_size s)) as [H|H]; [rewrite (F4 H) in Ef|rewrite (F5 H) in Ef]; congruence. }
  clear Ee Ef Q1 Q2 F4 F5. subst qe qf q q'. set (r := (ci_size s : R)) in *. set (n := euclid_norm p) in *. set (d := euclid_norm dp) in *. set (B := dot p dp) in *.
  assert (La : forall u, length (along p dp u) = length p) by (intros u; now apply along_length).
  assert (Sn : sq p = n ^ 2) by (symmetry; unfold n; change (euclid_norm p) with (sqrt (sq p)); rewrite <- Rsqr_pow2; apply Rsqr_sqrt, sq_nonneg).
  assert (Sd : sq dp = d ^ 2) by (symmetry; unfold d; change (euclid_norm dp) with (sqrt (sq dp)); rewrite <- Rsqr_pow2; apply Rsqr_sqrt, sq_nonneg).
  assert (St : sq (along p dp t) = r ^ 2).
  { rewrite <- T2. change (euclid_norm (along p dp t)) with (sqrt (sq (along p dp t))). rewrite <- Rsqr_pow2. symmetry. apply Rsqr_sqrt, sq_nonneg. }
  assert (Dn : 0 <= d) by apply sqrt_pos.
  assert (Bd : B <= n * d).
  { pose proof (cauchy p dp L) as CS. change (dotp p dp) with B in CS. rewrite Sn, Sd in CS. apply Rsqr_incr_0_var; [unfold Rsqr; clear - CS; lra|]. apply Rmult_le_pos; [apply sqrt_pos|exact Dn]. }
  assert (So : r ^ 2 < n ^ 2 + 2 * B + d ^ 2).
  { apply norm_lt_sq in Out; [|lra]. rewrite sq_along in Out by exact L. fold B in Out. lra. }
  assert (K3 : k * r ^ 2 = (1 - t) * (B + t * d ^ 2)).
  { rewrite dot_along in K1 by (rewrite ?La; congruence). rewrite dot_self, St in K1.
    rewrite (dot_along p dp 1 L) in K1 by (apply La). rewrite (dot_comm _ p), (dot_comm _ dp), !dot_along in K1 by congruence.
    rewrite (dot_comm dp p), !dot_self, Sn, Sd in K1. fold B in K1. rewrite sq_along in St by exact L. fold B in St. nra. }
  rewrite sq_along, Sn, Sd in St by exact L. fold B in St.
  assert (F1' : t' * B = (r - n) * n). { rewrite <- F1. field. lra. }
  assert (F2' : k' * r ^ 2 = B - n * (r - n)). { rewrite F2. field. lra. }
  assert (Lin' : n * (r - n) <= B).
  { replace B with (B / n * n) by (field; lra). nra. }
  assert (Rnd : r <= n + d) by (apply Rnot_lt_le; intros N; nra).
  destruct (scalar_bounds r n d B t k k' t' P Hp (conj Dn Hd) Rnd HB Bd Lin' T1 St K3 F1' F2') as [A1 A2].
  eapply Rle_trans; [apply (combos_dist p dp k' k t' t _ _ L A1 A2)|]. fold n d.
  assert (R2 : 0 < r ^ 2) by nra.
  apply (Rmult_le_reg_r (r ^ 2)); [exact R2|].
  replace ((2 * (d ^ 2 / 2 / r ^ 2) * n + 2 * (r * d / 2 / r ^ 2) * d) * r ^ 2) with (d ^ 2 * n + r * d ^ 2) by (field; lra).
  replace (2 * d ^ 2 / r * r ^ 2) with (2 * d ^ 2 * r) by (field; lra). nra.
Qed.
