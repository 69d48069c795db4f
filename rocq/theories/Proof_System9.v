(** Exact reflection at the sphere (C49). *)
From Coq Require Import Reals ZArith List Lra Lia Psatz.
From Verif Require Import Base Scalar Float64 Model_Position Spec_Position Proof_Position Proof_Time Model_System Spec_System
  Proof_System Proof_System2.
Import ListNotations.
Local Open Scope R_scope.

Lemma dot_self p : dot p p = sq p.
Proof. unfold dot, sq. f_equal. induction p as [|x p IH]; simpl; [reflexivity|]. f_equal; [ring|exact IH]. Qed.

Lemma along_length p d t : length p = length d -> length (along p d t) = length p.
Proof. intros L. unfold along. rewrite map_length, combine_length. lia. Qed.

Lemma dot_along p d t : length p = length d -> forall h, length h = length p -> dot h (along p d t) = dot h p + t * dot h d.
Proof.
  revert d. induction p as [|x p IH]; intros [|y d] L [|z h] Lh; try discriminate; unfold dot, along, rsum; simpl; [ring|].
  injection L as L. injection Lh as Lh. specialize (IH d L h Lh). unfold dot, along, rsum in IH. rewrite IH. ring.
Qed.
Lemma dot_comm p q : dot p q = dot q p.
Proof.
  unfold dot. revert q. induction p as [|x p IH]; intros [|y q]; simpl; auto. rewrite IH. ring.
Qed.
Lemma sq_along p d t : length p = length d -> sq (along p d t) = sq p + 2 * t * dot p d + t ^ 2 * sq d.
Proof.
  intros L. rewrite <- !dot_self. rewrite dot_along; [|exact L|now rewrite along_length].
  rewrite (dot_comm _ p), (dot_comm _ d). rewrite !dot_along by congruence. rewrite (dot_comm d p). ring.
Qed.

Lemma norm_le_sq (p : list R) r : 0 <= r -> (euclid_norm p <= r <-> sq p <= r ^ 2).
Proof.
  intros H. change (euclid_norm p) with (sqrt (sq p)). pose proof (sq_nonneg p) as N. split; intros A.
  - rewrite <- (sqrt_sqrt (sq p) N). pose proof (sqrt_pos (sq p)). nra.
  - rewrite <- (sqrt_pow2 r H). now apply sqrt_le_1_alt.
Qed.
Lemma norm_lt_sq (p : list R) r : 0 <= r -> (r < euclid_norm p <-> r ^ 2 < sq p).
Proof. intros H. split; intros A; apply Rnot_le_lt; intros B; apply norm_le_sq in B; lra. Qed.
Lemma norm_eq_sq (p : list R) r : 0 <= r -> sq p = r ^ 2 -> euclid_norm p = r.
Proof. intros H E. change (euclid_norm p) with (sqrt (sq p)). rewrite E. now apply sqrt_pow2. Qed.

(** The root of the quadratic. *)
Lemma root_facts A B C t : 0 < A -> 0 <= C -> C < A + 2 * B -> t = (- B + sqrt (B * B + A * C)) / A ->
  0 <= t < 1 /\ A * t ^ 2 + 2 * t * B = C /\
  (forall s, 0 <= s <= t -> A * s ^ 2 + 2 * s * B <= C) /\ (forall s, t < s -> C < A * s ^ 2 + 2 * s * B).
Proof.
  intros HA HC HO Et. set (q := sqrt (B * B + A * C)) in *.
  assert (D0 : 0 <= B * B + A * C) by nra.
  assert (Q2 : q * q = B * B + A * C) by (apply sqrt_sqrt; exact D0).
  assert (Q0 : 0 <= q) by apply sqrt_pos.
  assert (QB : Rabs B <= q). { apply Rsqr_incr_0_var; [|exact Q0]. rewrite <- Rsqr_abs. unfold Rsqr. nra. }
  assert (QB1 : B <= q /\ - B <= q) by (unfold Rabs in QB; destruct (Rcase_abs B); lra). clear QB.
  assert (AB : 0 < A + B) by nra.
  assert (QL : q < A + B). { apply Rnot_le_lt. intros N. nra. }
  assert (TA : t * A = q - B). { rewrite Et. field. lra. }
  assert (T0 : 0 <= t) by (apply Rnot_lt_le; intros N; nra).
  assert (T1 : t < 1) by (apply Rnot_le_lt; intros N; nra).
  assert (TE : A * t ^ 2 + 2 * t * B = C).
  { apply (Rmult_eq_reg_l A); [|lra]. replace (A * (A * t ^ 2 + 2 * t * B)) with ((t * A) * (t * A) + 2 * B * (t * A)) by ring. rewrite TA. nra. }
  split; [lra|]. split; [exact TE|]. split.
  - intros s Hs. assert (E : A * s ^ 2 + 2 * s * B - C = (s - t) * (A * (s + t) + 2 * B)) by (rewrite <- TE; ring).
    assert (0 <= A * (s + t) + 2 * B); [|nra]. replace (A * (s + t) + 2 * B) with (A * s + (t * A) + 2 * B) by ring. rewrite TA. nra.
  - intros s Hs. assert (E : A * s ^ 2 + 2 * s * B - C = (s - t) * (A * (s + t) + 2 * B)) by (rewrite <- TE; ring).
    assert (0 < A * (s + t) + 2 * B); [|nra]. replace (A * (s + t) + 2 * B) with (A * s + (t * A) + 2 * B) by ring. rewrite TA. nra.
Qed.

Lemma vsum_along (p dp : list R) : vsum (S := RR) p dp = along p dp 1.
Proof. unfold vsum, along. apply map_ext. intros a. change (fst a + snd a = fst a + 1 * snd a). ring. Qed.

Lemma vsub_back (p dp : list R) : length p = length dp -> mut_sub (S := RR) (vsum (S := RR) p dp) dp = Ok p.
Proof.
  unfold vsum, mut_sub. revert dp. induction p as [|x p IH]; intros [|y d] L; try discriminate; [reflexivity|].
  injection L as L. specialize (IH d L). cbn [combine map mut_zip]. rewrite IH. cbn [bind fst snd].
  f_equal. f_equal. change (x + y - y = x). ring.
Qed.
Lemma mut_add_vsum (p dp : list R) : length p = length dp -> mut_add (S := RR) p dp = Ok (vsum (S := RR) p dp).
Proof. intros L. exact (mut_zip_same (S := RR) _ p dp L). Qed.

Lemma inner_R (p q : list R) : length p = length q -> inner_product (S := RR) p q = Ok (dot p q).
Proof.
  intros L. unfold inner_product, dim. pose proof (L : @length (car RR) p = @length (car RR) q) as L'. rewrite L', Nat.eqb_refl. cbn [negb].
  f_equal. change (fold_left (fun (r : R) (xy : R * R) => r + fst xy * snd xy) (combine p q) 0 = dot p q).
  rewrite (fold_rsum (fun xy : R * R => fst xy * snd xy)). unfold dot. ring.
Qed.


Lemma combo_eq (p : list R) : forall (d : list R) (k t : R), length p = length d ->
  vsum (S := RR) (mut_scalar_mul (S := RR) p (1 - 2 * k)) (mut_scalar_mul (S := RR) d (1 - 2 * k * t)) = along (along p d 1) (along p d t) (- (2 * k)).
Proof.
  unfold vsum, along, mut_scalar_mul. induction p as [|x p IH]; intros [|y d] k t L; try discriminate; [reflexivity|].
  injection L as L. specialize (IH d k t L). cbn [combine map fst snd]. f_equal; [|exact IH].
  change (x * (1 - 2 * k) + y * (1 - 2 * k * t) = x + 1 * y + - (2 * k) * (x + t * y)). ring.
Qed.

Lemma circ_exact_R (s : circ RR) (p dp : list R) : built_circ s -> length p = ci_dim s -> length dp = ci_dim s ->
  euclid_norm p <= ci_size s -> ci_size s < euclid_norm (along p dp 1) ->
  exists t q dp', leaves_at (ci_size s) p dp t /\ mirror_image (along p dp t) (along p dp 1) q /\
    (euclid_norm q <= ci_size s -> circ_check_bc_exact s p dp = (q, dp', Ok tt)) /\
    (ci_size s < euclid_norm q -> circ_check_bc_exact s p dp = (q, dp', Err TooLargeTimeStep)).
Proof.
  intros Bu Lp Ld In Out. pose proof (circ_pos_R s Bu) as P. assert (L : length p = length dp) by congruence.
  unfold circ_check_bc_exact. rewrite (mut_add_vsum p dp L).
  assert (Lm : @length R (vsum (S := RR) p dp) = ci_dim s) by (exact (vsum_len2 (S := RR) p dp _ Lp Ld)).
  destruct (circ_inclusion_R s _ Lm) as [[E I]|[E I]]; [rewrite vsum_along in I; lra|].
  rewrite E, (vsub_back p dp L), (inner_R p dp L). cbv zeta. rewrite !rr_norm_euclid.
  set (r := (ci_size s : R)) in *. set (B := dot p dp).
  change (@opp RR) with Ropp. change (@fsqrt RR) with sqrt. change (@add RR) with Rplus. change (@sub RR) with Rminus.
  change (@mul RR) with Rmult. change (@div RR) with Rdiv. change (@s1 RR) with 1. change (@s2 RR) with 2.
  set (t := (- B + sqrt (B * B + euclid_norm dp * euclid_norm dp * (r * r - euclid_norm p * euclid_norm p))) / (euclid_norm dp * euclid_norm dp)).
  set (k := (1 - t) * (B + t * euclid_norm dp * euclid_norm dp) / (r * r)).
  assert (NA : euclid_norm dp * euclid_norm dp = sq dp) by (apply sqrt_sqrt, sq_nonneg).
  assert (NP : euclid_norm p * euclid_norm p = sq p) by (apply sqrt_sqrt, sq_nonneg).
  assert (Sp : sq p <= r ^ 2) by (apply norm_le_sq; [lra|exact In]).
  assert (So : r ^ 2 < sq (along p dp 1)) by (apply norm_lt_sq; [lra|exact Out]).
  rewrite sq_along in So by exact L. fold B in So.
  assert (A0 : 0 < sq dp).
  { destruct (Rle_lt_or_eq_dec 0 (sq dp) (sq_nonneg dp)) as [|Z]; [assumption|exfalso].
    pose proof (cauchy p dp L) as CS. change (dotp p dp) with (dot p dp) in CS. fold B in CS. rewrite <- Z in *. assert (B = 0) by nra. nra. }
  assert (Et : t = (- B + sqrt (B * B + sq dp * (r ^ 2 - sq p))) / sq dp).
  { unfold t. rewrite NA, NP. do 2 f_equal. f_equal. f_equal. f_equal. f_equal. ring. }
  destruct (root_facts (sq dp) B (r ^ 2 - sq p) t A0 ltac:(lra) ltac:(lra) Et) as (T01 & TE & TI & TO).
  assert (SH : sq (along p dp t) = r ^ 2) by (rewrite sq_along by exact L; fold B; lra).
  set (q := along (along p dp 1) (along p dp t) (- (2 * k))).
  exists t, q, (mut_scalar_mul (S := RR) dp (1 - 2 * k * t)).
  assert (La : forall u, length (along p dp u) = length p) by (intros u; now apply along_length).
  split.
  { split; [lra|]. split; [apply norm_eq_sq; [lra|exact SH]|]. split; intros u Hu.
    - apply norm_le_sq; [lra|]. rewrite sq_along by exact L. fold B. specialize (TI u Hu). lra.
    - apply norm_lt_sq; [lra|]. rewrite sq_along by exact L. fold B. specialize (TO u ltac:(lra)). lra. }
  split.
  { exists k. split; [|reflexivity].
    rewrite dot_along by (rewrite ?La; congruence). rewrite dot_self, SH.
    rewrite (dot_along p dp 1 L) by (apply La). rewrite (dot_comm _ p), (dot_comm _ dp), !dot_along by congruence.
    rewrite (dot_comm dp p), !dot_self. fold B.
    assert (K : k * r ^ 2 = (1 - t) * (B + t * sq dp)). { unfold k. rewrite <- NA. field. lra. }
    nra. }
  assert (Lmul : forall x c, @length R x = length p -> @length R (mut_scalar_mul (S := RR) x c) = length p).
  { intros x c Lx. unfold mut_scalar_mul. etransitivity; [exact (map_length _ _)|exact Lx]. }
  rewrite (mut_add_vsum (mut_scalar_mul (S := RR) p (1 - 2 * k)) (mut_scalar_mul (S := RR) dp (1 - 2 * k * t)))
    by (rewrite !Lmul; congruence).
  rewrite (combo_eq p dp k t L). fold q.
  assert (Lq : length q = ci_dim s). { unfold q. rewrite along_length; rewrite !La; congruence. }
  destruct (circ_inclusion_R s q Lq) as [[E' I']|[E' I']]; rewrite E'; split; intros H; auto; fold r in I'; lra.
Qed.

Lemma circ_exact_interior {S : scalar} (s : circ S) (p dp : pos S) : length p = length dp -> circ_inclusion s (vsum p dp) = Ok true ->
  circ_check_bc_exact s p dp = (vsum p dp, dp, Ok tt) /\ circ_check_bc_first_order s p dp = (vsum p dp, dp, Ok tt).
Proof.
  intros L E. unfold circ_check_bc_exact, circ_check_bc_first_order. unfold mut_add. rewrite (mut_zip_same _ p dp L).
  change (map (fun xy : S * S => add (fst xy) (snd xy)) (combine p dp)) with (vsum p dp). rewrite E. auto.
Qed.
Lemma circ_exact_ok {S : scalar} (s : circ S) (p dp q dq : pos S) : 
  (circ_check_bc_exact s p dp = (q, dq, Ok tt) -> circ_inclusion s q = Ok true) /\
  (circ_check_bc_first_order s p dp = (q, dq, Ok tt) -> circ_inclusion s q = Ok true).
Proof.
  unfold circ_check_bc_exact, circ_check_bc_first_order.
  split; destruct (mut_add p dp) as [p1| | |]; try discriminate; destruct (circ_inclusion s p1) as [[|]| | |] eqn:E; try discriminate;
  try (intros H; injection H as <- _; exact E); destruct (mut_sub p1 dp); try discriminate;
  destruct (inner_product _ _); try discriminate; cbv zeta;
  match goal with |- context [mut_add ?a ?b] => destruct (mut_add a b) as [p4| | |] end; try discriminate;
  destruct (circ_inclusion s p4) as [[|]| | |] eqn:E4; try discriminate; intros H; injection H as <- _; exact E4.
Qed.
