(** C72: exact reflection at the wall of a ball in double precision. *)
From Coq Require Import Reals ZArith List Lra Lia.
From Flocq.IEEE754 Require Import BinarySingleNaN.
From Verif Require Import Base Scalar Float64 Model_Position Spec_Position Proof_Position Proof_Norm64 Model_System Spec_System
  Proof_System Proof_System4 Proof_System6 Proof_System8 Proof_System9 Spec_Wall64 Proof_Wall64b Spec_Refl64 Proof_Refl64e.
Import ListNotations.
Open Scope R_scope.

(** A displacement that certainly leaves the ball ([slack] of C61: 224 roundings in three dimensions), of at most a diameter, and that meets the wall under an angle whose cosine [c] is not too small:
    the new position is within 64 slack / c radii of the mirror image [q0] of the end point in the tangent plane at the point where the segment leaves the ball; the step is accepted or refused as
    in exact arithmetic except within that distance of the wall. *)
Theorem C72_exact_reflection_close : forall (lm : libm) (s : circ (F64 lm)) (p dp : list b64) (c t : R) (q0 : list R), moderate_radius (ci_size s) -> INR (ci_dim s) <= 2 ^ 40 ->
  length p = ci_dim s -> length dp = ci_dim s -> finite_pos p -> finite_pos dp ->
  let r := B2 (ci_size s) in let e := slack (ci_dim s) in
  euclid_norm (reals p) <= r -> euclid_norm (reals dp) <= 2 * r -> r * (1 + e) <= euclid_norm (along (reals p) (reals dp) 1) ->
  leaves_at r (reals p) (reals dp) t -> mirror_image (along (reals p) (reals dp) t) (along (reals p) (reals dp) 1) q0 ->
  meets_at_angle c r (along (reals p) (reals dp) t) (reals dp) -> 64 * e <= c ^ 2 ->
  exists q dq o, circ_check_bc_exact s p dp = (q, dq, o) /\ finite_pos q /\ length q = ci_dim s /\ euclid (reals q) q0 <= 64 * e / c * r /\
    (o = Ok tt \/ o = Err TooLargeTimeStep) /\ (euclid_norm q0 <= r * (1 - 64 * e / c) -> o = Ok tt) /\ (r * (1 + 64 * e / c) <= euclid_norm q0 -> o = Err TooLargeTimeStep).
Proof. exact exact_near. Qed.
Print Assumptions C72_exact_reflection_close.

(** A displacement that certainly stays inside is carried out unaltered by both reflections. *)
Theorem C72_inside_unaltered : forall (lm : libm) (s : circ (F64 lm)) (p dp : list b64), moderate_radius (ci_size s) -> INR (ci_dim s) <= 2 ^ 40 ->
  length p = ci_dim s -> length dp = ci_dim s -> finite_pos p -> finite_pos dp ->
  let r := B2 (ci_size s) in let e := slack (ci_dim s) in
  euclid_norm (reals p) <= r -> euclid_norm (along (reals p) (reals dp) 1) <= r * (1 - e) ->
  circ_check_bc_exact s p dp = (Spec_System.vsum (S := F64 lm) p dp, dp, Ok tt) /\ circ_check_bc_first_order s p dp = (Spec_System.vsum (S := F64 lm) p dp, dp, Ok tt).
Proof. exact exact_inside. Qed.
Print Assumptions C72_inside_unaltered.

(** Whatever the displacement: an accepted position without NaN is in the ball up to rounding. *)
Theorem C72_numbers_inside : forall (lm : libm) (s : circ (F64 lm)) (p dp q dq : list b64), fin (ci_size s : b64) = true -> 0 <= B2 (ci_size s) ->
  circ_check_bc_exact s p dp = (q, dq, Ok tt) -> Forall (fun x => nan x = false) q ->
  finite_pos q /\ (1 - u64) ^ (length q + 3) * euclid_norm (reals q) ^ 2 <= B2 (ci_size s) ^ 2 + INR (length q) * eta64.
Proof.
  intros lm s p dp q dq F P H N. apply (proj1 (circ_exact_ok s p dp q dq)) in H. pose proof (circ_inclusion_finite lm s q F N H) as Fq. split; [exact Fq|].
  apply (proj1 (circ_inclusion_64 lm s q (circ_inc_dim lm s q true H) F P Fq)). exact H.
Qed.
Print Assumptions C72_numbers_inside.

(** Limit of C72: the angle matters.  From a point of the disc of radius 1 that is inside up to rounding, an almost tangential displacement makes the discriminant negative; the new position is not a
    number, and the step is accepted. *)
Lemma all_fin (l : list b64) : forallb (fun x => fin x) l = true -> finite_pos l.
Proof. intros H. apply Forall_forall. exact (proj1 (forallb_forall _ _) H). Qed.
Lemma existsb_exists_nan (l : list b64) : existsb (fun x => nan x) l = true -> Exists (fun x => nan x = true) l.
Proof. intros H. apply Exists_exists. exact (proj1 (existsb_exists _ _) H). Qed.
Lemma is_true_ok (o : outcome bool) : match o with Ok true => true | _ => false end = true -> o = Ok true.
Proof. now destruct o as [[|]| | |]. Qed.
Lemma is_unit_ok {A B} (o : A * B * outcome unit) : match snd o with Ok _ => true | _ => false end = true -> o = (fst (fst o), snd (fst o), Ok tt).
Proof. destruct o as [[a b] [[]| | |]]; cbn; congruence. Qed.
Definition graze_s (lm : libm) : circ (F64 lm) := Circ ContinuousCircular Reflection (b64_of_Z 1 : F64 lm) 2.
Definition graze_p (lm : libm) : list b64 := [lit (s := F64 lm) 2122262762983969 (2 ^ 56); lit (s := F64 lm) 9003291810585587 (2 ^ 53)].
Definition graze_d (lm : libm) : list b64 := [opp (s := F64 lm) (lit (s := F64 lm) 1048121 (2 ^ 26)); lit (s := F64 lm) 30883 (2 ^ 26)].
Theorem C72_tangential_nan_counterexample : forall lm : libm, exists (s : circ (F64 lm)) (p dp q dq : list b64),
  built_circ s /\ finite_pos p /\ finite_pos dp /\ length p = ci_dim s /\ length dp = ci_dim s /\ circ_inclusion s p = Ok true /\
  circ_check_bc_exact s p dp = (q, dq, Ok tt) /\ Exists (fun x => nan x = true) q.
Proof.
  intros lm. exists (graze_s lm), (graze_p lm), (graze_d lm), (fst (fst (circ_check_bc_exact (graze_s lm) (graze_p lm) (graze_d lm)))), (snd (fst (circ_check_bc_exact (graze_s lm) (graze_p lm) (graze_d lm)))).
  split. { left. exists (b64_of_Z 1 : F64 lm), 2%nat. assert (E2 : leb (b64_of_Z 1 : F64 lm) s0 = false) by (vm_compute; reflexivity). unfold circ_new. rewrite E2. reflexivity. }
  split; [apply all_fin; vm_compute; reflexivity|]. split; [apply all_fin; vm_compute; reflexivity|]. split; [reflexivity|]. split; [reflexivity|].
  split; [apply is_true_ok; vm_compute; reflexivity|]. split; [apply is_unit_ok; vm_compute; reflexivity|]. apply existsb_exists_nan. vm_compute. reflexivity.
Qed.
Print Assumptions C72_tangential_nan_counterexample.

(** The hypotheses are met: in the disc of radius 5 the displacement (0, 8) from (3, 0) leaves at (3, 4), half way, under an angle of cosine 4/5; the mirror image of (3, 8) is (-21/25, 72/25), at
    distance 3 from the centre. *)
Lemma norm2 x y n : 0 <= n -> x ^ 2 + y ^ 2 = n ^ 2 -> euclid_norm [x; y] = n.
Proof. intros P H. unfold euclid_norm, rsum. cbn [map fold_right]. rewrite Rplus_0_r, H. now apply sqrt_pow2. Qed.
Lemma norm2_le x y n : 0 <= n -> x ^ 2 + y ^ 2 <= n ^ 2 -> euclid_norm [x; y] <= n.
Proof. intros P H. unfold euclid_norm, rsum. cbn [map fold_right]. rewrite Rplus_0_r. rewrite <- (sqrt_pow2 n P). now apply sqrt_le_1_alt. Qed.
Lemma norm2_ge x y n : 0 <= n -> n ^ 2 <= x ^ 2 + y ^ 2 -> n <= euclid_norm [x; y].
Proof. intros P H. unfold euclid_norm, rsum. cbn [map fold_right]. rewrite Rplus_0_r. rewrite <- (sqrt_pow2 n P). now apply sqrt_le_1_alt. Qed.
Lemma norm2_gt x y n : 0 <= n -> n ^ 2 < x ^ 2 + y ^ 2 -> n < euclid_norm [x; y].
Proof. intros P H. unfold euclid_norm, rsum. cbn [map fold_right]. rewrite Rplus_0_r. rewrite <- (sqrt_pow2 n P). apply sqrt_lt_1_alt. split; [apply pow2_ge_0|exact H]. Qed.
Definition bounce_s (lm : libm) : circ (F64 lm) := Circ (S := F64 lm) ContinuousCircular Reflection (b64_of_Z 5) 2.
Definition bounce_p : list b64 := [b64_of_Z 3; b64_of_Z 0].
Definition bounce_d : list b64 := [b64_of_Z 0; b64_of_Z 8].
Example C72_exact_reflection_met (lm : libm) : let s := bounce_s lm in let p := bounce_p in let dp := bounce_d in let r := B2 (ci_size s) in let e := slack (ci_dim s) in
  moderate_radius (ci_size s) /\ INR (ci_dim s) <= 2 ^ 40 /\ length p = ci_dim s /\ length dp = ci_dim s /\ finite_pos p /\ finite_pos dp /\
  euclid_norm (reals p) <= r /\ euclid_norm (reals dp) <= 2 * r /\ r * (1 + e) <= euclid_norm (along (reals p) (reals dp) 1) /\
  leaves_at r (reals p) (reals dp) (1 / 2) /\ mirror_image (along (reals p) (reals dp) (1 / 2)) (along (reals p) (reals dp) 1) [- 21 / 25; 72 / 25] /\
  meets_at_angle (4 / 5) r (along (reals p) (reals dp) (1 / 2)) (reals dp) /\ 64 * e <= (4 / 5) ^ 2 /\
  euclid_norm [- 21 / 25; 72 / 25] <= r * (1 - 64 * e / (4 / 5)).
Proof.
  cbv zeta. cbn [bounce_s ci_size ci_dim]. destruct (of_Z_exact 5) as (F5 & E5); [lia|]. destruct (of_Z_exact 3) as (F3 & E3); [lia|]. destruct (of_Z_exact 0) as (F0 & E0); [lia|]. destruct (of_Z_exact 8) as (F8 & E8); [lia|].
  assert (Rp : reals bounce_p = [3; 0]) by (unfold reals, bounce_p; cbn [map]; now rewrite E3, E0). assert (Rd : reals bounce_d = [0; 8]) by (unfold reals, bounce_d; cbn [map]; now rewrite E8, E0).
  assert (Al : forall t, along (reals bounce_p) (reals bounce_d) t = [3 + t * 0; 0 + t * 8]) by (intros t; rewrite Rp, Rd; reflexivity). rewrite !Al. unfold leaves_at. rewrite Rp, Rd, E5.
  assert (Sl : 0 <= slack 2 <= / 1000000).
  { unfold slack. assert (2 ^ 53 >= 1000000000). { apply Rle_ge. apply Rle_trans with (2 ^ 30); [simpl; lra|apply Rle_pow; [lra|lia]]. }
    assert (0 < / 2 ^ 53 <= / 1000000000). { split; [apply Rinv_0_lt_compat; lra|apply Rinv_le_contravar; lra]. } simpl INR. unfold Rdiv. lra. }
  assert (Al2 : forall t, along [3; 0] [0; 8] t = [3 + t * 0; 0 + t * 8]) by reflexivity.
  repeat match goal with |- _ /\ _ => split end.
  - split; [exact F5|]. rewrite E5. split.
    + apply Rle_trans with 1; [|lra]. rewrite <- Rinv_1. apply Rinv_le_contravar; [lra|]. apply pow_R1_Rle. lra.
    + apply Rle_trans with (2 ^ 3); [simpl; lra|]. apply Rle_pow; [lra|lia].
  - apply Rle_trans with (2 ^ 1); [simpl; lra|]. apply Rle_pow; [lra|lia].
  - reflexivity.
  - reflexivity.
  - repeat constructor; assumption.
  - repeat constructor; assumption.
  - apply norm2_le; lra.
  - apply norm2_le; lra.
  - apply norm2_ge; [lra|]. assert (5 * (1 + slack 2) <= 6) by lra. apply Rle_trans with (6 ^ 2); [apply pow_incr; lra|lra].
  - lra.
  - lra.
  - rewrite Al2. apply norm2; lra.
  - intros u U. rewrite Al2. apply norm2_le; [lra|]. assert (u * u <= 1 / 2 * (1 / 2)) by (apply Rmult_le_compat; lra). nra.
  - intros u U. rewrite Al2. apply norm2_gt; [lra|]. assert (1 / 2 * (1 / 2) < u * u) by (apply Rmult_gt_0_lt_compat; lra). nra.
  - exists (16 / 25). split; [unfold dot, along, rsum; cbn [map combine fold_right fst snd]; field|]. unfold along. cbn [map combine fst snd]. f_equal; [field|]. f_equal; field.
  - unfold meets_at_angle. split; [lra|]. rewrite (norm2 0 8 8) by lra. unfold dot, rsum. cbn [map combine fold_right fst snd]. lra.
  - lra.
  - rewrite (norm2 (- 21 / 25) (72 / 25) 3) by lra. lra.
Qed.
