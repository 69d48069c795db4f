(** C72: first order reflection at the wall of a ball in double precision. *)
From Coq Require Import Reals ZArith List Lra Lia.
From Flocq.IEEE754 Require Import BinarySingleNaN.
From Verif Require Import Base Scalar Float64 Model_Position Spec_Position Proof_Position Proof_Norm64 Model_System Spec_System
  Proof_System Proof_System2 Proof_System4 Proof_System12 Proof_Mirror Spec_Wall64 Spec_Refl64 Spec_First64 Proof_First64b Properties_Refl64.
Import ListNotations.
Open Scope R_scope.

(** From a point in the outer half of the radius, a displacement of at most a diameter that certainly leaves the ball and whose angle to the outward direction at the starting point has a cosine [c]
    (relative to the radius) that is not too small: the new position is within 128 slack / c^2 radii of the first order image [q0] computed in exact arithmetic, and the step is accepted or refused as
    in exact arithmetic except within that distance of the wall. *)
Theorem C72_first_order_close : forall (lm : libm) (s : circ (F64 lm)) (p dp : list b64) (c : R) (q0 : list R), moderate_radius (ci_size s) -> INR (ci_dim s) <= 2 ^ 40 ->
  length p = ci_dim s -> length dp = ci_dim s -> finite_pos p -> finite_pos dp ->
  let r := B2 (ci_size s) in let e := slack (ci_dim s) in
  r / 2 <= euclid_norm (reals p) <= r -> euclid_norm (reals dp) <= 2 * r -> r * (1 + e) <= euclid_norm (along (reals p) (reals dp) 1) ->
  first_order_image r (reals p) (reals dp) q0 -> meets_at_angle c r (reals p) (reals dp) -> 64 * e <= c ^ 2 ->
  exists q dq o, circ_check_bc_first_order s p dp = (q, dq, o) /\ finite_pos q /\ length q = ci_dim s /\ euclid (reals q) q0 <= 128 * e / c ^ 2 * r /\
    (o = Ok tt \/ o = Err TooLargeTimeStep) /\ (euclid_norm q0 <= r * (1 - 128 * e / c ^ 2) -> o = Ok tt) /\ (r * (1 + 128 * e / c ^ 2) <= euclid_norm q0 -> o = Err TooLargeTimeStep).
Proof. exact first_near. Qed.
Print Assumptions C72_first_order_close.

(** [first_order_image] is what the function computes in exact arithmetic: it is the position left behind, accepted exactly when it lies in the ball. *)
Theorem C72_first_order_image_exact : forall (s : circ RR) (p dp : list R), built_circ s -> length p = ci_dim s -> length dp = ci_dim s ->
  0 < euclid_norm p -> ci_size s < euclid_norm (along p dp 1) -> dot p dp <> 0 ->
  exists q dq o, circ_check_bc_first_order s p dp = (q, dq, o) /\ first_order_image (ci_size s) p dp q /\
    (forall q', first_order_image (ci_size s) p dp q' -> q' = q) /\ (o = Ok tt \/ o = Err TooLargeTimeStep) /\ (o = Ok tt <-> euclid_norm q <= ci_size s).
Proof.
  intros s p dp Bs Lp Ld P0 Out Dn. destruct (first_order_R s p dp Bs Lp Ld P0 Out Dn) as (t & k & q & dq & T & K & -> & -> & Yes & No).
  set (q := along (along p dp 1) (along p dp t) (- (2 * k))) in *. exists q, (map (fun x : R => x * (1 - 2 * k * t)) dp).
  assert (R0 : 0 < (ci_size s : R)) by exact (circ_pos_R s Bs).
  assert (U : forall q', first_order_image (ci_size s) p dp q' -> q' = q).
  { intros q' (t' & k' & T' & K' & ->). assert (Et : t' = t). { apply Rmult_eq_reg_r with (dot p dp / euclid_norm p); [lra|]. unfold Rdiv. apply Rmult_integral_contrapositive_currified; [exact Dn|apply Rinv_neq_0_compat; lra]. }
    assert (Ek : k' = k). { apply Rmult_eq_reg_r with ((ci_size s : R) ^ 2); [rewrite K, K'; reflexivity|]. apply pow_nonzero. lra. } subst. reflexivity. }
  assert (I : first_order_image (ci_size s) p dp q) by (exists t, k; auto).
  destruct (Rle_or_lt (euclid_norm q) (ci_size s)) as [L|L].
  - exists (Ok tt). split; [exact (Yes L)|]. repeat split; auto.
  - exists (Err TooLargeTimeStep). split; [exact (No L)|]. repeat split; auto; [discriminate|intros Q; exfalso; clear - L Q; apply (Rlt_not_le _ _ L); exact Q].
Qed.
Print Assumptions C72_first_order_image_exact.

(** The hypotheses are met: in the disc of radius 5, the displacement (3, 4) from (4, 0), with cosine 12/25; the first order image is (19/5, 236/75), inside the disc. *)
Definition glance_p : list b64 := [b64_of_Z 4; b64_of_Z 0].
Definition glance_d : list b64 := [b64_of_Z 3; b64_of_Z 4].
Example C72_first_order_met (lm : libm) : let s := bounce_s lm in let p := glance_p in let dp := glance_d in let r := B2 (ci_size s) in let e := slack (ci_dim s) in
  moderate_radius (ci_size s) /\ INR (ci_dim s) <= 2 ^ 40 /\ length p = ci_dim s /\ length dp = ci_dim s /\ finite_pos p /\ finite_pos dp /\
  r / 2 <= euclid_norm (reals p) <= r /\ euclid_norm (reals dp) <= 2 * r /\ r * (1 + e) <= euclid_norm (along (reals p) (reals dp) 1) /\
  first_order_image r (reals p) (reals dp) [19 / 5; 236 / 75] /\ meets_at_angle (12 / 25) r (reals p) (reals dp) /\ 64 * e <= (12 / 25) ^ 2 /\
  euclid_norm [19 / 5; 236 / 75] <= r * (1 - 128 * e / (12 / 25) ^ 2).
Proof.
  cbv zeta. destruct (C72_exact_reflection_met lm) as (M & N & _). cbn [bounce_s ci_size ci_dim] in *. destruct (of_Z_exact 5) as (F5 & E5); [lia|]. destruct (of_Z_exact 3) as (F3 & E3); [lia|]. destruct (of_Z_exact 0) as (F0 & E0); [lia|]. destruct (of_Z_exact 4) as (F4 & E4); [lia|].
  assert (Rp : reals glance_p = [4; 0]) by (unfold reals, glance_p; cbn [map]; now rewrite E4, E0). assert (Rd : reals glance_d = [3; 4]) by (unfold reals, glance_d; cbn [map]; now rewrite E3, E4).
  assert (Al : forall t, along (reals glance_p) (reals glance_d) t = [4 + t * 3; 0 + t * 4]) by (intros t; rewrite Rp, Rd; reflexivity). unfold first_order_image. rewrite !Al, Rp, Rd, E5.
  assert (Sl : 0 <= slack 2 <= / 1000000).
  { unfold slack. assert (2 ^ 53 >= 1000000000). { apply Rle_ge. apply Rle_trans with (2 ^ 30); [simpl; lra|apply Rle_pow; [lra|lia]]. }
    assert (0 < / 2 ^ 53 <= / 1000000000). { split; [apply Rinv_0_lt_compat; lra|apply Rinv_le_contravar; lra]. } simpl INR. unfold Rdiv. lra. }
  assert (N4 : euclid_norm [4; 0] = 4) by (apply norm2; lra). assert (N5 : euclid_norm [3; 4] = 5) by (apply norm2; lra). assert (Dt : dot [4; 0] [3; 4] = 12) by (unfold dot, rsum; cbn [map combine fold_right fst snd]; ring).
  rewrite !N4, !N5. split; [exact M|]. split; [exact N|]. split; [reflexivity|]. split; [reflexivity|]. split; [repeat constructor; assumption|]. split; [repeat constructor; assumption|]. split; [lra|]. split; [lra|].
  split. { apply norm2_ge; [lra|]. assert (5 * (1 + slack 2) <= 6) by lra. apply Rle_trans with (6 ^ 2); [apply pow_incr; lra|lra]. }
  split. { exists (1 / 3), (8 / 25). rewrite Dt. split; [lra|]. split; [lra|]. unfold along. cbn [map combine fst snd]. f_equal; [field|]. f_equal; field. }
  split. { unfold meets_at_angle. rewrite N5, Dt. lra. } split; [lra|].
  apply norm2_le; [lra|]. apply Rle_trans with ((4.95) ^ 2); [lra|]. apply pow_incr. lra.
Qed.
