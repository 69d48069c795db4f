(** C74 (continued): the reflection the programs use, in double precision, against the true mirror image. *)
From Coq Require Import Reals ZArith List Lra Lia.
From Flocq.IEEE754 Require Import BinarySingleNaN.
From Verif Require Import Base Scalar Float64 Model_Position Spec_Position Proof_Position Proof_Norm64 Proof_Force64 Model_System Spec_System
  Proof_System Proof_System2 Proof_System4 Proof_System9 Spec_Wall64 Proof_Wall64b Spec_Refl64 Proof_Refl64e Properties_Refl64 Proof_Mirror Proof_Mirror64.
Import ListNotations.
Open Scope R_scope.

(** A step of doubles that starts in the ball and leaves it after the fraction [t] of its length: the new position is, in every coordinate, within 2 l^2 / radius (l: the length of the part outside)
    plus 64*(dimension + 4) roundings of the end point's distance from the mirror image [q0] of the end point in the tangent plane. No assumption on the angle. *)
Theorem C74_f64_radial_close_to_mirror : forall (lm : libm) (s : circ (F64 lm)) (p dp : list b64) (t : R) (q0 : list R),
  middling (ci_size s) -> INR (ci_dim s) <= 2 ^ 40 -> length p = ci_dim s -> length dp = ci_dim s -> finite_pos p -> finite_pos dp ->
  let r := B2 (ci_size s) in let N := euclid_norm (along (reals p) (reals dp) 1) in
  euclid_norm (reals p) <= r -> r < N -> N <= 2 ^ 399 -> leaves_at r (reals p) (reals dp) t ->
  mirror_image (along (reals p) (reals dp) t) (along (reals p) (reals dp) 1) q0 ->
  exists q o, circ_check_bc s p dp = (q, o) /\ finite_pos q /\
    Forall2 (fun (y : b64) (x : R) => Rabs (B2 y - x) <= 2 * ((1 - t) * euclid_norm (reals dp)) ^ 2 / r + 2 * slack (ci_dim s) * N) q q0.
Proof. exact ray_mirror64_pos. Qed.
Print Assumptions C74_f64_radial_close_to_mirror.

(** The hypotheses are met: the ball of radius 5, from (3, 0) by (0, 8), leaving half way; the mirror image of (3, 8) is (-21/25, 72/25). *)
Example C74_f64_radial_close_to_mirror_met (lm : libm) : let s := bounce_s lm in let p := bounce_p in let dp := bounce_d in
  let r := B2 (ci_size s) in let N := euclid_norm (along (reals p) (reals dp) 1) in
  middling (ci_size s) /\ INR (ci_dim s) <= 2 ^ 40 /\ length p = ci_dim s /\ length dp = ci_dim s /\ finite_pos p /\ finite_pos dp /\
  euclid_norm (reals p) <= r /\ r < N /\ N <= 2 ^ 399 /\ leaves_at r (reals p) (reals dp) (1 / 2) /\
  mirror_image (along (reals p) (reals dp) (1 / 2)) (along (reals p) (reals dp) 1) [- 21 / 25; 72 / 25].
Proof.
  pose proof (C72_exact_reflection_met lm) as H. cbv zeta in *. destruct H as (M & D & L1 & L2 & F1 & F2 & Hp & Hd & Out & HL & HM & _).
  destruct (of_Z_exact 5) as (F5 & E5); [lia|]. assert (R5 : B2 (ci_size (bounce_s lm)) = 5) by exact E5. rewrite R5 in *.
  assert (Mi : middling (ci_size (bounce_s lm))).
  { split; [exact F5|]. rewrite R5. split.
    - apply Rle_trans with 1; [|lra]. rewrite <- Rinv_1. apply Rinv_le_contravar; [lra|]. apply pow_R1_Rle. lra.
    - apply Rle_trans with (2 ^ 3); [simpl; lra|apply Rle_pow; [lra|lia]]. }
  repeat match goal with |- _ /\ _ => split end; try assumption.
  - assert (0 < slack (ci_dim (bounce_s lm))). { rewrite slack_al. pose proof (al_pos (ci_dim (bounce_s lm))). pose proof u64_pos. lra. } lra.
  - apply Rle_trans with (2 ^ 10); [|apply Rle_pow; [lra|lia]]. 
    assert (Q : euclid_norm (along (reals bounce_p) (reals bounce_d) 1) <= euclid_norm (reals bounce_p) + 1 * euclid_norm (reals bounce_d)).
    { destruct (of_Z_exact 3) as (F3 & E3); [lia|]. destruct (of_Z_exact 0) as (F0 & E0); [lia|]. destruct (of_Z_exact 8) as (F8 & E8); [lia|].
      assert (Rp : reals bounce_p = [3; 0]) by (unfold reals, bounce_p; cbn [map]; now rewrite E3, E0). assert (Rd : reals bounce_d = [0; 8]) by (unfold reals, bounce_d; cbn [map]; now rewrite E8, E0).
      rewrite Rp, Rd. unfold along. cbn [combine map fst snd]. rewrite !norm_pair. replace (3 ^ 2 + 0 ^ 2) with (3 ^ 2) by ring. replace (0 ^ 2 + 8 ^ 2) with (8 ^ 2) by ring. rewrite !sqrt_pow2 by lra.
      replace (3 + 1 * 8) with (sqrt (11 ^ 2)) by (rewrite sqrt_pow2; lra). apply sqrt_le_1_alt. lra. }
    rewrite Rmult_1_l in Q. replace (2 ^ 10) with 1024 by (simpl; lra). lra.
Qed.
