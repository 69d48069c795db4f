(** C74: the three reflections at the wall of a ball compared, in exact arithmetic. *)
From Coq Require Import Reals List Lra Lia.
From Verif Require Import Base Scalar Model_Position Spec_Position Model_System Spec_System Proof_System Proof_System9 Proof_Mirror.
Import ListNotations.
Local Open Scope R_scope.

(** The reflection the programs use (along the ray) is second order accurate: with the step starting in the ball and leaving it after the fraction [t] of its length, its
    position is at most 2 l^2 / radius from the mirror image in the tangent plane, l being the length of the part outside; whatever the step length and whatever the two report. *)
Theorem C74_radial_close_to_exact : forall (s : circ RR) (p dp qr qe de : list R) o oe, built_circ s -> length p = ci_dim s -> length dp = ci_dim s ->
  euclid_norm p <= ci_size s -> ci_size s < euclid_norm (along p dp 1) ->
  circ_check_bc s p dp = (qr, o) -> circ_check_bc_exact s p dp = (qe, de, oe) ->
  exists t, leaves_at (ci_size s) p dp t /\ euclid qr qe <= 2 * ((1 - t) * euclid_norm dp) ^ 2 / ci_size s.
Proof. exact radial_exact_close. Qed.
Print Assumptions C74_radial_close_to_exact.

(** Straight outward (a positive multiple of the position) the two agree exactly, and the position is as far inside as the step reached outside; the first order version is
    off by 2 (1 - |p| / radius) times the overshoot. *)
Theorem C74_straight_outward : forall (s : circ RR) (p qr qe de qf df : list R) (l : R) o oe ofo, built_circ s -> length p = ci_dim s -> 0 < l ->
  euclid_norm p <= ci_size s -> ci_size s < (1 + l) * euclid_norm p ->
  circ_check_bc s p (map (fun x => l * x) p) = (qr, o) -> circ_check_bc_exact s p (map (fun x => l * x) p) = (qe, de, oe) ->
  circ_check_bc_first_order s p (map (fun x => l * x) p) = (qf, df, ofo) ->
  qr = qe /\ euclid_norm qe = Rabs (2 * ci_size s - (1 + l) * euclid_norm p) /\
  euclid qf qe = 2 * (1 - euclid_norm p / ci_size s) * ((1 + l) * euclid_norm p - ci_size s).
Proof. exact outward. Qed.
Print Assumptions C74_straight_outward.

(** When the exact reflection accepts a step that leaves the ball: exactly when (1 - 3 t) |dp|^2 <= 2 p.dp; a step that leaves in its second half is always accepted. *)
Theorem C74_exact_accepts : forall (s : circ RR) (p dp qe de : list R) oe, built_circ s -> length p = ci_dim s -> length dp = ci_dim s ->
  euclid_norm p <= ci_size s -> ci_size s < euclid_norm (along p dp 1) -> circ_check_bc_exact s p dp = (qe, de, oe) ->
  exists t, leaves_at (ci_size s) p dp t /\ (oe = Ok tt <-> (1 - 3 * t) * euclid_norm dp ^ 2 <= 2 * dot p dp) /\ (1 / 2 <= t -> oe = Ok tt) /\ (oe = Ok tt \/ oe = Err TooLargeTimeStep).
Proof. exact exact_accepts. Qed.
Print Assumptions C74_exact_accepts.

(** The reflection the programs use accepts every step leaving the ball that ends within three radii of the centre, and no other. *)
Theorem C74_radial_accepts : forall (s : circ RR) (p dp q : list R) o, built_circ s -> length p = ci_dim s -> length dp = ci_dim s ->
  ci_size s < euclid_norm (along p dp 1) -> circ_check_bc s p dp = (q, o) ->
  (o = Ok tt <-> euclid_norm (along p dp 1) <= 3 * ci_size s) /\ (o = Ok tt \/ o = Err TooLargeTimeStep).
Proof. intros s p dp q o B L M O E. exact (proj2 (radial_parts s p dp q o B L M O E)). Qed.
Print Assumptions C74_radial_accepts.

(** So the exact reflection does not accept every short step: from a point on the unit circle, every step along the tangent, however short, is refused as a too large time
    step, while the reflection along the ray accepts it. *)
Theorem C74_grazing_step_counterexample : forall d : R, 0 < d <= 1 -> let s := Circ (S := RR) ContinuousCircular Reflection (1 : RR) 2 in
  built_circ s /\ euclid_norm [1; 0] = 1 /\ euclid_norm [0; d] = d /\
  (exists q, circ_check_bc s [1; 0] [0; d] = (q, Ok tt)) /\ (exists q dq, circ_check_bc_exact s [1; 0] [0; d] = (q, dq, Err TooLargeTimeStep)).
Proof. exact grazing. Qed.
Print Assumptions C74_grazing_step_counterexample.

(** The hypotheses are met: the ball of radius 5 in the plane, from (3, 4) by (1, 2) (not outward), and from (3, 0) by (3, 0) (outward). *)
Example mirror_demo : exists s : circ RR, built_circ s /\ ci_dim s = 2%nat /\ (ci_size s : R) = 5 /\
  euclid_norm [3; 4] <= 5 /\ 5 < euclid_norm (along [3; 4] [1; 2] 1) /\ euclid_norm [3; 0] <= 5 /\ 5 < (1 + 1) * euclid_norm [3; 0].
Proof.
  exists (Circ ContinuousCircular Reflection (5 : RR) 2). split; [apply built_ball; [lra|lia]|]. split; [reflexivity|]. split; [reflexivity|].
  unfold along. cbn [combine map fst snd]. rewrite !norm_pair.
  replace (3 ^ 2 + 4 ^ 2) with (5 ^ 2) by ring. replace (3 ^ 2 + 0 ^ 2) with (3 ^ 2) by ring. rewrite !sqrt_pow2 by lra.
  split; [lra|]. split; [|lra]. rewrite <- (sqrt_pow2 5) at 1 by lra. apply sqrt_lt_1_alt. lra.
Qed.
