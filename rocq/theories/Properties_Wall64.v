(** C61: boundary steps in double precision against the exact walls of C21-C23. *)
From Coq Require Import Reals ZArith List Lra Lia.
From Flocq.IEEE754 Require Import BinarySingleNaN.
From Verif Require Import Base Scalar Float64 Model_Position Spec_Position Proof_Position Proof_Norm64 Model_System Spec_System
  Proof_System Proof_System2 Proof_System4 Proof_System8 Spec_Wall64 Proof_Wall64 Proof_Wall64b Proof_Wall64c.
Import ListNotations.
Open Scope R_scope.

(** The unfolded move: each coordinate of position plus displacement is rounded once. *)
Theorem C61_move_rounded_once : forall (lm : libm) (p dp : list b64) i, length p = length dp -> (i < length p)%nat ->
  let m := vsum (S := F64 lm) p dp in finite_pos m ->
  Rabs (B2 (nth i m (b64_of_Z 0)) - (B2 (nth i p (b64_of_Z 0)) + B2 (nth i dp (b64_of_Z 0)))) <=
    Rabs (B2 (nth i p (b64_of_Z 0)) + B2 (nth i dp (b64_of_Z 0))) / 2 ^ 53.
Proof. exact vsum_rounded. Qed.
Print Assumptions C61_move_rounded_once.

(** The cube has no further rounding: with [m] the unfolded move and half width [L], the step is accepted exactly when all
    coordinates are within 3L, and ends exactly where the exact walls take [m]. *)
Theorem C61_cube_exact : forall (lm : libm) (s : cubic (F64 lm)) (p dp : list b64),
  built_cubic s -> fit (cu_size s) -> length p = cu_dim s -> length dp = cu_dim s ->
  let m := vsum (S := F64 lm) p dp in let L := B2 (cu_size s) in finite_pos m ->
  (Forall (fun x : b64 => Rabs (B2 x) <= 3 * L) m ->
     exists q, cubic_check_bc s p dp = (q, Ok tt) /\ finite_pos q /\ walls (cu_bc s) L (reals m) (reals q)) /\
  (~ Forall (fun x : b64 => Rabs (B2 x) <= 3 * L) m -> exists q, cubic_check_bc s p dp = (q, Err TooLargeTimeStep)).
Proof. exact cubic_exact. Qed.
Print Assumptions C61_cube_exact.

(** The ball: the new position is the exact image of [m] up to [slack] times its distance from the centre, and the step is accepted
    or refused as in exact arithmetic except within [slack] of the wall or of three radii. *)
Theorem C61_ball_close : forall (lm : libm) (s : circ (F64 lm)) (p dp : list b64),
  middling (ci_size s) -> INR (ci_dim s) <= 2 ^ 40 -> length p = ci_dim s -> length dp = ci_dim s ->
  let m := vsum (S := F64 lm) p dp in let n := euclid_norm (reals m) in let r := B2 (ci_size s) in
  finite_pos m -> n <= 2 ^ 400 ->
  exists q o, circ_check_bc s p dp = (q, o) /\ finite_pos q /\ length q = ci_dim s /\
    (forall k, wall_factor r n k -> scaled_near (slack (ci_dim s) * n) k m q) /\
    (o = Ok tt \/ o = Err TooLargeTimeStep) /\
    (surely_kept (slack (ci_dim s)) r n -> o = Ok tt) /\ (surely_refused (slack (ci_dim s)) r n -> o = Err TooLargeTimeStep).
Proof. exact circ_near. Qed.
Print Assumptions C61_ball_close.

(** The cylinder: radial coordinates as in the ball, axial ones as in a periodic cube. *)
Theorem C61_cylinder_close : forall (lm : libm) (s : cyl (F64 lm)) d (p dp : list b64),
  built_cyl s -> cy_type s = ContinuousCylindrical d -> middling (cy_radius s) -> fit (cy_length s) -> INR d <= 2 ^ 40 ->
  length p = cy_dim s -> length dp = cy_dim s ->
  let m := vsum (S := F64 lm) p dp in let n := euclid_norm (reals (firstn d m)) in let r := B2 (cy_radius s) in let L := B2 (cy_length s) in
  finite_pos m -> n <= 2 ^ 400 ->
  let axial := Forall (fun x : b64 => Rabs (B2 x) <= 3 * L) (skipn d m) in
  exists q o, cyl_check_bc s p dp = (q, o) /\ length q = cy_dim s /\
    (forall k, wall_factor r n k -> scaled_near (slack d * n) k (firstn d m) (firstn d q)) /\
    (axial -> finite_pos q /\ Forall2 (translated L) (reals (skipn d m)) (reals (skipn d q))) /\
    (o = Ok tt \/ o = Err TooLargeTimeStep) /\
    (surely_kept (slack d) r n /\ axial -> o = Ok tt) /\ (surely_refused (slack d) r n \/ ~ axial -> o = Err TooLargeTimeStep).
Proof. exact cyl_near. Qed.
Print Assumptions C61_cylinder_close.

(** Limit of C61: the window at the wall is not empty.  In the disc of radius 7 a searcher inside it makes a step of 2^-20 that ends
    within rounding of the wall: the step is reported as TooLargeTimeStep (and the run that made it ends). *)
Theorem C61_tiny_step_refused_counterexample : forall lm : libm,
  let p : pos (F64 lm) := [lit (s := F64 lm) 16452558816402536 (2 ^ 52); lit (s := F64 lm) 26891471466718308 (2 ^ 52)] in
  let dp : pos (F64 lm) := [lit (s := F64 lm) 1 (2 ^ 20); lit (s := F64 lm) 0 1] in
  (do s <- circ_new (S := F64 lm) (b64_of_Z 7) 2; do b <- circ_inclusion s p; Ok (b, snd (circ_check_bc s p dp))) = Ok (true, Err TooLargeTimeStep).
Proof. intros lm. vm_compute. reflexivity. Qed.
Print Assumptions C61_tiny_step_refused_counterexample.

(** The hypotheses are met: a step over the wall of a square, a disc and a cylinder; the numbers are those of the exact walls. *)
Definition case_square (lm : libm) : cubic (F64 lm) := Cubic (S := F64 lm) ContinuousRectangular Reflection (b64_of_Z 7) 2.
Definition case_disc (lm : libm) : circ (F64 lm) := Circ (S := F64 lm) ContinuousCircular Reflection (b64_of_Z 7) 2.
Definition case_cyl (lm : libm) : cyl (F64 lm) := Cyl (S := F64 lm) (ContinuousCylindrical 2) (Mixed 2) (b64_of_Z 7) (b64_of_Z 7) 3.
Lemma seven : fin (b64_of_Z 7) = true /\ B2 (b64_of_Z 7) = 7. Proof. apply (of_Z_exact 7). simpl. lia. Qed.
Lemma middling7 : middling (b64_of_Z 7).
Proof.
  destruct seven as (F & E). split; auto. rewrite E. split.
  - apply Rle_trans with 1; [|lra]. rewrite <- Rinv_1. apply Rinv_le_contravar; [lra|]. apply pow_R1_Rle. lra.
  - apply Rle_trans with (2 ^ 3); [simpl; lra|]. apply Rle_pow; [lra|lia].
Qed.
Example C61_square_example (lm : libm) : built_cubic (case_square lm) /\ fit (b64_of_Z 7) /\
  let '(q, o) := cubic_check_bc (case_square lm) [b64_of_Z 6 : F64 lm; b64_of_Z 0] [b64_of_Z 4 : F64 lm; b64_of_Z 1] in
  o = Ok tt /\ map (fun x : b64 => B2SF x) q = map (fun x : b64 => B2SF x) [b64_of_Z 4; b64_of_Z 1].
Proof.
  split; [left; exists Reflection, (b64_of_Z 7), 2%nat; reflexivity|]. split; [apply middling_fit, middling7|]. vm_compute. auto.
Qed.
Example C61_disc_example (lm : libm) : built_circ (case_disc lm) /\ middling (ci_size (case_disc lm)) /\
  let m := [b64_of_Z 6; b64_of_Z 8] in vsum (S := F64 lm) [b64_of_Z 3 : F64 lm; b64_of_Z 4] [b64_of_Z 3 : F64 lm; b64_of_Z 4] = m /\
  surely_kept (slack 2) 7 (euclid_norm (reals m)) /\ wall_factor 7 (euclid_norm (reals m)) (4 / 10).
Proof.
  split; [left; exists (b64_of_Z 7), 2%nat; reflexivity|]. split; [exact middling7|]. cbv zeta.
  assert (E6 : B2 (b64_of_Z 6) = 6) by (apply (of_Z_exact 6); simpl; lia). assert (E8 : B2 (b64_of_Z 8) = 8) by (apply (of_Z_exact 8); simpl; lia).
  assert (N : euclid_norm (reals [b64_of_Z 6; b64_of_Z 8]) = 10).
  { unfold reals, euclid_norm. cbn [map]. rewrite E6, E8. cbn [rsum fold_right]. replace (6 ^ 2 + (8 ^ 2 + 0)) with (10 * 10) by ring. apply sqrt_square. lra. }
  rewrite N. split.
  - change (map (fun xy : b64 * b64 => Bplus mode_NE (fst xy) (snd xy)) [(b64_of_Z 3, b64_of_Z 3); (b64_of_Z 4, b64_of_Z 4)] = [b64_of_Z 6; b64_of_Z 8]).
    cbn [map fst snd]. f_equal; [apply B2SF_inj; vm_compute; reflexivity|]. f_equal. apply B2SF_inj; vm_compute; reflexivity.
  - assert (Sl : 0 <= slack 2 <= / 1000).
    { rewrite slack_al. pose proof (al_pos 2) as A. unfold al in *. pose proof u64_pos. rewrite u64_v in *. simpl (INR 2) in *.
      assert (2 ^ 53 >= 1000000). { apply Rle_ge. apply Rle_trans with (2 ^ 20); [simpl; lra|apply Rle_pow; [lra|lia]]. }
      assert (/ 2 ^ 53 <= / 1000000) by (apply Rinv_le_contravar; lra). lra. }
    split; [right; lra|]. split; intros; lra.
Qed.
Example C61_cylinder_example (lm : libm) : built_cyl (case_cyl lm) /\ cy_type (case_cyl lm) = ContinuousCylindrical 2 /\ middling (cy_radius (case_cyl lm)) /\ fit (cy_length (case_cyl lm)) /\
  snd (cyl_check_bc (case_cyl lm) [b64_of_Z 3 : F64 lm; b64_of_Z 4; b64_of_Z 6] [b64_of_Z 3 : F64 lm; b64_of_Z 4; b64_of_Z 5]) = Ok tt.
Proof.
  split; [left; exists 2%nat, (b64_of_Z 7), (b64_of_Z 7), 3%nat; reflexivity|]. split; [reflexivity|]. split; [exact middling7|]. split; [apply middling_fit, middling7|].
  vm_compute. reflexivity.
Qed.
