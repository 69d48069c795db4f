(** C19-C28, C30: systems (ball, cube, cylinder) and targets. *)
From Coq Require Import Reals ZArith List Lra Lia.
From Flocq.IEEE754 Require Import BinarySingleNaN.
From Verif Require Import Base Scalar Float64 Model_Position Spec_Position Proof_Position Proof_Norm64 Model_System Spec_System
  Proof_System Proof_System2 Proof_System3 Proof_System4 Proof_System5 Proof_System6 Proof_System7 Proof_System8 Proof_System9 Proof_System10 Proof_System11 Proof_System12.
Import ListNotations.

(** * C19: a successful boundary step ends inside *)
(** Any arithmetic: after Ok the system's own inclusion test accepts the new position. *)
Theorem C19_ok_is_accepted_by_inclusion : forall (S : scalar),
  (forall (s : circ S) p dp q, circ_check_bc s p dp = (q, Ok tt) -> circ_inclusion s q = Ok true) /\
  (forall (s : cubic S) p dp q, cubic_check_bc s p dp = (q, Ok tt) -> cubic_inclusion s q = Ok true) /\
  (forall (s : cyl S) p dp q, cyl_check_bc s p dp = (q, Ok tt) -> cyl_inclusion s q = Ok true).
Proof. intros S. split; [exact circ_ok_inside|split; [exact cubic_ok_inside|exact cyl_ok_inside]]. Qed.
Print Assumptions C19_ok_is_accepted_by_inclusion.

(** Exact reals: the new position is in the ball, cube, cylinder. *)
Theorem C19_circular_ends_inside : forall (s : circ RR) (p dp q : list R),
  circ_check_bc s p dp = (q, Ok tt) -> in_ball (ci_dim s) (ci_size s) q.
Proof. exact circ_ok_R. Qed.
Print Assumptions C19_circular_ends_inside.
Theorem C19_cubic_ends_inside : forall (s : cubic RR) (p dp q : list R),
  cubic_check_bc s p dp = (q, Ok tt) -> in_cube (cu_dim s) (cu_size s) q.
Proof. exact cubic_ok_R. Qed.
Print Assumptions C19_cubic_ends_inside.
Theorem C19_cylindrical_ends_inside : forall (s : cyl RR) d (p dp q : list R), built_cyl s -> cy_type s = ContinuousCylindrical d ->
  cyl_check_bc s p dp = (q, Ok tt) -> in_cylinder (cy_dim s) d (cy_radius s) (cy_length s) q.
Proof. exact cyl_ok_R. Qed.
Print Assumptions C19_cylindrical_ends_inside.

(** Binary64, cube up to 2^1022: finite position and displacement, Ok => every coordinate is a number in [-L,L]. *)
Theorem C19_f64_cubic_ends_inside : forall (lm : libm) (s : cubic (F64 lm)) (p dp q : list b64),
  fit (cu_size s) -> finite_pos p -> finite_pos dp -> length p = length dp ->
  cubic_check_bc s p dp = (q, Ok tt) -> length q = cu_dim s /\ Forall (bounded64 (cu_size s)) q.
Proof. exact cubic_ok_bounded. Qed.
Print Assumptions C19_f64_cubic_ends_inside.

(** Binary64, ball: when the norm of the moved position does not overflow, Ok => numbers only, accepted by the inclusion test
    (see [C28_f64_circular_inclusion] for what that means about the exact norm). *)
Theorem C19_f64_circular_ends_inside : forall (lm : libm) (s : circ (F64 lm)) (p dp q : list b64),
  fit (ci_size s) -> length p = length dp -> fin (norm (S := F64 lm) (vsum (S := F64 lm) p dp) : b64) = true ->
  circ_check_bc s p dp = (q, Ok tt) -> length q = ci_dim s /\ finite_pos q /\ circ_inclusion s q = Ok true.
Proof. exact circ_ok_finite. Qed.
Print Assumptions C19_f64_circular_ends_inside.

Theorem C19_f64_cylindrical_ends_inside : forall (lm : libm) (s : cyl (F64 lm)) d (p dp q : list b64),
  cy_type s = ContinuousCylindrical d -> cy_bc s = Mixed d -> (d <= cy_dim s)%nat ->
  fit (cy_radius s) -> fit (cy_length s) -> finite_pos p -> finite_pos dp -> length p = length dp ->
  fin (norm (S := F64 lm) (firstn d (vsum (S := F64 lm) p dp)) : b64) = true ->
  cyl_check_bc s p dp = (q, Ok tt) ->
  length q = cy_dim s /\ finite_pos q /\ Forall (bounded64 (cy_length s)) (skipn d q) /\
  Bltb (cy_radius s) (norm (S := F64 lm) (firstn d q)) = false.
Proof. exact cyl_ok_bounded. Qed.
Print Assumptions C19_f64_cylindrical_ends_inside.

(** Limit of C19: unit ball, position 0, displacement 2^600: the norm overflows, the position becomes NaN and the result is Ok. *)
Theorem C19_f64_overflow_gives_nan_and_ok_counterexample : forall lm : libm,
  (do s <- circ_new (S := F64 lm) (b64_of_Z 1) 1;
   let '(q, r) := circ_check_bc s [b64_of_Z 0 : F64 lm] [b64_of_Z (2 ^ 600) : F64 lm] in Ok (map (fun x : b64 => nan x) q, r)) =
  Ok ([true], Ok tt).
Proof. intros lm. vm_compute. reflexivity. Qed.
Print Assumptions C19_f64_overflow_gives_nan_and_ok_counterexample.
(** Limit of C19: a NaN displacement is accepted by all three systems. *)
Theorem C19_f64_nan_displacement_is_ok_counterexample : forall lm : libm,
  (do s <- circ_new (S := F64 lm) (b64_of_Z 1) 1; Ok (snd (circ_check_bc s [b64_of_Z 0 : F64 lm] [B754_nan : F64 lm]))) = Ok (Ok tt) /\
  (do s <- cubic_new (S := F64 lm) Reflection (b64_of_Z 1) 1; Ok (snd (cubic_check_bc s [b64_of_Z 0 : F64 lm] [B754_nan : F64 lm]))) = Ok (Ok tt) /\
  (do s <- cyl_new (S := F64 lm) 1 (b64_of_Z 1) (b64_of_Z 1) 2;
   Ok (snd (cyl_check_bc s [b64_of_Z 0 : F64 lm; b64_of_Z 0] [B754_nan : F64 lm; B754_nan]))) = Ok (Ok tt).
Proof. intros lm. repeat split; vm_compute; reflexivity. Qed.
Print Assumptions C19_f64_nan_displacement_is_ok_counterexample.
(** Limit of C19: a cube wider than 2^1022 turns an overflowing move into NaN and accepts it. *)
Theorem C19_f64_huge_cube_gives_nan_counterexample : forall lm : libm,
  (do s <- cubic_new (S := F64 lm) Periodic (b64_of_Z (2 ^ 1023)) 1;
   let '(q, r) := cubic_check_bc s [b64_of_Z (2 ^ 1023) : F64 lm] [b64_of_Z (2 ^ 1023) : F64 lm] in Ok (map (fun x : b64 => nan x) q, r)) =
  Ok ([true], Ok tt).
Proof. intros lm. vm_compute. reflexivity. Qed.
Print Assumptions C19_f64_huge_cube_gives_nan_counterexample.

(** * C20: interior moves are not altered (any arithmetic) *)
Theorem C20_interior_moves_exact : forall (S : scalar),
  (forall (s : circ S) p dp, length p = length dp -> circ_inclusion s (vsum p dp) = Ok true -> circ_check_bc s p dp = (vsum p dp, Ok tt)) /\
  (forall (s : cubic S) p dp, length p = length dp -> cubic_inclusion s (vsum p dp) = Ok true -> cubic_check_bc s p dp = (vsum p dp, Ok tt)) /\
  (forall (s : cyl S) p dp, length p = length dp -> cyl_inclusion s (vsum p dp) = Ok true -> cyl_check_bc s p dp = (vsum p dp, Ok tt)).
Proof. intros S. split; [exact circ_interior|split; [exact cubic_interior|exact cyl_interior]]. Qed.
Print Assumptions C20_interior_moves_exact.

(** * C21: the spherical wall (exact reals) *)
Theorem C21_circular_reflection : forall (s : circ RR) (p dp : list R),
  built_circ s -> length p = ci_dim s -> length dp = ci_dim s ->
  let m := vsum (S := RR) p dp in let n := euclid_norm m in let R0 := ci_size s : R in
  (R0 < n)%R ->
  exists q, scaled ((2 * R0 - n) / n) m q /\ euclid_norm q = Rabs (2 * R0 - n) /\
    ((n <= 3 * R0)%R -> circ_check_bc s p dp = (q, Ok tt)) /\
    ((n > 3 * R0)%R -> circ_check_bc s p dp = (q, Err TooLargeTimeStep)).
Proof. exact circ_bc_R. Qed.
Print Assumptions C21_circular_reflection.

(** * C22: cubic walls *)
Theorem C22_cubic_walls : forall (s : cubic RR) (p dp : list R), built_cubic s -> length p = cu_dim s -> length dp = cu_dim s ->
  let m := vsum (S := RR) p dp in let L := cu_size s : R in
  exists q, walls (cu_bc s) L m q /\
    (Forall (fun x => - (3 * L) <= x <= 3 * L)%R m -> cubic_check_bc s p dp = (q, Ok tt)) /\
    (~ Forall (fun x => - (3 * L) <= x <= 3 * L)%R m -> cubic_check_bc s p dp = (q, Err TooLargeTimeStep)).
Proof. exact cubic_bc_R. Qed.
Print Assumptions C22_cubic_walls.

(** Binary64: every move of at most one reflection or period is accepted; each new coordinate is the exact image, rounded once. *)
Theorem C22_f64_cubic_walls : forall (lm : libm) (s : cubic (F64 lm)) (p dp : list b64),
  built_cubic s -> fit (cu_size s) -> length p = cu_dim s -> length dp = cu_dim s ->
  Forall (fun x : b64 => fin x = true /\ (Rabs (B2 x) <= 3 * B2 (cu_size s))%R) (vsum (S := F64 lm) p dp) ->
  exists q, cubic_check_bc s p dp = (q, Ok tt) /\ walls_64 (cu_bc s) (cu_size s) (vsum (S := F64 lm) p dp) q.
Proof. exact cubic_bc_64. Qed.
Print Assumptions C22_f64_cubic_walls.

(** * C23: cylinder walls (exact reals) *)
Theorem C23_cylinder_walls : forall (s : cyl RR) d (p dp : list R), built_cyl s -> cy_type s = ContinuousCylindrical d ->
  length p = cy_dim s -> length dp = cy_dim s ->
  let m := vsum (S := RR) p dp in let n := euclid_norm (firstn d m) in let Rd := cy_radius s : R in let L := cy_length s : R in
  exists q, length q = cy_dim s /\
    ((n <= Rd)%R -> firstn d q = firstn d m) /\
    ((n > Rd)%R -> scaled ((2 * Rd - n) / n) (firstn d m) (firstn d q) /\ euclid_norm (firstn d q) = Rabs (2 * Rd - n)) /\
    Forall2 (translated L) (skipn d m) (skipn d q) /\
    ((n <= 3 * Rd)%R /\ Forall (fun x => - (3 * L) <= x <= 3 * L)%R (skipn d m) -> cyl_check_bc s p dp = (q, Ok tt)) /\
    (~ ((n <= 3 * Rd)%R /\ Forall (fun x => - (3 * L) <= x <= 3 * L)%R (skipn d m)) -> cyl_check_bc s p dp = (q, Err TooLargeTimeStep)).
Proof. exact cyl_bc_R. Qed.
Print Assumptions C23_cylinder_walls.

(** * C24: random positions *)
Theorem C24_circular_random_inside : forall (G : rng RR) fuel (s : circ RR) (g : rstate G), built_circ s ->
  ((forall k, (k < fuel)%nat -> ~ in_unit_ball (nth_block (unif G) (ci_dim s) k g)) -> circ_random_pos fuel s g = Fuel) /\
  (forall k, (k < fuel)%nat -> in_unit_ball (nth_block (unif G) (ci_dim s) k g) -> exists q g', circ_random_pos fuel s g = Ok (q, g')) /\
  (forall q g', circ_random_pos fuel s g = Ok (q, g') -> in_ball (ci_dim s) (ci_size s) q).
Proof. exact @circ_random_R. Qed.
Print Assumptions C24_circular_random_inside.
Theorem C24_circular_random_to_inside : forall (G : rng RR) fuel (s : circ RR) (g : rstate G) (v : list R), built_circ s ->
  (length v <> ci_dim s -> circ_random_to fuel s g v = (v, g, Err InvalidDimension)) /\
  (length v = ci_dim s ->
   ((forall k, (k < fuel)%nat -> ~ in_unit_ball (nth_block (unif G) (ci_dim s) k g)) -> snd (circ_random_to fuel s g v) = Fuel) /\
   (forall k, (k < fuel)%nat -> in_unit_ball (nth_block (unif G) (ci_dim s) k g) -> snd (circ_random_to fuel s g v) = Ok tt) /\
   (snd (circ_random_to fuel s g v) = Ok tt -> in_ball (ci_dim s) (ci_size s) (fst (fst (circ_random_to fuel s g v))))).
Proof. exact @circ_random_to_R. Qed.
Print Assumptions C24_circular_random_to_inside.
Theorem C24_cubic_random_inside : forall (G : rng RR) fuel (s : cubic RR) (g : rstate G), built_cubic s -> unif_R G ->
  exists q g', cubic_random_pos fuel s g = Ok (q, g') /\ in_cube (cu_dim s) (cu_size s) q.
Proof. exact @cubic_random_R. Qed.
Print Assumptions C24_cubic_random_inside.
Theorem C24_cubic_random_to_inside : forall (G : rng RR) fuel (s : cubic RR) (g : rstate G) (v : list R), built_cubic s -> unif_R G ->
  (length v <> cu_dim s -> cubic_random_to fuel s g v = (v, g, Err InvalidDimension)) /\
  (length v = cu_dim s -> exists q g', cubic_random_to fuel s g v = (q, g', Ok tt) /\ in_cube (cu_dim s) (cu_size s) q).
Proof. exact @cubic_random_to_R. Qed.
Print Assumptions C24_cubic_random_to_inside.
Theorem C24_cylindrical_random_inside : forall (G : rng RR) fuel (s : cyl RR) d (g : rstate G),
  built_cyl s -> cy_type s = ContinuousCylindrical d -> unif_R G ->
  (exists q g', cyl_random_pos fuel s g = Ok (q, g') /\ in_cylinder (cy_dim s) d (cy_radius s) (cy_length s) q) \/
  (cyl_random_pos fuel s g = Fuel /\
   ((0 < (cy_radius s : R))%R -> forall k, (k < fuel)%nat -> ~ radially_inside d (nth_block (unif G) (cy_dim s) k g))).
Proof. exact @cyl_random_R. Qed.
Print Assumptions C24_cylindrical_random_inside.
(** The in-place cylinder version is inside only a cylinder of twice the length. *)
Theorem C24_cylindrical_random_to_twice_as_long : forall (G : rng RR) fuel (s : cyl RR) d (g : rstate G) (v : list R),
  built_cyl s -> cy_type s = ContinuousCylindrical d -> unif_R G ->
  (length v <> cy_dim s -> cyl_random_to fuel s g v = (v, g, Err InvalidDimension)) /\
  (length v = cy_dim s ->
   (exists q g', cyl_random_to fuel s g v = (q, g', Ok tt) /\ in_cylinder (cy_dim s) d (cy_radius s) (2 * (cy_length s : R)) q) \/
   snd (cyl_random_to fuel s g v) = Fuel).
Proof. exact @cyl_random_to_R. Qed.
Print Assumptions C24_cylindrical_random_to_twice_as_long.

(** Exactly which: the block of samples used is the first whose radial part lies in the half ball, the position is its image, and
    it is inside the cylinder iff the samples of its axial coordinates were between 1/4 and 3/4. *)
Theorem C24_cylindrical_random_to_inside_iff : forall (G : rng RR) fuel (s : cyl RR) d (g : rstate G) (v : list R),
  built_cyl s -> cy_type s = ContinuousCylindrical d -> (0 < (cy_radius s : R))%R -> length v = cy_dim s ->
  (exists k q g', cyl_random_to fuel s g v = (q, g', Ok tt) /\
    first_block (fun u => 2 * euclid_norm (map (fun x => 2 * x - 1) (firstn d u)) < 1)%R (cy_dim s) fuel g k /\
    q = map (fun x => (2 * x - 1) * (2 * (cy_radius s : R)))%R (firstn d (nth_block (unif G) (cy_dim s) k g)) ++
        map (fun x => (2 * x - 1) * (2 * (cy_length s : R)))%R (skipn d (nth_block (unif G) (cy_dim s) k g)) /\
    (in_cylinder (cy_dim s) d (cy_radius s) (cy_length s) q <-> Forall (fun x => / 4 <= x <= 3 / 4)%R (skipn d (nth_block (unif G) (cy_dim s) k g)))) \/
  snd (cyl_random_to fuel s g v) = Fuel.
Proof.
  intros G fuel s d g v B T P L. destruct (cyl_random_to_exact fuel s d g v B T P L) as [(k & K & E)|(_ & E)]; [left|right; exact E].
  exists k. do 2 eexists. split; [exact E|]. split; [exact K|]. split; [reflexivity|]. destruct K as (K & A & _). apply to_box_inside; auto. apply nb_len.
Qed.
Print Assumptions C24_cylindrical_random_to_inside_iff.

(** Binary64. *)
Theorem C24_f64_circular_random_inside : forall (lm : libm) (G : rng (F64 lm)) fuel (s : circ (F64 lm)) (g : rstate G),
  fit (ci_size s) -> unif_64 G ->
  (exists q g', circ_random_pos fuel s g = Ok (q, g') /\ length q = ci_dim s /\ Forall (bounded64 (ci_size s)) q /\ circ_inclusion s q = Ok true) \/
  circ_random_pos fuel s g = Fuel.
Proof. exact @circ_random_64. Qed.
Print Assumptions C24_f64_circular_random_inside.
Theorem C24_f64_circular_random_to_inside : forall (lm : libm) (G : rng (F64 lm)) fuel (s : circ (F64 lm)) (g : rstate G) (v : list b64),
  fit (ci_size s) -> unif_64 G -> length v = ci_dim s ->
  (exists q g', circ_random_to fuel s g v = (q, g', Ok tt) /\ length q = ci_dim s /\ Forall (bounded64 (ci_size s)) q /\ circ_inclusion s q = Ok true) \/
  snd (circ_random_to fuel s g v) = Fuel.
Proof. exact @circ_random_to_64. Qed.
Print Assumptions C24_f64_circular_random_to_inside.
Theorem C24_f64_cubic_random_inside : forall (lm : libm) (G : rng (F64 lm)) fuel (s : cubic (F64 lm)) (g : rstate G),
  fit (cu_size s) -> unif_64 G ->
  exists q g', cubic_random_pos fuel s g = Ok (q, g') /\ length q = cu_dim s /\ Forall (bounded64 (cu_size s)) q /\ cubic_inclusion s q = Ok true.
Proof. exact @cubic_random_64. Qed.
Print Assumptions C24_f64_cubic_random_inside.
Theorem C24_f64_cubic_random_to_inside : forall (lm : libm) (G : rng (F64 lm)) fuel (s : cubic (F64 lm)) (g : rstate G) (v : list b64),
  fit (cu_size s) -> unif_64 G -> length v = cu_dim s ->
  exists q g', cubic_random_to fuel s g v = (q, g', Ok tt) /\ length q = cu_dim s /\ Forall (bounded64 (cu_size s)) q /\ cubic_inclusion s q = Ok true.
Proof. exact @cubic_random_to_64. Qed.
Print Assumptions C24_f64_cubic_random_to_inside.
Theorem C24_f64_cylindrical_random_inside : forall (lm : libm) (G : rng (F64 lm)) fuel (s : cyl (F64 lm)) d (g : rstate G),
  cy_type s = ContinuousCylindrical d -> (d <= cy_dim s)%nat -> fit (cy_radius s) -> fit (cy_length s) -> unif_64 G ->
  (exists q g', cyl_random_pos fuel s g = Ok (q, g') /\ length q = cy_dim s /\ finite_pos q /\ cyl_inclusion s q = Ok true) \/
  cyl_random_pos fuel s g = Fuel.
Proof. exact @cyl_random_64. Qed.
Print Assumptions C24_f64_cylindrical_random_inside.

(** Binary64, in place: numbers only, radial part inside, axial coordinates up to twice the length. *)
Theorem C24_f64_cylindrical_random_to_twice_as_long : forall (lm : libm) (G : rng (F64 lm)) fuel (s : cyl (F64 lm)) d (g : rstate G) (v : list b64),
  cy_type s = ContinuousCylindrical d -> (d <= cy_dim s)%nat -> fit (cy_radius s) -> fit (cy_length s) -> unif_64 G -> length v = cy_dim s ->
  (exists q g', cyl_random_to fuel s g v = (q, g', Ok tt) /\ length q = cy_dim s /\ finite_pos q /\
     Bltb (norm (S := F64 lm) (firstn d q)) (cy_radius s) = true /\ Forall (fun x : b64 => Rabs (B2 x) <= 2 * B2 (cy_length s))%R (skipn d q)) \/
  snd (cyl_random_to fuel s g v) = Fuel.
Proof. exact @cyl_random_to_64. Qed.
Print Assumptions C24_f64_cylindrical_random_to_twice_as_long.

(** Limit of C24: the in-place version of the cylinder puts the axial coordinate at 1.5 in a cylinder of length 1
    (samples 1/2, 7/8, repeated). *)
Definition alt_rng (lm : libm) : rng (F64 lm) :=
  Rng (S := F64 lm) bool (fun b : bool => (if b then Bdiv mode_NE (b64_of_Z 1) (b64_of_Z 2) else Bdiv mode_NE (b64_of_Z 7) (b64_of_Z 8), negb b))
           (fun b : bool => (b64_of_Z 0, b)).
Theorem C24_f64_cylindrical_random_to_outside_counterexample : forall lm : libm,
  (do s <- cyl_new (S := F64 lm) 1 (b64_of_Z 1) (b64_of_Z 1) 2;
   let '(q, g, r) := cyl_random_to (G := alt_rng lm) 5 s true [b64_of_Z 0 : F64 lm; b64_of_Z 0] in
   Ok (map (fun x : b64 => B2SF x) q, r, cyl_inclusion s q)) =
  Ok ([B2SF (b64_of_Z 0); B2SF (Bdiv mode_NE (b64_of_Z 3) (b64_of_Z 2))], Ok tt, Ok false).
Proof. intros lm. vm_compute. reflexivity. Qed.
Print Assumptions C24_f64_cylindrical_random_to_outside_counterexample.

(** Limit of C24: [convert_from] lets a cylinder of radius 0 through, and then [random_pos] never returns. *)
Theorem C24_zero_radius_cylinder_never_returns_counterexample :
  exists s : cyl RR, cyl_convert_from (Cyl (S := RR) (ContinuousCylindrical 1) (Mixed 1) 0%R 1%R 2) = Ok s /\
    forall (G : rng RR) fuel (g : rstate G), cyl_random_pos fuel s g = Fuel.
Proof.
  exists (Cyl (S := RR) (ContinuousCylindrical 1) (Mixed 1) 0%R 1%R 2). split.
  - unfold cyl_convert_from. cbn [cy_type cy_bc cy_dim cy_radius cy_length Nat.eqb negb Nat.ltb Nat.leb orb].
    change (@ltb RR) with Rltb. change (@leb RR) with Rleb. unfold Rltb, Rleb. change (@s0 RR) with 0%R.
    destruct (Rlt_dec 0 0); [lra|]. destruct (Rle_dec 1 0); [lra|]. reflexivity.
  - intros G fuel g. apply (cyl_zero_radius fuel _ 1 g); cbn; auto.
Qed.
Print Assumptions C24_zero_radius_cylinder_never_returns_counterexample.

(** * C25: positions outside *)
Theorem C25_circular_out_is_outside : forall s : circ RR, built_circ s ->
  length (circ_out s) = ci_dim s /\ circ_inclusion s (circ_out s) = Ok false.
Proof. exact circ_out_R. Qed.
Print Assumptions C25_circular_out_is_outside.
Theorem C25_cubic_out_is_outside : forall s : cubic RR, built_cubic s ->
  length (cubic_out s) = cu_dim s /\ cubic_inclusion s (cubic_out s) = Ok false.
Proof. exact cubic_out_R. Qed.
Print Assumptions C25_cubic_out_is_outside.
(** The cylinder needs at least one axial coordinate. *)
Theorem C25_cylindrical_out_is_outside : forall (s : cyl RR) d, built_cyl s -> cy_type s = ContinuousCylindrical d -> (d < cy_dim s)%nat ->
  length (cyl_out s) = cy_dim s /\ cyl_inclusion s (cyl_out s) = Ok false.
Proof. exact cyl_out_R. Qed.
Print Assumptions C25_cylindrical_out_is_outside.
(** Binary64. *)
Theorem C25_f64_circular_out_is_outside : forall (lm : libm) (s : circ (F64 lm)),
  built_circ s -> fin (ci_size s : b64) = true -> (/ 2 ^ 538 <= B2 (ci_size s))%R ->
  length (circ_out s) = ci_dim s /\ circ_inclusion s (circ_out s) = Ok false.
Proof. exact circ_out_64. Qed.
Print Assumptions C25_f64_circular_out_is_outside.
Theorem C25_f64_cubic_out_is_outside : forall (lm : libm) (s : cubic (F64 lm)), built_cubic s -> fin (cu_size s : b64) = true ->
  length (cubic_out s) = cu_dim s /\ cubic_inclusion s (cubic_out s) = Ok false.
Proof. exact cubic_out_64. Qed.
Print Assumptions C25_f64_cubic_out_is_outside.
Theorem C25_f64_cylindrical_out_is_outside : forall (lm : libm) (s : cyl (F64 lm)) d,
  built_cyl s -> cy_type s = ContinuousCylindrical d -> (d < cy_dim s)%nat -> fin (cy_length s : b64) = true ->
  length (cyl_out s) = cy_dim s /\ cyl_inclusion s (cyl_out s) = Ok false.
Proof. exact cyl_out_64. Qed.
Print Assumptions C25_f64_cylindrical_out_is_outside.
(** A cylinder without axial coordinates: the point is inside exactly when the radius is at least 2*length*sqrt(dimension). *)
Theorem C25_cylinder_without_axis : forall s : cyl RR, built_cyl s -> cy_type s = ContinuousCylindrical (cy_dim s) ->
  length (cyl_out s) = cy_dim s /\
  (cyl_inclusion s (cyl_out s) = Ok true <-> (2 * (cy_length s : R) * sqrt (INR (cy_dim s)) <= (cy_radius s : R))%R) /\
  (cyl_inclusion s (cyl_out s) = Ok false <-> ((cy_radius s : R) < 2 * (cy_length s : R) * sqrt (INR (cy_dim s)))%R).
Proof. exact cyl_axisless_out. Qed.
Print Assumptions C25_cylinder_without_axis.
(** Limit of C25: a cylinder without axial coordinates (radius 10, length 1, dimension 2): the "outside" point (2,2) is inside. *)
Theorem C25_cylinder_without_axis_out_is_inside_counterexample : forall lm : libm,
  (do s <- cyl_new (S := F64 lm) 2 (b64_of_Z 10) (b64_of_Z 1) 2; cyl_inclusion s (cyl_out s)) = Ok true.
Proof. intros lm. vm_compute. reflexivity. Qed.
Print Assumptions C25_cylinder_without_axis_out_is_inside_counterexample.
(** Limit of C25: in a ball of radius 2^-539 the squares underflow and every "outside" point is inside; also for radius infinity. *)
Theorem C25_f64_tiny_or_infinite_ball_out_is_inside_counterexample : forall lm : libm,
  (do s <- circ_new (S := F64 lm) (Bdiv mode_NE (b64_of_Z 1) (b64_of_Z (2 ^ 539))) 3; circ_inclusion s (circ_out s)) = Ok true /\
  (do s <- circ_new (S := F64 lm) (B754_infinity false) 3; circ_inclusion s (circ_out s)) = Ok true.
Proof. intros lm. split; vm_compute; reflexivity. Qed.
Print Assumptions C25_f64_tiny_or_infinite_ball_out_is_inside_counterexample.
(** The in-place version writes the same point, or rejects a vector of the wrong dimension unchanged. *)
Theorem C25_out_to_vec_agrees : forall (S : scalar),
  (forall (s : circ S) v, (length v = ci_dim s -> circ_out_to s v = (circ_out s, Ok tt)) /\ (length v <> ci_dim s -> circ_out_to s v = (v, Err InvalidDimension))) /\
  (forall (s : cubic S) v, (length v = cu_dim s -> cubic_out_to s v = (cubic_out s, Ok tt)) /\ (length v <> cu_dim s -> cubic_out_to s v = (v, Err InvalidDimension))) /\
  (forall (s : cyl S) v, (length v = cy_dim s -> cyl_out_to s v = (cyl_out s, Ok tt)) /\ (length v <> cy_dim s -> cyl_out_to s v = (v, Err InvalidDimension))).
Proof. exact @out_to_agree. Qed.
Print Assumptions C25_out_to_vec_agrees.

(** * C26: dimensions *)
Theorem C26_inclusion_reports_dimension : forall (S : scalar),
  (forall (s : circ S) p, (length p <> ci_dim s -> circ_inclusion s p = Err InvalidDimension) /\ (length p = ci_dim s -> exists b, circ_inclusion s p = Ok b)) /\
  (forall (s : cubic S) p, (length p <> cu_dim s -> cubic_inclusion s p = Err InvalidDimension) /\ (length p = cu_dim s -> exists b, cubic_inclusion s p = Ok b)) /\
  (forall (s : cyl S) p, built_cyl s -> (length p <> cy_dim s -> cyl_inclusion s p = Err InvalidDimension) /\ (length p = cy_dim s -> exists b, cyl_inclusion s p = Ok b)).
Proof.
  intros S. split; [|split].
  - exact circ_inclusion_cases.
  - exact cubic_inclusion_cases.
  - intros s p B. exact (cyl_inclusion_cases s p B).
Qed.
Print Assumptions C26_inclusion_reports_dimension.
(** [check_bc]: what actually happens with dimensions (see [bc_shape]). *)
Theorem C26_check_bc_dimensions : forall (S : scalar),
  (forall s : circ S, bc_shape (ci_dim s) (circ_check_bc s)) /\
  (forall s : cubic S, built_cubic s -> bc_shape (cu_dim s) (cubic_check_bc s)) /\
  (forall s : cyl S, built_cyl s -> bc_shape (cy_dim s) (cyl_check_bc s)).
Proof. intros S. split; [exact circ_shape|split; [exact cubic_shape|exact cyl_shape]]. Qed.
Print Assumptions C26_check_bc_dimensions.
(** Limit of C26: a displacement that is too short panics; one that is too long is silently accepted; a position of the wrong
    dimension is changed before the error is returned. *)
Theorem C26_check_bc_dimension_errors_counterexample : forall lm : libm,
  let one := b64_of_Z 1 : F64 lm in let zero := b64_of_Z 0 : F64 lm in
  (do s <- cubic_new Periodic (b64_of_Z 4 : F64 lm) 2; Ok (snd (cubic_check_bc s [zero; zero] [one]))) = Ok Panic /\
  (do s <- cubic_new Periodic (b64_of_Z 4 : F64 lm) 2; Ok (snd (cubic_check_bc s [zero; zero] [one; one; one]))) = Ok (Ok tt) /\
  (do s <- cubic_new Periodic (b64_of_Z 4 : F64 lm) 2;
   let '(q, r) := cubic_check_bc s [zero] [one] in Ok (map (fun x : b64 => B2SF x) q, r)) = Ok ([B2SF (b64_of_Z 1)], Err InvalidDimension).
Proof. intros lm. repeat split; vm_compute; reflexivity. Qed.
Print Assumptions C26_check_bc_dimension_errors_counterexample.

(** * C27: a step reported as too large has moved the position outside (any arithmetic) *)
Theorem C27_too_large_step_loses_the_position : forall S : scalar,
  (forall s : circ S, loses_place (circ_inclusion s) (circ_check_bc s)) /\
  (forall s : cubic S, loses_place (cubic_inclusion s) (cubic_check_bc s)) /\
  (forall s : cyl S, loses_place (cyl_inclusion s) (cyl_check_bc s)).
Proof. exact @too_large_moves. Qed.
Print Assumptions C27_too_large_step_loses_the_position.

(** * Limit of C27: after Err(TooLargeTimeStep) the position has been moved (cube of half-width 1: 0 + 10 ends at 8; unit ball: 0 + 10 ends at -8). *)
Theorem C27_failed_step_moves_position_counterexample : forall lm : libm,
  (do s <- cubic_new Periodic (b64_of_Z 1 : F64 lm) 1;
   let '(q, r) := cubic_check_bc s [b64_of_Z 0 : F64 lm] [b64_of_Z 10 : F64 lm] in Ok (map (fun x : b64 => B2SF x) q, r)) =
   Ok ([B2SF (b64_of_Z 8)], Err TooLargeTimeStep) /\
  (do s <- circ_new (b64_of_Z 1 : F64 lm) 1;
   let '(q, r) := circ_check_bc s [b64_of_Z 0 : F64 lm] [b64_of_Z 10 : F64 lm] in Ok (map (fun x : b64 => B2SF x) q, r)) =
   Ok ([B2SF (b64_of_Z (-8))], Err TooLargeTimeStep).
Proof. intros lm. split; vm_compute; reflexivity. Qed.
Print Assumptions C27_failed_step_moves_position_counterexample.

(** * C51: random positions are rejection sampling of uniform samples (exact reals) *)
(** The position is the affine image, on the smallest box around the system, of the first block of uniform samples that falls inside;
    every block up to it, and nothing more, is consumed; both versions agree, except for the cylinder, whose in-place version uses
    a box of twice the size. *)
Theorem C51_random_positions_are_rejection_sampling : forall (G : rng RR) fuel (g : rstate G),
  (forall s : circ RR, built_circ s ->
    rej_ok (ci_dim s) in_unit_ball fuel g (circ_random_pos fuel s g) (map (fun x => (2 * x - 1) * (ci_size s : R))%R) /\
    forall v : list R, length v = ci_dim s ->
      rej_to (ci_dim s) in_unit_ball fuel g (circ_random_to fuel s g v) (map (fun x => (2 * x - 1) * (ci_size s : R))%R)) /\
  (forall s : cubic RR,
    cubic_random_pos fuel s g = Ok (map (fun x => (2 * x - 1) * (cu_size s : R))%R (nth_block (unif G) (cu_dim s) 0 g), after_blocks (unif G) (cu_dim s) 1 g) /\
    forall v : list R, length v = cu_dim s ->
    cubic_random_to fuel s g v = (map (fun x => (2 * x - 1) * (cu_size s : R))%R (nth_block (unif G) (cu_dim s) 0 g), after_blocks (unif G) (cu_dim s) 1 g, Ok tt)) /\
  (forall (s : cyl RR) d, built_cyl s -> cy_type s = ContinuousCylindrical d -> (0 < (cy_radius s : R))%R ->
    rej_ok (cy_dim s) (radially_inside d) fuel g (cyl_random_pos fuel s g) (to_box d (cy_radius s) (cy_length s)) /\
    forall v : list R, length v = cy_dim s ->
      rej_to (cy_dim s) (fun u => 2 * euclid_norm (map (fun x => 2 * x - 1) (firstn d u)) < 1)%R fuel g (cyl_random_to fuel s g v)
        (to_box d (2 * (cy_radius s : R)) (2 * (cy_length s : R)))).
Proof.
  intros G fuel g. split; [|split].
  - intros s B. split; [exact (circ_random_exact fuel s g B)|intros v L; exact (circ_random_to_exact fuel s g v B L)].
  - intros s. exact (cubic_random_exact fuel s g).
  - intros s d B T P. split; [exact (cyl_random_exact fuel s d g B T P)|intros v L; exact (cyl_random_to_exact fuel s d g v B T P L)].
Qed.
Print Assumptions C51_random_positions_are_rejection_sampling.

(** * C28: inclusion means inside *)
Theorem C28_inclusion_exact :
  (forall (s : circ RR) (p : list R), length p = ci_dim s ->
     (circ_inclusion s p = Ok true <-> in_ball (ci_dim s) (ci_size s) p)) /\
  (forall (s : cubic RR) (p : list R), length p = cu_dim s ->
     (cubic_inclusion s p = Ok true <-> in_cube (cu_dim s) (cu_size s) p)) /\
  (forall (s : cyl RR) d (p : list R), built_cyl s -> cy_type s = ContinuousCylindrical d -> length p = cy_dim s ->
     (cyl_inclusion s p = Ok true <-> in_cylinder (cy_dim s) d (cy_radius s) (cy_length s) p)).
Proof. exact inclusion_iff_R. Qed.
Print Assumptions C28_inclusion_exact.
(** Binary64 cube: exact for every NaN-free position. *)
Theorem C28_f64_cubic_inclusion : forall (lm : libm) (s : cubic (F64 lm)) (p : list b64), length p = cu_dim s -> fin (cu_size s : b64) = true ->
  Forall (fun x => nan x = false) p -> (cubic_inclusion s p = Ok true <-> Forall (bounded64 (cu_size s)) p).
Proof. exact cubic_inclusion_64. Qed.
Print Assumptions C28_f64_cubic_inclusion.
(** Binary64 ball: exact up to the rounding of the norm, for radius up to 2^511; infinities are never inside. *)
Theorem C28_f64_circular_inclusion : forall (lm : libm) (s : circ (F64 lm)) (p : list b64),
  length p = ci_dim s -> fin (ci_size s : b64) = true -> (0 <= B2 (ci_size s))%R -> finite_pos p ->
  (circ_inclusion s p = Ok true ->
     (1 - u64) ^ (length p + 3) * euclid_norm (reals p) ^ 2 <= B2 (ci_size s) ^ 2 + INR (length p) * eta64)%R /\
  ((B2 (ci_size s) <= 2 ^ 511)%R ->
   ((1 + u64) ^ (length p + 3) * euclid_norm (reals p) ^ 2 + (1 + u64) ^ (length p + 2) * (INR (length p) * eta64) <= B2 (ci_size s) ^ 2)%R ->
   circ_inclusion s p = Ok true).
Proof. exact circ_inclusion_64. Qed.
Print Assumptions C28_f64_circular_inclusion.
Theorem C28_f64_circular_inside_is_finite : forall (lm : libm) (s : circ (F64 lm)) (p : list b64),
  fin (ci_size s : b64) = true -> Forall (fun x => nan x = false) p -> circ_inclusion s p = Ok true -> finite_pos p.
Proof. exact circ_inclusion_finite. Qed.
Print Assumptions C28_f64_circular_inside_is_finite.
(** Limit of C28: a position of NaNs is inside every system. *)
Theorem C28_f64_nan_is_inside_counterexample : forall lm : libm,
  (do s <- circ_new (b64_of_Z 1 : F64 lm) 1; circ_inclusion s [B754_nan : F64 lm]) = Ok true /\
  (do s <- cubic_new Periodic (b64_of_Z 1 : F64 lm) 1; cubic_inclusion s [B754_nan : F64 lm]) = Ok true /\
  (do s <- cyl_new 1 (b64_of_Z 1 : F64 lm) (b64_of_Z 1) 2; cyl_inclusion s [B754_nan : F64 lm; B754_nan]) = Ok true.
Proof. intros lm. repeat split; vm_compute; reflexivity. Qed.
Print Assumptions C28_f64_nan_is_inside_counterexample.
(** Limit of C28: in a ball of radius 2^600 the point at distance 2^520 from the centre is reported outside. *)
Theorem C28_f64_norm_overflow_counterexample : forall lm : libm,
  (do s <- circ_new (b64_of_Z (2 ^ 600) : F64 lm) 1; circ_inclusion s [b64_of_Z (2 ^ 520) : F64 lm]) = Ok false.
Proof. intros lm. vm_compute. reflexivity. Qed.
Print Assumptions C28_f64_norm_overflow_counterexample.

(** * C30: targets *)
Theorem C30_find_rejects_exactly_other_dimensions : forall (S : scalar) (t : target S) p,
  (length (tg_pos t) <> length p -> check_find t p = Err InvalidDimension) /\
  (length (tg_pos t) = length p -> exists b, check_find t p = Ok b).
Proof. exact @check_find_cases. Qed.
Print Assumptions C30_find_rejects_exactly_other_dimensions.
Theorem C30_find_iff_closer_than_size : forall (t : target RR) (p : list R), length (tg_pos t) = length p ->
  (check_find t p = Ok true <-> (euclid (tg_pos t) p < tg_size t)%R) /\
  (check_find t p = Ok false <-> (tg_size t <= euclid (tg_pos t) p)%R).
Proof. exact check_find_R. Qed.
Print Assumptions C30_find_iff_closer_than_size.
(** Binary64: up to the rounding of the distance. *)
Theorem C30_f64_find : forall (lm : libm) (t : target (F64 lm)) (p : list b64),
  length (tg_pos t) = length p -> finite_pos (tg_pos t) -> finite_pos p -> fin (tg_size t : b64) = true -> (0 <= B2 (tg_size t))%R ->
  (check_find t p = Ok true ->
     (1 - u64) ^ (length p + 5) * euclid (reals (tg_pos t)) (reals p) ^ 2 <= B2 (tg_size t) ^ 2 + INR (length p) * eta64)%R /\
  ((B2 (tg_size t) <= 2 ^ 511)%R ->
   ((1 + u64) ^ (length p + 5) * euclid (reals (tg_pos t)) (reals p) ^ 2 + (1 + u64) ^ (length p + 2) * (INR (length p) * eta64) < B2 (tg_size t) ^ 2)%R ->
   check_find t p = Ok true).
Proof. exact check_find_64. Qed.
Print Assumptions C30_f64_find.
(** And the distance itself (C10). *)
Theorem C10_f64_distance_accuracy : forall (lm : libm) (p q : list b64) (d : b64),
  finite_pos p -> finite_pos q -> distance (S := F64 lm) p q = Ok (d : F64 lm) -> fin d = true ->
  (0 <= B2 d /\
   (1 - u64) ^ (length p + 5) * euclid (reals p) (reals q) ^ 2 - INR (length p) * eta64 <= B2 d ^ 2 /\
   B2 d ^ 2 <= (1 + u64) ^ (length p + 5) * euclid (reals p) (reals q) ^ 2 + (1 + u64) ^ (length p + 2) * (INR (length p) * eta64))%R.
Proof. exact distance_64_bounds. Qed.
Print Assumptions C10_f64_distance_accuracy.

(** * Concrete cases: the hypotheses are met *)
Example built_demo : forall lm : libm,
  built_circ (Circ ContinuousCircular Reflection (b64_of_Z 1 : F64 lm) 2) /\
  built_cubic (Cubic ContinuousRectangular (Mixed 1) (b64_of_Z 3 : F64 lm) 2) /\
  built_cyl (Cyl (ContinuousCylindrical 2) (Mixed 2) (b64_of_Z 1 : F64 lm) (b64_of_Z 5) 3).
Proof.
  intros lm. assert (E1 : leb (b64_of_Z 1 : F64 lm) s0 = false) by (vm_compute; reflexivity).
  assert (E3 : leb (b64_of_Z 3 : F64 lm) s0 = false) by (vm_compute; reflexivity).
  assert (E5 : leb (b64_of_Z 5 : F64 lm) s0 = false) by (vm_compute; reflexivity).
  split; [|split]; left.
  - exists (b64_of_Z 1 : F64 lm), 2%nat. unfold circ_new. rewrite E1. reflexivity.
  - exists (Mixed 1), (b64_of_Z 3 : F64 lm), 2%nat. unfold cubic_new. rewrite E3. reflexivity.
  - exists 2%nat, (b64_of_Z 1 : F64 lm), (b64_of_Z 5 : F64 lm), 3%nat. unfold cyl_new. rewrite E1, E5. reflexivity.
Qed.
Example built_R_demo : built_circ (Circ (S := RR) ContinuousCircular Reflection 1%R 2).
Proof.
  left. exists 1%R, 2%nat. unfold circ_new. cbn [Nat.eqb orb]. change (@leb RR) with Rleb. unfold Rleb. change (@s0 RR) with 0%R.
  destruct (Rle_dec 1 0); [lra|]. reflexivity.
Qed.
Example built_cyl_R_demo : built_cyl (Cyl (S := RR) (ContinuousCylindrical 1) (Mixed 1) 1%R 2%R 2).
Proof.
  left. exists 1%nat, 1%R, 2%R, 2%nat. unfold cyl_new. cbn [Nat.eqb Nat.ltb Nat.leb orb]. change (@leb RR) with Rleb. unfold Rleb. change (@s0 RR) with 0%R.
  destruct (Rle_dec 1 0); [lra|]. destruct (Rle_dec 2 0); [lra|]. reflexivity.
Qed.
(** Mixed cube of half-width 3: first coordinate mirrored (2+2=4 -> 2), second translated (-1-4=-5 -> 1). *)
Example mixed_demo : forall lm : libm,
  (do s <- cubic_new (Mixed 1) (b64_of_Z 3 : F64 lm) 2;
   let '(q, r) := cubic_check_bc s [b64_of_Z 2 : F64 lm; b64_of_Z (-1)] [b64_of_Z 2 : F64 lm; b64_of_Z (-4)] in Ok (map (fun x : b64 => B2SF x) q, r)) =
  Ok ([B2SF (b64_of_Z 2); B2SF (b64_of_Z 1)], Ok tt).
Proof. intros lm. vm_compute. reflexivity. Qed.
(** Cylinder (radius 2, length 3): radial 1+2=3 -> 1, axial 1+3=4 -> -2. *)
Example cyl_demo : forall lm : libm,
  (do s <- cyl_new 1 (b64_of_Z 2 : F64 lm) (b64_of_Z 3) 2;
   let '(q, r) := cyl_check_bc s [b64_of_Z 1 : F64 lm; b64_of_Z 1] [b64_of_Z 2 : F64 lm; b64_of_Z 3] in Ok (map (fun x : b64 => B2SF x) q, r)) =
  Ok ([B2SF (b64_of_Z 1); B2SF (b64_of_Z (-2))], Ok tt).
Proof. intros lm. vm_compute. reflexivity. Qed.
(** The alternating generator meets [unif_64], and the loop of [random_pos] ends at once with it. *)
Example alt_rng_demo : forall lm : libm,
  (do s <- circ_new (b64_of_Z 2 : F64 lm) 2;
   do qg <- circ_random_pos (G := alt_rng lm) 3 s true; Ok (map (fun x : b64 => B2SF x) (fst qg))) =
  Ok [B2SF (b64_of_Z 0); B2SF (Bdiv mode_NE (b64_of_Z 3) (b64_of_Z 2))].
Proof. intros lm. vm_compute. reflexivity. Qed.
Example unif_R_demo : unif_R (Rng (S := RR) unit (fun _ => (1/2, tt)%R) (fun _ => (0%R, tt))).
Proof. intros g. cbn. lra. Qed.
Example find_demo : forall lm : libm,
  check_find (target_new [b64_of_Z 0 : F64 lm; b64_of_Z 0] (b64_of_Z 6)) [b64_of_Z 3 : F64 lm; b64_of_Z 4] = Ok true /\
  check_find (target_new [b64_of_Z 0 : F64 lm; b64_of_Z 0] (b64_of_Z 5)) [b64_of_Z 3 : F64 lm; b64_of_Z 4] = Ok false.
Proof. intros lm. split; vm_compute; reflexivity. Qed.

(** * C49: the exact reflection at the sphere *)
(** Exact reals.  Starting inside and leaving the ball, the displacement crosses the sphere at one parameter [t]; the new position is
    the mirror image of the end point in the tangent plane at the crossing point, accepted exactly when it is inside. *)
Theorem C49_exact_mirror_image : forall (s : circ RR) (p dp : list R),
  built_circ s -> length p = ci_dim s -> length dp = ci_dim s ->
  (euclid_norm p <= ci_size s)%R -> (ci_size s < euclid_norm (along p dp 1))%R ->
  exists t q dp', leaves_at (ci_size s) p dp t /\ mirror_image (along p dp t) (along p dp 1) q /\
    ((euclid_norm q <= ci_size s)%R -> circ_check_bc_exact s p dp = (q, dp', Ok tt)) /\
    ((ci_size s < euclid_norm q)%R -> circ_check_bc_exact s p dp = (q, dp', Err TooLargeTimeStep)).
Proof. exact circ_exact_R. Qed.
Print Assumptions C49_exact_mirror_image.
(** Any arithmetic: an interior move is not altered, and Ok means that the inclusion test accepts. *)
Theorem C49_interior_and_accepted : forall (S : scalar) (s : circ S) (p dp : pos S),
  (length p = length dp -> circ_inclusion s (vsum p dp) = Ok true -> circ_check_bc_exact s p dp = (vsum p dp, dp, Ok tt)) /\
  (forall q dq, circ_check_bc_exact s p dp = (q, dq, Ok tt) -> circ_inclusion s q = Ok true).
Proof.
  intros S s p dp. split.
  - intros L E. exact (proj1 (circ_exact_interior s p dp L E)).
  - intros q dq. exact (proj1 (circ_exact_ok s p dp q dq)).
Qed.
Print Assumptions C49_interior_and_accepted.
(** In the ball of radius 2, from 0 with displacement 3: the sphere is met at t = 2/3 and the end point 3 is mirrored to 1. *)
Example exact_demo : forall lm : libm,
  (do s <- circ_new (b64_of_Z 2 : F64 lm) 1;
   let '(q, _, r) := circ_check_bc_exact s [b64_of_Z 0 : F64 lm] [b64_of_Z 3 : F64 lm] in Ok (map (fun x : b64 => Bleb (Babs (Bminus mode_NE x (b64_of_Z 1))) (@lit (F64 lm) 1 1000000)) q, r)) = Ok ([true], Ok tt).
Proof. intros lm. vm_compute. reflexivity. Qed.

(** * C50: the first order reflection only accepts positions inside *)
Theorem C50_first_order_exact_reals : forall (s : circ RR) (p dp q dq : list R),
  circ_check_bc_first_order s p dp = (q, dq, Ok tt) -> in_ball (ci_dim s) (ci_size s) q.
Proof.
  intros s p dp q dq H. apply (proj2 (circ_exact_ok s p dp q dq)) in H.
  assert (L : @length R q = ci_dim s).
  { unfold circ_inclusion, dim in H. destruct (Nat.eqb_spec (ci_dim s) (@length (car RR) q)) as [E|E]; [symmetry; exact E|]. discriminate. }
  split; [exact L|]. destruct (circ_inclusion_R s q L) as [[_ I]|[E _]]; [exact I|]. congruence.
Qed.
Print Assumptions C50_first_order_exact_reals.
(** Exact reals, a step that starts off the centre, leaves the ball and is not tangential: with [t] the parameter where the distance from the centre, taken to first order
    (|p| + t * radial part of the displacement), reaches the radius and [k] = |p| * (first order excess over the radius) / radius^2, the end point is moved by -2k times
    the point at [t], and accepted exactly when that is inside. *)
Theorem C50_first_order_position : forall (s : circ RR) (p dp : list R), built_circ s -> length p = ci_dim s -> length dp = ci_dim s ->
  (0 < euclid_norm p)%R -> (ci_size s < euclid_norm (along p dp 1))%R -> dot p dp <> 0%R ->
  exists t k q dp', (euclid_norm p + t * (dot p dp / euclid_norm p) = ci_size s)%R /\
    (k * (ci_size s : R) ^ 2 = euclid_norm p * (euclid_norm p + dot p dp / euclid_norm p - ci_size s))%R /\
    q = along (along p dp 1) (along p dp t) (- (2 * k)) /\ dp' = map (fun x => x * (1 - 2 * k * t))%R dp /\
    ((euclid_norm q <= ci_size s)%R -> circ_check_bc_first_order s p dp = (q, dp', Ok tt)) /\
    ((ci_size s < euclid_norm q)%R -> circ_check_bc_first_order s p dp = (q, dp', Err TooLargeTimeStep)).
Proof. exact first_order_R. Qed.
Print Assumptions C50_first_order_position.
(** It is correct to first order: for a step no longer than the radius that leaves the ball also to first order, its position is at most 2 |dp|^2 / radius away from the
    exact mirror image of C49. *)
Theorem C50_first_order_close_to_exact : forall (s : circ RR) (p dp qe qf de df : list R) oe ofo, built_circ s -> length p = ci_dim s -> length dp = ci_dim s ->
  (0 < euclid_norm p <= ci_size s)%R -> (euclid_norm dp <= ci_size s)%R -> (ci_size s < euclid_norm (along p dp 1))%R ->
  (0 < dot p dp)%R -> (ci_size s <= euclid_norm p + dot p dp / euclid_norm p)%R ->
  circ_check_bc_exact s p dp = (qe, de, oe) -> circ_check_bc_first_order s p dp = (qf, df, ofo) ->
  (euclid qf qe <= 2 * euclid_norm dp ^ 2 / ci_size s)%R.
Proof. exact first_order_close. Qed.
Print Assumptions C50_first_order_close_to_exact.
(** In the ball of radius 4, from 3 with displacement 2: exact 3, first order 5 - 2 * (3/4) * 1 = 7/2. *)
Example first_order_demo : exists s : circ RR, built_circ s /\ ci_dim s = 1%nat /\ (ci_size s : R) = 4%R /\
  (0 < euclid_norm [3] <= 4 /\ euclid_norm [2] <= 4 /\ 4 < euclid_norm (along [3] [2] 1) /\ 0 < dot [3] [2] /\ 4 <= euclid_norm [3] + dot [3] [2] / euclid_norm [3])%R.
Proof.
  exists (Circ ContinuousCircular Reflection (4 : RR)%R 1). split.
  { left. exists (4 : RR)%R, 1%nat. assert (E : leb (4 : RR)%R s0 = false) by (change (Rleb 4 0 = false); unfold Rleb; destruct (Rle_dec 4 0); [lra|reflexivity]).
    unfold circ_new. rewrite E. reflexivity. }
  split; [reflexivity|]. split; [reflexivity|].
  assert (N : forall x, (0 <= x)%R -> euclid_norm [x] = x).
  { intros x H. unfold euclid_norm, rsum. cbn [map fold_right]. rewrite Rplus_0_r. now apply sqrt_pow2. }
  unfold along, dot, rsum. cbn [map combine fold_right fst snd]. rewrite !N by lra. lra.
Qed.
(** Doubles: a position without NaN that is accepted satisfies the bound of C28. *)
Theorem C50_f64_numbers_inside : forall (lm : libm) (s : circ (F64 lm)) (p dp q dq : list b64), fin (ci_size s : b64) = true -> (0 <= B2 (ci_size s))%R ->
  circ_check_bc_first_order s p dp = (q, dq, Ok tt) -> Forall (fun x => nan x = false) q ->
  finite_pos q /\ ((1 - u64) ^ (length q + 3) * euclid_norm (reals q) ^ 2 <= B2 (ci_size s) ^ 2 + INR (length q) * eta64)%R.
Proof.
  intros lm s p dp q dq F P H N. apply (proj2 (circ_exact_ok s p dp q dq)) in H. pose proof (circ_inclusion_finite lm s q F N H) as Fq. split; [exact Fq|].
  apply (proj1 (circ_inclusion_64 lm s q (circ_inc_dim lm s q true H) F P Fq)). exact H.
Qed.
Print Assumptions C50_f64_numbers_inside.
(** Doubles: false.  A step out of the ball that starts at its centre divides 0 by 0; the result is not a number and is accepted. *)
Theorem C50_first_order_from_centre_counterexample : forall lm : libm, exists (s : circ (F64 lm)) (p dp q dq : list b64),
  built_circ s /\ finite_pos p /\ finite_pos dp /\ length p = ci_dim s /\ length dp = ci_dim s /\ circ_inclusion s p = Ok true /\
  circ_check_bc_first_order s p dp = (q, dq, Ok tt) /\ Exists (fun x => nan x = true) q.
Proof.
  intros lm. exists (Circ ContinuousCircular Reflection (b64_of_Z 2 : F64 lm) 1), [b64_of_Z 0], [b64_of_Z 3].
  set (s := Circ ContinuousCircular Reflection (b64_of_Z 2 : F64 lm) 1).
  exists (fst (fst (circ_check_bc_first_order s [b64_of_Z 0 : F64 lm] [b64_of_Z 3 : F64 lm]))), (snd (fst (circ_check_bc_first_order s [b64_of_Z 0 : F64 lm] [b64_of_Z 3 : F64 lm]))).
  split. { left. exists (b64_of_Z 2 : F64 lm), 1%nat. assert (E2 : leb (b64_of_Z 2 : F64 lm) s0 = false) by (vm_compute; reflexivity). unfold circ_new. rewrite E2. reflexivity. }
  split; [repeat constructor|]. split; [repeat constructor|]. split; [reflexivity|]. split; [reflexivity|].
  split; [vm_compute; reflexivity|]. split; [vm_compute; reflexivity|]. vm_compute. constructor. reflexivity.
Qed.
Print Assumptions C50_first_order_from_centre_counterexample.
