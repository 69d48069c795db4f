(** * C71: forces, random steps, pair directions and free walks in double precision are close to the exact ones.
    [u64] = 2^-53 is the relative error of one rounded operation, [eta64] = 2^-1075 the absolute error of one underflowing operation.
    The exact laws are those of C32 (forces), C34 (random moves), C08 (pairs) and C20 (walks that do not meet the wall). *)
From Coq Require Import Reals ZArith List Lra Lia.
From Flocq.IEEE754 Require Import BinarySingleNaN.
From Verif Require Import Base Scalar Float64 Model_Position Spec_Position Model_System Spec_System Model_Agent Spec_Agent Spec_Accuracy Spec_Force64
  Proof_Norm64 Proof_Rel64 Proof_Force64 Proof_Force64b Proof_Force64c Proof_Walk64 Proof_Inner64 Proof_Pair64.
Import ListNotations.
Open Scope R_scope.

(** Lennard-Jones: with X = size / r, the force 24 strength/size (2 X^13 - X^7) and the potential 4 strength (X^12 - X^6) have an error of at most 64 roundings of
    the attractive plus the repulsive part. *)
Theorem C71_lennard_jones_force : forall (lm : libm) (x : ljag (F64 lm)) (eps sig r : b64), lj_set x -> lj_strength x = eps -> lj_psize x = sig ->
  sized 50 eps -> sized 50 sig -> is_finite r = true -> B2R r <> 0 -> / 2 ^ 60 <= Rabs (B2R sig / B2R r) <= 2 ^ 60 ->
  let X := B2R sig / B2R r in let f : b64 := ljag_force x (r : F64 lm) in
  is_finite f = true /\ Rabs (B2R f - 24 * B2R eps / B2R sig * (2 * X ^ 13 - X ^ 7)) <= 64 * u64 * (Rabs (24 * B2R eps / B2R sig) * (2 * Rabs X ^ 13 + Rabs X ^ 7)).
Proof.
  intros lm x eps sig r (_ & E) <- <- (Fe & Be) (Fs & Bs) Fr Nr Bx. cbv zeta. unfold ljag_force. rewrite E.
  exact (lj_force_err (lj_strength x) (lj_psize x) r Fe Fs Fr Be Bs Nr Bx).
Qed.
Print Assumptions C71_lennard_jones_force.
Theorem C71_lennard_jones_potential : forall (lm : libm) (x : ljag (F64 lm)) (eps sig r : b64), lj_set x -> lj_strength x = eps -> lj_psize x = sig ->
  sized 50 eps -> sized 50 sig -> is_finite r = true -> B2R r <> 0 -> / 2 ^ 60 <= Rabs (B2R sig / B2R r) <= 2 ^ 60 ->
  let X := B2R sig / B2R r in let f : b64 := ljag_potential x (r : F64 lm) in
  is_finite f = true /\ Rabs (B2R f - 4 * B2R eps * (X ^ 12 - X ^ 6)) <= 64 * u64 * (Rabs (4 * B2R eps) * (Rabs X ^ 12 + Rabs X ^ 6)).
Proof.
  intros lm x eps sig r (E & _) <- <- (Fe & Be) (Fs & Bs) Fr Nr Bx. cbv zeta. unfold ljag_potential. rewrite E.
  exact (lj_potential_err (lj_strength x) (lj_psize x) r Fe Fs Fr Be Nr Bx).
Qed.
Print Assumptions C71_lennard_jones_potential.

(** Exponential interaction: with T = - r / gamma, the potential strength exp T and the force strength/gamma exp T have a relative error of (k + 2 |T| + 7) roundings,
    when the exponential function of the machine is accurate up to k roundings, plus one underflow. *)
Theorem C71_exponential_potential : forall (lm : libm) (k : R) (x : expag (F64 lm)) (s ga r : b64), exp_accurate lm k -> 0 <= k <= 1000 -> exp_set x -> ex_strength x = s -> ex_gamma x = ga ->
  sized 400 s -> sized 400 ga -> 0 < B2R ga -> is_finite r = true -> 0 <= B2R r -> B2R r / B2R ga <= 600 ->
  let T := - B2R r / B2R ga in let f : b64 := expag_potential x (r : F64 lm) in
  is_finite f = true /\ Rabs (B2R f - B2R s * exp T) <= (k + 2 * Rabs T + 7) * u64 * Rabs (B2R s * exp T) + eta64.
Proof.
  intros lm k x s ga r HA Hk (E & _) <- <- (Fs & Bs) (Fg & Bg) Pg Fr Pr HT. cbv zeta. unfold expag_potential. rewrite E.
  refine (exp_err lm k r (ex_gamma x) (ex_strength x) 0 _ HA Hk Fr Fg Pr Pg HT (rel_exact _ Fs) (Nat.le_0_l 1) _).
  apply Rle_trans with (1 := proj2 Bs). apply Rle_pow; [lra|lia].
Qed.
Print Assumptions C71_exponential_potential.
Theorem C71_exponential_force : forall (lm : libm) (k : R) (x : expag (F64 lm)) (s ga r : b64), exp_accurate lm k -> 0 <= k <= 1000 -> exp_set x -> ex_strength x = s -> ex_gamma x = ga ->
  sized 400 s -> sized 400 ga -> 0 < B2R ga -> is_finite r = true -> 0 <= B2R r -> B2R r / B2R ga <= 600 ->
  let T := - B2R r / B2R ga in let f : b64 := expag_force x (r : F64 lm) in
  is_finite f = true /\ Rabs (B2R f - B2R s / B2R ga * exp T) <= (k + 2 * Rabs T + 7) * u64 * Rabs (B2R s / B2R ga * exp T) + eta64.
Proof.
  intros lm k x s ga r HA Hk (_ & E) <- <- (Fs & Bs) (Fg & Bg) Pg Fr Pr HT. cbv zeta. unfold expag_force. rewrite E.
  destruct (brel_div 0 0 400 400 _ _ _ _ (brel_exact 400 _ Fs Bs) (brel_exact 400 _ Fg Bg) ltac:(lia) ltac:(lia)) as (R1 & B1).
  refine (exp_err lm k r (ex_gamma x) (Bdiv mode_NE (ex_strength x) (ex_gamma x)) 1 _ HA Hk Fr Fg Pr Pg HT R1 (Nat.le_refl 1) _).
  apply Rle_trans with (1 := proj2 B1). apply Rle_pow; [lra|lia].
Qed.
Print Assumptions C71_exponential_force.

(** One random step: coordinate [i] of the displacement is the sample times sqrt (2 c dt), up to four roundings. *)
Theorem C71_random_step : forall (lm : libm) (G : rng (F64 lm)) (a : anyagent (F64 lm)) (c dt : b64) (g : rstate G), a_mtype a = Brownian (c : F64 lm) ->
  sized 300 c -> sized 300 dt -> 0 < B2R c -> 0 < B2R dt ->
  let zs : list b64 := nth_block (gauss G) (a_dim a) 0 g in Forall ordinary zs ->
  exists (g1 : rstate G) (v : list b64), a_random_move a g (dt : F64 lm) = (g1, Ok (v : pos (F64 lm))) /\
    Forall2 (fun z x => close 4 x (B2R z * sqrt (2 * B2R c * B2R dt))) zs v.
Proof. exact random_step. Qed.
Print Assumptions C71_random_step.

(** The distance and the unit vector between two agents of a kind (positions of dimension n, differences zero or of ordinary size, not all zero). *)
Theorem C71_pair : forall (lm : libm) (a b : anyagent (F64 lm)) (p q : list b64), same_kind a b -> coherent a -> coherent b -> a_dim a = a_dim b -> a_pos a = p -> a_pos b = q -> INR (length p) <= 2 ^ 50 ->
  Forall2 (fun x y => is_finite x = true /\ is_finite y = true /\ comparable x y) p q -> reals p <> reals q ->
  exists (e : list b64) (d : b64), a_mutual_displacement a b = Ok ((e : pos (F64 lm)), (d : F64 lm)) /\ a_mutual_distance a b = Ok (d : F64 lm) /\ length e = length p /\
    close (INR (length p) + 4) d (euclid (reals p) (reals q)) /\
    forall i, (i < length p)%nat -> close (INR (length p) + 7) (nth i e (b64_of_Z 0)) ((coord i q - coord i p) / euclid (reals p) (reals q)).
Proof. exact pair_64. Qed.
Print Assumptions C71_pair.

(** A walk that never meets the wall ends at the start plus the sum of its displacements, up to one rounding per step of the total length, in every system. *)
Theorem C71_free_walk : forall (lm : libm) (G : rng (F64 lm)) (sys : anysys (F64 lm)) (vs : list (list b64)) (p : list b64),
  INR (length vs) <= 2 ^ 50 -> Forall (fun v : list b64 => length v = length p) vs ->
  Forall (fun x => is_finite x = true /\ Rabs (B2R x) <= 2 ^ 900) p -> Forall (Forall (fun x => is_finite x = true /\ Rabs (B2R x) <= 2 ^ 900)) vs ->
  unhindered (S := F64 lm) (sc_inclusion (core (G := G) sys)) p vs ->
  exists q : list b64, walked (S := F64 lm) (sc_check_bc (core (G := G) sys)) p vs q /\ length q = length p /\
    forall i, (i < length p)%nat -> is_finite (nth i q (b64_of_Z 0)) = true /\
      Rabs (coord i q - (coord i p + rsum (coords i vs))) <= 2 * INR (length vs) * u64 * (Rabs (coord i p) + magnitude (coords i vs)).
Proof. intros lm G sys vs p. exact (free_walk lm (G := G) sys vs p). Qed.
Print Assumptions C71_free_walk.
(** And where a walk ends is determined by its displacements. *)
Theorem C71_walk_deterministic : forall (S : scalar) (bc : pos S -> pos S -> pos S * outcome unit) (vs : list (pos S)) (p q q' : pos S), walked bc p vs q -> walked bc p vs q' -> q = q'.
Proof. intros S bc vs p q q'. apply walked_det. Qed.
Print Assumptions C71_walk_deterministic.

(** The same for the moves of a Brownian agent: the position is the start plus sqrt (2 c dt) times the sum of the Gaussian samples. *)
Theorem C71_brownian_walk : forall (lm : libm) (G : rng (F64 lm)) (sys : anysys (F64 lm)) (a : anyagent (F64 lm)) (c dt : b64) (g g' : rstate G) (vs : list (list b64)) (p : list b64),
  a_mtype a = Brownian (c : F64 lm) -> sized 300 c -> sized 300 dt -> 0 < B2R c -> 0 < B2R dt ->
  INR (length vs) <= 2 ^ 50 -> drawn_moves a (dt : F64 lm) g vs g' -> length p = a_dim a -> Forall (fun x => is_finite x = true /\ Rabs (B2R x) <= 2 ^ 900) p ->
  let zs : list (list b64) := map (fun k => nth_block (gauss G) (a_dim a) k g) (seq 0 (length vs)) in
  Forall (Forall ordinary) zs -> unhindered (S := F64 lm) (sc_inclusion (core (G := G) sys)) p vs ->
  exists q : list b64, walked (S := F64 lm) (sc_check_bc (core (G := G) sys)) p vs q /\ length q = length p /\
    forall i, (i < length p)%nat -> is_finite (nth i q (b64_of_Z 0)) = true /\
      Rabs (coord i q - (coord i p + sqrt (2 * B2R c * B2R dt) * rsum (coords i zs))) <=
        (4 * INR (length vs) + 8) * u64 * (Rabs (coord i p) + sqrt (2 * B2R c * B2R dt) * magnitude (coords i zs)).
Proof. intros lm G sys a c dt g g' vs p. exact (brownian_walk lm (G := G) sys a c dt g g' vs p). Qed.
Print Assumptions C71_brownian_walk.

(** The inner product of two positions. *)
Theorem C71_inner_product : forall (lm : libm) (p q : list b64), length p = length q -> INR (length p) <= 2 ^ 50 -> exists s : b64, inner_product (S := F64 lm) p q = Ok (s : F64 lm) /\
  (is_finite s = true -> Rabs (B2R s - dot (reals p) (reals q)) <= (4 * INR (length p) + 1) * u64 * dot_abs (reals p) (reals q) + 2 * INR (length p) * eta64).
Proof. exact inner_64. Qed.
Print Assumptions C71_inner_product.

(** The premise on the exponential function can be met: the correctly rounded exponential is accurate up to one rounding. *)
Example C71_exp_accurate_met : exp_accurate round_lm 1.
Proof. exact round_lm_accurate. Qed.

(** The other premises: whole numbers up to 2^50 are [sized]; a Lennard-Jones agent of size 1 and strength 3 at distance 2; two agents at (0,0) and (3,4);
    a walk with two steps inside a disc of radius 4, and a generator whose samples are [ordinary]. *)
Lemma sized_Z k z : (1 <= z < 2 ^ 53)%Z -> IZR z <= 2 ^ k -> sized k (b64_of_Z z).
Proof. intros H K. destruct (brel_Z z k H K) as (R1 & B). destruct (of_Z_exact z) as (F & E); [lia|]. split; [exact F|]. rewrite E. exact B. Qed.
Lemma pow_at_least k : (10 <= k)%nat -> 1024 <= 2 ^ k.
Proof. intros H. apply Rle_trans with (2 ^ 10); [simpl; lra|]. apply Rle_pow; [lra|exact H]. Qed.
Lemma Z_val z : (0 <= z < 2 ^ 53)%Z -> is_finite (b64_of_Z z) = true /\ B2R (b64_of_Z z) = IZR z.
Proof. intros H. destruct (of_Z_exact z) as (F & E); [lia|]. split; assumption. Qed.
Example C71_lennard_jones_met : forall lm : libm, exists (x : ljag (F64 lm)) (eps sig r : b64),
  ljag_new (S := F64 lm) (LennardJones (b64_of_Z 1 : F64 lm)) (Brownian (b64_of_Z 1 : F64 lm)) [b64_of_Z 0 : F64 lm] (b64_of_Z 3 : F64 lm) = Ok x /\
  lj_set x /\ lj_strength x = eps /\ lj_psize x = sig /\ sized 50 eps /\ sized 50 sig /\ is_finite r = true /\ B2R r <> 0 /\ / 2 ^ 60 <= Rabs (B2R sig / B2R r) <= 2 ^ 60.
Proof.
  intros lm. exists (Ljag (S := F64 lm) ContinuousPassiveInteracting (LennardJones (b64_of_Z 1 : F64 lm)) (Brownian (b64_of_Z 1 : F64 lm)) (SpecificPosition [b64_of_Z 0 : F64 lm]) 1 [b64_of_Z 0 : F64 lm] (b64_of_Z 1 : F64 lm)
    (b64_of_Z 3 : F64 lm) (mul (of_Z 4) (b64_of_Z 3 : F64 lm)) (div (mul (of_Z 24) (b64_of_Z 3 : F64 lm)) (b64_of_Z 1 : F64 lm))). exists (b64_of_Z 3), (b64_of_Z 1), (b64_of_Z 2).
  split; [reflexivity|]. split; [split; reflexivity|]. split; [reflexivity|]. split; [reflexivity|]. pose proof (pow_at_least 50 ltac:(lia)). pose proof (pow_at_least 60 ltac:(lia)) as P60.
  split; [apply sized_Z; [lia|lra]|]. split; [apply sized_Z; [lia|lra]|]. destruct (Z_val 2 ltac:(lia)) as (F2 & E2). destruct (Z_val 1 ltac:(lia)) as (_ & E1). rewrite E1, E2. split; [exact F2|]. split; [lra|].
  rewrite Rabs_pos_eq by lra. split; [|lra]. apply Rle_trans with (/ 1024); [apply Rinv_le_contravar; lra|lra].
Qed.
Example C71_exponential_met : exists (x : expag (F64 round_lm)) (s ga r : b64),
  expag_new (S := F64 round_lm) (Exponential 1 (b64_of_Z 2 : F64 round_lm)) (Brownian (b64_of_Z 1 : F64 round_lm)) [b64_of_Z 0 : F64 round_lm] (b64_of_Z 3 : F64 round_lm) = Ok x /\
  exp_set x /\ ex_strength x = s /\ ex_gamma x = ga /\ sized 400 s /\ sized 400 ga /\ 0 < B2R ga /\ is_finite r = true /\ 0 <= B2R r /\ B2R r / B2R ga <= 600.
Proof.
  set (lm := round_lm). exists (Expag (S := F64 lm) ContinuousPassiveInteracting (Exponential 1 (b64_of_Z 2 : F64 lm)) (Brownian (b64_of_Z 1 : F64 lm)) (SpecificPosition [b64_of_Z 0 : F64 lm]) 1 [b64_of_Z 0 : F64 lm] (b64_of_Z 2 : F64 lm)
    (b64_of_Z 3 : F64 lm) (b64_of_Z 3 : F64 lm) (div (b64_of_Z 3 : F64 lm) (b64_of_Z 2 : F64 lm))). exists (b64_of_Z 3), (b64_of_Z 2), (b64_of_Z 5).
  split; [reflexivity|]. split; [split; reflexivity|]. split; [reflexivity|]. split; [reflexivity|]. pose proof (pow_at_least 400 ltac:(lia)).
  split; [apply sized_Z; [lia|lra]|]. split; [apply sized_Z; [lia|lra]|]. destruct (Z_val 2 ltac:(lia)) as (F2 & E2). destruct (Z_val 5 ltac:(lia)) as (F5 & E5). rewrite E2, E5. split; [lra|]. split; [exact F5|]. split; lra.
Qed.
Definition pair_agent (lm : libm) (p : list b64) : anyagent (F64 lm) := AIndep (Indep ContinuousPassiveIndependent (Brownian (b64_of_Z 1 : F64 lm)) (SpecificPosition (p : pos (F64 lm))) (length p) (p : pos (F64 lm))).
Example C71_pair_met : forall lm : libm, let p := [b64_of_Z 0; b64_of_Z 0] in let q := [b64_of_Z 3; b64_of_Z 4] in
  let a := pair_agent lm p in let b := pair_agent lm q in
  same_kind a b /\ coherent a /\ coherent b /\ a_dim a = a_dim b /\ a_pos a = p /\ a_pos b = q /\ INR (length p) <= 2 ^ 50 /\
  Forall2 (fun x y => is_finite x = true /\ is_finite y = true /\ comparable x y) p q /\ reals p <> reals q.
Proof.
  intros lm. cbv zeta. destruct (Z_val 0 ltac:(lia)) as (F0 & E0). destruct (Z_val 3 ltac:(lia)) as (F3 & E3). destruct (Z_val 4 ltac:(lia)) as (F4 & E4). pose proof (pow_at_least 50 ltac:(lia)). pose proof (pow_at_least 200 ltac:(lia)) as P.
  assert (I : / 2 ^ 200 <= 1). { apply Rle_trans with (/ 1024); [apply Rinv_le_contravar; lra|lra]. }
  repeat match goal with |- _ /\ _ => split end; try reflexivity.
  - change (INR (length [b64_of_Z 0; b64_of_Z 0])) with (1 + 1). lra.
  - constructor; [|constructor; [|constructor]]; (split; [exact F0|]; split; [first [exact F3|exact F4]|]; right; rewrite E0; first [rewrite E3|rewrite E4]; rewrite Rabs_pos_eq by lra; lra).
  - intros Q. apply (f_equal (fun l => nth 0 l 0)) in Q. cbn [reals map nth] in Q. change (B2R (b64_of_Z 0) = B2R (b64_of_Z 3)) in Q. rewrite E0, E3 in Q. lra.
Qed.
(** A generator that always delivers the sample 1, a disc of radius 4 and an agent with c = 1/2, dt = 1 (so that sqrt (2 c dt) = 1). *)
Definition ones (lm : libm) : rng (F64 lm) := Rng (S := F64 lm) unit (fun g => (b64_of_Z 0 : F64 lm, g)) (fun g => (b64_of_Z 1 : F64 lm, g)).
Definition walk_disc (lm : libm) : anysys (F64 lm) := ACirc (Circ ContinuousCircular Reflection (b64_of_Z 4 : F64 lm) 2).
Definition walk_step : list b64 := map (fun z => Bmult mode_NE z (Bsqrt mode_NE (Bmult mode_NE (Bmult mode_NE (b64_of_Z 2) (Bdiv mode_NE (b64_of_Z 1) (b64_of_Z 2))) (b64_of_Z 1)))) [b64_of_Z 1; b64_of_Z 1].
Lemma is_ok_true (o : outcome bool) : match o with Ok b => b | _ => false end = true -> o = Ok true.
Proof. destruct o as [[|]| | |]; intros E; try discriminate; reflexivity. Qed.
Lemma unhindered2 {S : scalar} (incl : pos S -> outcome bool) (p v w : pos S) : incl (vsum p v) = Ok true -> incl (vsum (vsum p v) w) = Ok true -> unhindered incl p [v; w].
Proof. intros A B. repeat split; assumption. Qed.
Lemma walk_inside (lm : libm) : unhindered (S := F64 lm) (sc_inclusion (core (G := ones lm) (walk_disc lm))) [b64_of_Z 0; b64_of_Z 0] [walk_step; walk_step].
Proof. apply unhindered2; apply is_ok_true; vm_compute; reflexivity. Qed.
Example C71_brownian_walk_met : forall lm : libm, let a := AIndep (Indep (S := F64 lm) ContinuousPassiveIndependent (Brownian (Bdiv mode_NE (b64_of_Z 1) (b64_of_Z 2) : F64 lm)) Uniform 2 [b64_of_Z 0 : F64 lm; b64_of_Z 0 : F64 lm]) in
  let p := [b64_of_Z 0; b64_of_Z 0] in let vs := [walk_step; walk_step] in
  drawn_moves (G := ones lm) a (b64_of_Z 1 : F64 lm) tt vs tt /\ unhindered (S := F64 lm) (sc_inclusion (core (G := ones lm) (walk_disc lm))) p vs /\
  Forall (Forall ordinary) (map (fun k => nth_block (gauss (ones lm)) (a_dim a) k tt) (seq 0 (length vs))) /\ Forall (Forall (fun x => is_finite x = true /\ Rabs (B2R x) <= 2 ^ 900)) vs.
Proof.
  intros lm. cbv zeta. split; [|split; [|split]].
  - exists tt. split; [reflexivity|]. exists tt. split; reflexivity.
  - exact (walk_inside lm).
  - assert (O : ordinary (b64_of_Z 1)). { destruct (sized_Z 300 1 ltac:(lia)) as (A & B); [pose proof (pow_at_least 300 ltac:(lia)); lra|]. split; [exact A|]. right. split; assumption. }
    constructor; [|constructor; [|constructor]]; (constructor; [exact O|constructor; [exact O|constructor]]).
  - destruct (step_close (Bdiv mode_NE (b64_of_Z 1) (b64_of_Z 2)) (b64_of_Z 1) (b64_of_Z 1)) as (A & _ & B).
    + destruct (Z_val 1 ltac:(lia)) as (F1 & E1). destruct (Z_val 2 ltac:(lia)) as (F2 & E2). split; [reflexivity|].
      assert (Q : B2R (Bdiv mode_NE (b64_of_Z 1) (b64_of_Z 2)) = / 2). { assert (E : Bdiv mode_NE (b64_of_Z 1) (b64_of_Z 2) = Bdiv mode_NE (b64_of_Z 1) (b64_of_Z 2)) by reflexivity. vm_compute. lra. }
      rewrite Q. rewrite Rabs_pos_eq by lra. pose proof (pow_at_least 300 ltac:(lia)). split; [apply Rle_trans with (/ 1024); [apply Rinv_le_contravar; lra|lra]|lra].
    + apply sized_Z; [lia|]. pose proof (pow_at_least 300 ltac:(lia)); lra.
    + vm_compute. lra.
    + destruct (Z_val 1 ltac:(lia)) as (_ & ->). lra.
    + reflexivity.
    + right. apply sized_Z; [lia|]. pose proof (pow_at_least 300 ltac:(lia)); lra.
    + assert (O : is_finite (Bmult mode_NE (b64_of_Z 1) (Bsqrt mode_NE (Bmult mode_NE (Bmult mode_NE (b64_of_Z 2) (Bdiv mode_NE (b64_of_Z 1) (b64_of_Z 2))) (b64_of_Z 1)))) = true /\
        Rabs (B2R (Bmult mode_NE (b64_of_Z 1) (Bsqrt mode_NE (Bmult mode_NE (Bmult mode_NE (b64_of_Z 2) (Bdiv mode_NE (b64_of_Z 1) (b64_of_Z 2))) (b64_of_Z 1))))) <= 2 ^ 900) by (split; assumption).
      constructor; [|constructor; [|constructor]]; (constructor; [exact O|constructor; [exact O|constructor]]).
Qed.
