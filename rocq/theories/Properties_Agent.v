(** Properties C31-C35 and the concrete part of C08: agents.
    Statements use [Model_Agent], [Model_System] (the code), [Spec_Agent], [Spec_System], [Spec_Position] (plain geometry, samples). *)
From Coq Require Import Reals ZArith List Lra Lia.
From Flocq.IEEE754 Require Import BinarySingleNaN.
From Verif Require Import Base Scalar Float64 Model_LinkedList Spec_LinkedList Refine_LinkedList Proof_LinkedList5 Model_Position Spec_Position
  Model_System Spec_System Properties_System Model_Agent Spec_Agent Proof_Agent2 Proof_Agent3 Proof_Agent4.
Import ListNotations.
Local Open Scope nat_scope.

(** * C31: uniform initialisation *)
(** Exact reals, ball or cube: [renew_uniform] is rejection sampling.  It ends with the first candidate that is inside the system
    and off the target, having consumed exactly the samples up to it, and keeps the agent's parameters; it can only go on for
    ever ([Fuel]) while no such candidate comes.  (A merging Levy agent is placed, then reported as not provided.) *)
Theorem C31_renew_is_rejection_sampling : forall (G : rng RR) (sy : anysys RR) (t : target RR) inner fuel (g : rstate G) (a : anyagent RR),
  built sy -> ~ is_cyl sy -> unif_R G -> length (tg_pos t) = sysdim sy ->
  exists b g' r, a_renew inner fuel (core sy) t g a = (b, g', r) /\ same_kind a b /\ same_parameters a b /\
   ((first_acceptable sy t g (a_pos b) g' /\
      (r = Ok tt \/ (r = Err FeatureNotProvided /\ a_mtype a = Levy /\ exists m, a = AMerger m)) /\
      (coherent a -> coherent b /\ a_dim b = sysdim sy)) \/
    (r = Fuel /\ forall j, j < Nat.min inner fuel -> ~ acceptable sy t (candidate sy g j))).
Proof. exact @renew_R. Qed.
Print Assumptions C31_renew_is_rejection_sampling.

(** The same for [new_uniform]: the new agent has the parameters asked for. *)
Theorem C31_new_is_rejection_sampling : forall (G : rng RR) (sy : anysys RR) (t : target RR) inner fuel (g : rstate G) (rc : recipe RR),
  built sy -> ~ is_cyl sy -> unif_R G -> length (tg_pos t) = sysdim sy -> recipe_ok (sysdim sy) rc ->
  (exists b g', a_new_uniform inner fuel (core sy) t g rc = (g', Ok b) /\ made_as rc b /\ coherent b /\ a_dim b = sysdim sy /\
     first_acceptable sy t g (a_pos b) g') \/
  ((exists g', a_new_uniform inner fuel (core sy) t g rc = (g', Fuel)) /\
   forall j, j < Nat.min inner fuel -> ~ acceptable sy t (candidate sy g j)).
Proof. exact @new_R. Qed.
Print Assumptions C31_new_is_rejection_sampling.

(** Any scalar: an interaction that does not fit is refused before any sample is drawn. *)
Theorem C31_unfit_recipe_refused : forall (S : scalar) (G : rng S) (sy : anysys S) (t : target S) inner fuel (g : rstate G) (rc : recipe S),
  ~ recipe_ok (sysdim sy) rc -> a_new_uniform inner fuel (core sy) t g rc = (g, Err InvalidArgumentInput).
Proof.
  intros S G sy t inner fuel g rc H. destruct (place inner fuel (core sy) t g (sc_out (core (G := G) sy))) as ((q, g1), r) eqn:E.
  exact (proj2 (new_form sy t inner fuel g rc q g1 r E) H).
Qed.
Print Assumptions C31_unfit_recipe_refused.

(** Binary64, ball or cube: whenever the call succeeds the position consists of ordinary numbers, is inside by the system's own
    test and off the target by the target's own test. *)
Theorem C31_f64_renewed_inside_off_target : forall (lm : libm) (G : rng (F64 lm)) (sy : anysys (F64 lm)) (t : target (F64 lm)) inner fuel
    (g : rstate G) (a b : anyagent (F64 lm)) g',
  fits sy -> ~ is_cyl sy -> unif_64 G -> a_renew inner fuel (core sy) t g a = (b, g', Ok tt) ->
  inside64 sy (a_pos b) /\ check_find t (a_pos b) = Ok false /\ same_kind a b /\ same_parameters a b.
Proof. exact @renew_64. Qed.
Print Assumptions C31_f64_renewed_inside_off_target.
Theorem C31_f64_new_inside_off_target : forall (lm : libm) (G : rng (F64 lm)) (sy : anysys (F64 lm)) (t : target (F64 lm)) inner fuel
    (g : rstate G) rc (b : anyagent (F64 lm)) g',
  fits sy -> ~ is_cyl sy -> unif_64 G -> a_new_uniform inner fuel (core sy) t g rc = (g', Ok b) ->
  inside64 sy (a_pos b) /\ check_find t (a_pos b) = Ok false /\ made_as rc b /\ coherent b /\ recipe_ok (sysdim sy) rc.
Proof. exact @new_64. Qed.
Print Assumptions C31_f64_new_inside_off_target.

(** A target of another dimension never gives a success. *)
Theorem C31_wrong_target_never_succeeds : forall (S : scalar) (G : rng S) (sy : anysys S) (t : target S) inner fuel (g : rstate G) (a : anyagent S),
  (match sy with ACyl s => exists d, cy_type s = ContinuousCylindrical d /\ d <= cy_dim s | _ => True end) ->
  length (tg_pos t) <> sysdim sy -> snd (a_renew inner fuel (core sy) t g a) <> Ok tt.
Proof. exact @renew_wrong_target. Qed.
Print Assumptions C31_wrong_target_never_succeeds.

(** Cylinder (exact reals): an agent made or renewed is off the target and radially inside, but only within a cylinder of twice the
    length (it uses the in-place random position, C24). *)
Theorem C31_cylinder_agents : forall (G : rng RR) (s : cyl RR) d (t : target RR) inner fuel (g : rstate G) (b : anyagent RR) g',
  built_cyl s -> cy_type s = ContinuousCylindrical d -> unif_R G ->
  (forall a, a_renew inner fuel (core (ACyl s)) t g a = (b, g', Ok tt) ->
     in_cylinder (cy_dim s) d (cy_radius s) (2 * (cy_length s : R))%R (a_pos b) /\ check_find t (a_pos b) = Ok false /\ same_kind a b /\ same_parameters a b) /\
  (forall rc, a_new_uniform inner fuel (core (ACyl s)) t g rc = (g', Ok b) ->
     in_cylinder (cy_dim s) d (cy_radius s) (2 * (cy_length s : R))%R (a_pos b) /\ check_find t (a_pos b) = Ok false /\ made_as rc b /\ coherent b).
Proof.
  intros G s d t inner fuel g b g' B T U. split.
  - intros a. exact (renew_cyl s d t inner fuel g a b g' B T U).
  - intros rc. exact (new_cyl s d t inner fuel g rc b g' B T U).
Qed.
Print Assumptions C31_cylinder_agents.

(** Limit of C31 for cylinders: a fresh agent is placed at (0, 1.5) in a cylinder of length 1 (radius 1, target at (5,5), samples 1/2, 7/8). *)
Theorem C31_f64_cylinder_agent_outside_counterexample : forall lm : libm,
  (do s <- cyl_new (S := F64 lm) 1 (b64_of_Z 1) (b64_of_Z 1) 2;
   let t := target_new (S := F64 lm) [b64_of_Z 5; b64_of_Z 5] (b64_of_Z 1) in
   let '(g, r) := indep_new_uniform (G := alt_rng lm) 5 5 (cyl_core s) t true (Brownian (b64_of_Z 1 : F64 lm)) in
   do a <- r; Ok (map (fun x : b64 => B2SF x) (in_pos a), cyl_inclusion s (in_pos a))) =
  Ok ([B2SF (b64_of_Z 0); B2SF (Bdiv mode_NE (b64_of_Z 3) (b64_of_Z 2))], Ok false).
Proof. intros lm. vm_compute. reflexivity. Qed.
Print Assumptions C31_f64_cylinder_agent_outside_counterexample.

(** * C32: force = - d(potential)/dr *)
Theorem C32_exponential_force : forall (x : expag RR) (r : R), exp_set x -> (ex_gamma x : R) <> 0%R ->
  (expag_potential x r : R) = (ex_strength x * exp (- r / ex_gamma x))%R /\
  (expag_force x r : R) = (ex_strength x / ex_gamma x * exp (- r / ex_gamma x))%R /\
  derivable_pt_lim (fun r => expag_potential x r) r (- (expag_force x r : R))%R.
Proof. exact exp_force_R. Qed.
Print Assumptions C32_exponential_force.
Theorem C32_lennard_jones_force : forall (x : ljag RR) (r : R), lj_set x -> (lj_psize x : R) <> 0%R -> r <> 0%R ->
  (ljag_potential x r : R) = (4 * lj_strength x * ((lj_psize x / r) ^ 12 - (lj_psize x / r) ^ 6))%R /\
  (ljag_force x r : R) = (24 * lj_strength x / lj_psize x * (2 * (lj_psize x / r) ^ 13 - (lj_psize x / r) ^ 7))%R /\
  derivable_pt_lim (fun r => ljag_potential x r) r (- (ljag_force x r : R))%R.
Proof. exact lj_force_R. Qed.
Print Assumptions C32_lennard_jones_force.

(** Every way to make an agent stores the coefficients of its parameters ([exp_set], [lj_set]), and renewal keeps them. *)
Theorem C32_constructors_set_coefficients : forall (S : scalar),
  (forall it m p st (x : expag S), expag_new it m p st = Ok x -> exp_set x /\ ex_strength x = st /\ it = Exponential (length p) (ex_gamma x)) /\
  (forall (ar : expag_args S) l x, expag_convert_from ar = Ok l -> In x l -> exp_set x /\ ex_strength x = ea_strength ar /\ ex_gamma x = ea_gamma ar) /\
  (forall it m p st (x : ljag S), ljag_new it m p st = Ok x -> lj_set x /\ lj_strength x = st /\ it = LennardJones (lj_psize x)) /\
  (forall (ar : ljag_args S) l x, ljag_convert_from ar = Ok l -> In x l -> lj_set x /\ lj_strength x = la_strength ar /\ lj_psize x = la_psize ar).
Proof.
  intros S. split; [|split; [|split]].
  - intros it m p st x E. unfold expag_new in E. destruct it as [d ga| | |]; try discriminate. unfold dim in E.
    destruct (Nat.eqb_spec d (length p)) as [->|]; cbn in E; [|discriminate]. injection E as <-. cbn. repeat split; reflexivity.
  - intros ar l x E H. unfold expag_convert_from in E. destruct (ea_itype ar) as [p|].
    + destruct (dim p =? 0); cbn in E; [|destruct (dim p =? ea_dim ar); cbn in E; [|discriminate]];
      injection E as <-; apply repeat_spec in H; subst x; cbn; repeat split; reflexivity.
    + cbn in E. injection E as <-. apply repeat_spec in H. subst x. cbn. repeat split; reflexivity.
  - intros it m p st x E. unfold ljag_new in E. destruct it as [| | |a]; try discriminate. cbn in E. injection E as <-. cbn. repeat split; reflexivity.
  - intros ar l x E H. unfold ljag_convert_from in E. destruct (la_itype ar) as [p|]; cbn in E; injection E as <-;
    apply repeat_spec in H; subst x; cbn; repeat split; reflexivity.
Qed.
Print Assumptions C32_constructors_set_coefficients.
Theorem C32_uniform_and_renew_set_coefficients : forall (S : scalar) (G : rng S) (sy : anysys S) (t : target S) inner fuel (g : rstate G),
  (forall rc b g', a_new_uniform inner fuel (core sy) t g rc = (g', Ok b) -> coefficients_set b) /\
  (forall a, coefficients_set a -> coefficients_set (fst (fst (a_renew inner fuel (core sy) t g a)))).
Proof.
  intros S G sy t inner fuel g. destruct (place inner fuel (core sy) t g (sc_out (core (G := G) sy))) as ((q, g1), r) eqn:E. split.
  - intros rc b g' H. destruct rc as [m|m rad al|it m st|it m st]; cbn [a_new_uniform] in H.
    + destruct (indep_new_uniform inner fuel (core sy) t g m) as (g2, [x|e| |]); cbn in H; try discriminate. injection H as _ <-. exact I.
    + destruct (merger_new_uniform inner fuel (core sy) t g m rad al) as (g2, [x|e| |]); cbn in H; try discriminate. injection H as _ <-. exact I.
    + unfold expag_new_uniform in H. destruct it as [d ga| | |]; try discriminate H. destruct (d =? dim (sc_out (core (G := G) sy))); cbn in H; [|discriminate].
      rewrite E in H. destruct r as [[]|e| |]; cbn in H; try discriminate. injection H as _ <-. split; reflexivity.
    + unfold ljag_new_uniform in H. destruct it as [| | |a]; try discriminate H. cbn in H.
      rewrite E in H. destruct r as [[]|e| |]; cbn in H; try discriminate. injection H as _ <-. split; reflexivity.
  - intros a H. destruct (Proof_Agent.renew_form sy t inner fuel g a q g1 r E) as (b & r' & -> & K & P & _ & _ & _ & _ & C). cbn [fst].
    destruct a as [x|x|x|x], b as [y|y|y|y]; try contradiction; cbn in *; auto.
    + destruct H as (H1 & H2). destruct C as (C1 & C2); [congruence..|]. destruct P as (_ & _ & _ & _ & P1 & P2). unfold exp_set. now rewrite C1, C2, P1, P2.
    + destruct H as (H1 & H2). destruct C as (C1 & C2); auto. destruct P as (_ & _ & _ & _ & P1 & P2). unfold lj_set. now rewrite C1, C2, P1, P2.
Qed.
Print Assumptions C32_uniform_and_renew_set_coefficients.

(** * C33: pairs *)
(** Exact reals: the distance, and the unit vector towards the other agent; swapping negates the vector and keeps the distance. *)
Theorem C33_unit_vector_and_reaction : forall a b : anyagent RR, same_kind a b -> coherent a -> coherent b ->
  (a_dim a <> a_dim b -> a_mutual_displacement a b = Err InvalidDimension) /\
  (a_dim a = a_dim b -> exists e d, a_mutual_displacement a b = Ok (e, d) /\ d = euclid (a_pos a) (a_pos b) /\
     a_mutual_displacement b a = Ok (map Ropp e, d) /\ a_mutual_distance a b = Ok d /\
     (a_pos a <> a_pos b -> direction (a_pos a) (a_pos b) e d /\ euclid_norm e = 1%R)).
Proof. exact md_R. Qed.
Print Assumptions C33_unit_vector_and_reaction.
(** Any scalar: the in-place version writes what the other returns, and does nothing on a dimension mismatch. *)
Theorem C33_to_vec_agrees : forall (S : scalar) (a b : anyagent S) (v : pos S), same_kind a b -> coherent a -> coherent b ->
  (a_dim a <> a_dim b \/ a_dim a <> length v -> a_mutual_displacement_to_vec a b v = (v, Err InvalidDimension)) /\
  (a_dim a = a_dim b -> a_dim a = length v -> exists e d, a_mutual_displacement a b = Ok (e, d) /\ a_mutual_displacement_to_vec a b v = (e, Ok d)).
Proof.
  intros S a b v K Ca Cb. destruct (md_form a b K) as (E1 & E2 & _). rewrite E1, E2.
  destruct (mdv_eq _ _ _ _ v (eq_sym Ca) (eq_sym Cb)) as (M1 & M2). split; [exact M1|]. intros H H'.
  pose proof (proj2 (md_eq _ _ _ _ (eq_sym Ca) (eq_sym Cb)) H) as E. do 2 eexists. split; [exact E|]. exact (M2 H H' _ _ E).
Qed.
Print Assumptions C33_to_vec_agrees.
(** Binary64: action = reaction exactly, coordinate by coordinate (up to the sign of zero), with bit-identical distances. *)
Theorem C33_f64_reaction_exact : forall (lm : libm) (a b : anyagent (F64 lm)), same_kind a b -> coherent a -> coherent b -> a_dim a = a_dim b ->
  exists e e' (d : F64 lm), a_mutual_displacement a b = Ok (e, d) /\ a_mutual_displacement b a = Ok (e', d) /\
    Forall2 opposite64 e e' /\ a_mutual_distance a b = Ok d.
Proof. exact @md_64. Qed.
Print Assumptions C33_f64_reaction_exact.
(** Limit of C33 for agents at the same place: every coordinate of the direction is NaN (any dimension, any finite position). *)
Theorem C33_f64_coincident_nan_counterexample : forall (lm : libm) (a b : anyagent (F64 lm)),
  same_kind a b -> coherent a -> coherent b -> a_pos a = a_pos b -> finite_pos (a_pos a) ->
  exists e, a_mutual_displacement a b = Ok (e, B754_zero false : F64 lm) /\ length e = a_dim a /\ Forall (fun x : b64 => nan x = true) e.
Proof. exact @md_coincident. Qed.
Print Assumptions C33_f64_coincident_nan_counterexample.

(** * C34: random moves *)
Theorem C34_random_move : forall (S : scalar) (G : rng S) (a : anyagent S) (g : rstate G) dt c, a_mtype a = Brownian c ->
  a_random_move a g dt = (snd (draws (gauss G) (a_dim a) g),
     Ok (map (fun z => mul z (fsqrt (mul (mul s2 c) dt))) (fst (draws (gauss G) (a_dim a) g)))).
Proof. exact @random_move_draws. Qed.
Print Assumptions C34_random_move.
Theorem C34_random_move_to_vec : forall (S : scalar) (G : rng S) (a : anyagent S) (g : rstate G) dt c v,
  a_mtype a = Brownian c -> length v = a_dim a ->
  a_random_move_to_vec a g dt v =
  (map (fun xz => add (add (fst xz) (mul (snd xz) (fsqrt (mul (mul s2 c) dt)))) s0) (combine v (fst (draws (gauss G) (a_dim a) g))),
   snd (draws (gauss G) (a_dim a) g), Ok tt).
Proof. exact @random_move_to_draws. Qed.
Print Assumptions C34_random_move_to_vec.
(** Exact reals: coordinate [i] of the displacement grows by sqrt(2*D*dt) times sample [i]. *)
Theorem C34_random_move_to_vec_reals : forall (G : rng RR) (a : anyagent RR) (g : rstate G) (dt c : R) (v : list R),
  a_mtype a = Brownian (c : RR) -> length v = a_dim a ->
  exists w g', a_random_move_to_vec a g (dt : RR) v = (w, g', Ok tt) /\ length w = a_dim a /\
    forall i x z, nth_error v i = Some x -> nth_error (fst (draws (gauss G) (a_dim a) g)) i = Some z ->
      nth_error (w : list R) i = Some (x + sqrt (2 * c * dt) * z)%R.
Proof.
  intros G a g dt c v M L. do 2 eexists. split; [exact (random_move_to_draws a g dt c v M L)|]. split.
  - rewrite map_length, combine_length, Proof_Position.draws_length. cbn in *. lia.
  - intros i x z Hx Hz.
    rewrite (map_nth_error _ _ _ (Proof_Position.combine_nth_error _ _ _ _ _ Hx Hz)). cbn [fst snd].
    change (Some (x + z * sqrt (2 * c * dt) + 0)%R = Some (x + sqrt (2 * c * dt) * z)%R). f_equal. ring.
Qed.
Print Assumptions C34_random_move_to_vec_reals.
Theorem C34_errors_change_nothing : forall (S : scalar) (G : rng S) (a : anyagent S) (g : rstate G) dt v,
  (length v <> a_dim a -> a_random_move_to_vec a g dt v = (v, g, Err InvalidDimension)) /\
  (a_mtype a = Levy -> a_random_move a g dt = (g, Err FeatureNotProvided) /\
     (length v = a_dim a -> a_random_move_to_vec a g dt v = (v, g, Err FeatureNotProvided))).
Proof. exact @random_move_errors. Qed.
Print Assumptions C34_errors_change_nothing.

(** * C35: growth *)
Theorem C35_add_size : forall (S : scalar) (a : merger S) k,
  let a' := fst (merger_add_size a k) in
  mg_size a' = mg_size a + k /\ mg_type a' = mg_type a /\ mg_itype a' = mg_itype a /\ mg_dim a' = mg_dim a /\ mg_pos a' = mg_pos a /\
  mg_radius a' = mg_radius a /\ mg_alpha a' = mg_alpha a /\
  (forall c, mg_mtype a = Brownian c -> snd (merger_add_size a k) = Ok tt /\
     mg_mtype a' = Brownian (fpow (of_Z (Z.of_nat (mg_size a + k))) (opp (mg_alpha a)))) /\
  (mg_mtype a = Levy -> snd (merger_add_size a k) = Err FeatureNotProvided /\ mg_mtype a' = Levy).
Proof. exact @add_size_form. Qed.
Print Assumptions C35_add_size.
Theorem C35_merge_is_add_size : forall (S : scalar) (a b : merger S), merger_merge a b = merger_add_size a (merger_size b).
Proof. reflexivity. Qed.
Print Assumptions C35_merge_is_add_size.
(** The coefficient after growth follows the law D0*size^(-alpha) of the agent's own D0 exactly when D0 = 1. *)
Theorem C35_growth_law_iff_unit_coefficient : forall (D0 alpha radius : R) (p : list R) k,
  let a := fst (merger_add_size (merger_new (S := RR) (Brownian (D0 : RR)) p (radius : RR) (alpha : RR)) k) in
  mg_mtype a = Brownian (D0 * Rpower (INR (1 + k)) (- alpha) : RR)%R <-> D0 = 1%R.
Proof.
  intros D0 alpha radius p k a.
  assert (E : mg_mtype a = Brownian (Rpower (INR (1 + k)) (- alpha) : RR)).
  { unfold a, merger_add_size, recoeff, merger_new. cbn [mg_mtype mg_resize mg_size fst mg_remove mg_alpha]. rewrite INR_IZR_INZ. reflexivity. }
  rewrite E. pose proof (pow_pos_R (INR (1 + k)) (- alpha)) as P. split.
  - intros H. assert (H' : Rpower (INR (1 + k)) (- alpha) = (D0 * Rpower (INR (1 + k)) (- alpha))%R) by (injection H as H; exact H).
    apply (Rmult_eq_reg_r (Rpower (INR (1 + k)) (- alpha))); [|lra]. rewrite <- H'. ring.
  - intros ->. f_equal. change (Rpower (INR (1 + k)) (- alpha) = 1 * Rpower (INR (1 + k)) (- alpha))%R. ring.
Qed.
Print Assumptions C35_growth_law_iff_unit_coefficient.
(** Limit of C35: growing by 0 already changes an agent of diffusion coefficient 2 to coefficient 1. *)
Theorem C35_own_coefficient_lost_counterexample : forall (alpha radius : R) (p : list R),
  let a := merger_new (S := RR) (Brownian (2%R : RR)) p (radius : RR) (alpha : RR) in
  mg_mtype (fst (merger_add_size a 0)) = Brownian (1%R : RR) /\ mg_mtype a <> Brownian (1%R : RR).
Proof.
  intros alpha radius p. split.
  - unfold merger_add_size, recoeff, merger_new. cbn [mg_mtype mg_resize mg_size fst mg_remove mg_alpha].
    exact (f_equal (@Brownian RR) (pow_one_R alpha)).
  - cbn. intros H. assert (H' : 2%R = 1%R) by (injection H as H; exact H). lra.
Qed.
Print Assumptions C35_own_coefficient_lost_counterexample.
(** Renewal sets size 1 and coefficient 1 (exact reals), whatever the coefficient was. *)
Theorem C35_renewal_resets : forall (G : rng RR) (sy : anysys RR) (t : target RR) inner fuel (g : rstate G) (a : merger RR) b g',
  merger_renew inner fuel (core sy) t g a = (b, g', Ok tt) -> mg_size b = 1 /\ mg_mtype b = Brownian (1%R : RR).
Proof.
  intros G sy t inner fuel g a b g' H.
  destruct (place inner fuel (core sy) t g (sc_out (core (G := G) sy))) as ((q, g1), r) eqn:E.
  destruct (Proof_Agent.renew_form sy t inner fuel g (AMerger a) q g1 r E) as (b' & r' & E' & _ & _ & _ & _ & R & M & _).
  cbn [a_renew] in E'. rewrite H in E'. injection E' as <- <- <-. destruct R as [R|(_ & _ & R & _)]; [|discriminate]. subst r.
  destruct (M eq_refl) as (M1 & M2). split; [exact M1|]. rewrite M2. clear M M1 M2. destruct (mg_mtype a) as [c|] eqn:L.
  - exact (f_equal (@Brownian RR) (pow_one_R (mg_alpha a))).
  - exfalso. unfold merger_renew in H. rewrite Proof_Agent.renew_start_cases, E in H. unfold recoeff in H. cbn in H. rewrite L in H. discriminate.
Qed.
Print Assumptions C35_renewal_resets.
(** Growing twice is growing once by the sum. *)
Theorem C35_growth_additive : forall (S : scalar) (a : merger S) j k, (exists c, mg_mtype a = Brownian c) ->
  merger_add_size (fst (merger_add_size a j)) k = merger_add_size a (j + k).
Proof.
  intros S a j k (c & E). unfold merger_add_size, recoeff. destruct a as [ty m it d p r n al]. cbn in *. subst m. cbn. unfold mg_resize, mg_remove. cbn.
  now rewrite Nat.add_assoc.
Qed.
Print Assumptions C35_growth_additive.

(** * C08 for the crate's merging agents *)
Theorem C08_merging_agents_conserve_size : forall (S : scalar) (l : llist (merger S)) i j, reachable l ->
  (forall x, nth_error (contents l) i = Some x -> exists c, mg_mtype x = Brownian c) ->
  In i (live_of l) -> In j (live_of l) -> i <> j ->
  exists l', ll_merge merger_size merger_add_size l i j = (l', Ok tt) /\
    live_of l' = remove_live j (live_of l) /\ total_size merger_size l' = total_size merger_size l /\
    (forall k, k <> i -> nth_error (contents l') k = nth_error (contents l) k) /\
    (forall x y, nth_error (contents l) i = Some x -> nth_error (contents l) j = Some y ->
       contents l' = replace_nth i (fst (merger_add_size x (merger_size y))) (contents l)).
Proof.
  intros S l i j R B Hi Hj Hij. apply merge_conserves_local; auto. intros x y Hx Hy.
  destruct (add_size_brownian x (merger_size y) (B x Hx)) as (x' & ? & ? & _). eauto.
Qed.
Print Assumptions C08_merging_agents_conserve_size.
Theorem C08_merging_agents_any_history : forall (S : scalar) (l l' : llist (merger S)), reachable l ->
  Forall (fun x => exists c, mg_mtype x = Brownian c) (contents l) -> merge_steps merger_size merger_add_size l l' ->
  total_size merger_size l' = total_size merger_size l /\ (forall k, In k (live_of l') -> In k (live_of l)) /\
  Forall (fun x => exists c, mg_mtype x = Brownian c) (contents l').
Proof. intros S l l' R B H. apply (merge_steps_conserve_inv _ _ _ _ _ R (add_size_brownian (S := S)) B H). Qed.
Print Assumptions C08_merging_agents_any_history.
(** Limit of C08 without the liveness and distinctness conditions, which [merge] does not check: merging into a dead element, or an
    element into itself, succeeds and the size of [j] is gone; *)
Theorem C08_merge_loses_size_counterexample : forall (A : Type) (size : A -> nat) add_size (l : llist A) i j x y x', reachable l ->
  In j (live_of l) -> nth_error (contents l) i = Some x -> nth_error (contents l) j = Some y -> add_size x (size y) = (x', Ok tt) ->
  ~ In i (live_of l) \/ i = j ->
  exists l', ll_merge size add_size l i j = (l', Ok tt) /\ live_of l' = remove_live j (live_of l) /\
    total_size size l' + size y = total_size size l.
Proof. exact @merge_loses. Qed.
Print Assumptions C08_merge_loses_size_counterexample.
(** and merging a dead element is reported as an error after [i] has grown. *)
Theorem C08_failed_merge_grows_counterexample : forall (A : Type) (size : A -> nat) add_size (l : llist A) i j x y x', reachable l ->
  ~ In j (live_of l) -> nth_error (contents l) i = Some x -> nth_error (contents l) j = Some y -> add_size x (size y) = (x', Ok tt) ->
  exists l' e, ll_merge size add_size l i j = (l', Err e) /\ live_of l' = live_of l /\ contents l' = replace_nth i x' (contents l).
Proof. exact @merge_dead_err. Qed.
Print Assumptions C08_failed_merge_grows_counterexample.

(** The remaining cases: an index out of range panics before any change; an [add_size] that fails (for the crate's agents: a Levy
    agent) is reported, with element [i] already replaced and no element removed. *)
Theorem C08_merge_refused : forall (A : Type) (size : A -> nat) add_size (l : llist A) i j,
  (length (contents l) <= i \/ length (contents l) <= j -> ll_merge size add_size l i j = (l, Panic)) /\
  (forall x y x' e, nth_error (contents l) i = Some x -> nth_error (contents l) j = Some y -> add_size x (size y) = (x', Err e) ->
    exists l', ll_merge size add_size l i j = (l', Err e) /\ live_of l' = live_of l /\ contents l' = replace_nth i x' (contents l)).
Proof. exact @merge_refused. Qed.
Print Assumptions C08_merge_refused.

(** * The hypotheses are met *)
Definition demo_ball : circ RR := Circ (S := RR) ContinuousCircular Reflection 10%R 2.
Definition half_rng : rng RR := Rng (S := RR) unit (fun _ => (3/4, tt)%R) (fun _ => (1%R, tt)).
Example demo_ball_built : built (ACirc demo_ball) /\ ~ is_cyl (ACirc demo_ball).
Proof.
  split; [left; exists 10%R, 2; unfold circ_new|intros []]. change (@leb RR) with Rleb. change (@ltb RR) with Rltb. unfold Rleb, Rltb. cbn.
  repeat destruct Rle_dec; repeat destruct Rlt_dec; try lra; reflexivity.
Qed.
Example half_rng_unif : unif_R half_rng. Proof. intros g. cbn. lra. Qed.
(** The first candidate, (5,5), is inside the ball and off a target of size 1 at the origin. *)
Example demo_acceptable : acceptable (ACirc demo_ball) (target_new (S := RR) [0%R; 0%R] 1%R) (candidate (G := half_rng) (ACirc demo_ball) tt 0).
Proof.
  split.
  - split; [reflexivity|]. unfold candidate, euclid_norm. cbn. apply Rle_trans with (sqrt (10 * 10)); [apply sqrt_le_1_alt; lra|rewrite sqrt_square; lra].
  - unfold off_target, euclid, candidate. cbn. rewrite <- (sqrt_square 1) at 1 by lra. apply sqrt_le_1_alt. lra.
Qed.
Definition demo_lj : ljag RR := Ljag (S := RR) ContinuousPassiveInteracting (LennardJones (1%R : RR)) (Brownian (1%R : RR)) Uniform 2 [0%R; 0%R] 1%R 3%R (4 * 3)%R (24 * 3 / 1)%R.
Example demo_lj_set : lj_set demo_lj /\ (lj_psize demo_lj : R) <> 0%R. Proof. split; [split; reflexivity|cbn; lra]. Qed.
Definition demo_merger (n : Z) : merger RR := merger_new (S := RR) (Brownian (1%R : RR)) [IZR n; 0%R] 1%R 1%R.
Example demo_merge : forall l0 l1, ll_from [demo_merger 0; demo_merger 1; demo_merger 2] = Ok l0 ->
  ll_merge merger_size merger_add_size l0 0 2 = (l1, Ok tt) -> total_size merger_size l1 = 3 /\ live_of l1 = [0; 1].
Proof. intros l0 l1 E1 E2. injection E1 as <-. injection E2 as <-. split; reflexivity. Qed.
Example demo_pair : same_kind (AMerger (demo_merger 0)) (AMerger (demo_merger 3)) /\ coherent (AMerger (demo_merger 0)) /\ a_pos (AMerger (demo_merger 0)) <> a_pos (AMerger (demo_merger 3)).
Proof. split; [exact I|split; [reflexivity|]]. cbn. intros H. injection H as H. lra. Qed.
