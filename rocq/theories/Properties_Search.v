(** Properties C52 and C53: searches of one searcher at a time, and the mean over an ensemble.
    Statements use [Model_Search] (the loops of tests/rts_n_searcher.rs and tests/single_ptl_rts.rs) and the vocabulary of [Spec_Search], [Spec_Run]
    ([brownian_kick], [nth_block], [after_blocks], [ticks]). *)
From Coq Require Import Reals ZArith List Lra Lia.
From Flocq.IEEE754 Require Import BinarySingleNaN.
From Verif Require Import Base Scalar Float64 Model_Position Spec_Position Model_System Spec_System Model_Agent Spec_Agent
  Model_Run Spec_Run Model_Search Spec_Search Properties_Run Proof_Search Proof_Search2 Proof_Search3.
Import ListNotations.
Local Open Scope nat_scope.

(** * C52: one searcher at a time *)
(** Any scalar.  The searcher starts off the target and the time returned is the number of displacements (at least one) after which the target is found for
    the first time, times the step; otherwise the step was refused at that point, or the fuel of the model ran out.  The generator has given one block of
    normal samples for every displacement. *)
Theorem C52_search : forall (S : scalar) (G : rng S) inner pf fuel (sy : anysys S) (tg : target S) (c dt : S) (g : rstate G),
  built sy -> length (tg_pos tg) = sysdim sy ->
  let n := sysdim sy in let bc := sc_check_bc (core (G := G) sy) in
  (exists a g0, indep_new_uniform inner pf (core sy) tg g (Brownian c) = (g0, Ok a) /\ length (in_pos a) = n /\ check_find tg (in_pos a) = Ok false /\
     ((exists k q, 1 <= k < fuel /\ first_visit bc tg c dt n (in_pos a) g0 k q /\
         one_search inner pf fuel (core sy) tg (Brownian c) dt g = (after_blocks (gauss G) n k g0, Ok (ticks dt k))) \/
      (exists k p q, k < fuel /\ no_visit bc tg c dt n (in_pos a) g0 k /\ comes_to bc c dt n (in_pos a) g0 k p /\
         bc p (brownian_kick c dt (nth_block (gauss G) n k g0)) = (q, Err TooLargeTimeStep) /\
         one_search inner pf fuel (core sy) tg (Brownian c) dt g = (after_blocks (gauss G) n (Datatypes.S k) g0, Err TooLargeTimeStep)) \/
      ((forall j, j < fuel -> exists q', comes_to bc c dt n (in_pos a) g0 j q' /\ check_find tg q' = Ok false) /\
       one_search inner pf fuel (core sy) tg (Brownian c) dt g = (after_blocks (gauss G) n fuel g0, Fuel)))) \/
  (exists g', indep_new_uniform inner pf (core sy) tg g (Brownian c) = (g', Fuel) /\ one_search inner pf fuel (core sy) tg (Brownian c) dt g = (g', Fuel)).
Proof. exact @one_search_cases. Qed.
Print Assumptions C52_search.

(** The search written as a loop over one searcher and the simulation of a list of one searcher give the same time, error and generator. *)
Theorem C52_same_as_list_of_one : forall (S : scalar) (G : rng S) inner pf fuel (sy : anysys S) (tg : target S) (c dt : S) (g g' : rstate G) r,
  built sy -> length (tg_pos tg) = sysdim sy -> r <> Fuel ->
  (indep_fpt inner pf fuel (core sy) tg (Brownian c) dt 1 g = (g', r) -> one_search inner pf (Datatypes.S fuel) (core sy) tg (Brownian c) dt g = (g', r)) /\
  (one_search inner pf fuel (core sy) tg (Brownian c) dt g = (g', r) -> indep_fpt inner pf fuel (core sy) tg (Brownian c) dt 1 g = (g', r)).
Proof. exact @one_searcher. Qed.
Print Assumptions C52_same_as_list_of_one.

(** Doubles: [n] searchers one after the other.  The result is not larger than any of their times and is one of them, or [f64::MAX] when none is below
    that; a searcher that fails fails the call. *)
Theorem C52_minimum_f64 : forall lm (G : rng (F64 lm)) inner pf fuel (sys : syscore (F64 lm) G) tg mt (dt : F64 lm) n (g : rstate G),
  let sample := one_search inner pf fuel sys tg mt dt in
  (exists ts g' m, sampled sample g ts g' /\ length ts = n /\ n_searcher_fpt inner pf fuel sys tg mt dt n g = (g', Ok m) /\
     (forall t, In t ts -> ltb t m = false) /\
     ((In m ts /\ ltb m fmax = true) \/ (m = fmax /\ forall t, In t ts -> ltb t fmax = false))) \/
  (exists k g' o, k < n /\ fails_after sample g k g' o /\ n_searcher_fpt inner pf fuel sys tg mt dt n g = (g', o)).
Proof. exact min_F. Qed.
Print Assumptions C52_minimum_f64.
(** Exact reals: the time step times the smallest of the numbers of displacements. *)
Theorem C52_minimum : forall (G : rng RR) inner pf fuel (sy : anysys RR) (tg : target RR) (c dt : R) n (g : rstate G),
  built sy -> length (tg_pos tg) = sysdim sy -> (0 < dt)%R -> 1 <= n ->
  (forall k, k < fuel -> (INR k * dt < fmax (s := RR))%R) ->
  let sample := one_search inner pf fuel (core sy) tg (Brownian (c : RR)) (dt : RR) in
  forall g' (m : R), n_searcher_fpt inner pf fuel (core sy) tg (Brownian (c : RR)) (dt : RR) n g = (g', Ok m) ->
  exists ks, sampled sample g (map (fun k => INR k * dt)%R ks) g' /\ length ks = n /\ Forall (fun k => 1 <= k) ks /\
    exists k, In k ks /\ (forall j, In j ks -> k <= j) /\ m = (INR k * dt)%R.
Proof. exact min_R. Qed.
Print Assumptions C52_minimum.
(** Limit of C52: without searchers the time is [f64::MAX], not an error. *)
Theorem C52_no_searcher_counterexample : forall (S : scalar) (G : rng S) inner pf fuel (sys : syscore S G) (tg : target S) mt (dt : S) (g : rstate G),
  n_searcher_fpt inner pf fuel sys tg mt dt 0 g = (g, Ok fmax).
Proof. reflexivity. Qed.
Print Assumptions C52_no_searcher_counterexample.

(** Exact reals: reusing one displacement vector, cleared before every step, changes nothing. *)
Theorem C52_reused_vector : forall (G : rng RR) inner pf fuel (sy : anysys RR) (tg : target RR) (c dt : RR) num (g : rstate G),
  built sy -> length (tg_pos tg) = sysdim sy ->
  single_mfpt inner pf fuel (core sy) (sysdim sy) tg (Brownian c) dt num g = ensemble_mean (one_search inner pf fuel (core sy) tg (Brownian c) dt) num g.
Proof. exact @single_is_mean. Qed.
Print Assumptions C52_reused_vector.
(** Limit of C52: a default position has no coordinates and is not a usable scratch vector; the free diffusion test stops at its first step. *)
Theorem C52_default_vector_counterexample : forall (S : scalar) (G : rng S) num steps d (c dt : S) (g : rstate G), 1 <= num -> 1 <= steps -> 1 <= d ->
  diffusion_test num steps d c dt g = (repeat s0 (steps + 1), g, Err InvalidDimension).
Proof. exact @diffusion_fails. Qed.
Print Assumptions C52_default_vector_counterexample.

(** * C53: the mean over an ensemble *)
(** Any scalar: the sum of the samples in order, divided by their number; the first sample that fails fails the call. *)
Theorem C53_mean : forall (S : scalar) (G : rng S) (sample : rstate G -> rstate G * outcome S) num g,
  (exists ts g', sampled sample g ts g' /\ length ts = num /\
     ensemble_mean sample num g = (g', Ok (div (fold_left add ts s0) (of_Z (Z.of_nat num))))) \/
  (exists k g' o, k < num /\ fails_after sample g k g' o /\ ensemble_mean sample num g = (g', o)).
Proof. exact @mean_any. Qed.
Print Assumptions C53_mean.
(** Exact reals: the arithmetic mean, between the smallest and the largest sample. *)
Theorem C53_mean_value : forall (G : rng RR) (sample : rstate G -> rstate G * outcome RR) num g g' (m : R), 1 <= num -> ensemble_mean sample num g = (g', Ok m) ->
  exists ts : list R, sampled sample g ts g' /\ length ts = num /\ (INR num * m = fold_right Rplus 0 ts)%R /\
    forall lo hi, Forall (fun t => lo <= t <= hi)%R ts -> (lo <= m <= hi)%R.
Proof. exact @mean_R. Qed.
Print Assumptions C53_mean_value.
(** The samples are determined by the state they start from. *)
Theorem C53_samples_determined : forall (S : scalar) (G : rng S) (X : Type) (sample : rstate G -> rstate G * outcome X) g ts g1, sampled sample g ts g1 ->
  forall us g2, sampled sample g us g2 -> length us = length ts -> us = ts /\ g2 = g1.
Proof. exact @sampled_fun. Qed.
Print Assumptions C53_samples_determined.
(** Limit of C53: the mean over no samples is not a number. *)
Theorem C53_no_samples_counterexample : forall lm (G : rng (F64 lm)) (sample : rstate G -> rstate G * outcome (F64 lm)) g,
  exists m : b64, ensemble_mean sample 0 g = (g, Ok m) /\ nan m = true.
Proof. exact mean_none. Qed.
Print Assumptions C53_no_samples_counterexample.

(** * The hypotheses are met *)
(** Doubles, the disc of radius 10 with a target of size 1 at the centre.  The uniform samples are 7/10 (the searcher starts at (4, 4)), the normal samples
    -2: with dt = 1/2 and diffusion coefficient 1 the first searcher finds the target after two steps, at time 1; three searchers have the
    minimum 1; the list of one searcher gives the same. *)
Definition down_rng (lm : libm) : rng (F64 lm) := Rng (S := F64 lm) Z (fun z => (lit (s := F64 lm) 7 10, z)) (fun z => (of_Z (s := F64 lm) (- 2), (z + 1)%Z)).
Definition found (lm : libm) (r : Z * outcome (F64 lm)) : option (Z * bool) := match r with (g, Ok t) => Some (g, Beqb (t : b64) (of_Z (s := F64 lm) 1)) | _ => None end.
Example demo_search : forall lm,
  found lm (one_search (S := F64 lm) (G := down_rng lm) 3 3 9 (core (ACirc (demo_disc lm))) (demo_target lm) (Brownian (of_Z 1 : F64 lm)) (lit 1 2) 0%Z) = Some (4%Z, true) /\
  found lm (indep_fpt (S := F64 lm) (G := down_rng lm) 3 3 9 (core (ACirc (demo_disc lm))) (demo_target lm) (Brownian (of_Z 1 : F64 lm)) (lit 1 2) 1 0%Z) = Some (4%Z, true) /\
  found lm (n_searcher_fpt (S := F64 lm) (G := down_rng lm) 3 3 9 (core (ACirc (demo_disc lm))) (demo_target lm) (Brownian (of_Z 1 : F64 lm)) (lit 1 2) 3 0%Z) = Some (12%Z, true) /\
  found lm (ensemble_mean (S := F64 lm) (G := down_rng lm) (one_search 3 3 9 (core (ACirc (demo_disc lm))) (demo_target lm) (Brownian (of_Z 1 : F64 lm)) (lit 1 2)) 4 0%Z) = Some (16%Z, true).
Proof. intros lm. repeat split; vm_compute; reflexivity. Qed.
Example demo_bound : forall k, k < 9 -> (INR k * (1 / 2) < fmax (s := RR))%R.
Proof.
  intros k Hk. apply Rlt_trans with 5%R.
  - apply lt_INR in Hk. rewrite (INR_IZR_INZ 9) in Hk. cbn in Hk. lra.
  - change (5 < 2 ^ 1024 - 2 ^ 971)%R. replace (2 ^ 1024)%R with (2 ^ 971 * 2 ^ 53)%R by (rewrite <- pow_add; reflexivity).
    assert (A : (1 <= 2 ^ 971)%R) by (apply pow_R1_Rle; lra). assert (B : (2 ^ 53 = 9007199254740992)%R) by (exact (pow_IZR 2 53)). rewrite B. lra.
Qed.
