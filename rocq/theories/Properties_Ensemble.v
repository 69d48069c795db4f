(** Theorems about ensembles on reused agents (C73).  Statements use the model ([Model_Ensemble], [Model_Run], [Model_Search]) and the vocabulary of [Spec_Ensemble]
    ([fresh_merging_run]: one experiment with agents made for it; [one_sample]: the program asked for one sample) and [Spec_Search] ([sampled]). *)
From Coq Require Import List Lia Arith ZArith Reals Lra.
From Flocq Require Import IEEE754.BinarySingleNaN.
From Verif Require Import Base Scalar Float64 Model_Position Spec_Position Model_System Spec_System Proof_System Model_Agent Spec_Agent Model_LinkedList Refine_LinkedList Model_Time
  Model_Run Spec_Run Spec_Run2 Model_Search Spec_Search Model_Ensemble Spec_Ensemble Proof_Ensemble Proof_Ensemble2 Proof_Ensemble3 Proof_Ensemble4 Proof_Analysis9 Properties_Run Properties_Search.
Import ListNotations.
Local Open Scope nat_scope.

(** * C73: reuse cannot be seen *)
(** Any scalar, any built system.  One experiment on agents that have been used before - merged, dead, anywhere, and any clock made by [ExponentialStep] - gives the time, and leaves
    the generator in the state, of an experiment with as many agents made for it and a renewed clock; the agents it leaves can be used for the next experiment. *)
Theorem C73_used_agents_are_as_good_as_new : forall (S : scalar) (G : rng S) inner pf fuel (sy : anysys S) (tg : target S) (radius alpha : S) (clock : expstep S) (l : llist (merger S)) (g : rstate G) a b len,
  built sy -> length (tg_pos tg) = sysdim sy -> reachable l -> Forall (veteran (sysdim sy) radius alpha) (contents l) -> es_titype clock = Model_Time.Exponential a b len ->
  exists clock0, es_renew clock = Ok clock0 /\
  let '(l', g', r) := large_n_fpt inner pf fuel (core sy) tg clock l g in
  reachable l' /\ length (contents l') = length (contents l) /\ Forall (veteran (sysdim sy) radius alpha) (contents l') /\
  fresh_merging_run inner pf fuel (core sy) tg (fpow (of_Z 1) (opp alpha)) radius alpha (length (contents l)) clock0 g = (g', r).
Proof. exact @large_as_fresh. Qed.
Print Assumptions C73_used_agents_are_as_good_as_new.

(** The whole ensemble: agents are placed once for nothing, then the result is the mean over experiments with agents of their own. *)
Theorem C73_reused_agents_mean : forall (S : scalar) (G : rng S) inner pf fuel (sy : anysys S) (tg : target S) (c a b : S) len clock n num (radius alpha : S) (g : rstate G),
  built sy -> length (tg_pos tg) = sysdim sy -> es_new a b len = Ok clock ->
  exists g1,
   (exists v, build_agents (fun g => merger_new_uniform inner pf (core sy) tg g (Brownian c) radius alpha) n g = (g1, Ok v) /\
     large_n_ensemble inner pf fuel (core sy) tg (Brownian c) a b len n num radius alpha g =
     ensemble_mean (fresh_merging_run inner pf fuel (core sy) tg (fpow (of_Z 1) (opp alpha)) radius alpha n clock) num g1) \/
   (build_agents (fun g => merger_new_uniform inner pf (core sy) tg g (Brownian c) radius alpha) n g = (g1, Fuel) /\
     large_n_ensemble inner pf fuel (core sy) tg (Brownian c) a b len n num radius alpha g = (g1, Fuel)).
Proof. exact @ensemble_as_fresh. Qed.
Print Assumptions C73_reused_agents_mean.

(** Exact reals: the experiments run with diffusion coefficient 1. *)
Theorem C73_mean_with_coefficient_one : forall (G : rng RR) inner pf fuel (sy : anysys RR) (tg : target RR) (c a b : RR) len clock n num (radius alpha : RR) (g : rstate G) g1 v,
  built sy -> length (tg_pos tg) = sysdim sy -> es_new a b len = Ok clock ->
  build_agents (fun g => merger_new_uniform inner pf (core sy) tg g (Brownian c) radius alpha) n g = (g1, Ok v) ->
  large_n_ensemble inner pf fuel (core sy) tg (Brownian c) a b len n num radius alpha g =
  ensemble_mean (fresh_merging_run inner pf fuel (core sy) tg (1%R : RR) radius alpha n clock) num g1.
Proof.
  intros G inner pf fuel sy tg c a b len clock n num radius alpha g g1 v B T Ec E.
  destruct (ensemble_as_fresh inner pf fuel sy tg c a b len clock n num radius alpha g B T Ec) as (g2 & [(w & E2 & X)|(E2 & X)]).
  - assert (g2 = g1) by congruence. subst g2. change (car RR) with R in *. rewrite X. rewrite <- (fpow_one (opp (s := RR) alpha)). reflexivity.
  - exfalso. rewrite E in E2. assert (Y : forall (x y : rstate G) (p q : outcome (list (merger RR))), (x, p) = (y, q) -> p = q) by (intros; congruence). apply Y in E2. discriminate.
Qed.
Print Assumptions C73_mean_with_coefficient_one.
(** Limit of C73: the diffusion coefficient the agents were made with has no influence at all. *)
Theorem C73_coefficient_ignored_counterexample : forall (S : scalar) (G : rng S) inner pf fuel (sy : anysys S) (tg : target S) (c c' a b : S) len n num (radius alpha : S) (g : rstate G),
  built sy -> length (tg_pos tg) = sysdim sy ->
  large_n_ensemble inner pf fuel (core sy) tg (Brownian c) a b len n num radius alpha g = large_n_ensemble inner pf fuel (core sy) tg (Brownian c') a b len n num radius alpha g.
Proof. exact @coefficient_lost. Qed.
Print Assumptions C73_coefficient_ignored_counterexample.

(** examples/mfpt_exp.rs: the times one run writes are those of as many runs for one sample, each going on with the generator of the run before; a run that fails has written the times of the samples
    before the one that fails. *)
Theorem C73_mfpt_exp_samples_independent : forall (S : scalar) (G : rng S) (sy : anysys S) (tg : target S) (args : expag_args S) (limit : S) (clock : expstep S) inner pf fuel num (g : rstate G) a b len,
  built sy -> length (tg_pos tg) = sysdim sy -> exp_args_for (sysdim sy) args -> es_titype clock = Model_Time.Exponential a b len ->
  forall ts g' o, mfpt_exp (diff_next es_next es_dt) inner pf fuel num (core sy) (sysdim sy) tg args limit clock g = (ts, g', o) ->
  let sample := one_sample (diff_next es_next es_dt) inner pf fuel (core sy) (sysdim sy) tg args limit clock in
  exists g1, sampled sample g ts g1 /\
   ((o = Ok tt /\ length ts = num /\ g' = g1) \/
    (length ts < num /\ ((o = Fuel /\ sample g1 = (g', Fuel)) \/ (exists e, o = Err e /\ sample g1 = (g', Err e))))).
Proof. exact @mfpt_repeats. Qed.
Print Assumptions C73_mfpt_exp_samples_independent.

(** * The hypotheses are met *)
(** Doubles, the disc of radius 10, a target of size 5/2 at the centre, the generator of [Properties_Search]: three agents start at (4, 4), merge in the first step and find the target in the second; the next
    experiment, on agents of which two are dead, takes as long as the first. *)
Definition wide_target : target (F64 toy) := target_new (S := F64 toy) [of_Z 0; of_Z 0] (lit 5 2).
Definition reused (num : nat) : Z * outcome (F64 toy) :=
  large_n_ensemble (S := F64 toy) (G := down_rng toy) 3 3 40 (core (ACirc (demo_disc toy))) wide_target (Brownian (of_Z (s := F64 toy) 5)) (lit 1 2) (lit 1 2) 10 3 num (lit 1 2) (of_Z 1) 0%Z.
Definition fresh_once : Z * outcome (F64 toy) :=
  match es_new (S := F64 toy) (lit 1 2) (lit 1 2) 10 with
  | Ok clock => fresh_merging_run (S := F64 toy) (G := down_rng toy) 3 3 40 (core (ACirc (demo_disc toy))) wide_target (of_Z 1) (lit 1 2) (of_Z 1) 3 clock 0%Z
  | _ => (0%Z, Panic)
  end.
Definition number (r : Z * outcome (F64 toy)) : option (Z * SpecFloat.spec_float) := match r with (g, Ok t) => Some (g, B2SF (t : b64)) | _ => None end.
Example demo_reused : exists k, number fresh_once = Some (k, B2SF (lit (s := F64 toy) 1 2)) /\ (0 < k)%Z /\ number (reused 1) = number fresh_once /\ number (reused 4) = Some ((4 * k)%Z, B2SF (lit (s := F64 toy) 1 2)).
Proof. eexists. split; [vm_compute; reflexivity|]. split; [reflexivity|]. split; vm_compute; reflexivity. Qed.
Example demo_merged : match es_new (S := F64 toy) (lit 1 2) (lit 1 2) 10, ll_from (repeat (merger_new (S := F64 toy) (Brownian (of_Z (s := F64 toy) 5)) [of_Z 4; of_Z 4] (lit 1 2) (of_Z 1)) 3) with
  | Ok clock, Ok l => let '(l', _, r) := large_n_fpt (S := F64 toy) (G := down_rng toy) 3 3 40 (core (ACirc (demo_disc toy))) wide_target clock l 0%Z in
      (live_of l', map mg_size (contents l'), match r with Ok _ => true | _ => false end) = ([0], [3; 1; 1], true)
  | _, _ => False end.
Proof. vm_compute. reflexivity. Qed.
(** Two repelling agents, at (4, 4) and (2, 2): a run of three samples. *)
Definition two_rng : rng (F64 toy) := Rng (S := F64 toy) Z (fun z => (if (z mod 4 <? 2)%Z then lit (s := F64 toy) 7 10 else lit (s := F64 toy) 6 10, (z + 1)%Z)) (fun z => (of_Z (s := F64 toy) (- 2), (z + 1)%Z)).
Definition exp_demo_args : expag_args (F64 toy) := ExpagArgs (S := F64 toy) ContinuousPassiveInteracting (Brownian (of_Z (s := F64 toy) 1)) Uniform (of_Z 1) 2 (of_Z 1) 2.
Definition exp_demo (num : nat) : option (list SpecFloat.spec_float * Z) :=
  match es_new (S := F64 toy) (lit 1 2) (lit 1 2) 10 with
  | Ok clock => match mfpt_exp (S := F64 toy) (G := two_rng) (diff_next es_next es_dt) 3 3 40 num (core (ACirc (demo_disc toy))) 2 wide_target exp_demo_args (of_Z 2) clock 0%Z with
                | (ts, g, Ok _) => Some (map (fun t : b64 => B2SF t) ts, g) | _ => None end
  | _ => None
  end.
Example demo_exp_samples : exists t k, exp_demo 1 = Some ([t], k) /\ exp_demo 3 = Some ([t; t; t], (3 * k)%Z) /\ t <> B2SF (of_Z (s := F64 toy) 0).
Proof. eexists. eexists. split; [vm_compute; reflexivity|]. split; [vm_compute; reflexivity|vm_compute; discriminate]. Qed.
