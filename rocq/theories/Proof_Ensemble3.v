(** An ensemble on reused agents is the mean over experiments with agents of their own. *)
From Coq Require Import List Lia Arith ZArith Reals.
From Verif Require Import Base Scalar Model_Position Spec_Position Proof_Position Model_System Spec_System Proof_System Model_Agent Spec_Agent
  Proof_Agent Model_LinkedList Spec_LinkedList Refine_LinkedList Proof_LinkedList Model_Time Spec_Time Proof_Run Model_Run Spec_Run Proof_Run2 Proof_Run4 Proof_Run5
  Model_Search Spec_Search Proof_Search Model_Ensemble Spec_Ensemble Proof_Ensemble Proof_Ensemble2.
Import ListNotations.
Local Open Scope nat_scope.

Section Reuse.
Context {S : scalar} {G : rng S}.
Notation gen := (rstate G).

Lemma renew_twice (clock clock0 : expstep S) : es_renew clock = Ok clock0 -> es_titype clock0 = es_titype clock /\ es_renew clock0 = Ok clock0.
Proof.
  unfold es_renew. destruct (es_titype clock) eqn:T; try discriminate. intros E. assert (Y : forall a b : expstep S, Ok a = Ok b -> b = a) by congruence. rewrite (Y _ _ E). cbn [es_titype es_inc es_tmax]. split; reflexivity.
Qed.
Lemma reuse_as_fresh inner pf fuel sy tg radius alpha (B : built sy) (T : length (tg_pos tg) = sysdim sy) num :
  forall data (clock clock0 : expstep S) (l : llist (merger S)) (g : gen), reachable l -> Forall (veteran (sysdim sy) radius alpha) (contents l) -> es_renew clock = Ok clock0 ->
  reuse_loop inner pf fuel (core sy) tg num data clock l g =
  sum_loop (fresh_merging_run inner pf fuel (core sy) tg (fpow (of_Z 1) (opp alpha)) radius alpha (length (contents l)) clock0) num data g.
Proof.
  induction num as [|k IH]; intros data clock clock0 l g HR HF Ec; [reflexivity|]. cbn [reuse_loop sum_loop].
  assert (exists a b len, es_titype clock = Model_Time.Exponential a b len) as (a & b & len & Tc).
  { unfold es_renew in Ec. destruct (es_titype clock); try discriminate. do 3 eexists. reflexivity. }
  destruct (large_as_fresh inner pf fuel sy tg radius alpha clock l g a b len B T HR HF Tc) as (c1 & E1 & X). assert (c1 = clock0) by congruence. subst c1.
  destruct (large_n_fpt inner pf fuel (core sy) tg clock l g) as ((l1, g1), r). destruct X as (R1 & L1 & V1 & X). rewrite X. destruct r as [t| | |]; try reflexivity.
  rewrite Ec, <- L1. apply (IH _ clock0); try assumption. exact (proj2 (renew_twice _ _ Ec)).
Qed.
Lemma crew_veteran inner pf sy tg c radius alpha (g : gen) : built sy -> length (tg_pos tg) = sysdim sy ->
  (exists a g', merger_new_uniform inner pf (core sy) tg g (Brownian c) radius alpha = (g', Ok a) /\ veteran (sysdim sy) radius alpha a) \/
  exists g', merger_new_uniform inner pf (core sy) tg g (Brownian c) radius alpha = (g', Fuel).
Proof.
  intros B T. unfold merger_new_uniform. destruct (place_ok sy tg inner pf g (sc_out (core (G := G) sy)) B T (out_length sy)) as [(q & k & -> & L & C)|(q & g2 & ->)]; [left|right; eexists; reflexivity].
  do 2 eexists. split; [reflexivity|]. split; [|split; reflexivity]. split; [exact L|]. split; [eexists; reflexivity|]. split; reflexivity.
Qed.
Lemma es_new_renewed (a b : S) len clock : es_new a b len = Ok clock -> es_renew clock = Ok clock.
Proof.
  unfold es_new. destruct (_ || _ || _)%bool; [discriminate|]. intros E. assert (Y : forall u v : expstep S, Ok u = Ok v -> v = u) by congruence. rewrite (Y _ _ E). reflexivity.
Qed.
Lemma ensemble_as_fresh inner pf fuel sy tg c a b len clock n num radius alpha (g : gen) : built sy -> length (tg_pos tg) = sysdim sy -> es_new a b len = Ok clock ->
  exists g1,
   (exists v, build_agents (fun g => merger_new_uniform inner pf (core sy) tg g (Brownian c) radius alpha) n g = (g1, Ok v) /\
     large_n_ensemble inner pf fuel (core sy) tg (Brownian c) a b len n num radius alpha g =
     ensemble_mean (fresh_merging_run inner pf fuel (core sy) tg (fpow (of_Z 1) (opp alpha)) radius alpha n clock) num g1) \/
   (build_agents (fun g => merger_new_uniform inner pf (core sy) tg g (Brownian c) radius alpha) n g = (g1, Fuel) /\
     large_n_ensemble inner pf fuel (core sy) tg (Brownian c) a b len n num radius alpha g = (g1, Fuel)).
Proof.
  intros B T Ec. unfold large_n_ensemble. rewrite Ec.
  destruct (build_ok (fun g => merger_new_uniform inner pf (core sy) tg g (Brownian c) radius alpha) (veteran (sysdim sy) radius alpha) (fun g => crew_veteran inner pf sy tg c radius alpha g B T) n g)
    as [(v & g1 & E & L & F)|(g1 & E)]; rewrite E; exists g1; [left|right; split; reflexivity].
  exists v. split; [reflexivity|]. destruct (from_fresh v) as (l & El & R & C & _). rewrite El. unfold ensemble_mean. rewrite <- C in F, L.
  rewrite (reuse_as_fresh inner pf fuel sy tg radius alpha B T num s0 clock clock l g1 R F (es_new_renewed _ _ _ _ Ec)), L. reflexivity.
Qed.

(** The coefficient the agents were made with is lost. *)
Lemma build_map {A B} (new : gen -> gen * outcome A) (new' : gen -> gen * outcome B) f : (forall g, new' g = let (g1, r) := new g in (g1, do a <- r; Ok (f a))) ->
  forall n g, build_agents new' n g = let (g1, r) := build_agents new n g in (g1, do v <- r; Ok (map f v)).
Proof.
  intros H. induction n as [|n IH]; intros g; [reflexivity|]. cbn [build_agents]. rewrite H. destruct (new g) as (g1, [a| | |]); try reflexivity. cbn [bind]. rewrite IH.
  destruct (build_agents new n g1) as (g2, [v| | |]); reflexivity.
Qed.
Lemma coefficient_lost inner pf fuel sy tg c c' a b len n num radius alpha (g : gen) : built sy -> length (tg_pos tg) = sysdim sy ->
  large_n_ensemble inner pf fuel (core sy) tg (Brownian c) a b len n num radius alpha g = large_n_ensemble inner pf fuel (core sy) tg (Brownian c') a b len n num radius alpha g.
Proof.
  intros B T. destruct (es_new a b len) as [clock|e| |] eqn:Ec; try (unfold large_n_ensemble; now rewrite Ec).
  assert (M : build_agents (fun g => merger_new_uniform inner pf (core sy) tg g (Brownian c') radius alpha) n g =
    let (g1, r) := build_agents (fun g => merger_new_uniform inner pf (core sy) tg g (Brownian c) radius alpha) n g in (g1, do v <- r; Ok (map (fun x => mg_remove x (Brownian c')) v))).
  { apply build_map. intros g0. unfold merger_new_uniform. destruct (place inner pf (core sy) tg g0 (sc_out (core (G := G) sy))) as ((p, g1), r). destruct r; reflexivity. }
  destruct (ensemble_as_fresh inner pf fuel sy tg c a b len clock n num radius alpha g B T Ec) as (g1 & [(v & E & ->)|(E & ->)]);
  destruct (ensemble_as_fresh inner pf fuel sy tg c' a b len clock n num radius alpha g B T Ec) as (g2 & [(w & E2 & ->)|(E2 & ->)]); rewrite E2, E in M; cbn [bind] in M.
  - assert (g2 = g1) as -> by congruence. reflexivity.
  - assert (Fuel (A := list (merger S)) = Ok (map (fun x => mg_remove x (Brownian c')) v)) by congruence. discriminate.
  - assert (Ok w = Fuel (A := list (merger S))) by congruence. discriminate.
  - assert (g2 = g1) as -> by congruence. reflexivity.
Qed.
End Reuse.
Lemma fpow_one (x : R) : fpow (s := RR) (of_Z 1) x = 1%R.
Proof. cbn [fpow RR of_Z]. change (IZR 1) with 1%R. unfold Rpower. rewrite ln_1, Rmult_0_r. apply exp_0. Qed.
