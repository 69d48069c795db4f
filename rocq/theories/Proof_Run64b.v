(** Whole runs in double precision: every agent that takes part in a step, followed through the pass. *)
From Coq Require Import Reals ZArith List Lra Lia Sorted.
From Flocq.Core Require Import Core.
From Flocq.IEEE754 Require Import BinarySingleNaN.
From Verif Require Import Base Scalar Float64 Model_Position Spec_Position Proof_Position Model_System Spec_System Proof_System Proof_System2 Proof_System4 Proof_System7 Proof_Norm64 Proof_Sum64
  Model_LinkedList Spec_LinkedList Refine_LinkedList Proof_LinkedList Proof_LinkedList2 Proof_LinkedList3
  Proof_LinkedList4 Proof_LinkedList5 Proof_LinkedList6 Proof_Run Model_Run
  Model_Agent Spec_Agent Spec_Wall64 Proof_Wall64b Spec_Run Proof_Run2 Proof_Run3 Proof_Run4 Proof_Run5 Proof_Search Spec_Run64 Proof_Run64.
Import ListNotations.
Local Open Scope nat_scope.

Section Trace.
Context {A St : Type} (body : nat -> A -> St -> option A * St * outcome bool).
Definition trace_at (cs cs' : list A) (r : outcome bool) (i : nat) : Prop :=
  exists a st0 o st1, nth_error cs i = Some a /\ body i a st0 = (o, st1, r) /\ nth_error cs' i = Some (match o with Some b => b | None => a end).
Lemma nth_write i (o : option A) cs a : nth_error cs i = Some a -> nth_error (write i o cs) i = Some (match o with Some b => b | None => a end).
Proof.
  intros H. destruct o as [b|]; cbn [write]; [|exact H]. rewrite nth_replace, Nat.eqb_refl. cbn [andb]. assert (i < length cs) by (apply nth_error_Some; congruence).
  destruct (Nat.ltb_spec i (length cs)); [reflexivity|lia].
Qed.
Lemma nth_write_other i j (o : option A) cs : j <> i -> nth_error (write i o cs) j = nth_error cs j.
Proof. intros N. destruct o as [b|]; cbn [write]; [|reflexivity]. rewrite nth_replace. destruct (Nat.eqb_spec j i); [contradiction|reflexivity]. Qed.
Lemma write_len i (o : option A) cs : length (write i o cs) = length cs.
Proof. destruct o; cbn [write]; [apply replace_length|reflexivity]. Qed.
Lemma each_trace M : forall cs st cs' st' r, each body M cs st = (cs', st', r) -> NoDup M -> (forall i, In i M -> i < length cs) ->
  (forall i, ~ In i M -> nth_error cs' i = nth_error cs i) /\
  (r = Ok false -> forall i, In i M -> trace_at cs cs' r i) /\
  (r = Ok true -> exists i, In i M /\ trace_at cs cs' r i).
Proof.
  induction M as [|i M IH]; intros cs st cs' st' r E ND Hr; cbn [each] in E.
  { injection E as <- _ <-. split; [auto|]. split; [intros _ j []|discriminate]. }
  assert (Hi : i < length cs) by (apply Hr; now left).
  destruct (nth_error cs i) as [a|] eqn:Ea; [|apply nth_error_None in Ea; lia].
  destruct (body i a st) as ((o, st1), r1) eqn:Eb. apply NoDup_cons_iff in ND as (Ni & ND).
  pose proof (nth_write i o cs a Ea) as W.
  assert (Stop : r1 <> Ok false -> (write i o cs, st1, r1) = (cs', st', r) ->
    (forall j, ~ In j (i :: M) -> nth_error cs' j = nth_error cs j) /\ (r = Ok false -> forall j, In j (i :: M) -> trace_at cs cs' r j) /\
    (r = Ok true -> exists j, In j (i :: M) /\ trace_at cs cs' r j)).
  { intros N E2. injection E2 as <- <- <-. split; [intros j Hj; apply nth_write_other; intros ->; apply Hj; now left|]. split; [contradiction|].
    intros _. exists i. split; [now left|]. exists a, st, o, st1. auto. }
  destruct r1 as [[]| e | |]; try (apply Stop; [discriminate|exact E]). clear Stop.
  destruct (IH _ _ _ _ _ E ND) as (I1 & I2 & I3); [intros j Hj; rewrite write_len; apply Hr; now right|].
  assert (Tr : forall j, In j M -> trace_at (write i o cs) cs' r j -> trace_at cs cs' r j).
  { intros j Hj (b & s0 & o2 & s1 & T1 & T2). assert (j <> i) by congruence. rewrite nth_write_other in T1 by assumption. exists b, s0, o2, s1. auto. }
  split; [intros j Hj; rewrite I1 by (intros K; apply Hj; now right); apply nth_write_other; intros ->; apply Hj; now left|]. split.
  - intros R j [<-|Hj]; [|apply Tr; auto]. exists a, st, o, st1. split; [exact Ea|]. split; [now rewrite R|]. now rewrite I1.
  - intros R. destruct (I3 R) as (j & Hj & T). exists j. split; [now right|]. now apply Tr.
Qed.
End Trace.

Section Pass.
Context {S : scalar} {G : rng S} {A : Type} (m : mover (S := S) (G := G) A).
Notation gen := (rstate G).
Hypothesis pos_put : forall a p, mv_pos m (mv_put m a p) = p.
(** One agent's move: its displacement, and a boundary step that succeeds, after which the target is looked for. *)
Definition stepped (sys : syscore S G) (tg : target S) (dt : S) (z : bool) (a b : A) : Prop :=
  exists g0 g1 dp p, mv_move m a g0 dt = (g1, Ok dp) /\ sc_check_bc sys (mv_pos m a) dp = (p, Ok tt) /\ b = mv_put m a p /\ check_find tg p = Ok z.
Lemma body_stepped sys tg dt i a st0 o st1 z : move_body m sys tg dt i a st0 = (o, st1, Ok z) -> exists b, o = Some b /\ stepped sys tg dt z a b.
Proof.
  unfold move_body. destruct (mv_move m a st0 dt) as (g1, [dp| | |]) eqn:Em; try (intros E; discriminate E).
  destruct (sc_check_bc sys (mv_pos m a) dp) as (p, [[]| | |]) eqn:Ec; intros E; try discriminate E. injection E as <- <- Ef.
  eexists. split; [reflexivity|]. exists st0, g1, dp, p. auto.
Qed.
Lemma pass_trace sys tg dt (l : llist A) g l' g' r : reachable l -> move_pass m sys tg dt l g = (l', g', r) ->
  reachable l' /\ live_of l' = live_of l /\
  (r = Ok false -> forall i b, live_at l' i b -> exists a, live_at l i a /\ stepped sys tg dt false a b) /\
  (r = Ok true -> exists i a b, live_at l i a /\ live_at l' i b /\ stepped sys tg dt true a b).
Proof.
  intros HR. unfold move_pass. rewrite move_loop_each.
  destruct (for_each_ref (move_body m sys tg dt) l g HR) as (l1 & g1 & r1 & E1 & E2 & R1 & L1). rewrite E1. intros [= <- <- <-].
  destruct (chains l HR) as (CS & CR & _). destruct (each_trace _ _ _ _ _ _ _ E2 (sorted_NoDup _ CS) CR) as (_ & T1 & T2).
  split; [exact R1|]. split; [exact L1|]. split.
  - intros E i b (Li & Hb). rewrite L1 in Li. destruct (T1 E i Li) as (a & s0 & o & s1 & Ea & Eb & Ec). rewrite E in Eb.
    destruct (body_stepped _ _ _ _ _ _ _ _ _ Eb) as (b2 & -> & St). exists a. split; [split; assumption|]. congruence.
  - intros E. destruct (T2 E) as (i & Li & a & s0 & o & s1 & Ea & Eb & Ec). rewrite E in Eb. destruct (body_stepped _ _ _ _ _ _ _ _ _ Eb) as (b & -> & St).
    exists i, a, b. split; [split; assumption|]. split; [split; [now rewrite L1|exact Ec]|exact St].
Qed.
End Pass.
