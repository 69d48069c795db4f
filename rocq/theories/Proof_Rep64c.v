(** One step of repelling agents in double precision: every agent followed through the step. *)
From Coq Require Import Reals ZArith List Lra Lia Sorted.
From Flocq.Core Require Import Core.
From Flocq.IEEE754 Require Import BinarySingleNaN.
From Verif Require Import Base Scalar Float64 Model_Position Spec_Position Proof_Position Model_System Spec_System Proof_System Proof_System2 Proof_System4 Proof_System7 Proof_Norm64 Proof_Sum64
  Model_LinkedList Spec_LinkedList Refine_LinkedList Proof_LinkedList Proof_LinkedList2 Proof_LinkedList3
  Proof_LinkedList4 Proof_LinkedList5 Proof_LinkedList6 Proof_Run Model_Run
  Model_Agent Spec_Agent Proof_Agent Proof_Agent2 Proof_Agent4 Spec_Wall64 Proof_Wall64b Spec_Run Spec_Run2 Proof_Run2 Proof_Run3 Proof_Run4 Proof_Run5 Proof_Search Proof_Run6 Proof_Run7 Proof_Run8 Proof_Run9 Proof_Run10
  Spec_Run64 Proof_Run64 Proof_Run64b Proof_Run64c Spec_Rep64 Proof_Rep64 Proof_Rep64b.
Import ListNotations.
Local Open Scope nat_scope.

Section Trace.
Context {A St : Type} (body : nat -> A -> St -> option A * St * outcome bool) (Q : list nat -> St -> Prop).
Hypothesis keep : forall i M a st o st1, Q (i :: M) st -> ~ In i M -> body i a st = (o, st1, Ok false) -> Q M st1.
Definition traced (cs cs' : list A) (r : outcome bool) (i : nat) : Prop :=
  exists a M st0 o st1, nth_error cs i = Some a /\ Q (i :: M) st0 /\ body i a st0 = (o, st1, r) /\ nth_error cs' i = Some (match o with Some b => b | None => a end).
Lemma each_traced M : forall cs st cs' st' r, each body M cs st = (cs', st', r) -> NoDup M -> (forall i, In i M -> i < length cs) -> Q M st ->
  (forall i, ~ In i M -> nth_error cs' i = nth_error cs i) /\
  (r = Ok false -> forall i, In i M -> traced cs cs' r i) /\
  (r = Ok true -> exists i, In i M /\ traced cs cs' r i).
Proof.
  induction M as [|i M IH]; intros cs st cs' st' r E ND Hr HQ; cbn [each] in E.
  { injection E as <- _ <-. split; [auto|]. split; [intros _ j []|discriminate]. }
  assert (Hi : i < length cs) by (apply Hr; now left).
  destruct (nth_error cs i) as [a|] eqn:Ea; [|apply nth_error_None in Ea; lia].
  destruct (body i a st) as ((o, st1), r1) eqn:Eb. apply NoDup_cons_iff in ND as (Ni & ND).
  pose proof (nth_write i o cs a Ea) as W.
  assert (Stop : r1 <> Ok false -> (write i o cs, st1, r1) = (cs', st', r) ->
    (forall j, ~ In j (i :: M) -> nth_error cs' j = nth_error cs j) /\ (r = Ok false -> forall j, In j (i :: M) -> traced cs cs' r j) /\
    (r = Ok true -> exists j, In j (i :: M) /\ traced cs cs' r j)).
  { intros N E2. injection E2 as <- <- <-. split; [intros j Hj; apply nth_write_other; intros ->; apply Hj; now left|]. split; [contradiction|].
    intros _. exists i. split; [now left|]. exists a, M, st, o, st1. auto. }
  destruct r1 as [[]| e | |]; try (apply Stop; [discriminate|exact E]). clear Stop.
  destruct (IH _ _ _ _ _ E ND) as (I1 & I2 & I3); [intros j Hj; rewrite write_len; apply Hr; now right|exact (keep i M a st o st1 HQ Ni Eb)|].
  assert (Tr : forall j, In j M -> traced (write i o cs) cs' r j -> traced cs cs' r j).
  { intros j Hj (b & M2 & s0 & o2 & s1 & T1 & T2). assert (j <> i) by congruence. rewrite nth_write_other in T1 by assumption. exists b, M2, s0, o2, s1. auto. }
  split; [intros j Hj; rewrite I1 by (intros K; apply Hj; now right); apply nth_write_other; intros ->; apply Hj; now left|]. split.
  - intros R j [<-|Hj]; [|apply Tr; auto]. exists a, M, st, o, st1. split; [exact Ea|]. split; [exact HQ|]. split; [now rewrite R|]. now rewrite I1.
  - intros R. destruct (I3 R) as (j & Hj & T). exists j. split; [now right|]. now apply Tr.
Qed.
End Trace.

Section Step.
Context {S : scalar} {G : rng S}.
Notation gen := (rstate G).
Variables (n : nat) (sys : syscore S G) (tg : target S) (limit dt : S).
(** One agent's step: the noise is added to its plan, the sum shortened to the limit, a boundary step that succeeds, after which the target is looked for. *)
Definition exp_stepped (plan : list (pos S)) (z : bool) (i : nat) (a b : expag S) : Prop :=
  exists g0 g1 v v1 p, nth_error plan i = Some v /\ expag_random_move_to_vec (G := G) a g0 dt v = (v1, g1, Ok tt) /\
    sc_check_bc sys (ex_pos a) (limit_move limit v1) = (p, Ok tt) /\ b = exp_put a p /\ check_find tg p = Ok z.
Lemma body_exp i a (st0 : list (pos S) * gen) o st1 z : exp_body sys tg limit dt i a st0 = (o, st1, Ok z) ->
  exists w, fst st1 = replace_nth i w (fst st0) /\ exists b, o = Some b /\ exp_stepped (fst st0) z i a b.
Proof.
  unfold exp_body. destruct (nth_error (fst st0) i) as [v|] eqn:Ev; [|intros E; discriminate E].
  destruct (expag_random_move_to_vec a (snd st0) dt v) as ((v1, g1), [[]| | |]) eqn:Em; try (intros E; discriminate E).
  destruct (sc_check_bc sys (ex_pos a) (limit_move limit v1)) as (p, [[]| | |]) eqn:Ec; intros E; try discriminate E. injection E as <- <- Ef.
  exists (limit_move limit v1). split; [reflexivity|]. eexists. split; [reflexivity|]. exists (snd st0), g1, v, v1, p. auto.
Qed.
Lemma exp_loop_trace (l : llist (expag S)) (mv : llist (pos S)) (g : gen) l' mv' g' r : reachable l ->
  exp_move_loop sys tg limit dt (Datatypes.S (length (contents l))) (into_iter l) mv g = (l', mv', g', r) ->
  (r = Ok false -> forall i, In i (live_of l) -> exists a b, nth_error (contents l) i = Some a /\ nth_error (contents l') i = Some b /\ exp_stepped (contents mv) false i a b) /\
  (r = Ok true -> exists i a b, In i (live_of l) /\ nth_error (contents l) i = Some a /\ nth_error (contents l') i = Some b /\ exp_stepped (contents mv) true i a b).
Proof.
  intros HR. rewrite exp_move_loop_each. destruct (for_each_ref (exp_body sys tg limit dt) l (contents mv, g) HR) as (l1 & (ms1, g1) & r1 & E1 & E2 & R1 & L1). rewrite E1.
  intros E. injection E as <- <- <- <-. destruct (chains l HR) as (CS & CR & _).
  set (Q := fun (M : list nat) (st : list (pos S) * gen) => forall i, In i M -> nth_error (fst st) i = nth_error (contents mv) i).
  assert (keep : forall i M a st o st1, Q (i :: M) st -> ~ In i M -> exp_body sys tg limit dt i a st = (o, st1, Ok false) -> Q M st1).
  { intros i M a st o st1 HQ Ni Eb k Hk. destruct (body_exp _ _ _ _ _ _ Eb) as (w & -> & _). rewrite nth_replace. destruct (Nat.eqb_spec k i) as [->|_]; [contradiction|]. cbn [andb]. apply HQ. now right. }
  destruct (each_traced _ Q keep _ _ _ _ _ _ E2 (sorted_NoDup _ CS) CR (fun i _ => eq_refl)) as (_ & T1 & T2).
  assert (C : forall i z, traced (exp_body sys tg limit dt) Q (contents l) (contents l1) (Ok z) i -> exists a b, nth_error (contents l) i = Some a /\ nth_error (contents l1) i = Some b /\ exp_stepped (contents mv) z i a b).
  { intros i z (a & M & st0 & o & st1 & Ea & HQ & Eb & Ec). destruct (body_exp _ _ _ _ _ _ Eb) as (_ & _ & b & -> & St). exists a, b. split; [exact Ea|]. split; [exact Ec|].
    unfold exp_stepped in *. rewrite (HQ i (or_introl eq_refl)) in St. exact St. }
  split.
  - intros -> i Hi. exact (C i false (T1 eq_refl i Hi)).
  - intros ->. destruct (T2 eq_refl) as (i & Hi & T). destruct (C i true T) as (a & b & X). exists i, a, b. split; [exact Hi|exact X].
Qed.
Lemma exp_step_trace N (l : llist (expag S)) disp (mv : llist (pos S)) (g : gen) l' disp' mv' g' r : exp_crew n N l -> move_list n N mv -> length disp = n ->
  exp_step sys tg limit dt l disp mv g = (l', disp', mv', g', r) ->
  (r = Ok false -> forall i, i < N -> exists a b, nth_error (contents l) i = Some a /\ nth_error (contents l') i = Some b /\ exp_stepped (plans n dt (contents l) disp) false i a b) /\
  (r = Ok true -> exists i a b, i < N /\ nth_error (contents l) i = Some a /\ nth_error (contents l') i = Some b /\ exp_stepped (plans n dt (contents l) disp) true i a b).
Proof.
  intros HC HM Ld. destruct (clear_moves n N mv HM) as (mv0 & E0 & M0 & C0). destruct HC as [CR CS CL CC].
  destruct M0 as [MR MS ML MD]. unfold exp_step. rewrite E0.
  destruct (force_pass n dt l disp mv0 CR CC Ld) as (l0 & l2 & d2 & F1 & F2 & F3 & F4 & F5 & F6); [rewrite CS; exact MS|exact MD|].
  rewrite F1, F2.
  assert (PL : snd (fold_left (fun st ij => push dt (contents l) st (fst ij) (snd ij)) (pairs (live_of l)) (disp, contents mv0)) = plans n dt (contents l) disp).
  { unfold plans. rewrite CL, C0, CS. reflexivity. }
  rewrite PL. rewrite <- F4 at 1. destruct (exp_move_loop _ _ _ _ _ _ _ _) as (((l3, m3), g3), r3) eqn:E. intros X. injection X as <- <- <- <- <-.
  destruct (exp_loop_trace l2 _ g l3 m3 g3 r3 F3 E) as (T1 & T2). rewrite F4, F5, CL in T1, T2. split.
  - intros Hr i Hi. apply (T1 Hr i), in_seq. lia.
  - intros Hr. destruct (T2 Hr) as (i & a & b & Hi & X). apply in_seq in Hi. exists i, a, b. split; [lia|exact X].
Qed.
End Step.

Section Kinds.
Context {S : scalar} {G : rng S}.
Variables (sy : anysys S) (tg : target S) (limit : S).
Hypothesis B : built sy.
Hypothesis T : length (tg_pos tg) = sysdim sy.
Notation n := (sysdim sy).
(** The shape of a step. *)
Lemma exp_step_shape dt N (l : llist (expag S)) disp (mv : llist (pos S)) (g : rstate G) : exp_crew n N l -> move_list n N mv -> length disp = n ->
  exists l' disp' mv' g' r, exp_step (core sy) tg limit dt l disp mv g = (l', disp', mv', g', r) /\ exp_crew n N l' /\ move_list n N mv' /\ length disp' = n /\ tle_ok r.
Proof.
  intros HC HM Ld. assert (HT : exp_crew n N l /\ Forall (exp_in n) (contents l)) by (split; [exact HC|exact (ec_crew _ _ _ HC)]).
  destruct (exp_step_ok n (core (G := G) sy) tg limit (exp_in n) (accepts sy) (fun _ => True) tle_ok (fun a H => H) (fun v _ => I) T (bc_any sy B) (fun x => or_introl (ex_intro _ x eq_refl)) dt N l disp mv g HT HM Ld)
    as (l' & d' & m' & g' & r' & E' & (A1 & _) & A2 & A3 & A4 & _). exists l', d', m', g', r'. auto 10.
Qed.
End Kinds.
