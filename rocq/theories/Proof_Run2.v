(** The merging first-passage simulation. *)
From Coq Require Import Sorted List Lia Arith ZArith.
From Verif Require Import Base Scalar Model_Position Spec_Position Proof_Position Model_System Spec_System Proof_System Proof_System5 Model_Agent Spec_Agent
  Model_LinkedList Spec_LinkedList Refine_LinkedList Proof_LinkedList Proof_LinkedList2 Proof_LinkedList3
  Proof_LinkedList4 Proof_LinkedList5 Proof_LinkedList6 Proof_Run Model_Run Spec_Run.
Import ListNotations.
Local Open Scope nat_scope.

Section EachInv.
Context {A St : Type} (body : nat -> A -> St -> option A * St * outcome bool).
Context (P : A -> Prop) (Rel : A -> A -> Prop) (Done Found : A -> Prop) (Rok : outcome bool -> Prop).
Hypothesis Rel_refl : forall a, Rel a a.
Hypothesis Rok_done : Rok (Ok false).
Hypothesis step : forall i a st, P a -> let '(o, st1, r) := body i a st in
  (forall b, o = Some b -> P b /\ Rel a b) /\ Rok r /\
  (r = Ok false -> exists b, o = Some b /\ Done b) /\ (r = Ok true -> exists b, o = Some b /\ Found b).

Lemma each_inv M : forall cs st cs' st' r, each body M cs st = (cs', st', r) -> NoDup M -> (forall i, In i M -> i < length cs) -> Forall P cs ->
  length cs' = length cs /\ Forall P cs' /\ Rok r /\
  (forall i, ~ In i M -> nth_error cs' i = nth_error cs i) /\
  (forall i a, nth_error cs i = Some a -> exists b, nth_error cs' i = Some b /\ Rel a b) /\
  (r = Ok false -> forall i b, In i M -> nth_error cs' i = Some b -> Done b) /\
  (r = Ok true -> exists i b, In i M /\ nth_error cs' i = Some b /\ Found b).
Proof.
  induction M as [|i M IH]; intros cs st cs' st' r E ND Hr HP; cbn [each] in E.
  { injection E as <- _ <-. split; [reflexivity|]. split; [exact HP|]. split; [exact Rok_done|]. split; [auto|]. split; [eauto|].
    split; [intros _ j b []|discriminate]. }
  assert (Hi : i < length cs) by (apply Hr; now left).
  destruct (nth_error cs i) as [a|] eqn:Ea; [|apply nth_error_None in Ea; lia].
  assert (Pa : P a) by (apply (proj1 (Forall_forall P cs) HP), (nth_error_In _ _ Ea)).
  pose proof (step i a st Pa) as B. destruct (body i a st) as ((o, st1), r1). destruct B as (B1 & B2 & B3 & B4).
  apply NoDup_cons_iff in ND as (Ni & ND).
  assert (W1 : length (write i o cs) = length cs) by (destruct o; cbn; [apply replace_length|reflexivity]).
  assert (W2 : Forall P (write i o cs)).
  { destruct o as [b|]; cbn; [|exact HP]. apply Forall_forall. intros x Hx. apply In_nth_error in Hx as (j & Hj). rewrite nth_replace in Hj.
    destruct ((j =? i) && (j <? length cs)).
    - injection Hj as <-. now apply B1.
    - apply (proj1 (Forall_forall P cs) HP), (nth_error_In _ _ Hj). }
  assert (W3 : forall j, j <> i -> nth_error (write i o cs) j = nth_error cs j).
  { intros j Hj. destruct o; cbn; [|reflexivity]. rewrite nth_replace. destruct (Nat.eqb_spec j i); [contradiction|reflexivity]. }
  assert (W4 : forall b, o = Some b -> nth_error (write i o cs) i = Some b).
  { intros b ->. cbn [write]. rewrite nth_replace, Nat.eqb_refl. destruct (Nat.ltb_spec i (length cs)); [reflexivity|lia]. }
  assert (W5 : forall j x, nth_error cs j = Some x -> exists b, nth_error (write i o cs) j = Some b /\ Rel x b).
  { intros j x Hx. destruct (Nat.eq_dec j i) as [->|N]; [|rewrite W3 by auto; eauto].
    rewrite Ea in Hx. injection Hx as <-. destruct o as [b|]; [exists b; split; [apply W4; reflexivity|now apply B1]|cbn; eauto]. }
  assert (Stop : forall r', r' <> Ok false -> Rok r' -> (r' = Ok true -> exists b, o = Some b /\ Found b) ->
    length (write i o cs) = length cs /\ Forall P (write i o cs) /\ Rok r' /\
    (forall j, ~ In j (i :: M) -> nth_error (write i o cs) j = nth_error cs j) /\
    (forall j a0, nth_error cs j = Some a0 -> exists b, nth_error (write i o cs) j = Some b /\ Rel a0 b) /\
    (r' = Ok false -> forall j b, In j (i :: M) -> nth_error (write i o cs) j = Some b -> Done b) /\
    (r' = Ok true -> exists j b, In j (i :: M) /\ nth_error (write i o cs) j = Some b /\ Found b)).
  { intros r' N R F. do 3 (split; [assumption|]). split; [intros j Hj; apply W3; intros ->; apply Hj; now left|]. split; [exact W5|].
    split; [intros ->; contradiction|]. intros T. destruct (F T) as (b & Eb & Fb). exists i, b. split; [now left|]. split; [now apply W4|exact Fb]. }
  destruct r1 as [[]| e | |]; try (injection E as <- _ <-; apply Stop; [discriminate|assumption|assumption]).
  destruct (IH _ _ _ _ _ E ND) as (I1 & I2 & I3 & I4 & I5 & I6 & I7); [intros j Hj; rewrite W1; apply Hr; now right|exact W2|].
  split; [congruence|]. do 2 (split; [assumption|]). split.
  { intros j Hj. rewrite I4 by (intros K; apply Hj; now right). apply W3. intros ->. apply Hj. now left. }
  split.
  { intros j x Hx. destruct (Nat.eq_dec j i) as [->|N].
    - destruct (W5 i x Hx) as (b & Hb & Rb). exists b. split; [rewrite I4 by exact Ni; exact Hb|exact Rb].
    - apply I5. now rewrite W3. }
  split.
  - intros T j b [<-|Hj] Hb; [|apply (I6 T j b Hj Hb)]. rewrite I4 in Hb by exact Ni. destruct (B3 eq_refl) as (b' & Eb & Db).
    rewrite (W4 b' Eb) in Hb. injection Hb as <-. exact Db.
  - intros T. destruct (I7 T) as (j & b & H1 & H2 & H3). exists j, b. split; [now right|auto].
Qed.
End EachInv.

Section Sys.
Context {S : scalar} {G : rng S}.
Notation gen := (rstate G).

Lemma core_shape (sy : anysys S) : built sy -> bc_shape (sysdim sy) (sc_check_bc (core (G := G) sy)).
Proof. destruct sy as [s|s|s]; intros B; [exact (circ_shape s)|exact (cubic_shape s B)|exact (cyl_shape s B)]. Qed.
Lemma core_ok_inside (sy : anysys S) p dp q : sc_check_bc (core (G := G) sy) p dp = (q, Ok tt) -> accepts sy q.
Proof. destruct sy as [s|s|s]; [apply circ_ok_inside|apply cubic_ok_inside|apply cyl_ok_inside]. Qed.
Lemma sample_map_length (draw : gen -> S * gen) f p : forall g, length (fst (sample_map draw f p g)) = length p.
Proof.
  induction p as [|x p IH]; intros g; [reflexivity|]. cbn [sample_map]. destruct (draw g) as (r, g1). specialize (IH g1).
  destruct (sample_map draw f p g1) as (q, g2). cbn in *. now rewrite IH.
Qed.
Lemma rnd_move_brownian c n (g : gen) dt : exists g1 dp, rnd_move (Brownian c) n g dt = (g1, Ok dp) /\ length dp = n.
Proof.
  unfold rnd_move, get_gaussian_vec. pose proof (sample_map_length (gauss G) (fun _ r => r) (repeat s0 n) g) as L. rewrite repeat_length in L.
  destruct (sample_map _ _ _ _) as (mv, g1). exists g1. eexists. split; [reflexivity|]. cbn in L. unfold mut_scalar_mul. now rewrite map_length.
Qed.

(** ** The movement pass of any agent *)
Context {A : Type} (m : mover (S := S) (G := G) A) (fitA : A -> Prop) (n : nat).
Hypothesis fit_move : forall a g dt, fitA a -> length (mv_pos m a) = n /\ exists g1 dp, mv_move m a g dt = (g1, Ok dp) /\ length dp = n.
Hypothesis fit_put : forall a p, fitA a -> length p = n -> fitA (mv_put m a p).
Hypothesis pos_put : forall a p, mv_pos m (mv_put m a p) = p.

Definition move_body (sys : syscore S G) (tg : target S) (dt : S) (i : nat) (a : A) (g : gen) : option A * gen * outcome bool :=
  let (g1, mv) := mv_move m a g dt in
  match mv with
  | Ok dp => let (p, r) := sc_check_bc sys (mv_pos m a) dp in
             (Some (mv_put m a p), g1, match r with Ok _ => check_find tg p | Err e => Err e | Panic => Panic | Fuel => Fuel end)
  | Err e => (None, g1, Err e) | Panic => (None, g1, Panic) | Fuel => (None, g1, Fuel)
  end.
Lemma with_contents_id {B} (l : llist B) : with_contents l (contents l) = l. Proof. destruct l; reflexivity. Qed.
Lemma move_loop_each sys tg dt fuel : forall l g, move_loop m sys tg fuel dt l g = for_each (move_body sys tg dt) fuel l g.
Proof.
  induction fuel as [|k IH]; intros l g; [reflexivity|]. cbn [move_loop for_each]. destruct (enumerate l) as [(l1, [(i, a)|])| | |]; try reflexivity.
  unfold move_body. destruct (mv_move m a g dt) as (g1, [dp| | |]); try (cbn [write]; now rewrite with_contents_id).
  destruct (sc_check_bc sys (mv_pos m a) dp) as (p, [ | | |]); try reflexivity. destruct (check_find tg p) as [[]| | |]; try reflexivity.
  cbn [write]. apply IH.
Qed.

Definition moved (a b : A) : Prop := exists p, b = mv_put m a p \/ b = a.

Lemma move_pass_ok (sy : anysys S) (tg : target S) dt l g : built sy -> sysdim sy = n -> length (tg_pos tg) = n -> reachable l -> Forall fitA (contents l) ->
  exists l' g' r, move_pass m (core sy) tg dt l g = (l', g', r) /\ reachable l' /\ live_of l' = live_of l /\
    length (contents l') = length (contents l) /\ Forall fitA (contents l') /\
    (forall i, ~ In i (live_of l) -> nth_error (contents l') i = nth_error (contents l) i) /\
    (forall i a, nth_error (contents l) i = Some a -> exists b, nth_error (contents l') i = Some b /\ moved a b) /\
    (r = Ok true \/ r = Ok false \/ r = Err TooLargeTimeStep) /\
    (r = Ok false -> forall i b, In i (live_of l) -> nth_error (contents l') i = Some b -> searching sy tg (mv_pos m b)) /\
    (r = Ok true -> exists i b, live_at l' i b /\ on_target sy tg (mv_pos m b)).
Proof.
  intros B D T HR HF. unfold move_pass. rewrite move_loop_each.
  destruct (for_each_ref (move_body (core sy) tg dt) l g HR) as (l' & g' & r & E1 & E2 & R' & L'). rewrite E1.
  exists l', g', r. split; [reflexivity|]. do 2 (split; [assumption|]).
  destruct (chains l HR) as (CS & CR & _).
  assert (Step : forall i a st, fitA a -> let '(o, st1, r) := move_body (core sy) tg dt i a st in
    (forall b, o = Some b -> fitA b /\ moved a b) /\ (r = Ok true \/ r = Ok false \/ r = Err TooLargeTimeStep) /\
    (r = Ok false -> exists b, o = Some b /\ searching sy tg (mv_pos m b)) /\ (r = Ok true -> exists b, o = Some b /\ on_target sy tg (mv_pos m b))).
  { intros i a st Pa. destruct (fit_move a st dt Pa) as (Lp & g1 & dp & Em & Ld). unfold move_body. rewrite Em.
    destruct (core_shape sy B (mv_pos m a) dp) as (_ & _ & Sh). rewrite D in Sh. destruct (Sh ltac:(lia) Lp) as (q & Lq & [Eq|Eq]); rewrite Eq.
    + split; [intros b [= <-]; split; [now apply fit_put|exists q; auto]|].
      assert (exists z, check_find tg q = Ok z) as (z & Ez) by (apply (proj2 (check_find_cases tg q)); congruence). rewrite Ez.
      pose proof (core_ok_inside sy _ _ _ Eq) as In1.
      destruct z; (split; [auto|]); split; intros Hz; try discriminate; eexists; (split; [reflexivity|]); rewrite pos_put; split; auto.
    + split; [intros b [= <-]; split; [now apply fit_put|exists q; auto]|]. split; [auto|]. split; discriminate. }
  destruct (each_inv (move_body (core sy) tg dt) fitA moved _ _ _ (fun a => ex_intro _ [] (or_intror eq_refl)) (or_intror (or_introl eq_refl)) Step
    _ _ _ _ _ _ E2 (sorted_NoDup _ CS) CR HF) as (I1 & I2 & I3 & I4 & I5 & I6 & I7).
  repeat (split; [assumption|]). intros Hr. destruct (I7 Hr) as (i & b & H1 & H2 & H3). exists i, b. split; [split; congruence|exact H3].
Qed.
End Sys.
