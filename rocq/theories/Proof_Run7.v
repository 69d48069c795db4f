(** One time step of examples/mfpt_exp.rs. *)
From Coq Require Import Sorted List Lia Arith ZArith.
From Verif Require Import Base Scalar Model_Position Spec_Position Proof_Position Model_System Spec_System Proof_System Proof_System5 Model_Agent Spec_Agent
  Proof_Agent Proof_Agent2 Proof_Agent4 Model_LinkedList Spec_LinkedList Refine_LinkedList Proof_LinkedList Proof_LinkedList2 Proof_LinkedList3
  Proof_LinkedList4 Proof_LinkedList5 Proof_LinkedList6 Proof_Run Model_Run Spec_Run Proof_Run2 Spec_Run2 Proof_Run6.
Import ListNotations.
Local Open Scope nat_scope.

(** [each] with a state invariant that may depend on the elements still to come. *)
Section EachInv2.
Context {A St : Type} (body : nat -> A -> St -> option A * St * outcome bool).
Context (P : A -> Prop) (Rel : nat -> A -> A -> Prop) (Done Found : A -> Prop) (Rok : outcome bool -> Prop) (Q : list nat -> St -> Prop).
Hypothesis Rok_done : Rok (Ok false).
Hypothesis step : forall i M a st, P a -> Q (i :: M) st -> ~ In i M -> let '(o, st1, r) := body i a st in
  (exists b, o = Some b /\ P b /\ Rel i a b /\ (r = Ok false -> Done b) /\ (r = Ok true -> Found b)) /\ Rok r /\ Q M st1.

Lemma each_inv2 M : forall cs st cs' st' r, each body M cs st = (cs', st', r) -> NoDup M -> (forall i, In i M -> i < length cs) -> Forall P cs -> Q M st ->
  length cs' = length cs /\ Forall P cs' /\ Rok r /\ (exists M', Q M' st') /\
  (forall i, ~ In i M -> nth_error cs' i = nth_error cs i) /\
  (forall i a, nth_error cs i = Some a -> exists b, nth_error cs' i = Some b /\ (b = a \/ Rel i a b)) /\
  (r = Ok false -> forall i, In i M -> exists a b, nth_error cs i = Some a /\ nth_error cs' i = Some b /\ Rel i a b /\ Done b) /\
  (r = Ok true -> exists i b, In i M /\ nth_error cs' i = Some b /\ Found b).
Proof.
  induction M as [|i M IH]; intros cs st cs' st' r E ND Hr HP HQ; cbn [each] in E.
  { injection E as <- <- <-. split; [reflexivity|]. split; [exact HP|]. split; [exact Rok_done|]. split; [eauto|]. split; [auto|].
    split; [intros; eauto|]. split; [intros _ j []|discriminate]. }
  assert (Hi : i < length cs) by (apply Hr; now left).
  destruct (nth_error cs i) as [a|] eqn:Ea; [|apply nth_error_None in Ea; lia].
  assert (Pa : P a) by (apply (proj1 (Forall_forall P cs) HP), (nth_error_In _ _ Ea)).
  apply NoDup_cons_iff in ND as (Ni & ND).
  pose proof (step i M a st Pa HQ Ni) as B. destruct (body i a st) as ((o, st1), r1). destruct B as ((b & -> & Pb & Rb & Db & Fb) & B2 & B3).
  cbn [write] in E.
  assert (W1 : length (replace_nth i b cs) = length cs) by apply replace_length.
  assert (W2 : Forall P (replace_nth i b cs)).
  { apply Forall_forall. intros x Hx. apply In_nth_error in Hx as (j & Hj). rewrite nth_replace in Hj.
    destruct ((j =? i) && (j <? length cs)).
    - injection Hj as <-. exact Pb.
    - apply (proj1 (Forall_forall P cs) HP), (nth_error_In _ _ Hj). }
  assert (W3 : forall j, j <> i -> nth_error (replace_nth i b cs) j = nth_error cs j).
  { intros j Hj. rewrite nth_replace. destruct (Nat.eqb_spec j i); [contradiction|reflexivity]. }
  assert (W4 : nth_error (replace_nth i b cs) i = Some b).
  { rewrite nth_replace, Nat.eqb_refl. destruct (Nat.ltb_spec i (length cs)); [reflexivity|lia]. }
  assert (W5 : forall j x, nth_error cs j = Some x -> exists y, nth_error (replace_nth i b cs) j = Some y /\ (y = x \/ Rel j x y)).
  { intros j x Hx. destruct (Nat.eq_dec j i) as [->|N]; [|rewrite W3 by auto; eauto].
    rewrite Ea in Hx. injection Hx as <-. eauto. }
  assert (Stop : forall r', r' <> Ok false -> r' = r1 ->
    length (replace_nth i b cs) = length cs /\ Forall P (replace_nth i b cs) /\ Rok r' /\ (exists M', Q M' st1) /\
    (forall j, ~ In j (i :: M) -> nth_error (replace_nth i b cs) j = nth_error cs j) /\
    (forall j a0, nth_error cs j = Some a0 -> exists b0, nth_error (replace_nth i b cs) j = Some b0 /\ (b0 = a0 \/ Rel j a0 b0)) /\
    (r' = Ok false -> forall j, In j (i :: M) -> exists a0 b0, nth_error cs j = Some a0 /\ nth_error (replace_nth i b cs) j = Some b0 /\ Rel j a0 b0 /\ Done b0) /\
    (r' = Ok true -> exists j b0, In j (i :: M) /\ nth_error (replace_nth i b cs) j = Some b0 /\ Found b0)).
  { intros r' N ->. do 3 (split; [assumption|]). split; [eauto|]. split; [intros j Hj; apply W3; intros ->; apply Hj; now left|]. split; [exact W5|].
    split; [intros T; contradiction|]. intros T. exists i, b. split; [now left|]. split; [exact W4|auto]. }
  destruct r1 as [[]| e | |]; try (injection E as <- <- <-; apply Stop; [discriminate|reflexivity]).
  destruct (IH _ _ _ _ _ E ND) as (I1 & I2 & I3 & I4 & I5 & I6 & I7 & I8); [intros j Hj; rewrite W1; apply Hr; now right|exact W2|exact B3|].
  split; [congruence|]. do 3 (split; [assumption|]). split.
  { intros j Hj. rewrite I5 by (intros K; apply Hj; now right). apply W3. intros ->. apply Hj. now left. }
  split.
  { intros j x Hx. destruct (Nat.eq_dec j i) as [->|N].
    - destruct (W5 i x Hx) as (y & Hy & Ry). exists y. split; [rewrite I5 by exact Ni; exact Hy|exact Ry].
    - apply I6. now rewrite W3. }
  split.
  - intros T j [<-|Hj].
    + exists a, b. split; [exact Ea|]. split; [rewrite I5 by exact Ni; exact W4|auto].
    + destruct (I7 T j Hj) as (a0 & b0 & H1 & H2 & H3). exists a0, b0. split; [rewrite <- H1; symmetry; apply W3; intros ->; contradiction|auto].
  - intros T. destruct (I8 T) as (j & y & H1 & H2 & H3). exists j, y. split; [now right|auto].
Qed.
End EachInv2.

Section Step.
Context {S : scalar} {G : rng S}.
Notation gen := (rstate G).
Implicit Types (l : llist (expag S)) (ms : list (pos S)) (a b : expag S).

Definition exp_put a (p : pos S) : expag S := Expag (ex_type a) (ex_int a) (ex_mtype a) (ex_itype a) (ex_dim a) p
                      (ex_gamma a) (ex_strength a) (ex_cpot a) (ex_cforce a).
Definition exp_body (sys : syscore S G) (tg : target S) (limit dt : S) (i : nat) a (st : list (pos S) * gen) : option (expag S) * (list (pos S) * gen) * outcome bool :=
  match nth_error (fst st) i with
  | Some v =>
    let '(v1, g1, r) := expag_random_move_to_vec a (snd st) dt v in
    match r with
    | Ok _ =>
      let v2 := limit_move limit v1 in
      let (p, r2) := sc_check_bc sys (ex_pos a) v2 in
      (Some (exp_put a p), (replace_nth i v2 (fst st), g1), match r2 with Ok _ => check_find tg p | Err e => Err e | Panic => Panic | Fuel => Fuel end)
    | Err e => (None, (fst st, g1), Err e) | Panic => (None, (fst st, g1), Panic) | Fuel => (None, (fst st, g1), Fuel)
    end
  | None => (None, st, Panic)
  end.
Lemma exp_move_loop_each sys tg limit dt fuel : forall l (mv : llist (pos S)) g,
  exp_move_loop sys tg limit dt fuel l mv g =
  (let '(l', st, r) := for_each (exp_body sys tg limit dt) fuel l (contents mv, g) in (l', with_contents mv (fst st), snd st, r)).
Proof.
  induction fuel as [|k IH]; intros l mv g; [cbn; now rewrite with_contents_id|]. cbn [exp_move_loop for_each].
  destruct (enumerate l) as [(l1, [(i, a)|])| | |]; try (cbn; now rewrite with_contents_id).
  unfold exp_body at 1, idx. cbn [fst snd]. destruct (nth_error (contents mv) i) as [v|] eqn:Ev; [|cbn [write fst snd]; now rewrite !with_contents_id].
  destruct (expag_random_move_to_vec a g dt v) as ((v1, g1), [u| | |]); try (cbn [write fst snd]; now rewrite !with_contents_id).
  destruct (sc_check_bc sys (ex_pos a) (limit_move limit v1)) as (p, [ | | |]); try reflexivity.
  destruct (check_find tg p) as [[]| | |]; try reflexivity. cbn [write]. rewrite IH.
  destruct (for_each _ _ _ _) as ((l', st), r). reflexivity.
Qed.

Context (n : nat).
Lemma limit_length limit (v : pos S) : length v = n -> length (limit_move limit v) = n.
Proof. intros L. unfold limit_move. destruct (ltb _ _); [unfold mut_scalar_mul; now rewrite map_length|exact L]. Qed.
Lemma noise_ok a (g : gen) dt (v : pos S) : exp_in n a -> length v = n -> exists v1 g1, expag_random_move_to_vec a g dt v = (v1, g1, Ok tt) /\ length v1 = n.
Proof.
  intros (D & L & c & E) Lv. pose proof (random_move_to_draws (AExp a) g dt c v) as R. cbn in R. rewrite E in R. specialize (R eq_refl ltac:(congruence)).
  do 2 eexists. split; [exact R|]. rewrite map_length, combine_length, draws_length. lia.
Qed.

(** The plan of a step: what the pair pass leaves for agent [i]. *)
Definition plans (dt : S) (cs : list (expag S)) (disp : pos S) : list (pos S) :=
  snd (fold_left (fun st ij => push dt cs st (fst ij) (snd ij)) (pairs (seq 0 (length cs))) (disp, repeat (repeat s0 n) (length cs))).

Variables (sys : syscore S G) (tg : target S) (limit : S) (P : expag S -> Prop) (inside : pos S -> Prop) (V : pos S -> Prop) (Rok : outcome bool -> Prop).
Hypothesis P_in : forall a, P a -> exp_in n a.
Hypothesis V_limit : forall v, length v = n -> V (limit_move limit v).
Hypothesis tg_dim : length (tg_pos tg) = n.
Hypothesis bc_ok : forall a v, P a -> length v = n -> V v -> let (p, r) := sc_check_bc sys (ex_pos a) v in
  P (exp_put a p) /\ (r = Ok tt -> inside p) /\ (r = Ok tt \/ exists e, r = Err e /\ Rok (Err e)).
Hypothesis Rok_ok : forall x, Rok (Ok x).

(** How an agent moved. *)
Definition exp_moved (dt : S) (plan : list (pos S)) (i : nat) a b : Prop := exists g1 v,
  nth_error plan i = Some v /\ ex_pos b = fst (sc_check_bc sys (ex_pos a) (limit_move limit (fst (fst (expag_random_move_to_vec (G := G) a g1 dt v))))) /\ b = exp_put a (ex_pos b).

Lemma exp_pass dt l (mv : llist (pos S)) g : reachable l -> Forall P (contents l) -> length (contents mv) = length (contents l) -> Forall (fun v => length v = n) (contents mv) ->
  exists l' ms' g' r, exp_move_loop sys tg limit dt (Datatypes.S (length (contents l))) (into_iter l) mv g = (l', with_contents mv ms', g', r) /\
    reachable l' /\ live_of l' = live_of l /\ length (contents l') = length (contents l) /\ Forall P (contents l') /\
    length ms' = length (contents l) /\ Forall (fun v => length v = n) ms' /\ Rok r /\
    (forall i, ~ In i (live_of l) -> nth_error (contents l') i = nth_error (contents l) i) /\
    (forall i a, nth_error (contents l) i = Some a -> exists b, nth_error (contents l') i = Some b /\ (b = a \/ exp_moved dt (contents mv) i a b)) /\
    (r = Ok false -> forall i, In i (live_of l) -> exists a b, nth_error (contents l) i = Some a /\ nth_error (contents l') i = Some b /\
        exp_moved dt (contents mv) i a b /\ (inside (ex_pos b) /\ check_find tg (ex_pos b) = Ok false)) /\
    (r = Ok true -> exists i b, In i (live_of l) /\ nth_error (contents l') i = Some b /\ (inside (ex_pos b) /\ check_find tg (ex_pos b) = Ok true)).
Proof.
  intros HR HF Lm HM. rewrite exp_move_loop_each.
  destruct (for_each_ref (exp_body sys tg limit dt) l (contents mv, g) HR) as (l' & st' & r & E1 & E2 & R' & L'). rewrite E1.
  destruct st' as (ms', g'). exists l', ms', g', r. split; [reflexivity|]. do 2 (split; [assumption|]).
  destruct (chains l HR) as (CS & CR & _).
  set (Q := fun (M : list nat) (st : list (pos S) * gen) => length (fst st) = length (contents l) /\ Forall (fun v => length v = n) (fst st) /\
     forall i, In i M -> nth_error (fst st) i = nth_error (contents mv) i).
  assert (Step : forall i M a st, P a -> Q (i :: M) st -> ~ In i M -> let '(o, st1, r) := exp_body sys tg limit dt i a st in
    (exists b, o = Some b /\ P b /\ exp_moved dt (contents mv) i a b /\ (r = Ok false -> inside (ex_pos b) /\ check_find tg (ex_pos b) = Ok false) /\ (r = Ok true -> inside (ex_pos b) /\ check_find tg (ex_pos b) = Ok true)) /\ Rok r /\ Q M st1
    \/ ~ i < length (contents l)).
  { intros i M a st Pa (Q1 & Q2 & Q3) Ni. unfold exp_body. destruct (nth_error (fst st) i) as [v|] eqn:Ev.
    2:{ right. apply nth_error_None in Ev. pose proof Q1. intros Hi. apply (Nat.lt_irrefl i). eapply Nat.lt_le_trans; [exact Hi|]. rewrite <- Q1. exact Ev. }
    pose proof (nth_dims n _ _ _ Q2 Ev) as Lv. destruct (noise_ok a (snd st) dt v (P_in a Pa) Lv) as (v1 & g1 & En & L1). rewrite En.
    pose proof (bc_ok a (limit_move limit v1) Pa (limit_length limit v1 L1) (V_limit v1 L1)) as B.
    destruct (sc_check_bc sys (ex_pos a) (limit_move limit v1)) as (p, rb) eqn:Eb. destruct B as (B1 & B2 & B3). left.
    assert (MV : exp_moved dt (contents mv) i a (exp_put a p)).
    { exists (snd st), v. split; [rewrite <- Q3; [exact Ev|now left]|]. rewrite En. cbn [fst]. rewrite Eb. cbn [fst]. auto. }
    assert (QM : Q M (replace_nth i (limit_move limit v1) (fst st), g1)).
    { unfold Q. cbn [fst snd]. split; [rewrite <- Q1; exact (replace_length _ _ _)|]. split; [exact (replace_dims n _ _ _ Q2 (limit_length limit v1 L1))|].
      intros k Hk. rewrite <- Q3 by now right. refine (eq_trans (nth_replace _ _ _ _) _). destruct (Nat.eqb_spec k i) as [->|_]; [contradiction|reflexivity]. }
    destruct B3 as [->|(e & -> & Re)].
    - assert (exists z, check_find tg p = Ok z) as (z & Ez).
      { apply (proj2 (check_find_cases tg p)). destruct (P_in _ B1) as (_ & Lp & _). cbn in Lp. congruence. }
      rewrite Ez. split; [|split; [apply Rok_ok|exact QM]]. exists (exp_put a p). split; [reflexivity|]. split; [exact B1|]. split; [exact MV|].
      cbn [ex_pos exp_put]. rewrite Ez. split; intros [= ->]; auto.
    - split; [|split; [exact Re|exact QM]]. exists (exp_put a p). split; [reflexivity|]. split; [exact B1|]. split; [exact MV|]. split; discriminate. }
  set (Q' := fun M st => Q M st /\ forall i, In i M -> i < length (contents l)).
  assert (Step' : forall i M a st, P a -> Q' (i :: M) st -> ~ In i M -> let '(o, st1, r) := exp_body sys tg limit dt i a st in
    (exists b, o = Some b /\ P b /\ exp_moved dt (contents mv) i a b /\ (r = Ok false -> inside (ex_pos b) /\ check_find tg (ex_pos b) = Ok false) /\ (r = Ok true -> inside (ex_pos b) /\ check_find tg (ex_pos b) = Ok true)) /\ Rok r /\ Q' M st1).
  { intros i M a st Pa (HQ & Hr) Ni. specialize (Step i M a st Pa HQ Ni). destruct (exp_body _ _ _ _ _ _ _) as ((o, st1), r1).
    destruct Step as [(S1 & S2 & S3)|K]; [|exfalso; apply K, Hr; now left]. split; [exact S1|]. split; [exact S2|]. split; [exact S3|]. intros k Hk. apply Hr. now right. }
  assert (Q0 : Q' (live_of l) (contents mv, g)). { split; [split; [exact Lm|split; [exact HM|reflexivity]]|exact CR]. }
  destruct (each_inv2 (exp_body sys tg limit dt) P (exp_moved dt (contents mv)) _ _ Rok Q' (Rok_ok false) Step'
    _ _ _ _ _ _ E2 (sorted_NoDup _ CS) CR HF Q0) as (I1 & I2 & I3 & (M' & (I41 & I42 & _) & _) & I5 & I6 & I7 & I8).
  do 2 (split; [assumption|]). split; [exact I41|]. split; [exact I42|]. auto 10.
Qed.
End Step.
