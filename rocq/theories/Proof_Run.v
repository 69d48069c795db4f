(** Loops over the list: a [while let Some(..) = list.get_mut()] loop is a fold over the live indices; a pair loop with merging is
    the specification sweep with the contents as its state. *)
From Coq Require Import Sorted List Lia Arith.
From Verif Require Import Base Model_LinkedList Spec_LinkedList Refine_LinkedList Proof_LinkedList Proof_LinkedList2 Proof_LinkedList3
  Proof_LinkedList4 Proof_LinkedList5 Proof_LinkedList6.
Import ListNotations.

Section Each.
Context {A St : Type}.
(** The body of a loop over elements: new element if it is written, new state, and [Ok true] to leave the loop. *)
Variable body : nat -> A -> St -> option A * St * outcome bool.
Implicit Types (l : llist A) (s : spec A).

Definition write (i : nat) (o : option A) (cs : list A) : list A := match o with Some a => replace_nth i a cs | None => cs end.

Fixpoint for_each (fuel : nat) l (st : St) : llist A * St * outcome bool :=
  match fuel with
  | 0 => (l, st, Fuel)
  | S k =>
    match enumerate l with
    | Ok (l1, None) => (l1, st, Ok false)
    | Ok (l1, Some (i, a)) =>
      let '(a', st1, r) := body i a st in
      let l2 := with_contents l1 (write i a' (contents l1)) in
      match r with
      | Ok false => for_each k l2 st1
      | _ => (l2, st1, r)
      end
    | Err e => (l, st, Err e) | Panic => (l, st, Panic) | Fuel => (l, st, Fuel)
    end
  end.

Fixpoint each (is : list nat) (cs : list A) (st : St) : list A * St * outcome bool :=
  match is with
  | [] => (cs, st, Ok false)
  | i :: r =>
    match nth_error cs i with
    | None => (cs, st, Panic)
    | Some a =>
      let '(a', st1, o) := body i a st in
      match o with
      | Ok false => each r (write i a' cs) st1
      | _ => (write i a' cs, st1, o)
      end
    end
  end.

Lemma write_ref l s i x o : represents l s -> nth_error (items s) i = Some x ->
  represents (with_contents l (write i o (contents l))) (mkSpec (write i o (items s)) (live s) (c0 s) (c1 s) (c2 s)).
Proof.
  intros R E. destruct o as [a|]; cbn [write].
  - destruct (modify_ref l s i (fun _ => a) x R E) as (l' & M & R'). unfold modify_content in M.
    rewrite (rp_items _ _ R), (upd_replace i _ _ x E) in M. cbn in M. injection M as <-. rewrite (rp_items _ _ R). exact R'.
  - destruct l, s. exact R.
Qed.

Lemma for_each_rep fuel : forall l s pre M st, represents l s -> live s = pre ++ M -> c0 s = hd_error M -> length M < fuel ->
  exists l' s' st' r, for_each fuel l st = (l', st', r) /\ each M (contents l) st = (contents l', st', r) /\ represents l' s' /\ live s' = live s.
Proof.
  induction fuel as [|fuel IH]; intros l s pre M st R HL H0 Hf; [lia|]. cbn [for_each]. pose proof (enumerate_ref l s R) as H. rewrite H0 in H.
  destruct M as [|i M]; cbn [hd_error] in H.
  - rewrite H. exists l, s, st, (Ok false). auto.
  - destruct H as (x & l1 & E1 & E2 & R1). rewrite E2. cbn [each]. rewrite (rp_items _ _ R), E1.
    destruct (body i x st) as ((o, st1), r).
    pose proof (write_ref l1 _ i x o R1 E1) as R2. cbn [items live c0 c1 c2] in R2. pose proof (rp_items _ _ R1) as C1. cbn in C1.
    assert (Hs : succ_in (live s) i = hd_error M) by (rewrite HL; apply succ_app; rewrite <- HL; apply (rp_sorted _ _ R)).
    assert (D : forall r', exists l' s' st' r'', (with_contents l1 (write i o (contents l1)), st1, r' : outcome bool) = (l', st', r'') /\
      (write i o (items s), st1, r') = (contents l', st', r'') /\ represents l' s' /\ live s' = live s).
    { intros r'. exists (with_contents l1 (write i o (contents l1))). eexists. exists st1, r'. split; [reflexivity|]. split; [cbn; now rewrite C1|]. split; [exact R2|reflexivity]. }
    destruct r as [[]| | |]; try apply D.
    destruct (IH _ _ (pre ++ [i]) M st1 R2) as (l' & s' & st' & r & F1 & F2 & F3 & F4).
    + cbn. rewrite HL, <- app_assoc. reflexivity.
    + cbn. exact Hs.
    + cbn in Hf. lia.
    + exists l', s', st', r. split; [exact F1|]. split; [|split; auto]. rewrite <- F2. cbn. now rewrite C1.
Qed.

Lemma for_each_reach fuel : forall l st l' st' r, reachable l -> for_each fuel l st = (l', st', r) -> reachable l'.
Proof.
  induction fuel as [|fuel IH]; intros l st l' st' r HR E; cbn [for_each] in E; [injection E as <- _ _; exact HR|].
  destruct (enumerate l) as [(l1, q)| | |] eqn:En; try (injection E as <- _ _; exact HR).
  assert (H1 : reachable l1) by (apply (reachable_step l ONext l1 (RNext q) HR); cbn; now rewrite En).
  destruct q as [(i, a)|]; [|injection E as <- _ _; exact H1].
  destruct (body i a st) as ((o, st1), r1).
  assert (H2 : reachable (with_contents l1 (write i o (contents l1)))).
  { destruct o as [b|]; cbn [write].
    - destruct (nth_error (contents l1) i) as [y|] eqn:Ey.
      + apply (reachable_step l1 (OModify i (fun _ => b)) _ RUnit H1). cbn. unfold modify_content. now rewrite (upd_replace i _ _ y Ey).
      + assert (W : replace_nth i b (contents l1) = contents l1).
        { clear -Ey. revert i Ey. induction (contents l1) as [|z cs IHc]; intros [|i] Ey; cbn in *; try reflexivity; try discriminate. f_equal. auto. }
        rewrite W. destruct l1. exact H1.
    - destruct l1. exact H1. }
  destruct r1 as [[]| | |]; try (injection E as <- _ _; exact H2). exact (IH _ _ _ _ _ H2 E).
Qed.

Lemma for_each_ref l st : reachable l ->
  exists l' st' r, for_each (S (length (contents l))) (into_iter l) st = (l', st', r) /\ each (live_of l) (contents l) st = (contents l', st', r) /\
    reachable l' /\ live_of l' = live_of l.
Proof.
  intros HR. destruct (reachable_rep l HR) as (s & R). pose proof (into_iter_ref l s R) as R1.
  destruct (for_each_rep (S (length (contents l))) _ _ [] (live s) st R1) as (l' & s' & st' & r & F1 & F2 & F3 & F4); try reflexivity.
  - cbn. rewrite (rp_items _ _ R). enough (length (live s) <= length (items s)) by lia.
    rewrite <- (seq_length (length (items s)) 0). apply NoDup_incl_length; [apply sorted_NoDup, (rp_sorted _ _ R)|].
    intros i Hi. apply in_seq. pose proof (rp_range _ _ R i Hi). lia.
  - exists l', st', r. split; [exact F1|]. rewrite (live_of_rep l s R). split; [exact F2|]. split.
    + apply (for_each_reach _ _ _ _ _ _ (reachable_step l OIntoIter _ RUnit HR eq_refl) F1).
    + rewrite (live_of_rep l' s' F3). exact F4.
Qed.
End Each.

(** ** Links do not depend on contents *)
Section Blind.
Context {A : Type}.
Implicit Types (l : llist A) (cs : list A).
Definition lift {R} cs (x : outcome (llist A * R)) : outcome (llist A * R) := do q <- x; Ok (with_contents (fst q) cs, snd q).

Lemma indicies_double_blind l cs : indicies_double (with_contents l cs) = lift cs (indicies_double l).
Proof.
  unfold indicies_double, lift. cbn [cur0 cur1 tail links with_contents].
  destruct (cur0 l) as [i|]; [|reflexivity]. destruct (cur1 l) as [j|]; [|reflexivity]. destruct (tail l) as [t|]; [|reflexivity].
  destruct (j =? t).
  - destruct (idx (links l) i) as [n| | |]; try reflexivity. cbn [bind]. unfold next_of. cbn [links with_contents].
    destruct (next n) as [k|]; [|reflexivity]. destruct (idx (links l) k); reflexivity.
  - destruct (idx (links l) j) as [n| | |]; reflexivity.
Qed.
Lemma del_blind l i cs : del (with_contents l cs) i = (with_contents (fst (del l i)) cs, snd (del l i)).
Proof.
  unfold del. cbn [links with_contents]. destruct (nth_error (links l) i) as [n0|]; [|reflexivity].
  destruct (negb (alive n0)); [reflexivity|].
  destruct (upd i (set_alive false) (links l)) as [ls| | |]; try reflexivity. cbn [bind links with_links].
  destruct (idx ls i) as [n| | |]; try reflexivity. cbn [bind].
  destruct (prev n) as [p|]; cbn [links with_cur with_links with_head].
  - destruct (upd p _ ls) as [ls1| | |]; try reflexivity. cbn [bind].
    destruct (next n) as [q|]; cbn [links with_links with_cur]; [|reflexivity]. destruct (upd q _ ls1); reflexivity.
  - cbn [bind]. destruct (next n) as [q|]; cbn [links with_links with_cur with_head]; [|reflexivity]. destruct (upd q _ ls); reflexivity.
Qed.
Lemma live_of_with_contents l cs : live_of (with_contents l cs) = live_of l. Proof. reflexivity. Qed.
Lemma into_double_blind l cs : into_double_iter (with_contents l cs) = do x <- into_double_iter l; Ok (with_contents x cs).
Proof.
  unfold into_double_iter, next_of. cbn [head links with_contents]. destruct (head l) as [i|]; [|reflexivity].
  destruct (idx (links l) i); reflexivity.
Qed.
End Blind.

Lemma filter_len {B} (f : B -> bool) L : length (filter f L) <= length L.
Proof. induction L as [|a L IH]; cbn; [lia|]. destruct (f a); cbn; lia. Qed.

(** ** The sweep with an invariant: which elements survive *)
Section Survive.
Context {St : Type} (dec : St -> nat -> nat -> St * bool) (close : nat -> nat -> bool) (Inv : St -> Prop).
Hypothesis keeps : forall st i j, Inv st -> snd (dec st i j) = close i j /\ Inv (fst (dec st i j)).

Lemma scan_close x r : forall st, Inv st ->
  fst (scan dec x r st) = filter (fun j => negb (close x j)) r /\ Inv (snd (scan dec x r st)).
Proof.
  induction r as [|j r IH]; intros st H; [auto|]. cbn [scan filter]. destruct (keeps st x j H) as (K1 & K2).
  destruct (dec st x j) as (st1, b). cbn in K1, K2. subst b. destruct (IH st1 K2) as (I1 & I2). destruct (scan dec x r st1) as (k, st2). cbn in *.
  destruct (close x j); cbn; split; auto. now rewrite I1.
Qed.
(** Which elements a sweep with a fixed decision keeps: each element in turn removes every later close one. *)
Fixpoint survivors (n : nat) (L : list nat) : list nat :=
  match n, L with
  | S n', x :: r => x :: survivors n' (filter (fun j => negb (close x j)) r)
  | _, _ => L
  end.
Lemma sweep_close n : forall L st, length L <= n -> Inv st ->
  snd (fst (sweep n dec L st)) = survivors n L /\ Inv (snd (sweep n dec L st)).
Proof.
  induction n as [|n IH]; intros L st HL H; [auto|]. destruct L as [|x r]; [auto|]. cbn [sweep survivors].
  destruct (scan_close x r st H) as (S1 & S2). destruct (scan dec x r st) as (k, st1) eqn:E. cbn in S1, S2. subst k.
  set (k := filter _ r) in *.
  assert (Lk : length k <= n). { unfold k. cbn in HL. pose proof (scan_length dec x r st) as P. rewrite E in P. cbn in P. unfold k in P. lia. }
  destruct (IH k st1 Lk S2) as (I1 & I2). destruct (sweep n dec k st1) as ((ps, surv), st2). cbn in *. split; auto. now rewrite I1.
Qed.
Lemma survivors_incl n : forall L j, In j (survivors n L) -> In j L.
Proof.
  induction n as [|n IH]; intros L j H; [exact H|]. destruct L as [|x r]; [exact H|]. cbn in H. destruct H as [<-|H]; [now left|].
  right. apply IH in H. apply filter_In in H. tauto.
Qed.
Lemma survivors_apart n : forall L i j, length L <= n -> StronglySorted lt L -> In i (survivors n L) -> In j (survivors n L) -> i < j -> close i j = false.
Proof.
  induction n as [|n IH]; intros L i j HL HS Hi Hj Hij.
  { destruct L; [destruct Hi|cbn in HL; lia]. }
  destruct L as [|x r]; [destruct Hi|]. cbn in Hi, Hj, HL. apply sorted_cons in HS as (Hx & HS).
  set (k := filter (fun j => negb (close x j)) r) in *.
  assert (Lk : length k <= n) by (unfold k; pose proof (filter_len (fun j => negb (close x j)) r); lia).
  destruct Hj as [<-|Hj].
  { destruct Hi as [<-|Hi]; [lia|]. apply survivors_incl, filter_In in Hi. destruct Hi as (Hi & _). specialize (Hx i Hi). lia. }
  destruct Hi as [<-|Hi].
  - apply survivors_incl, filter_In in Hj. destruct Hj as (_ & Hj). now destruct (close x j).
  - apply (IH k); auto. apply sorted_filter; auto.
Qed.
Lemma survivors_reason n : forall L j, length L <= n -> In j L -> ~ In j (survivors n L) -> exists i, In i (survivors n L) /\ close i j = true.
Proof.
  induction n as [|n IH]; intros L j HL Hj Hn; [contradiction|]. destruct L as [|x r]; [destruct Hj|]. cbn in Hj, Hn, HL |- *.
  destruct Hj as [<-|Hj]; [exfalso; auto|].
  set (k := filter (fun j => negb (close x j)) r) in *.
  assert (Lk : length k <= n) by (unfold k; pose proof (filter_len (fun j => negb (close x j)) r); lia).
  destruct (close x j) eqn:C.
  - exists x. auto.
  - destruct (IH k j Lk) as (i & Hi & Ci).
    + apply filter_In. now rewrite C.
    + auto.
    + exists i. auto.
Qed.
End Survive.

Lemma pairs_length_sq (L : list nat) : length (pairs L) <= length L * length L.
Proof. induction L as [|x r IH]; cbn; [lia|]. rewrite app_length, map_length. nia. Qed.
