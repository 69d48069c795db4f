(** One time step of examples/mfpt_exp.rs: assembly; the exact reals. *)
From Coq Require Import Sorted List Lia Arith ZArith Reals Lra.
From Verif Require Import Base Scalar Model_Position Spec_Position Proof_Position Model_System Spec_System Proof_System Proof_System5 Model_Agent Spec_Agent
  Proof_Agent Proof_Agent2 Proof_Agent4 Model_LinkedList Spec_LinkedList Refine_LinkedList Proof_LinkedList Proof_LinkedList2 Proof_LinkedList3
  Proof_LinkedList4 Proof_LinkedList5 Proof_LinkedList6 Proof_Run Model_Run Spec_Run Proof_Run2 Spec_Run2 Proof_Run6 Proof_Run7.
Import ListNotations.
Local Open Scope nat_scope.

Lemma enumerate_mut_reach {A} (f : A -> A) (l l' : llist A) q : reachable l -> enumerate_mut l f = Ok (l', q) -> reachable l'.
Proof.
  intros R E. unfold enumerate_mut in E. destruct (cur0 l) as [i|] eqn:C; [|injection E as <- _; exact R].
  destruct (idx (links l) i) as [nd| | |] eqn:En; try discriminate. cbn [bind] in E. cbn zeta in E.
  destruct (idx (contents (with_cur0 l (next nd))) i) as [x| | |] eqn:Ex; try discriminate. cbn [bind] in E.
  destruct (upd i f (contents (with_cur0 l (next nd)))) as [cs| | |] eqn:Eu; try discriminate. cbn [bind] in E. injection E as <- _.
  assert (R1 : reachable (with_cur0 l (next nd))).
  { apply (reachable_step l ONext _ (RNext (Some (i, x))) R). cbn. unfold enumerate. rewrite C, En. cbn [bind]. rewrite Ex. reflexivity. }
  apply (reachable_step _ (OModify i f) _ RUnit R1). cbn [step]. unfold modify_content. rewrite Eu. reflexivity.
Qed.
Lemma clear_reach {A} (f : A -> A) fuel : forall (l l' : llist A), reachable l -> clear_loop f fuel l = Ok l' -> reachable l'.
Proof.
  induction fuel as [|k IH]; intros l l' R E; [discriminate|]. cbn [clear_loop] in E.
  destruct (enumerate_mut l f) as [(l1, q)| | |] eqn:Em; try discriminate. cbn [bind fst snd] in E.
  pose proof (enumerate_mut_reach f l l1 q R Em) as R1. destruct q; [exact (IH _ _ R1 E)|injection E as <-; exact R1].
Qed.

Lemma replace_split {A} (i : nat) (x y : A) (p q : list A) : length p = i -> replace_nth i x (p ++ y :: q) = p ++ x :: q.
Proof. revert i. induction p as [|z p IH]; intros i <-; cbn; [reflexivity|]. f_equal. now apply IH. Qed.
Lemma contents_reach_split {A} (ms : list A) : forall p q (l : llist A), reachable (with_contents l (p ++ q)) -> length ms = length q -> reachable (with_contents l (p ++ ms)).
Proof.
  induction ms as [|x ms IH]; intros p [|y q] l R L; try discriminate; [exact R|].
  replace (p ++ x :: ms) with ((p ++ [x]) ++ ms) by now rewrite <- app_assoc. apply (IH _ q); [|cbn in L; congruence]. rewrite <- app_assoc. cbn [app].
  apply (reachable_step _ (OModify (length p) (fun _ => x)) _ RUnit R). cbn [step]. unfold modify_content. cbn [contents with_contents].
  rewrite (upd_replace (length p) _ _ y); [|rewrite nth_error_app2, Nat.sub_diag by lia; reflexivity]. cbn [bind]. rewrite replace_split by reflexivity. reflexivity.
Qed.
Lemma contents_reach {A} (ms : list A) (l : llist A) : reachable l -> length ms = length (contents l) -> reachable (with_contents l ms).
Proof. intros R L. apply (contents_reach_split ms [] (contents l) l); [cbn; rewrite with_contents_id; exact R|exact L]. Qed.

Section Clear.
Context {S : scalar}.
Lemma list_ext {X} (l m : list X) : length l = length m -> (forall i, i < length l -> nth_error l i = nth_error m i) -> l = m.
Proof.
  revert m. induction l as [|x l IH]; intros [|y m] L H; try discriminate; [reflexivity|].
  f_equal; [specialize (H 0 ltac:(cbn; lia)); cbn in H; congruence|]. apply IH; [cbn in L; lia|]. intros i Hi. exact (H (Datatypes.S i) ltac:(cbn; lia)).
Qed.
Lemma clear_vec (v : pos S) : pos_clear v = repeat s0 (length v).
Proof. unfold pos_clear. induction v; cbn; congruence. Qed.
Lemma nth_error_repeat {X} (x : X) N i : i < N -> nth_error (repeat x N) i = Some x.
Proof. revert i. induction N as [|N IH]; intros [|i] H; cbn; try lia; [reflexivity|]. apply IH. lia. Qed.

Lemma clear_moves n N (mv : llist (pos S)) : move_list n N mv -> exists mv', ll_clear pos_clear (Datatypes.S (length (contents mv))) mv = Ok mv' /\
  move_list n N mv' /\ contents mv' = repeat (repeat s0 n) N.
Proof.
  intros [R Ls Lv D]. assert (LL : length (live_of mv) < Datatypes.S (length (contents mv))) by (rewrite Lv, seq_length; lia).
  destruct (clear_ref pos_clear mv _ R LL) as (mv' & E & K1 & K2 & K3 & K4 & K5). exists mv'. split; [exact E|].
  assert (C : contents mv' = repeat (repeat s0 n) N).
  { apply list_ext; [rewrite repeat_length, K4; exact Ls|]. intros i Hi. rewrite K5. rewrite Lv.
    assert (i < N) by (rewrite <- Ls, <- K4; exact Hi).
    rewrite (proj2 (memb_In i (seq 0 N)) ltac:(apply in_seq; lia)). rewrite nth_error_repeat by assumption.
    destruct (nth_error (contents mv) i) as [v|] eqn:Ev; [|apply nth_error_None in Ev; exfalso; apply (Nat.lt_irrefl i); eapply Nat.lt_le_trans; [|exact Ev]; rewrite Ls; assumption].
    cbn. f_equal. rewrite clear_vec. f_equal. exact (nth_dims n _ _ _ D Ev). }
  split; [|exact C]. split.
  - exact (clear_reach _ _ _ _ (reachable_step mv OIntoIter _ RUnit R eq_refl) E).
  - rewrite C. apply repeat_length.
  - unfold live_of in *. rewrite K1. exact Lv.
  - rewrite C. apply Forall_forall. intros v Hv. apply repeat_spec in Hv. subst. apply repeat_length.
Qed.
End Clear.

Section StepOk.
Context {S : scalar} {G : rng S}.
Notation gen := (rstate G).
Variables (n : nat) (sys : syscore S G) (tg : target S) (limit : S) (P : expag S -> Prop) (inside : pos S -> Prop) (V : pos S -> Prop) (Rok : outcome bool -> Prop).
Hypothesis P_in : forall a, P a -> exp_in n a.
Hypothesis V_limit : forall v, length v = n -> V (limit_move limit v).
Hypothesis tg_dim : length (tg_pos tg) = n.
Hypothesis bc_ok : forall a v, P a -> length v = n -> V v -> let (p, r) := sc_check_bc sys (ex_pos a) v in
  P (exp_put a p) /\ (r = Ok tt -> inside p) /\ (r = Ok tt \/ exists e, r = Err e /\ Rok (Err e)).
Hypothesis Rok_ok : forall x, Rok (Ok x).

(** A crew whose members all satisfy [P]. *)
Notation team N l := (exp_crew n N l /\ Forall P (contents l)).

Lemma exp_step_ok dt N (l : llist (expag S)) disp (mv : llist (pos S)) (g : gen) : team N l -> move_list n N mv -> length disp = n ->
  exists l' disp' mv' g' r, exp_step sys tg limit dt l disp mv g = (l', disp', mv', g', r) /\
    team N l' /\ move_list n N mv' /\ length disp' = n /\ Rok r /\
    (forall i a, nth_error (contents l) i = Some a -> exists b, nth_error (contents l') i = Some b /\ (b = a \/ exp_moved sys limit dt (plans n dt (contents l) disp) i a b)) /\
    (r = Ok false -> forall i, i < N -> exists a b, nth_error (contents l) i = Some a /\ nth_error (contents l') i = Some b /\
        exp_moved sys limit dt (plans n dt (contents l) disp) i a b /\ inside (ex_pos b) /\ check_find tg (ex_pos b) = Ok false) /\
    (r = Ok true -> exists i b, i < N /\ nth_error (contents l') i = Some b /\ inside (ex_pos b) /\ check_find tg (ex_pos b) = Ok true).
Proof.
  intros (HC & HP) HM Ld. destruct (clear_moves n N mv HM) as (mv0 & E0 & M0 & C0). destruct HC as [CR CS CL CC].
  destruct M0 as [MR MS ML MD]. unfold exp_step. rewrite E0.
  destruct (force_pass n dt l disp mv0 CR CC Ld) as (l0 & l2 & d2 & F1 & F2 & F3 & F4 & F5 & F6); [rewrite CS; exact MS|exact MD|].
  rewrite F1, F2.
  assert (PL : snd (fold_left (fun st ij => push dt (contents l) st (fst ij) (snd ij)) (pairs (live_of l)) (disp, contents mv0)) = plans n dt (contents l) disp).
  { unfold plans. rewrite CL, C0, CS. reflexivity. }
  rewrite PL.
  assert (GP : length (plans n dt (contents l) disp) = N /\ Forall (fun v => length v = n) (plans n dt (contents l) disp)).
  { rewrite <- PL. destruct (fold_good n dt (contents l) N (pairs (live_of l)) CC (disp, contents mv0)) as (_ & K1 & K2); [auto|].
    split; [exact K1|exact K2]. }
  destruct GP as (GP1 & GP2).
  destruct (exp_pass n sys tg limit P inside V Rok P_in V_limit tg_dim bc_ok Rok_ok dt l2 (with_contents mv0 (plans n dt (contents l) disp)) g) as
    (l' & ms' & g' & r & E & X1 & X2 & X3 & X4 & X5 & X6 & X7 & X8 & X9 & X10 & X11).
  { exact F3. } { rewrite F4; exact HP. } { cbn. rewrite F4, CS. exact GP1. } { exact GP2. }
  rewrite F4 in E. rewrite E. cbn [contents with_contents] in *.
  exists l', d2, (with_contents (with_contents mv0 (plans n dt (contents l) disp)) ms'), g', r.
  rewrite F4 in X3, X5, X8, X9, X10. rewrite F5, CL in X2. rewrite F5, CL in X10, X11.
  split; [reflexivity|]. split.
  { split; [split; [exact X1|congruence|exact X2|]|exact X4]. eapply Forall_impl; [|exact X4]. exact P_in. }
  split.
  { assert (X5' : length ms' = N) by (rewrite X5; exact CS).
    split; cbn [contents with_contents]; [|exact X5'|exact ML|exact X6].
    change (reachable (with_contents mv0 ms')). apply contents_reach; [exact MR|]. refine (eq_trans X5' (eq_sym MS)). }
  split; [exact F6|]. split; [exact X7|]. split; [exact X9|]. split.
  - intros Hr i Hi. destruct (X10 Hr i) as (a & b & Y); [apply in_seq; lia|]. exists a, b. intuition.
  - intros Hr. destruct (X11 Hr) as (i & b & Y1 & Y2 & Y3). apply in_seq in Y1. exists i, b. split; [lia|]. intuition.
Qed.
End StepOk.
