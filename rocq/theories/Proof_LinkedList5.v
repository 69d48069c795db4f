From Coq Require Import Sorted.
From Verif Require Import Base Model_LinkedList Spec_LinkedList Refine_LinkedList
  Proof_LinkedList Proof_LinkedList2 Proof_LinkedList3 Proof_LinkedList4.

Notation sorted := (StronglySorted lt).

Section Clear.
Context {A : Type}.
Variable clr : A -> A.
Implicit Types (l : llist A) (s : spec A).

Lemma enumerate_mut_ref l s i f : represents l s -> c0 s = Some i ->
  exists x l', nth_error (items s) i = Some x /\ enumerate_mut l f = Ok (l', Some (i, x)) /\
    links l' = links l /\ head l' = head l /\ tail l' = tail l /\ cur1 l' = cur1 l /\ cur2 l' = cur2 l /\
    represents l' (mkSpec (replace_nth i (f x) (items s)) (live s) (succ_in (live s) i) (c1 s) (c2 s)).
Proof.
  intros R H0. pose proof (enumerate_ref l s R) as H. rewrite H0 in H.
  destruct H as (x & l1 & E1 & E2 & E3).
  unfold enumerate in E2. unfold enumerate_mut. rewrite (rp_c0 _ _ R), H0 in *.
  destruct (idx (links l) i) as [n| | |] eqn:En; try discriminate. cbn [bind] in *.
  destruct (idx (contents (with_cur0 l (next n))) i) as [y| | |] eqn:Ey; try discriminate. cbn [bind] in *.
  injection E2 as <- ->. destruct (modify_ref _ _ i f x E3 E1) as (l2 & M1 & M2).
  unfold modify_content in M1.
  destruct (upd i f (contents (with_cur0 l (next n)))) as [cs| | |] eqn:Eu; try discriminate.
  cbn [bind] in *. injection M1 as <-. exists x. eexists. split; [auto|]. split; [reflexivity|].
  simpl. repeat (split; auto).
Qed.

Lemma enumerate_mut_none l s f : represents l s -> c0 s = None -> enumerate_mut l f = Ok (l, None).
Proof. intros R H. unfold enumerate_mut. rewrite (rp_c0 _ _ R), H. reflexivity. Qed.

Lemma clear_loop_ref fuel : forall l s pre M, represents l s -> live s = pre ++ M ->
  c0 s = hd_error M -> length M < fuel ->
  exists l', clear_loop clr fuel l = Ok l' /\
    links l' = links l /\ head l' = head l /\ tail l' = tail l /\ cur1 l' = cur1 l /\ cur2 l' = cur2 l /\
    (exists s', represents l' s') /\ length (contents l') = length (contents l) /\
    forall j, nth_error (contents l') j =
      if memb j M then option_map clr (nth_error (contents l) j) else nth_error (contents l) j.
Proof.
  induction fuel as [|fuel IH]; intros l s pre M R HL H0 Hf; [lia|].
  cbn [clear_loop]. destruct M as [|i M].
  - rewrite (enumerate_mut_none l s) by auto. simpl. exists l. repeat (split; auto). eauto.
  - destruct (enumerate_mut_ref l s i clr R H0) as (x & l1 & E1 & E2 & K1 & K2 & K3 & K4 & K5 & R1).
    rewrite E2. cbn [bind fst snd].
    assert (HS := rp_sorted _ _ R).
    assert (Hs : succ_in (live s) i = hd_error M) by (rewrite HL; apply succ_app; rewrite HL in HS; auto).
    destruct (IH l1 _ (pre ++ [i]) M R1) as (l2 & F1 & F2 & F3 & F4 & F5 & F6 & F7 & F8 & F9).
    + simpl. rewrite HL, <- app_assoc. reflexivity.
    + simpl. exact Hs.
    + simpl in Hf. lia.
    + rewrite F1. exists l2. do 6 (split; [congruence|]).
      assert (HC : contents l1 = replace_nth i (clr x) (contents l)).
      { rewrite (rp_items _ _ R1), (rp_items _ _ R). reflexivity. }
      split; [auto|]. split; [rewrite F8, HC, replace_length; reflexivity|].
      assert (Hni : memb i M = false).
      { apply not_true_is_false. rewrite memb_In. intros Hin. rewrite HL in HS.
        apply sorted_app in HS as (_ & HS & _). apply sorted_cons in HS as [HS _].
        specialize (HS _ Hin). lia. }
      intros j. rewrite F9, HC, nth_replace. unfold memb at 2; simpl; fold (memb j M).
      rewrite (rp_items _ _ R).
      destruct (Nat.eqb_spec j i) as [->|Hne]; simpl.
      * rewrite Hni, E1. assert (i < length (items s)) by (apply nth_error_Some; congruence).
        destruct (Nat.ltb_spec i (length (items s))); [reflexivity|lia].
      * reflexivity.
Qed.

Lemma clear_ref l fuel : reachable l -> length (live_of l) < fuel ->
  exists l', ll_clear clr fuel l = Ok l' /\ links l' = links l /\ head l' = head l /\ tail l' = tail l /\
    length (contents l') = length (contents l) /\
    forall j, nth_error (contents l') j =
      if memb j (live_of l) then option_map clr (nth_error (contents l) j) else nth_error (contents l) j.
Proof.
  intros HR Hf. apply reachable_rep in HR as (s & R). rewrite (live_of_rep l s R) in *.
  pose proof (into_iter_ref l s R) as R1.
  destruct (clear_loop_ref fuel _ _ [] (live s) R1) as (l2 & F1 & F2 & F3 & F4 & F5 & F6 & F7 & F8 & F9); auto.
  exists l2. unfold ll_clear. repeat (split; auto).
Qed.
End Clear.

Section Merge.
Context {A : Type}.
Variable size : A -> nat.
Variable add_size : A -> nat -> A * outcome unit.
Implicit Types (l : llist A) (s : spec A).

Lemma sum_replace (cs : list A) x' i L : NoDup L -> In i L -> i < length cs ->
  forall x, nth_error cs i = Some x ->
  list_sum (map (fun k => match nth_error (replace_nth i x' cs) k with Some y => size y | None => 0 end) L) + size x =
  list_sum (map (fun k => match nth_error cs k with Some y => size y | None => 0 end) L) + size x'.
Proof.
  intros Hnd Hi Hlt x Hx. induction L as [|k L IH]; [destruct Hi|].
  apply NoDup_cons_iff in Hnd as [Hk Hnd]. simpl. rewrite nth_replace.
  destruct (Nat.eqb_spec k i) as [->|Hne]; simpl.
  - destruct (Nat.ltb_spec i (length cs)); [|lia]. rewrite Hx.
    assert (E : forall M, ~ In i M ->
       map (fun k => match nth_error (replace_nth i x' cs) k with Some y => size y | None => 0 end) M =
       map (fun k => match nth_error cs k with Some y => size y | None => 0 end) M).
    { induction M as [|m M IHM]; simpl; auto. intros HM. f_equal; [|apply IHM; tauto].
      rewrite nth_replace. destruct (Nat.eqb_spec m i); [subst; tauto|reflexivity]. }
    rewrite (E L Hk). lia.
  - destruct Hi as [->|Hi]; [congruence|]. specialize (IH Hnd Hi). lia.
Qed.

Lemma sum_remove (g : nat -> nat) i L : sorted L -> In i L ->
  list_sum (map g (remove_live i L)) + g i = list_sum (map g L).
Proof.
  intros HS Hi. apply in_split in Hi as (a & b & ->). rewrite remove_mid by auto.
  rewrite !map_app, !list_sum_app. simpl. lia.
Qed.

Lemma merge_ref_any l s i j x y x' : represents l s -> In j (live s) ->
  nth_error (items s) i = Some x -> nth_error (items s) j = Some y ->
  add_size x (size y) = (x', Ok tt) ->
  exists l', ll_merge size add_size l i j = (l', Ok tt) /\
   represents l' (mkSpec (replace_nth i x' (items s)) (remove_live j (live s))
     (skip (live s) j (c0 s)) (skip (live s) j (c1 s)) (skip (live s) j (c2 s))).
Proof.
  intros R Hj Hx Hy Ha. unfold ll_merge. rewrite (rp_items _ _ R), Hx, Hy, Ha.
  destruct (modify_ref l s i (fun _ => x') x R Hx) as (l1 & M1 & M2).
  unfold modify_content in M1. rewrite (rp_items _ _ R), (upd_replace i _ _ x Hx) in M1. cbn in M1.
  injection M1 as <-. destruct (del_ref _ _ j M2 Hj) as (l2 & D1 & D2). eauto.
Qed.

Lemma merge_ref l s i j x y x' : represents l s -> In i (live s) -> In j (live s) -> i <> j ->
  nth_error (items s) i = Some x -> nth_error (items s) j = Some y ->
  add_size x (size y) = (x', Ok tt) ->
  exists l', ll_merge size add_size l i j = (l', Ok tt) /\
   represents l' (mkSpec (replace_nth i x' (items s)) (remove_live j (live s))
     (skip (live s) j (c0 s)) (skip (live s) j (c1 s)) (skip (live s) j (c2 s))).
Proof. intros. eapply merge_ref_any; eauto. Qed.

(** Merging into a dead or into the same element succeeds too, and the size of [j] is lost. *)
Lemma merge_loses l i j x y x' : reachable l -> In j (live_of l) -> nth_error (contents l) i = Some x -> nth_error (contents l) j = Some y ->
  add_size x (size y) = (x', Ok tt) -> ~ In i (live_of l) \/ i = j ->
  exists l', ll_merge size add_size l i j = (l', Ok tt) /\ live_of l' = remove_live j (live_of l) /\
    total_size size l' + size y = total_size size l.
Proof.
  intros HR Hj Hx Hy HA Hi. apply reachable_rep in HR as (s & R). rewrite (live_of_rep l s R) in *.
  rewrite (rp_items _ _ R) in Hx, Hy.
  destruct (merge_ref_any l s i j x y x' R Hj Hx Hy HA) as (l' & E & R').
  exists l'. split; auto. split; [apply (live_of_rep l' _ R')|].
  unfold total_size. rewrite (live_of_rep l' _ R'), (live_of_rep l s R).
  rewrite (rp_items _ _ R'), (rp_items _ _ R). cbn [items live].
  pose proof (sum_remove (fun k => match nth_error (items s) k with Some y => size y | None => 0 end) j (live s) (rp_sorted _ _ R) Hj) as H1.
  cbn beta in H1. rewrite Hy in H1. rewrite <- H1. f_equal. f_equal. apply map_ext_in. intros k Hk.
  apply remove_In in Hk. rewrite nth_replace. destruct (Nat.eqb_spec k i) as [->|N]; [|reflexivity].
  destruct Hi as [Hi| ->]; [|tauto]. exfalso. apply Hi. apply Hk.
Qed.

(** Merging a dead element grows [i] and then fails. *)
Lemma merge_dead_err l i j x y x' : reachable l -> ~ In j (live_of l) -> nth_error (contents l) i = Some x -> nth_error (contents l) j = Some y ->
  add_size x (size y) = (x', Ok tt) ->
  exists l' e, ll_merge size add_size l i j = (l', Err e) /\ live_of l' = live_of l /\ contents l' = replace_nth i x' (contents l).
Proof.
  intros HR Hj Hx Hy HA. apply reachable_rep in HR as (s & R). rewrite (live_of_rep l s R) in *.
  unfold ll_merge. rewrite Hx, Hy, HA.
  assert (Hx' : nth_error (items s) i = Some x) by (rewrite <- (rp_items _ _ R); exact Hx).
  destruct (modify_ref l s i (fun _ => x') x R Hx') as (l1 & M1 & M2).
  unfold modify_content in M1. rewrite (upd_replace i _ _ x Hx) in M1. cbn in M1.
  injection M1 as <-. rewrite (del_err _ _ j M2 Hj). do 2 eexists. split; [reflexivity|]. split; [|reflexivity].
  exact (live_of_rep _ _ M2).
Qed.

(** An index out of range panics and changes nothing; when [add_size] fails only element [i] has changed. *)
Lemma merge_refused (l : llist A) i j :
  (length (contents l) <= i \/ length (contents l) <= j -> ll_merge size add_size l i j = (l, Panic)) /\
  (forall x y x' e, nth_error (contents l) i = Some x -> nth_error (contents l) j = Some y -> add_size x (size y) = (x', Err e) ->
    exists l', ll_merge size add_size l i j = (l', Err e) /\ live_of l' = live_of l /\ contents l' = replace_nth i x' (contents l)).
Proof.
  split.
  - intros H. unfold ll_merge. destruct (nth_error (contents l) j) eqn:Ej; [|reflexivity].
    destruct (nth_error (contents l) i) eqn:Ei; [|reflexivity]. exfalso.
    assert (i < length (contents l)) by (apply nth_error_Some; congruence).
    assert (j < length (contents l)) by (apply nth_error_Some; congruence). lia.
  - intros x y x' e Hx Hy HA. unfold ll_merge. rewrite Hx, Hy, HA. eexists. split; [reflexivity|]. split; reflexivity.
Qed.

Lemma merge_conserves_local l i j : reachable l ->
  (forall x y, nth_error (contents l) i = Some x -> nth_error (contents l) j = Some y ->
     exists x', add_size x (size y) = (x', Ok tt) /\ size x' = size x + size y) ->
  In i (live_of l) -> In j (live_of l) -> i <> j ->
  exists l', ll_merge size add_size l i j = (l', Ok tt) /\
    live_of l' = remove_live j (live_of l) /\ total_size size l' = total_size size l /\
    (forall k, k <> i -> nth_error (contents l') k = nth_error (contents l) k) /\
    (forall x y, nth_error (contents l) i = Some x -> nth_error (contents l) j = Some y ->
       contents l' = replace_nth i (fst (add_size x (size y))) (contents l)).
Proof.
  intros HR HA Hi Hj Hij. apply reachable_rep in HR as (s & R).
  rewrite (live_of_rep l s R) in *.
  destruct (rep_item l s i R Hi) as (x & _ & Hx). destruct (rep_item l s j R Hj) as (y & _ & Hy).
  rewrite (rp_items _ _ R) in HA. destruct (HA x y Hx Hy) as (x' & A1 & A2).
  destruct (merge_ref l s i j x y x' R Hi Hj Hij Hx Hy A1) as (l' & E & R').
  exists l'. split; auto. split; [apply (live_of_rep l' _ R')|]. split; [|split].
  - unfold total_size. rewrite (live_of_rep l' _ R'), (live_of_rep l s R).
    rewrite (rp_items _ _ R'), (rp_items _ _ R). cbn [items live].
    set (g := fun k => match nth_error (replace_nth i x' (items s)) k with Some y => size y | None => 0 end).
    pose proof (sum_remove g j (live s) (rp_sorted _ _ R) Hj) as H1.
    assert (Hg : g j = size y).
    { unfold g. rewrite nth_replace. destruct (Nat.eqb_spec j i); [congruence|]. simpl. rewrite Hy; auto. }
    pose proof (sum_replace (items s) x' i (live s) (sorted_NoDup _ (rp_sorted _ _ R)) Hi
                  (rp_range _ _ R _ Hi) x Hx) as H2.
    fold g in H2. lia.
  - intros k Hk. rewrite (rp_items _ _ R'), (rp_items _ _ R). cbn [items].
    rewrite nth_replace. destruct (Nat.eqb_spec k i); [congruence|reflexivity].
  - intros x0 y0 E1 E2. rewrite (rp_items _ _ R) in *. rewrite Hx in E1. rewrite Hy in E2. injection E1 as <-. injection E2 as <-.
    rewrite A1, (rp_items _ _ R'). reflexivity.
Qed.
Lemma merge_conserves l i j : reachable l ->
  (forall x k, exists x', add_size x k = (x', Ok tt) /\ size x' = size x + k) ->
  In i (live_of l) -> In j (live_of l) -> i <> j ->
  exists l', ll_merge size add_size l i j = (l', Ok tt) /\
    live_of l' = remove_live j (live_of l) /\ total_size size l' = total_size size l /\
    (forall k, k <> i -> nth_error (contents l') k = nth_error (contents l) k).
Proof.
  intros R H Hi Hj Hij. destruct (merge_conserves_local l i j R (fun x y _ _ => H x (size y)) Hi Hj Hij) as (l' & A1 & A2 & A3 & A4 & _). eauto.
Qed.
End Merge.

Section Reach.
Context {A : Type}.
Implicit Types (l : llist A).

Lemma run_app l os1 os2 l1 o1 l2 o2 : run l os1 = Ok (l1, o1) -> run l1 os2 = Ok (l2, o2) ->
  run l (os1 ++ os2) = Ok (l2, o1 ++ o2).
Proof.
  revert l o1; induction os1 as [|o os1 IH]; intros l r1 H1 H2; simpl in *.
  - injection H1 as <- <-. auto.
  - destruct (step l o) as [[la ra]| | |]; try discriminate. cbn [bind fst snd] in *.
    destruct (run la os1) as [[lb rb]| | |] eqn:E; try discriminate. cbn [bind fst snd] in *.
    injection H1 as <- <-. rewrite (IH la rb); auto.
Qed.

Lemma reachable_step l o l' r : reachable l -> step l o = Ok (l', r) -> reachable l'.
Proof.
  intros (cs & os & l0 & outs & E1 & E2) E. exists cs, (os ++ [o]), l0, (outs ++ [r]). split; auto.
  eapply run_app; eauto. simpl. rewrite E. reflexivity.
Qed.

Lemma reachable_run l os l' r : reachable l -> run l os = Ok (l', r) -> reachable l'.
Proof.
  intros (cs & os0 & l0 & outs & E1 & E2) E. exists cs, (os0 ++ os), l0, (outs ++ r). split; auto.
  eapply run_app; eauto.
Qed.

Lemma reachable_from cs l : ll_from cs = Ok l -> reachable l.
Proof. intros E. exists cs, [], l, []. auto. Qed.

Lemma reachable_into_double l l' : reachable l -> into_double_iter l = Ok l' -> reachable l'.
Proof. intros R E. apply (reachable_step l OIntoDouble l' RUnit R). simpl. rewrite E. reflexivity. Qed.

Lemma enumerate_indicies l l' q : enumerate_double l = Ok (l', q) ->
  exists p, indicies_double l = Ok (l', p).
Proof.
  unfold enumerate_double. destruct (indicies_double l) as [[l1 p]| | |]; cbn; try discriminate.
  destruct p as [[i j]|]; cbn.
  - destruct (idx (contents l1) i); cbn; try discriminate. destruct (idx (contents l1) j); cbn; try discriminate.
    intros [= <- <-]. eauto.
  - intros [= <- <-]; eauto.
Qed.

Lemma reachable_indicies_double l l' q : reachable l -> indicies_double l = Ok (l', q) -> reachable l'.
Proof.
  intros R E. assert (R' := R). apply reachable_rep in R' as (s & Rs).
  pose proof (step_ref l s ONextDouble Rs) as H. simpl in H.
  pose proof (indicies_double_ref l s Rs) as HI.
  destruct (c0 s) as [i|] eqn:E0; [destruct (c1 s) as [j|] eqn:E1|].
  - destruct HI as (l1 & I1 & I2 & I3). rewrite E in I1. injection I1 as <- ->.
    destruct (rep_item l s i Rs) as (x & X1 & X2); [apply (rp_l0 _ _ Rs); auto|].
    destruct (rep_item l s j Rs) as (y & Y1 & Y2); [apply (rp_l1 _ _ Rs); auto|].
    apply (reachable_step l ONextDouble l' (RPair (Some (i, x, j, y))) R). simpl.
    unfold enumerate_double. rewrite E. cbn [bind snd fst]. rewrite I3. unfold idx. rewrite X1, Y1. reflexivity.
  - rewrite E in HI. injection HI as <- ->. auto.
  - rewrite E in HI. injection HI as <- ->. auto.
Qed.

Lemma reachable_indicies l l' q : reachable l -> indicies l = Ok (l', q) -> reachable l'.
Proof.
  intros R E. assert (R' := R). apply reachable_rep in R' as (s & Rs).
  pose proof (enumerate_ref l s Rs) as He. unfold indicies in E. unfold enumerate in He.
  rewrite (rp_c0 _ _ Rs) in *. destruct (c0 s) as [i|] eqn:E0.
  - destruct (idx (links l) i) as [n| | |] eqn:En; try discriminate. cbn [bind] in *. injection E as <- <-.
    destruct He as (x & l1 & H1 & H2 & H3).
    apply (reachable_step l ONext (with_cur0 l (next n)) (RNext (Some (i, x))) R). simpl. unfold enumerate.
    rewrite (rp_c0 _ _ Rs), E0, En. cbn [bind].
    destruct (idx (contents (with_cur0 l (next n))) i); try discriminate. cbn [bind] in *.
    injection H2 as <- ->. reflexivity.
  - injection E as <- <-. auto.
Qed.

Lemma reachable_del l i l' : reachable l -> del l i = (l', Ok tt) -> reachable l'.
Proof. intros R E. apply (reachable_step l (ODel i) l' (RDel true) R). simpl. rewrite E. reflexivity. Qed.

Lemma reachable_merge size add_size l i j l' : reachable l ->
  ll_merge size add_size l i j = (l', Ok tt) -> reachable l'.
Proof.
  intros R E. unfold ll_merge in E.
  destruct (nth_error (contents l) j) as [y|] eqn:Ej; [|discriminate].
  destruct (nth_error (contents l) i) as [x|] eqn:Ei; [|discriminate].
  destruct (add_size x (size y)) as [x' r]. destruct r; try discriminate.
  eapply reachable_del; [|exact E].
  apply (reachable_step l (OModify i (fun _ => x')) _ RUnit R). simpl.
  unfold modify_content. rewrite (upd_replace i _ _ x Ei). reflexivity.
Qed.

Lemma merge_ok_live size add_size l i j l1 : reachable l -> ll_merge size add_size l i j = (l1, Ok tt) ->
  In j (live_of l).
Proof.
  intros R E. assert (R' := R). apply reachable_rep in R' as (s & Rs). unfold ll_merge in E.
  destruct (nth_error (contents l) j) as [y|] eqn:Ej; [|discriminate].
  destruct (nth_error (contents l) i) as [x|] eqn:Ei; [|discriminate].
  destruct (add_size x (size y)) as [x' r]. destruct r; try discriminate.
  rewrite (live_of_rep l s Rs). destruct (in_dec Nat.eq_dec j (live s)) as [H|H]; auto.
  rewrite (rp_items _ _ Rs) in Ei.
  destruct (modify_ref l s i (fun _ => x') x Rs Ei) as (l2 & M1 & M2).
  unfold modify_content in M1. rewrite (rp_items _ _ Rs), (upd_replace i _ _ x Ei) in M1. cbn in M1.
  rewrite (rp_items _ _ Rs) in E. injection M1 as <-.
  rewrite (del_err _ _ j M2 H) in E. discriminate.
Qed.

Lemma merge_steps_conserve size add_size l l' : reachable l ->
  (forall x k, exists x', add_size x k = (x', Ok tt) /\ size x' = size x + k) ->
  merge_steps size add_size l l' ->
  total_size size l' = total_size size l /\ (forall k, In k (live_of l') -> In k (live_of l)).
Proof.
  intros R HA H. induction H as [l|l i j l1 l2 Hij Hi E H IH]; auto.
  pose proof (merge_ok_live _ _ _ _ _ _ R E) as Hj.
  destruct (merge_conserves size add_size l i j R HA Hi Hj Hij) as (l1' & E' & E2 & E3 & _).
  rewrite E in E'. injection E' as <-.
  destruct (IH (reachable_merge _ _ _ _ _ _ R E)) as [I1 I2]. split; [congruence|].
  intros k Hk. specialize (I2 _ Hk). rewrite E2, remove_In in I2. tauto.
Qed.

(** The same with an invariant of the elements under which [add_size] succeeds. *)
Lemma merge_steps_conserve_inv (P : A -> Prop) size add_size l l' : reachable l ->
  (forall x k, P x -> exists x', add_size x k = (x', Ok tt) /\ size x' = size x + k /\ P x') ->
  Forall P (contents l) -> merge_steps size add_size l l' ->
  total_size size l' = total_size size l /\ (forall k, In k (live_of l') -> In k (live_of l)) /\ Forall P (contents l').
Proof.
  intros R HA HP H. revert R HP. induction H as [l|l i j l1 l2 Hij Hi E H IH]; intros R HP; auto.
  pose proof (merge_ok_live _ _ _ _ _ _ R E) as Hj. assert (HF : forall k x, nth_error (contents l) k = Some x -> P x).
  { intros k x Hk. rewrite Forall_forall in HP. apply HP. exact (nth_error_In _ _ Hk). }
  destruct (merge_conserves_local size add_size l i j R) as (l1' & E' & E2 & E3 & _ & E4); auto.
  { intros x y Hx _. destruct (HA x (size y) (HF _ _ Hx)) as (x' & ? & ? & _). eauto. }
  rewrite E in E'. injection E' as <-.
  assert (HP1 : Forall P (contents l1)).
  { unfold ll_merge in E. destruct (nth_error (contents l) j) as [y|] eqn:Ej; [|discriminate].
    destruct (nth_error (contents l) i) as [x|] eqn:Ei; [|discriminate].
    rewrite (E4 x y eq_refl eq_refl). destruct (HA x (size y) (HF _ _ Ei)) as (x' & -> & _ & Px'). cbn [fst].
    rewrite Forall_forall in *. intros z Hz. apply In_nth_error in Hz as (k & Hk). rewrite nth_replace in Hk.
    destruct ((k =? i) && (k <? length (contents l))); [|eapply HF; exact Hk]. injection Hk as <-. exact Px'. }
  destruct (IH (reachable_merge _ _ _ _ _ _ R E) HP1) as (I1 & I2 & I3). split; [congruence|]. split; [|exact I3].
  intros k Hk. specialize (I2 _ Hk). rewrite E2, remove_In in I2. tauto.
Qed.
End Reach.
