From Coq Require Import Sorted.
From Verif Require Import Base Model_LinkedList Spec_LinkedList Refine_LinkedList Proof_LinkedList Proof_LinkedList2.

Notation sorted := (StronglySorted lt).

(** * Single iteration *)
Section Iter.
Context {A : Type}.
Implicit Types (l : llist A) (s : spec A).

Record swf (s : spec A) : Prop := {
  w_sorted : sorted (live s);
  w_range : forall i, In i (live s) -> i < length (items s);
  w_c0 : forall i, c0 s = Some i -> In i (live s) }.

Lemma rep_swf l s : represents l s -> swf s.
Proof. intros R. split; [apply (rp_sorted _ _ R)|apply (rp_range _ _ R)|apply (rp_l0 _ _ R)]. Qed.

Lemma step_swf s o s' r : swf s -> iter_op o = true -> spec_step s o = Some (s', r) -> swf s'.
Proof.
  intros [W1 W2 W3] Ho E. destruct o as [x|i| | | | | |i f]; try discriminate; simpl in E.
  - injection E as <- <-. constructor; simpl.
    + apply sorted_snoc; auto.
    + intros i Hi. rewrite app_length; simpl. apply in_app_or in Hi as [Hi|[<-|[]]]; [|lia].
      specialize (W2 _ Hi); lia.
    + intros i Hi; apply in_or_app; auto.
  - destruct (memb i (live s)) eqn:Em; injection E as <- <-; [|constructor; auto].
    apply memb_In in Em. constructor; simpl.
    + apply remove_sorted; auto.
    + intros j Hj; apply remove_In in Hj as [Hj _]; auto.
    + intros j; apply skip_live; auto.
  - destruct (c0 s) as [i|] eqn:E0.
    + destruct (nth_error (items s) i); simpl in E; [|discriminate]. injection E as <- <-.
      constructor; simpl; auto. intros j Hj; eapply succ_In; eauto.
    + injection E as <- <-. constructor; auto. congruence.
  - destruct (nth_error (items s) i); simpl in E; [|discriminate]. injection E as <- <-.
    constructor; simpl; auto. intros j Hj; rewrite replace_length; auto.
Qed.

(** Dead indices stay dead. *)
Lemma dead_stays os : forall s s' outs k, swf s -> forallb iter_op os = true ->
  spec_run s os = Some (s', outs) -> k < length (items s) -> ~ In k (live s) -> ~ In k (live s').
Proof.
  induction os as [|o os IH]; simpl; intros s s' outs k W Ho E Hk Hn.
  - injection E as <- <-; auto.
  - apply andb_true_iff in Ho as [Ho1 Ho2].
    destruct (spec_step s o) as [[s1 r1]|] eqn:E1; [|discriminate]. simpl in E.
    destruct (spec_run s1 os) as [[s2 r2]|] eqn:E2; [|discriminate]. simpl in E. injection E as <- <-.
    pose proof (step_swf _ _ _ _ W Ho1 E1) as W1.
    assert (H : k < length (items s1) /\ ~ In k (live s1)).
    { destruct o as [x|i| | | | | |i f]; try discriminate; simpl in E1.
      - injection E1 as <- <-; simpl. rewrite app_length, in_app_iff; simpl. split; [lia|].
        intros [H|[H|[]]]; [auto|lia].
      - destruct (memb i (live s)); injection E1 as <- <-; simpl; auto.
        rewrite remove_In; tauto.
      - destruct (c0 s) as [i|].
        + destruct (nth_error (items s) i); simpl in E1; [|discriminate]. injection E1 as <- <-; auto.
        + injection E1 as <- <-; auto.
      - destruct (nth_error (items s) i); simpl in E1; [|discriminate]. injection E1 as <- <-; simpl.
        rewrite replace_length; auto. }
    destruct H. eapply IH; eauto.
Qed.

(** Everything returned is at or after the cursor, in increasing order. *)
Lemma visited_sorted os : forall s s' outs, swf s -> forallb iter_op os = true ->
  spec_run s os = Some (s', outs) ->
  sorted (visited outs) /\
  match c0 s with None => visited outs = [] | Some i => forall k, In k (visited outs) -> i <= k end.
Proof.
  induction os as [|o os IH]; simpl; intros s s' outs W Ho E.
  - injection E as <- <-; simpl. split; [constructor|]. destruct (c0 s); auto. intros k [].
  - apply andb_true_iff in Ho as [Ho1 Ho2].
    destruct (spec_step s o) as [[s1 r1]|] eqn:E1; [|discriminate]. simpl in E.
    destruct (spec_run s1 os) as [[s2 r2]|] eqn:E2; [|discriminate]. simpl in E. injection E as <- <-.
    pose proof (step_swf _ _ _ _ W Ho1 E1) as W1.
    destruct (IH _ _ _ W1 Ho2 E2) as [I1 I2].
    destruct W as [Wa Wb Wc].
    destruct o as [x|i| | | | | |i f]; try discriminate; simpl in E1.
    + injection E1 as <- <-; simpl in *; auto.
    + destruct (memb i (live s)) eqn:Em; injection E1 as <- <-; simpl in *; auto.
      split; auto. destruct (c0 s) as [k|] eqn:E0; auto. simpl in I2.
      destruct (Nat.eqb_spec k i) as [->|Hk]; auto.
      destruct (succ_in (live s) i) as [q|] eqn:Eq.
      * apply succ_In in Eq as [_ Eq]; auto. intros m Hm. specialize (I2 _ Hm). lia.
      * rewrite I2. intros m [].
    + destruct (c0 s) as [i|] eqn:E0.
      * destruct (nth_error (items s) i); simpl in E1; [|discriminate]. injection E1 as <- <-; simpl in *.
        destruct (succ_in (live s) i) as [q|] eqn:Eq.
        -- apply succ_In in Eq as [_ Eq]; auto. split.
           ++ apply sorted_cons; split; auto. intros y Hy. specialize (I2 _ Hy). lia.
           ++ intros k [<-|Hk]; auto. specialize (I2 _ Hk); lia.
        -- rewrite I2. split; [apply sorted_cons; split; [intros ? []|constructor]|].
           intros k [<-|[]]; auto.
      * injection E1 as <- <-; simpl. rewrite E0 in I2. auto.
    + destruct (nth_error (items s) i); simpl in E1; [|discriminate]. injection E1 as <- <-; simpl in *. auto.
Qed.

(** Nothing that survives is missed. *)
Lemma visited_complete os : forall s s' outs i k, swf s -> forallb iter_op os = true ->
  spec_run s os = Some (s', outs) -> c0 s = Some i -> In k (live s) -> i <= k ->
  In (RNext None) outs -> In k (live s') -> In k (visited outs).
Proof.
  induction os as [|o os IH]; simpl; intros s s' outs i k W Ho E Hc Hk Hik Hn Hk'.
  - injection E as <- <-. destruct Hn.
  - apply andb_true_iff in Ho as [Ho1 Ho2].
    destruct (spec_step s o) as [[s1 r1]|] eqn:E1; [|discriminate]. simpl in E.
    destruct (spec_run s1 os) as [[s2 r2]|] eqn:E2; [|discriminate]. simpl in E. injection E as <- <-.
    pose proof (step_swf _ _ _ _ W Ho1 E1) as W1.
    destruct W as [Wa Wb Wc].
    destruct o as [x|d| | | | | |d f]; try discriminate; simpl in E1.
    + injection E1 as <- <-; simpl in *. destruct Hn as [Hn|Hn]; [discriminate|].
      eapply IH; eauto. simpl. apply in_or_app; auto.
    + destruct (memb d (live s)) eqn:Em; injection E1 as <- <-; simpl in *.
      * destruct Hn as [Hn|Hn]; [discriminate|]. apply memb_In in Em.
        destruct (Nat.eq_dec d k) as [->|Hdk].
        { exfalso. refine (dead_stays os _ _ _ k W1 Ho2 E2 _ _ Hk').
          - simpl. auto.
          - simpl. rewrite remove_In. tauto. }
        rewrite Hc in *. simpl in *.
        assert (Hkl : In k (remove_live d (live s))) by (apply remove_In; auto).
        destruct (Nat.eqb_spec i d) as [->|Hid].
        -- pose proof (succ_is (live s) d Wa) as Hs. destruct (succ_in (live s) d) as [q|] eqn:Eq.
           ++ simpl in Hs. destruct Hs as (S1 & S2 & S3). assert (q <= k) by (apply S3; auto; lia).
              refine (IH _ _ _ q k W1 Ho2 E2 _ _ _ Hn Hk'); simpl; auto.
           ++ simpl in Hs. specialize (Hs _ Hk). lia.
        -- refine (IH _ _ _ i k W1 Ho2 E2 _ _ _ Hn Hk'); simpl; auto.
      * destruct Hn as [Hn|Hn]; [discriminate|]. eapply IH; eauto.
    + rewrite Hc in E1. destruct (nth_error (items s) i); simpl in E1; [|discriminate].
      injection E1 as <- <-; simpl in *. destruct Hn as [Hn|Hn]; [discriminate|].
      destruct (Nat.eq_dec i k) as [->|Hne]; auto. right.
      pose proof (succ_is (live s) i Wa) as Hs. destruct (succ_in (live s) i) as [q|] eqn:Eq.
      * simpl in Hs. destruct Hs as (S1 & S2 & S3). assert (q <= k) by (apply S3; auto; lia).
        refine (IH _ _ _ q k W1 Ho2 E2 _ _ _ Hn Hk'); simpl; auto.
      * simpl in Hs. specialize (Hs _ Hk). lia.
    + destruct (nth_error (items s) d); simpl in E1; [|discriminate]. injection E1 as <- <-; simpl in *.
      destruct Hn as [Hn|Hn]; [discriminate|]. eapply IH; eauto.
Qed.

(** The statement for concrete reachable lists. *)
Lemma single_iteration l l' os outs : reachable l -> forallb iter_op os = true ->
  run (into_iter l) os = Ok (l', outs) ->
  sorted (visited outs) /\
  (forall i, In i (visited outs) -> i < length (contents l')) /\
  (In (RNext None) outs ->
   forall i, In i (live_of l) -> In i (live_of l') -> In i (visited outs)).
Proof.
  intros HR Ho E. apply reachable_rep in HR as (s & R).
  pose proof (into_iter_ref l s R) as Ri. pose proof (run_ref os _ _ Ri) as H.
  destruct (spec_run _ os) as [[s' r']|] eqn:ES; [|congruence].
  destruct H as (l2 & E2 & R2). rewrite E in E2; injection E2 as <- <-.
  pose proof (rep_swf _ _ Ri) as W.
  destruct (visited_sorted os _ _ _ W Ho ES) as [V1 V2].
  split; [auto|]. split.
  - (* visited indices are in range *)
    assert (G : forall os s s' outs, swf s -> forallb iter_op os = true ->
       spec_run s os = Some (s', outs) ->
       length (items s) <= length (items s') /\ forall i, In i (visited outs) -> i < length (items s')).
    { clear. induction os as [|o os IH]; simpl; intros s s' outs W Ho E.
      - injection E as <- <-; simpl. split; [lia|intros i []].
      - apply andb_true_iff in Ho as [Ho1 Ho2].
        destruct (spec_step s o) as [[s1 r1]|] eqn:E1; [|discriminate]. simpl in E.
        destruct (spec_run s1 os) as [[s2 r2]|] eqn:E2; [|discriminate]. simpl in E. injection E as <- <-.
        pose proof (step_swf _ _ _ _ W Ho1 E1) as W1. destruct (IH _ _ _ W1 Ho2 E2) as [I1 I2].
        assert (length (items s) <= length (items s1) /\
                forall i, In i (visited [r1]) -> i < length (items s1)) as [J1 J2].
        { destruct o as [x|d| | | | | |d f]; try discriminate; simpl in E1.
          - injection E1 as <- <-; simpl. rewrite app_length. split; [lia|intros i []].
          - destruct (memb d (live s)); injection E1 as <- <-; simpl; split; auto; intros i [].
          - destruct (c0 s) as [i|] eqn:E0.
            + destruct (nth_error (items s) i) eqn:En; simpl in E1; [|discriminate]. injection E1 as <- <-; simpl.
              split; auto. intros k [<-|[]]. apply nth_error_Some. congruence.
            + injection E1 as <- <-; simpl; split; auto. intros i [].
          - destruct (nth_error (items s) d); simpl in E1; [|discriminate]. injection E1 as <- <-; simpl.
            rewrite replace_length. split; auto. intros i []. }
        split; [lia|]. intros i Hi. simpl in Hi. apply in_app_or in Hi as [Hi|Hi].
        + assert (i < length (items s1)); [|lia]. apply J2. simpl. rewrite app_nil_r. auto.
        + auto. }
    destruct (G _ _ _ _ W Ho ES) as [_ G2]. intros i Hi. rewrite (rp_items _ _ R2). auto.
  - intros Hn i Hi Hi'. rewrite (live_of_rep l s R) in Hi. rewrite (live_of_rep l' s' R2) in Hi'.
    pose proof (first_is (live s) (rp_sorted _ _ R)) as HF.
    destruct (first (live s)) as [f|] eqn:Ef; [|destruct (HF _ Hi)]. simpl in HF.
    destruct HF as [F1 F2].
    refine (visited_complete os _ _ _ f i W Ho ES _ _ _ Hn Hi'); simpl; auto.
Qed.
End Iter.
