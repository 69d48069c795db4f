From Coq Require Import Sorted.
From Verif Require Import Base Model_LinkedList Spec_LinkedList Refine_LinkedList Proof_LinkedList.

Notation sorted := (StronglySorted lt).

Lemma for_links_ok is g ls : NoDup is -> (forall i, In i is -> i < length ls) ->
  exists ls', for_links is g ls = Ok ls' /\ length ls' = length ls /\
    forall j, nth_error ls' j =
      if memb j is then option_map (g j) (nth_error ls j) else nth_error ls j.
Proof.
  revert ls; induction is as [|i is IH]; intros ls Hnd Hr.
  - exists ls. simpl. auto.
  - apply NoDup_cons_iff in Hnd as [Hni Hnd].
    destruct (upd_lt i (g i) ls) as (x & ls1 & E0 & E1 & E2 & E3).
    { apply Hr; simpl; auto. }
    destruct (IH ls1 Hnd) as (ls2 & F1 & F2 & F3).
    { intros k Hk. rewrite E2. apply Hr; simpl; auto. }
    exists ls2. cbn [for_links]. rewrite E1. cbn [bind]. rewrite F1. repeat split; [congruence|].
    intros j. rewrite F3, E3. unfold memb. simpl. destruct (Nat.eqb_spec j i) as [->|Hne]; simpl.
    + rewrite E0. simpl. fold (memb i is). destruct (memb i is) eqn:Em; auto.
      apply memb_In in Em. contradiction.
    + reflexivity.
Qed.

(** The fully connected chain of length [n]. *)
Definition full_node (n i : nat) : node :=
  mkNode (if i =? n - 1 then None else Some (i + 1)) (if i =? 0 then None else Some (i - 1)) true.

Lemma succ_seq n i : i < n -> succ_in (seq 0 n) i = if i =? n - 1 then None else Some (i + 1).
Proof.
  intros Hi. apply succ_eq; [apply sorted_seq|]. destruct (Nat.eqb_spec i (n - 1)); simpl.
  - intros m Hm; apply in_seq in Hm; lia.
  - repeat split; [apply in_seq; lia|lia|]. intros m Hm; apply in_seq in Hm; lia.
Qed.
Lemma pred_seq n i : i < n -> pred_in (seq 0 n) i = if i =? 0 then None else Some (i - 1).
Proof.
  intros Hi. apply pred_eq; [apply sorted_seq|]. destruct (Nat.eqb_spec i 0); simpl.
  - intros m Hm; apply in_seq in Hm; lia.
  - repeat split; [apply in_seq; lia|lia|]. intros m Hm; apply in_seq in Hm; lia.
Qed.
Lemma first_seq n : first (seq 0 n) = if n =? 0 then None else Some 0.
Proof. destruct n; reflexivity. Qed.
Lemma lastl_seq n : lastl (seq 0 n) = if n =? 0 then None else Some (n - 1).
Proof.
  apply lastl_eq; [apply sorted_seq|]. destruct (Nat.eqb_spec n 0); simpl.
  - intros m Hm; apply in_seq in Hm; lia.
  - split; [apply in_seq; lia|]. intros m Hm; apply in_seq in Hm; lia.
Qed.

Lemma memb_seq j a n : memb j (seq a n) = (a <=? j) && (j <? a + n).
Proof.
  apply eq_true_iff_eq. rewrite memb_In, in_seq, andb_true_iff, Nat.leb_le, Nat.ltb_lt. tauto.
Qed.

Lemma nth_error_repeat {B} (x : B) n i : i < n -> nth_error (repeat x n) i = Some x.
Proof. revert i; induction n; intros [|i] H; simpl; try lia; auto. apply IHn; lia. Qed.

Lemma list_with_length_ok n : exists ls, list_with_length n = Ok ls /\ length ls = n /\
  forall i, i < n -> nth_error ls i = Some (full_node n i).
Proof.
  destruct n as [|[|n]].
  - exists []. simpl. repeat split; auto. intros; lia.
  - exists [node_new]. simpl. repeat split; auto. intros i Hi. replace i with 0 by lia. reflexivity.
  - unfold list_with_length. set (N := S (S n)).
    destruct (upd_ok 0 (set_next (Some 1)) (repeat node_new N) node_new) as (v1 & A1 & A2 & A3).
    { apply nth_error_repeat; lia. }
    rewrite A1. cbn [bind].
    assert (L1 : length v1 = N) by (rewrite A2, repeat_length; auto).
    destruct (upd_lt (N - 1) (set_prev (Some (N - 2))) v1) as (x & v2 & B0 & B1 & B2 & B3); [lia|].
    rewrite B1. cbn [bind].
    destruct (for_links_ok (seq 1 (N - 2))
       (fun i x => set_next (Some (i + 1)) (set_prev (Some (i - 1)) x)) v2) as (v3 & C1 & C2 & C3).
    { apply seq_NoDup. } { intros i Hi; apply in_seq in Hi; lia. }
    rewrite C1. exists v3. repeat split; auto; [lia|].
    intros i Hi. rewrite C3, memb_seq, B3.
    rewrite A3 in B0. rewrite A3. unfold full_node.
    destruct (Nat.eqb_spec (N - 1) 0); [lia|].
    rewrite nth_error_repeat in B0 by lia. injection B0 as <-.
    destruct (Nat.eqb_spec i (N - 1)) as [->|Hl].
    + replace (N - 1 <? 1 + (N - 2)) with false by (symmetry; apply Nat.ltb_ge; lia).
      rewrite andb_false_r. destruct (Nat.eqb_spec (N - 1) 0); [lia|]. unfold set_prev; simpl.
      do 3 f_equal; lia.
    + destruct (Nat.eqb_spec i 0) as [->|Hz].
      * simpl. reflexivity.
      * rewrite nth_error_repeat by lia.
        replace (1 <=? i) with true by (symmetry; apply Nat.leb_le; lia).
        replace (i <? 1 + (N - 2)) with true by (symmetry; apply Nat.ltb_lt; lia).
        reflexivity.
Qed.

Section Steps.
Context {A : Type}.
Implicit Types (l : llist A) (s : spec A).

(** A list whose links are the full chain represents [seq 0 n]. *)
Lemma full_represents ls (cs : list A) h t a b c :
  length ls = length cs ->
  (forall i, i < length cs -> nth_error ls i = Some (full_node (length cs) i)) ->
  h = first (seq 0 (length cs)) -> t = lastl (seq 0 (length cs)) ->
  (forall i, a = Some i -> i < length cs) -> (forall i, b = Some i -> i < length cs) ->
  (forall i, c = Some i -> i < length cs) ->
  represents (mkLL ls cs h t a b c) (mkSpec cs (seq 0 (length cs)) a b c).
Proof.
  intros HL HN Hh Ht Ha Hb Hc.
  assert (HN' : forall i n, nth_error ls i = Some n -> i < length cs /\ n = full_node (length cs) i).
  { intros i n E. assert (i < length ls) by (apply nth_error_Some; congruence).
    rewrite HN in E by lia. injection E as <-. split; [lia|auto]. }
  constructor; simpl; auto.
  - apply sorted_seq.
  - intros i Hi; apply in_seq in Hi; lia.
  - intros i n E. destruct (HN' i n E) as [H1 ->]. simpl. rewrite in_seq. split; auto; lia.
  - intros i n E _. destruct (HN' i n E) as [H1 ->]. simpl. rewrite succ_seq; auto.
  - intros i n E _. destruct (HN' i n E) as [H1 ->]. simpl. rewrite pred_seq; auto.
  - intros i E; apply in_seq; specialize (Ha _ E); lia.
  - intros i E; apply in_seq; specialize (Hb _ E); lia.
  - intros i E; apply in_seq; specialize (Hc _ E); lia.
Qed.

Lemma from_ref (cs : list A) : exists l, ll_from cs = Ok l /\ represents l (spec_from cs).
Proof.
  destruct (list_with_length_ok (length cs)) as (ls & E1 & E2 & E3).
  unfold ll_from. rewrite E1. cbn [bind].
  assert (H : forall h t, h = first (seq 0 (length cs)) -> t = lastl (seq 0 (length cs)) ->
     represents (mkLL ls cs h t None None None) (spec_from cs)).
  { intros. apply full_represents; auto; discriminate. }
  rewrite first_seq, lastl_seq in H.
  destruct (length cs) as [|n]; eexists; (split; [reflexivity|]); apply H; reflexivity.
Qed.

Lemma connect_all_links l s : represents l s -> exists ls,
  connect_all l = Ok (mkLL ls (contents l) (first (seq 0 (length (items s))))
                        (lastl (seq 0 (length (items s)))) (cur0 l) (cur1 l) (cur2 l)) /\
  length ls = length (items s) /\
  forall i, i < length (items s) -> nth_error ls i = Some (full_node (length (items s)) i).
Proof.
  intros R. unfold connect_all. rewrite first_seq, lastl_seq.
  replace (length (contents l)) with (length (items s)) by (rewrite (rp_items _ _ R); auto).
  assert (HL := rp_len _ _ R).
  destruct (length (items s)) as [|[|n]] eqn:En.
  - exists (links l). split; [reflexivity|split; [lia|intros; lia]].
  - destruct (upd_lt 0 (fun _ => mkNode None None true) (links l)) as (x & v & B0 & B1 & B2 & B3); [lia|].
    rewrite B1. cbn. exists v. repeat split; auto; [lia|].
    intros i Hi. replace i with 0 by lia. rewrite B3. reflexivity.
  - set (N := S (S n)) in *.
    destruct (upd_lt 0 (fun _ => mkNode (Some 1) None true) (links l)) as (x & v1 & A0 & A1 & A2 & A3); [lia|].
    rewrite A1. cbn [bind].
    destruct (upd_lt (N - 1) (fun _ => mkNode None (Some (N - 2)) true) v1) as (y & v2 & B0 & B1 & B2 & B3); [lia|].
    rewrite B1. cbn [bind].
    destruct (for_links_ok (seq 1 (N - 2))
       (fun i _ => mkNode (Some (i + 1)) (Some (i - 1)) true) v2) as (v3 & C1 & C2 & C3).
    { apply seq_NoDup. } { intros i Hi; apply in_seq in Hi; lia. }
    rewrite C1. cbn -[Nat.sub]. exists v3.
    repeat split; auto; [lia|].
    intros i Hi. rewrite C3, memb_seq, B3, A3. unfold full_node.
    destruct (Nat.eqb_spec i (N - 1)) as [->|Hl].
    + replace (N - 1 <? 1 + (N - 2)) with false by (symmetry; apply Nat.ltb_ge; lia).
      rewrite andb_false_r. destruct (Nat.eqb_spec (N - 1) 0); [lia|]. do 3 f_equal; lia.
    + destruct (Nat.eqb_spec i 0) as [->|Hz].
      * simpl. reflexivity.
      * destruct (nth_error (links l) i) as [z|] eqn:Ez.
        -- replace (1 <=? i) with true by (symmetry; apply Nat.leb_le; lia).
           replace (i <? 1 + (N - 2)) with true by (symmetry; apply Nat.ltb_lt; lia).
           reflexivity.
        -- apply nth_error_None in Ez. lia.
Qed.

Lemma connect_all_ref l s : represents l s -> exists l',
  connect_all l = Ok l' /\
  represents l' (mkSpec (items s) (seq 0 (length (items s))) (c0 s) (c1 s) (c2 s)).
Proof.
  intros R. destruct (connect_all_links l s R) as (ls & E & E2 & E3). rewrite E.
  eexists; split; [reflexivity|].
  rewrite (rp_items _ _ R), (rp_c0 _ _ R), (rp_c1 _ _ R), (rp_c2 _ _ R).
  apply full_represents; auto; intros i Hi; apply (rp_range _ _ R).
  - apply (rp_l0 _ _ R); auto.
  - apply (rp_l1 _ _ R); auto.
  - apply (rp_l2 _ _ R); auto.
Qed.

Ltac destruct_rep R := destruct R as [R1 R2 R3 R4 R5 R6 R7 R8 R9 R10 R11 R12 R13 R14 R15].

Lemma rep_cursors l s a b : represents l s ->
  (forall i, a = Some i -> In i (live s)) -> (forall i, b = Some i -> In i (live s)) ->
  represents (mkLL (links l) (contents l) (head l) (tail l) a b (cur2 l))
             (mkSpec (items s) (live s) a b (c2 s)).
Proof. intros R Ha Hb. destruct_rep R. constructor; simpl; auto. Qed.

Lemma into_iter_ref l s : represents l s ->
  represents (into_iter l) (mkSpec (items s) (live s) (first (live s)) (c1 s) (c2 s)).
Proof.
  intros R. unfold into_iter, with_cur0. rewrite (rp_c1 _ _ R), <- (rp_head _ _ R).
  apply (rep_cursors l s); auto.
  - rewrite (rp_head _ _ R). intros i; apply first_In.
  - apply (rp_l1 _ _ R).
Qed.

Lemma next_of_ref l s o : represents l s -> (forall i, o = Some i -> In i (live s)) ->
  next_of l o = Ok (obind o (succ_in (live s))).
Proof.
  intros R Ho. destruct o as [i|]; simpl; auto.
  destruct (rep_node l s i R (Ho i eq_refl)) as (n & E1 & _ & E2 & _).
  unfold idx. rewrite E1. simpl. congruence.
Qed.

Lemma obind_succ_In L o i : sorted L -> obind o (succ_in L) = Some i -> In i L.
Proof. intros HS. destruct o; simpl; [|discriminate]. intros E; eapply succ_In; eauto. Qed.

Lemma into_double_ref l s : represents l s -> exists l', into_double_iter l = Ok l' /\
  represents l' (mkSpec (items s) (live s) (first (live s)) (obind (first (live s)) (succ_in (live s))) (c2 s)).
Proof.
  intros R. unfold into_double_iter.
  rewrite (next_of_ref l s) by (auto; rewrite (rp_head _ _ R); intros; apply first_In; auto).
  cbn. eexists; split; [reflexivity|].
  rewrite <- (rp_head _ _ R). apply (rep_cursors l s); auto.
  - rewrite (rp_head _ _ R). apply first_In.
  - intros i; apply obind_succ_In, (rp_sorted _ _ R).
Qed.

Lemma enumerate_ref l s : represents l s -> 
  match c0 s with
  | None => enumerate l = Ok (l, None)
  | Some i => exists x l', nth_error (items s) i = Some x /\ enumerate l = Ok (l', Some (i, x)) /\
      represents l' (mkSpec (items s) (live s) (succ_in (live s) i) (c1 s) (c2 s))
  end.
Proof.
  intros R. unfold enumerate. rewrite (rp_c0 _ _ R).
  destruct (c0 s) as [i|] eqn:E; auto.
  assert (Hi : In i (live s)) by (apply (rp_l0 _ _ R); auto).
  destruct (rep_node l s i R Hi) as (n & E1 & _ & E2 & _).
  destruct (rep_item l s i R Hi) as (x & X1 & X2).
  unfold idx. rewrite E1. cbn. rewrite X1. cbn.
  exists x. eexists. split; [auto|]. split; [reflexivity|].
  rewrite E2. unfold with_cur0. rewrite (rp_c1 _ _ R). apply (rep_cursors l s); auto.
  - intros j Hj. eapply succ_In; eauto. apply (rp_sorted _ _ R).
  - apply (rp_l1 _ _ R).
Qed.

Lemma indicies_ref l s : represents l s ->
  match c0 s with
  | None => indicies l = Ok (l, None)
  | Some i => exists l', indicies l = Ok (l', Some i) /\
      represents l' (mkSpec (items s) (live s) (succ_in (live s) i) (c1 s) (c2 s))
  end.
Proof.
  intros R. pose proof (enumerate_ref l s R) as H. unfold enumerate, indicies in *.
  rewrite (rp_c0 _ _ R) in *.
  destruct (c0 s) as [i|] eqn:E; auto.
  destruct H as (x & l' & H1 & H2 & H3).
  assert (Hi : In i (live s)) by (apply (rp_l0 _ _ R); auto).
  destruct (rep_node l s i R Hi) as (n & E1 & _).
  unfold idx in *. rewrite E1 in *. cbn in *.
  destruct (nth_error (contents l) i); [|discriminate]. cbn in H2. injection H2 as <- ->. eauto.
Qed.

(** The abstract state after one double step from pair [(i,j)]. *)
Definition dnext (s : spec A) (i j : nat) : spec A :=
  match succ_in (live s) j with
  | Some j' => mkSpec (items s) (live s) (Some i) (Some j') (c2 s)
  | None => mkSpec (items s) (live s) (succ_in (live s) i)
              (obind (succ_in (live s) i) (succ_in (live s))) (c2 s)
  end.

Lemma indicies_double_ref l s : represents l s ->
  match c0 s, c1 s with
  | Some i, Some j => exists l', indicies_double l = Ok (l', Some (i, j)) /\ represents l' (dnext s i j)
       /\ contents l' = contents l
  | _, _ => indicies_double l = Ok (l, None)
  end.
Proof.
  intros R. assert (HS := rp_sorted _ _ R). unfold indicies_double. rewrite (rp_c0 _ _ R), (rp_c1 _ _ R).
  destruct (c0 s) as [i|] eqn:E0; auto. destruct (c1 s) as [j|] eqn:E1; auto.
  assert (Hi : In i (live s)) by (apply (rp_l0 _ _ R); auto).
  assert (Hj : In j (live s)) by (apply (rp_l1 _ _ R); auto).
  destruct (rep_node l s i R Hi) as (n & N1 & _ & N2 & _).
  destruct (rep_node l s j R Hj) as (m & M1 & _ & M2 & _).
  rewrite (rp_tail _ _ R).
  pose proof (lastl_is (live s) HS) as HL. pose proof (succ_is (live s) j HS) as HSj.
  destruct (lastl (live s)) as [t|] eqn:Et; [|destruct (HL _ Hj)].
  destruct HL as [T1 T2]. unfold idx. rewrite N1, M1. cbn [bind].
  unfold dnext. destruct (Nat.eqb_spec j t) as [->|Hne].
  - destruct (succ_in (live s) t) as [k|]; simpl in HSj.
    { destruct HSj as (K1 & K2 & _). specialize (T2 _ K1). lia. }
    rewrite N2. rewrite (next_of_ref l s) by (auto; intros k Hk; eapply succ_In; eauto).
    cbn. eexists; split; [reflexivity|]. split; auto. apply (rep_cursors l s); auto.
    + intros k Hk; eapply succ_In; eauto.
    + intros k; apply obind_succ_In; auto.
  - rewrite M2. destruct (succ_in (live s) j) as [k|] eqn:Ek; simpl in HSj.
    2:{ specialize (HSj _ T1). specialize (T2 _ Hj). lia. }
    cbn. eexists; split; [reflexivity|]. split; auto. unfold with_cur1. rewrite (rp_c0 _ _ R), E0.
    apply (rep_cursors l s); auto.
    + intros q [= <-]; auto.
    + intros q [= <-]; tauto.
Qed.

Lemma modify_ref l s i f x : represents l s -> nth_error (items s) i = Some x ->
  exists l', modify_content l i f = Ok l' /\
    represents l' (mkSpec (replace_nth i (f x) (items s)) (live s) (c0 s) (c1 s) (c2 s)).
Proof.
  intros R E. unfold modify_content. rewrite (rp_items _ _ R), (upd_replace i f _ x E). cbn.
  eexists; split; [reflexivity|]. destruct_rep R. constructor; simpl; auto.
  - rewrite replace_length; auto.
  - intros k Hk. rewrite replace_length; auto.
Qed.

(** One operation: the concrete list does what the specification does, and panics iff it does. *)
Lemma step_ref l s o : represents l s ->
  match spec_step s o with
  | Some (s', r) => exists l', step l o = Ok (l', r) /\ represents l' s'
  | None => step l o = Panic
  end.
Proof.
  intros R. destruct o as [x|i| | | | | |i f]; simpl.
  - destruct (push_ref l s x R) as (l' & E & R'). rewrite E. cbn; eauto.
  - destruct (memb i (live s)) eqn:Em.
    + apply memb_In in Em. destruct (del_ref l s i R Em) as (l' & E & R'). rewrite E. cbn; eauto.
    + assert (Hn : ~ In i (live s)) by (rewrite <- memb_In; congruence).
      rewrite (del_err l s i R Hn). exists l; auto.
  - destruct (connect_all_ref l s R) as (l' & E & R'). rewrite E. cbn; eauto.
  - exists (into_iter l). split; auto. apply into_iter_ref; auto.
  - pose proof (enumerate_ref l s R) as H. destruct (c0 s) as [i|].
    + destruct H as (x & l' & E1 & E2 & E3). rewrite E1, E2. simpl. eauto.
    + rewrite H. simpl. eauto.
  - destruct (into_double_ref l s R) as (l' & E & R'). rewrite E. simpl; eauto.
  - pose proof (indicies_double_ref l s R) as H. unfold enumerate_double.
    destruct (c0 s) as [i|] eqn:E0; [destruct (c1 s) as [j|] eqn:E1|].
    + destruct H as (l' & E2 & E3 & E4). rewrite E2. cbn [bind snd fst]. rewrite E4. unfold idx.
      destruct (rep_item l s i R) as (x & X1 & X2); [apply (rp_l0 _ _ R); auto|].
      destruct (rep_item l s j R) as (y & Y1 & Y2); [apply (rp_l1 _ _ R); auto|].
      rewrite X1, X2, Y1, Y2. cbn. eexists; split; [reflexivity|]. exact E3.
    + rewrite H. simpl; eauto.
    + rewrite H. simpl; eauto.
  - destruct (nth_error (items s) i) as [x|] eqn:E; simpl.
    + destruct (modify_ref l s i f x R E) as (l' & E1 & E2). rewrite E1. simpl; eauto.
    + unfold modify_content. rewrite (rp_items _ _ R), upd_ge; auto.
Qed.

Lemma run_ref os : forall l s, represents l s ->
  match spec_run s os with
  | Some (s', r) => exists l', run l os = Ok (l', r) /\ represents l' s'
  | None => run l os = Panic
  end.
Proof.
  induction os as [|o os IH]; intros l s R; simpl.
  - eauto.
  - pose proof (step_ref l s o R) as H. destruct (spec_step s o) as [[s1 r1]|]; simpl.
    + destruct H as (l1 & E1 & R1). rewrite E1. cbn [bind fst snd].
      specialize (IH l1 s1 R1). destruct (spec_run s1 os) as [[s2 r2]|]; simpl.
      * destruct IH as (l2 & E2 & R2). rewrite E2. simpl; eauto.
      * rewrite IH. reflexivity.
    + rewrite H. reflexivity.
Qed.

Lemma reachable_rep l : reachable l -> exists s, represents l s.
Proof.
  intros (cs & os & l0 & outs & E1 & E2). destruct (from_ref cs) as (l1 & F1 & F2).
  rewrite E1 in F1; injection F1 as <-. pose proof (run_ref os l0 _ F2) as H.
  destruct (spec_run (spec_from cs) os) as [[s r]|].
  - destruct H as (l' & E & R). rewrite E2 in E. injection E as <- <-. eauto.
  - congruence.
Qed.

Lemma live_of_rep l s : represents l s -> live_of l = live s.
Proof.
  intros R. apply sorted_ext.
  - apply sorted_filter, sorted_seq.
  - apply (rp_sorted _ _ R).
  - intros i. unfold live_of. rewrite filter_In, in_seq. split.
    + intros [_ H]. destruct (nth_error (links l) i) as [n|] eqn:E; [|discriminate].
      apply (rp_alive _ _ R i n E); auto.
    + intros H. pose proof (rp_range _ _ R i H). rewrite (rp_len _ _ R). split; [lia|].
      destruct (rep_node l s i R H) as (n & E & Ea & _). rewrite E. auto.
Qed.
End Steps.
