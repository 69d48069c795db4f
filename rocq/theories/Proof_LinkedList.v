From Coq Require Import Sorted.
From Verif Require Import Base Model_LinkedList Spec_LinkedList Refine_LinkedList.

(** * Facts about upd *)
Section Upd.
Context {B : Type}.
Lemma upd_ok i (f : B -> B) l x : nth_error l i = Some x ->
  exists l', upd i f l = Ok l' /\ length l' = length l /\
    (forall j, nth_error l' j = if j =? i then Some (f x) else nth_error l j).
Proof.
  revert i; induction l as [|y l IH]; intros [|i] H; simpl in *; try discriminate.
  - injection H as ->. exists (f x :: l). repeat split; auto. intros [|j]; reflexivity.
  - destruct (IH i H) as (l' & E & L & N). rewrite E. exists (y :: l').
    repeat split; simpl; auto. intros [|j]; simpl; auto.
Qed.

Lemma upd_lt i (f : B -> B) l : i < length l ->
  exists x l', nth_error l i = Some x /\ upd i f l = Ok l' /\ length l' = length l /\
    (forall j, nth_error l' j = if j =? i then Some (f x) else nth_error l j).
Proof.
  intros H. destruct (nth_error l i) as [x|] eqn:E.
  - destruct (upd_ok i f l x E) as (l' & ?). exists x, l'. auto.
  - apply nth_error_None in E. lia.
Qed.

Lemma upd_ge i (f : B -> B) l : nth_error l i = None -> upd i f l = Panic.
Proof.
  revert i; induction l as [|y l IH]; intros [|i] H; simpl in *; try discriminate; auto.
  rewrite (IH i H). reflexivity.
Qed.

Lemma upd_replace i (f : B -> B) l x : nth_error l i = Some x ->
  upd i f l = Ok (replace_nth i (f x) l).
Proof.
  revert i; induction l as [|y l IH]; intros [|i] H; simpl in *; try discriminate.
  - injection H as ->; reflexivity.
  - rewrite (IH i H). reflexivity.
Qed.

Lemma replace_length i (x : B) l : length (replace_nth i x l) = length l.
Proof. revert i; induction l; intros [|i]; simpl; auto. Qed.

Lemma nth_replace i (x : B) l j : nth_error (replace_nth i x l) j =
  if (j =? i) && (j <? length l) then Some x else nth_error l j.
Proof.
  revert i j; induction l as [|y l IH]; intros [|i] [|j]; simpl; auto.
  - rewrite andb_false_r. reflexivity.
  - rewrite IH. reflexivity.
Qed.
End Upd.

(** * Successors and predecessors in a live list *)
Definition is_succ (L : list nat) (i : nat) (o : option nat) : Prop :=
  match o with
  | Some k => In k L /\ i < k /\ (forall m, In m L -> i < m -> k <= m)
  | None => forall m, In m L -> m <= i
  end.
Definition is_pred (L : list nat) (i : nat) (o : option nat) : Prop :=
  match o with
  | Some k => In k L /\ k < i /\ (forall m, In m L -> m < i -> m <= k)
  | None => forall m, In m L -> i <= m
  end.
Definition is_first (L : list nat) (o : option nat) : Prop :=
  match o with
  | Some k => In k L /\ (forall m, In m L -> k <= m)
  | None => forall m, ~ In m L
  end.
Definition is_last (L : list nat) (o : option nat) : Prop :=
  match o with
  | Some k => In k L /\ (forall m, In m L -> m <= k)
  | None => forall m, ~ In m L
  end.

Notation sorted := (StronglySorted lt).

Lemma sorted_cons x L : sorted (x :: L) <-> (forall y, In y L -> x < y) /\ sorted L.
Proof.
  split.
  - intros H; apply StronglySorted_inv in H as [H1 H2]. rewrite Forall_forall in H2. auto.
  - intros [H1 H2]. constructor; auto. apply Forall_forall; auto.
Qed.

Lemma sorted_app L1 L2 : sorted (L1 ++ L2) <->
  sorted L1 /\ sorted L2 /\ (forall x y, In x L1 -> In y L2 -> x < y).
Proof.
  induction L1 as [|a L1 IH].
  - simpl. split; [intros H; repeat split; auto; [constructor|intros ? ? []] | tauto].
  - rewrite <- app_comm_cons, !sorted_cons, IH. split.
    + intros (H1 & H2 & H3 & H4). repeat split; auto.
      * intros y Hy; apply H1, in_or_app; auto.
      * intros x y [->|Hx] Hy; auto. apply H1, in_or_app; auto.
    + intros ((H1 & H2) & H3 & H4). repeat split; auto.
      * intros y Hy. apply in_app_or in Hy as [Hy|Hy]; auto. apply H4; simpl; auto.
      * intros x y Hx Hy. apply H4; simpl; auto.
Qed.

Lemma sorted_NoDup L : sorted L -> NoDup L.
Proof.
  induction L as [|x L IH]; intros H; constructor.
  - apply sorted_cons in H as [H _]. intros Hin. specialize (H x Hin). lia.
  - apply sorted_cons in H as [_ H]; auto.
Qed.

Lemma sorted_seq a n : sorted (seq a n).
Proof.
  revert a; induction n as [|n IH]; intros a; simpl; [constructor|].
  apply sorted_cons; split; auto. intros y Hy; apply in_seq in Hy; lia.
Qed.

Lemma sorted_filter f L : sorted L -> sorted (filter f L).
Proof.
  induction L as [|x L IH]; intros H; simpl; auto.
  apply sorted_cons in H as [H1 H2]. destruct (f x); auto.
  apply sorted_cons; split; auto. intros y Hy; apply filter_In in Hy as [Hy _]; auto.
Qed.

Lemma sorted_ext L1 L2 : sorted L1 -> sorted L2 -> (forall x, In x L1 <-> In x L2) -> L1 = L2.
Proof.
  revert L2; induction L1 as [|x L1 IH]; intros [|y L2] S1 S2 E; auto.
  - destruct (proj2 (E y)); simpl; auto.
  - destruct (proj1 (E x)); simpl; auto.
  - apply sorted_cons in S1 as [A1 S1], S2 as [A2 S2].
    assert (x = y).
    { assert (In x (y :: L2)) by (apply E; simpl; auto).
      assert (In y (x :: L1)) by (apply E; simpl; auto).
      simpl in *. destruct H as [H|H]; auto. destruct H0 as [H0|H0]; auto.
      specialize (A1 _ H0); specialize (A2 _ H); lia. }
    subst y. f_equal. apply IH; auto. intros z; split; intros Hz.
    + assert (H : In z (x :: L2)) by (apply E; simpl; auto).
      destruct H as [->|H]; auto. specialize (A1 _ Hz); lia.
    + assert (H : In z (x :: L1)) by (apply E; simpl; auto).
      destruct H as [->|H]; auto. specialize (A2 _ Hz); lia.
Qed.

Lemma succ_is L i : sorted L -> is_succ L i (succ_in L i).
Proof.
  unfold succ_in. induction L as [|x L IH]; intros H; simpl.
  - intros m [].
  - apply sorted_cons in H as [H1 H2]. destruct (Nat.ltb_spec i x) as [Hx|Hx].
    + simpl. repeat split; auto. intros m [->|Hm] _; auto. specialize (H1 _ Hm); lia.
    + specialize (IH H2). destruct (find (fun j => i <? j) L) as [k|]; simpl in *.
      * destruct IH as (I1 & I2 & I3). repeat split; auto. intros m [->|Hm] Hl; auto. lia.
      * intros m [->|Hm]; auto.
Qed.

Lemma is_succ_fun L i o1 o2 : is_succ L i o1 -> is_succ L i o2 -> o1 = o2.
Proof.
  destruct o1 as [a|], o2 as [b|]; simpl; auto.
  - intros (A1 & A2 & A3) (B1 & B2 & B3). f_equal.
    specialize (A3 _ B1 B2); specialize (B3 _ A1 A2); lia.
  - intros (A1 & A2 & A3) H. specialize (H _ A1); lia.
  - intros H (A1 & A2 & A3). specialize (H _ A1); lia.
Qed.

Lemma succ_eq L i o : sorted L -> is_succ L i o -> succ_in L i = o.
Proof. intros H1 H2. eapply is_succ_fun; eauto. apply succ_is; auto. Qed.

Lemma find_rev_pred L i : sorted L -> is_pred L i (pred_in L i).
Proof.
  unfold pred_in. induction L as [|x L IH] using rev_ind; intros H.
  - simpl. intros m [].
  - apply sorted_app in H as (H1 & _ & H3). rewrite rev_app_distr. simpl.
    destruct (Nat.ltb_spec x i) as [Hx|Hx].
    + simpl. repeat split; auto.
      * apply in_or_app; simpl; auto.
      * intros m Hm _. apply in_app_or in Hm as [Hm|[->|[]]]; auto.
        specialize (H3 m x Hm (or_introl eq_refl)); lia.
    + specialize (IH H1). destruct (find (fun j => j <? i) (rev L)) as [k|]; simpl in *.
      * destruct IH as (I1 & I2 & I3). repeat split; auto.
        -- apply in_or_app; auto.
        -- intros m Hm Hl. apply in_app_or in Hm as [Hm|[->|[]]]; auto. lia.
      * intros m Hm. apply in_app_or in Hm as [Hm|[->|[]]]; auto.
Qed.

Lemma is_pred_fun L i o1 o2 : is_pred L i o1 -> is_pred L i o2 -> o1 = o2.
Proof.
  destruct o1 as [a|], o2 as [b|]; simpl; auto.
  - intros (A1 & A2 & A3) (B1 & B2 & B3). f_equal.
    specialize (A3 _ B1 B2); specialize (B3 _ A1 A2); lia.
  - intros (A1 & A2 & A3) H. specialize (H _ A1); lia.
  - intros H (A1 & A2 & A3). specialize (H _ A1); lia.
Qed.
Lemma pred_eq L i o : sorted L -> is_pred L i o -> pred_in L i = o.
Proof. intros H1 H2. eapply is_pred_fun; eauto. apply find_rev_pred; auto. Qed.

Lemma first_is L : sorted L -> is_first L (first L).
Proof.
  destruct L as [|x L]; simpl; intros H.
  - intros m [].
  - apply sorted_cons in H as [H _]. split; auto.
    intros m [->|Hm]; auto. specialize (H _ Hm); lia.
Qed.
Lemma first_eq L o : sorted L -> is_first L o -> first L = o.
Proof.
  intros H1 H2. apply first_is in H1. destruct (first L) as [a|], o as [b|]; simpl in *; auto.
  - f_equal. destruct H1 as [A1 A2], H2 as [B1 B2]. specialize (A2 _ B1); specialize (B2 _ A1); lia.
  - destruct H1 as [A1 _]; destruct (H2 _ A1).
  - destruct H2 as [A1 _]; destruct (H1 _ A1).
Qed.
Lemma lastl_is L : sorted L -> is_last L (lastl L).
Proof.
  unfold lastl. induction L as [|x L _] using rev_ind; intros H.
  - simpl; intros m [].
  - apply sorted_app in H as (_ & _ & H). rewrite rev_app_distr; simpl. split.
    + apply in_or_app; simpl; auto.
    + intros m Hm. apply in_app_or in Hm as [Hm|[->|[]]]; auto.
      specialize (H m x Hm (or_introl eq_refl)); lia.
Qed.
Lemma lastl_eq L o : sorted L -> is_last L o -> lastl L = o.
Proof.
  intros H1 H2. apply lastl_is in H1. destruct (lastl L) as [a|], o as [b|]; simpl in *; auto.
  - f_equal. destruct H1 as [A1 A2], H2 as [B1 B2]. specialize (A2 _ B1); specialize (B2 _ A1); lia.
  - destruct H1 as [A1 _]; destruct (H2 _ A1).
  - destruct H2 as [A1 _]; destruct (H1 _ A1).
Qed.

Lemma memb_In i L : memb i L = true <-> In i L.
Proof.
  unfold memb. rewrite existsb_exists. split.
  - intros (x & H1 & H2). apply Nat.eqb_eq in H2 as ->. auto.
  - intros H. exists i. rewrite Nat.eqb_refl. auto.
Qed.
Lemma remove_In i j L : In j (remove_live i L) <-> In j L /\ j <> i.
Proof. unfold remove_live. rewrite filter_In, negb_true_iff, Nat.eqb_neq. tauto. Qed.
Lemma remove_sorted i L : sorted L -> sorted (remove_live i L).
Proof. apply sorted_filter. Qed.

(** Successor after removal. *)
Lemma succ_remove L i j : sorted L -> In i L -> j <> i ->
  succ_in (remove_live i L) j =
  match succ_in L j with
  | Some k => if k =? i then succ_in L i else Some k
  | None => None
  end.
Proof.
  intros HS Hi Hj. apply succ_eq; [apply remove_sorted; auto|].
  pose proof (succ_is L j HS) as Hs. destruct (succ_in L j) as [k|]; simpl in *.
  - destruct Hs as (K1 & K2 & K3). destruct (Nat.eqb_spec k i) as [->|Hk].
    + pose proof (succ_is L i HS) as Hs2. destruct (succ_in L i) as [q|]; simpl in *.
      * destruct Hs2 as (Q1 & Q2 & Q3). rewrite remove_In. repeat split; auto; try lia.
        intros m Hm Hl. apply remove_In in Hm as [Hm Hne]. apply Q3; auto.
        specialize (K3 _ Hm Hl). lia.
      * intros m Hm. apply remove_In in Hm as [Hm Hne]. specialize (Hs2 _ Hm).
        destruct (Nat.le_gt_cases m j); auto. specialize (K3 _ Hm H). lia.
    + simpl. rewrite remove_In. repeat split; auto.
      intros m Hm Hl. apply remove_In in Hm as [Hm _]. auto.
  - intros m Hm. apply remove_In in Hm as [Hm _]. auto.
Qed.

Lemma pred_remove L i j : sorted L -> In i L -> j <> i ->
  pred_in (remove_live i L) j =
  match pred_in L j with
  | Some k => if k =? i then pred_in L i else Some k
  | None => None
  end.
Proof.
  intros HS Hi Hj. apply pred_eq; [apply remove_sorted; auto|].
  pose proof (find_rev_pred L j HS) as Hs. destruct (pred_in L j) as [k|]; simpl in *.
  - destruct Hs as (K1 & K2 & K3). destruct (Nat.eqb_spec k i) as [->|Hk].
    + pose proof (find_rev_pred L i HS) as Hs2. destruct (pred_in L i) as [q|]; simpl in *.
      * destruct Hs2 as (Q1 & Q2 & Q3). rewrite remove_In. repeat split; auto; try lia.
        intros m Hm Hl. apply remove_In in Hm as [Hm Hne]. apply Q3; auto.
        specialize (K3 _ Hm Hl). lia.
      * intros m Hm. apply remove_In in Hm as [Hm Hne]. specialize (Hs2 _ Hm).
        destruct (Nat.le_gt_cases j m); auto. specialize (K3 _ Hm H). lia.
    + simpl. rewrite remove_In. repeat split; auto.
      intros m Hm Hl. apply remove_In in Hm as [Hm _]. auto.
  - intros m Hm. apply remove_In in Hm as [Hm _]. auto.
Qed.

(** Which nodes point at [i]. *)
Lemma succ_pred L j i : sorted L -> In j L -> In i L ->
  (succ_in L j = Some i <-> pred_in L i = Some j).
Proof.
  intros HS Hj Hi. pose proof (succ_is L j HS) as H1. pose proof (find_rev_pred L i HS) as H2.
  split; intros E; rewrite E in *.
  - apply pred_eq; auto. simpl in *. destruct H1 as (A1 & A2 & A3). repeat split; auto.
    intros m Hm Hl. destruct (Nat.le_gt_cases m j); auto. specialize (A3 _ Hm H). lia.
  - apply succ_eq; auto. simpl in *. destruct H2 as (A1 & A2 & A3). repeat split; auto.
    intros m Hm Hl. destruct (Nat.le_gt_cases i m); auto. specialize (A3 _ Hm H). lia.
Qed.

Lemma first_remove L i : sorted L -> In i L ->
  first (remove_live i L) = match pred_in L i with Some _ => first L | None => succ_in L i end.
Proof.
  intros HS Hi. apply first_eq; [apply remove_sorted; auto|].
  pose proof (find_rev_pred L i HS) as Hp. pose proof (succ_is L i HS) as Hs.
  pose proof (first_is L HS) as Hf. destruct (pred_in L i) as [p|]; simpl in *.
  - destruct Hp as (P1 & P2 & P3). destruct (first L) as [f|]; simpl in *.
    + destruct Hf as (F1 & F2). split.
      * apply remove_In; split; auto. specialize (F2 _ P1); lia.
      * intros m Hm; apply remove_In in Hm as [Hm _]; auto.
    + intros m Hm. destruct (Hf _ Hi).
  - destruct (succ_in L i) as [q|]; simpl in *.
    + destruct Hs as (Q1 & Q2 & Q3). split; [apply remove_In; split; auto; lia|].
      intros m Hm; apply remove_In in Hm as [Hm Hne]. apply Q3; auto. specialize (Hp _ Hm); lia.
    + intros m Hm; apply remove_In in Hm as [Hm Hne]. specialize (Hp _ Hm); specialize (Hs _ Hm); lia.
Qed.

Lemma lastl_remove L i : sorted L -> In i L ->
  lastl (remove_live i L) = match succ_in L i with Some _ => lastl L | None => pred_in L i end.
Proof.
  intros HS Hi. apply lastl_eq; [apply remove_sorted; auto|].
  pose proof (find_rev_pred L i HS) as Hp. pose proof (succ_is L i HS) as Hs.
  pose proof (lastl_is L HS) as Hf. destruct (succ_in L i) as [p|]; simpl in *.
  - destruct Hs as (P1 & P2 & P3). destruct (lastl L) as [f|]; simpl in *.
    + destruct Hf as (F1 & F2). split.
      * apply remove_In; split; auto. specialize (F2 _ P1); lia.
      * intros m Hm; apply remove_In in Hm as [Hm _]; auto.
    + intros m Hm. destruct (Hf _ Hi).
  - destruct (pred_in L i) as [q|]; simpl in *.
    + destruct Hp as (Q1 & Q2 & Q3). split; [apply remove_In; split; auto; lia|].
      intros m Hm; apply remove_In in Hm as [Hm Hne]. apply Q3; auto. specialize (Hs _ Hm); lia.
    + intros m Hm; apply remove_In in Hm as [Hm Hne]. specialize (Hp _ Hm); specialize (Hs _ Hm); lia.
Qed.

(** Appending a fresh maximum. *)
Section App.
Variables (L : list nat) (n : nat).
Hypotheses (HS : sorted L) (HL : forall i, In i L -> i < n).
Lemma sorted_snoc : sorted (L ++ [n]).
Proof.
  apply sorted_app; repeat split; auto.
  - apply sorted_cons; split; [intros ? []|constructor].
  - intros x y Hx [<-|[]]; auto.
Qed.
Lemma succ_snoc j : j < n ->
  succ_in (L ++ [n]) j = match succ_in L j with Some k => Some k | None => Some n end.
Proof.
  intros Hj. apply succ_eq; [apply sorted_snoc|].
  pose proof (succ_is L j HS) as Hs. destruct (succ_in L j) as [k|]; simpl in *.
  - destruct Hs as (A1 & A2 & A3). repeat split; auto; [apply in_or_app; auto|].
    intros m Hm Hl; apply in_app_or in Hm as [Hm|[<-|[]]]; auto. specialize (HL _ A1); lia.
  - repeat split; auto; [apply in_or_app; simpl; auto|].
    intros m Hm Hl; apply in_app_or in Hm as [Hm|[<-|[]]]; auto. specialize (Hs _ Hm); lia.
Qed.
Lemma succ_snoc_n : succ_in (L ++ [n]) n = None.
Proof.
  apply succ_eq; [apply sorted_snoc|]. simpl. intros m Hm.
  apply in_app_or in Hm as [Hm|[<-|[]]]; auto. specialize (HL _ Hm); lia.
Qed.
Lemma pred_snoc j : j < n -> pred_in (L ++ [n]) j = pred_in L j.
Proof.
  intros Hj. apply pred_eq; [apply sorted_snoc|].
  pose proof (find_rev_pred L j HS) as Hs. destruct (pred_in L j) as [k|]; simpl in *.
  - destruct Hs as (A1 & A2 & A3). repeat split; auto; [apply in_or_app; auto|].
    intros m Hm Hl; apply in_app_or in Hm as [Hm|[<-|[]]]; auto. lia.
  - intros m Hm; apply in_app_or in Hm as [Hm|[<-|[]]]; auto. lia.
Qed.
Lemma pred_snoc_n : pred_in (L ++ [n]) n = lastl L.
Proof.
  apply pred_eq; [apply sorted_snoc|].
  pose proof (lastl_is L HS) as Hs. destruct (lastl L) as [k|]; simpl in *.
  - destruct Hs as (A1 & A2). repeat split; auto; [apply in_or_app; auto|].
    intros m Hm Hl; apply in_app_or in Hm as [Hm|[<-|[]]]; auto. lia.
  - intros m Hm; apply in_app_or in Hm as [Hm|[<-|[]]]; auto. destruct (Hs _ Hm).
Qed.
Lemma lastl_snoc : lastl (L ++ [n]) = Some n.
Proof. unfold lastl. rewrite rev_app_distr. reflexivity. Qed.
Lemma first_snoc : first (L ++ [n]) = match first L with Some f => Some f | None => Some n end.
Proof. destruct L; reflexivity. Qed.
End App.

Lemma first_lastl_none L : first L = None <-> lastl L = None.
Proof.
  unfold first, lastl. induction L as [|x L _] using rev_ind; simpl; [tauto|].
  rewrite rev_app_distr. simpl. destruct L; simpl; split; discriminate.
Qed.

(** * One-step refinement *)
Section Steps.
Context {A : Type}.
Implicit Types (l : llist A) (s : spec A).

Lemma rep_node l s i : represents l s -> In i (live s) ->
  exists n, nth_error (links l) i = Some n /\ alive n = true /\
            next n = succ_in (live s) i /\ prev n = pred_in (live s) i.
Proof.
  intros R Hi. pose proof (rp_range _ _ R _ Hi) as Hr. rewrite <- (rp_len _ _ R) in Hr.
  destruct (nth_error (links l) i) as [n|] eqn:E; [|apply nth_error_None in E; lia].
  assert (alive n = true) by (apply (rp_alive _ _ R i n E); auto).
  exists n. split; [auto|]. split; [auto|].
  split; [apply (rp_next _ _ R i n E H) | apply (rp_prev _ _ R i n E H)].
Qed.

Lemma rep_item l s i : represents l s -> In i (live s) ->
  exists x, nth_error (contents l) i = Some x /\ nth_error (items s) i = Some x.
Proof.
  intros R Hi. pose proof (rp_range _ _ R _ Hi) as Hr.
  rewrite (rp_items _ _ R). destruct (nth_error (items s) i) as [x|] eqn:E; [eauto|].
  apply nth_error_None in E; lia.
Qed.

Lemma rep_dead l s i : represents l s -> ~ In i (live s) ->
  nth_error (links l) i = None \/ exists n, nth_error (links l) i = Some n /\ alive n = false.
Proof.
  intros R Hi. destruct (nth_error (links l) i) as [n|] eqn:E; [right|left; auto].
  exists n; split; auto. destruct (alive n) eqn:Ea; auto. destruct Hi. apply (rp_alive _ _ R i n E); auto.
Qed.

Lemma succ_In L i k : sorted L -> succ_in L i = Some k -> In k L /\ i < k.
Proof. intros H E. pose proof (succ_is L i H) as S. rewrite E in S. simpl in S. tauto. Qed.
Lemma pred_In L i k : sorted L -> pred_in L i = Some k -> In k L /\ k < i.
Proof. intros H E. pose proof (find_rev_pred L i H) as S. rewrite E in S. simpl in S. tauto. Qed.
Lemma first_In L k : first L = Some k -> In k L.
Proof. destruct L; simpl; [discriminate|intros [= ->]; auto]. Qed.
Lemma lastl_In L k : lastl L = Some k -> In k L.
Proof. unfold lastl. intros H. apply in_rev. destruct (rev L); simpl in *; [discriminate|injection H as ->; auto]. Qed.

Lemma push_ref l s x : represents l s -> exists l',
  push l x = Ok l' /\
  represents l' (mkSpec (items s ++ [x]) (live s ++ [length (items s)]) (c0 s) (c1 s) (c2 s)).
Proof.
  intros R. unfold push.
  assert (HS := rp_sorted _ _ R). assert (HL := rp_range _ _ R).
  assert (Hlen : length (links l) = length (items s)) by apply (rp_len _ _ R).
  rewrite (rp_tail _ _ R).
  destruct (lastl (live s)) as [t|] eqn:Et.
  - destruct (rep_node l s t R (lastl_In _ _ Et)) as (n & En & Ea & Enx & Epv).
    destruct (upd_ok t (set_next (Some (length (links l)))) (links l) n En) as (ls & E1 & E2 & E3).
    rewrite E1. cbn. eexists; split; [reflexivity|].
    assert (HF : forall i m, nth_error (ls ++ [node_from (Some t) None]) i = Some m ->
       (i < length (items s) /\ exists m0, nth_error (links l) i = Some m0 /\
           alive m = alive m0 /\ prev m = prev m0 /\ next m = if i =? t then Some (length (items s)) else next m0)
       \/ (i = length (items s) /\ m = node_from (Some t) None)).
    { intros i m Hm. destruct (Nat.lt_ge_cases i (length ls)) as [Hi|Hi].
      - rewrite nth_error_app1 in Hm by auto. left. split; [lia|].
        rewrite E3 in Hm. destruct (Nat.eqb_spec i t) as [->|Hne].
        + injection Hm as <-. exists n. simpl. rewrite Hlen. auto.
        + exists m; auto.
      - rewrite nth_error_app2 in Hm by auto. right.
        destruct (i - length ls) as [|k] eqn:Ek; simpl in Hm.
        + injection Hm as <-. split; auto; lia.
        + destruct k; discriminate. }
    constructor; simpl; auto using rp_c0, rp_c1, rp_c2.
    + rewrite (rp_items _ _ R). reflexivity.
    + rewrite !app_length. simpl. lia.
    + apply sorted_snoc; auto.
    + intros i Hi. rewrite app_length. simpl. apply in_app_or in Hi as [Hi|[<-|[]]]; [|lia].
      specialize (HL _ Hi); lia.
    + intros i m Hm. destruct (HF i m Hm) as [(Hi & m0 & F1 & F2 & F3 & F4)|(Hi & ->)].
      * rewrite F2, (rp_alive _ _ R i m0 F1), in_app_iff. simpl. split; auto.
        intros [H|[H|[]]]; auto; lia.
      * simpl. rewrite in_app_iff. simpl. subst i. split; auto.
    + intros i m Hm Ha. destruct (HF i m Hm) as [(Hi & m0 & F1 & F2 & F3 & F4)|(Hi & ->)].
      * rewrite F4. rewrite succ_snoc by auto. rewrite F2 in Ha.
        assert (Hin : In i (live s)) by (apply (rp_alive _ _ R i m0 F1); auto).
        destruct (Nat.eqb_spec i t) as [->|Hne].
        -- rewrite <- Enx. rewrite F1 in En; injection En as ->.
           pose proof (succ_is (live s) t HS) as Hsu. pose proof (lastl_is (live s) HS) as Hla.
           rewrite Et in Hla; simpl in Hla. rewrite Enx. destruct (succ_in (live s) t); simpl in *; auto.
           destruct Hsu as (U1 & U2 & _). destruct Hla as [_ Hla]. specialize (Hla _ U1). lia.
        -- rewrite (rp_next _ _ R i m0 F1 Ha). pose proof (succ_is (live s) i HS) as Hsu.
           destruct (succ_in (live s) i); simpl in *; auto.
           pose proof (lastl_is (live s) HS) as Hla. rewrite Et in Hla; simpl in Hla.
           destruct Hla as [L1 L2]. specialize (Hsu _ L1). specialize (L2 _ Hin). lia.
      * subst i. simpl. rewrite succ_snoc_n; auto.
    + intros i m Hm Ha. destruct (HF i m Hm) as [(Hi & m0 & F1 & F2 & F3 & F4)|(Hi & ->)].
      * rewrite F3, pred_snoc by auto. apply (rp_prev _ _ R i m0 F1). congruence.
      * subst i. simpl. rewrite pred_snoc_n; auto.
    + rewrite first_snoc by auto. rewrite (rp_head _ _ R).
      destruct (first (live s)) eqn:Ef; auto. exfalso. apply first_lastl_none in Ef; congruence.
    + rewrite lastl_snoc. congruence.
    + intros i Hi. apply in_or_app; left; eapply rp_l0; eauto.
    + intros i Hi. apply in_or_app; left; eapply rp_l1; eauto.
    + intros i Hi. apply in_or_app; left; eapply rp_l2; eauto.
  - cbn. eexists; split; [reflexivity|].
    assert (Hnil : live s = []).
    { apply first_lastl_none in Et. destruct (live s); [auto|discriminate]. }
    assert (HF : forall i m, nth_error (links l ++ [node_from None None]) i = Some m ->
       (i < length (items s) /\ nth_error (links l) i = Some m)
       \/ (i = length (items s) /\ m = node_from None None)).
    { intros i m Hm. destruct (Nat.lt_ge_cases i (length (links l))) as [Hi|Hi].
      - rewrite nth_error_app1 in Hm by auto. left. split; [lia|auto].
      - rewrite nth_error_app2 in Hm by auto. right.
        destruct (i - length (links l)) as [|k] eqn:Ek; simpl in Hm.
        + injection Hm as <-. split; auto; lia.
        + destruct k; discriminate. }
    assert (HN : forall i m, nth_error (links l) i = Some m -> alive m = true -> False).
    { intros i m H1 H2. apply (rp_alive _ _ R i m H1) in H2. rewrite Hnil in H2. destruct H2. }
    constructor; simpl; auto using rp_c0, rp_c1, rp_c2; rewrite ?Hnil; simpl.
    + rewrite (rp_items _ _ R). reflexivity.
    + rewrite !app_length. simpl. lia.
    + apply sorted_cons; split; [intros ? []|constructor].
    + intros i [<-|[]]. rewrite app_length. simpl. lia.
    + intros i m Hm. destruct (HF i m Hm) as [(Hi & F1)|(Hi & ->)].
      * split; [intros Ha; destruct (HN _ _ F1 Ha)|intros [H|[]]; lia].
      * subst i. simpl. tauto.
    + intros i m Hm Ha. destruct (HF i m Hm) as [(Hi & F1)|(Hi & ->)]; [destruct (HN _ _ F1 Ha)|].
      subst i. unfold succ_in. simpl. rewrite Nat.ltb_irrefl. reflexivity.
    + intros i m Hm Ha. destruct (HF i m Hm) as [(Hi & F1)|(Hi & ->)]; [destruct (HN _ _ F1 Ha)|].
      subst i. unfold pred_in. simpl. rewrite Nat.ltb_irrefl. reflexivity.
    + unfold first; simpl; congruence.
    + unfold lastl; simpl; congruence.
    + intros i Hi. apply (rp_l0 _ _ R) in Hi. rewrite Hnil in Hi. destruct Hi.
    + intros i Hi. apply (rp_l1 _ _ R) in Hi. rewrite Hnil in Hi. destruct Hi.
    + intros i Hi. apply (rp_l2 _ _ R) in Hi. rewrite Hnil in Hi. destruct Hi.
Qed.

Lemma del_err l s i : represents l s -> ~ In i (live s) -> del l i = (l, Err InvalidArgumentInput).
Proof.
  intros R Hi. unfold del. destruct (rep_dead l s i R Hi) as [->|(n & -> & ->)]; reflexivity.
Qed.

Lemma skip_live L i c : sorted L -> In i L ->
  (forall j, c = Some j -> In j L) -> forall j, skip L i c = Some j -> In j (remove_live i L).
Proof.
  intros HS Hi Hc j. unfold skip. destruct c as [k|]; [|discriminate].
  destruct (Nat.eqb_spec k i) as [->|Hk].
  - intros E. apply succ_In in E as [E1 E2]; auto. apply remove_In; split; auto; lia.
  - intros [= <-]. apply remove_In; split; auto.
Qed.

Lemma fix_skip L i c : fix_cursor i (succ_in L i) c = skip L i c.
Proof. destruct c; reflexivity. Qed.

Lemma del_ref l s i : represents l s -> In i (live s) -> exists l',
  del l i = (l', Ok tt) /\
  represents l' (mkSpec (items s) (remove_live i (live s))
     (skip (live s) i (c0 s)) (skip (live s) i (c1 s)) (skip (live s) i (c2 s))).
Proof.
  intros R Hi. assert (HS := rp_sorted _ _ R).
  destruct (rep_node l s i R Hi) as (n & En & Ea & Enx & Epv).
  unfold del. rewrite En, Ea. cbn [negb].
  destruct (upd_ok i (set_alive false) (links l) n En) as (ls1 & U1 & U2 & U3).
  rewrite U1. cbn -[upd idx]. unfold idx. rewrite U3, Nat.eqb_refl. cbn -[upd].
  rewrite Enx, Epv.
  (* the links after the two optional updates *)
  assert (HL2 : exists ls2,
    match pred_in (live s) i with
    | Some p => upd p (set_next (succ_in (live s) i)) ls1
    | None => Ok ls1 end = Ok ls2 /\ length ls2 = length ls1 /\
    forall j m, nth_error ls2 j = Some m -> exists m1, nth_error ls1 j = Some m1 /\
       alive m = alive m1 /\ prev m = prev m1 /\
       next m = if match pred_in (live s) i with Some p => j =? p | None => false end
                then succ_in (live s) i else next m1).
  { destruct (pred_in (live s) i) as [p|] eqn:Ep.
    - destruct (pred_In _ _ _ HS Ep) as [P1 P2].
      destruct (rep_node l s p R P1) as (np & Enp & _).
      assert (Hp : nth_error ls1 p = Some np) by (rewrite U3; destruct (Nat.eqb_spec p i); [lia|auto]).
      destruct (upd_ok p (set_next (succ_in (live s) i)) ls1 np Hp) as (ls2 & V1 & V2 & V3).
      exists ls2. split; auto. split; auto. intros j m Hm. rewrite V3 in Hm.
      destruct (Nat.eqb_spec j p) as [->|Hne].
      + injection Hm as <-. exists np. auto.
      + exists m; auto.
    - exists ls1. split; auto. split; auto. intros j m Hm. exists m; auto. }
  destruct HL2 as (ls2 & V1 & V2 & V3).
  assert (HL3 : exists ls3,
    match succ_in (live s) i with
    | Some q => upd q (set_prev (pred_in (live s) i)) ls2
    | None => Ok ls2 end = Ok ls3 /\ length ls3 = length ls2 /\
    forall j m, nth_error ls3 j = Some m -> exists m1, nth_error ls2 j = Some m1 /\
       alive m = alive m1 /\ next m = next m1 /\
       prev m = if match succ_in (live s) i with Some q => j =? q | None => false end
                then pred_in (live s) i else prev m1).
  { destruct (succ_in (live s) i) as [q|] eqn:Eq.
    - destruct (succ_In _ _ _ HS Eq) as [Q1 Q2].
      assert (Hq : q < length ls2).
      { rewrite V2, U2, (rp_len _ _ R). apply (rp_range _ _ R); auto. }
      destruct (upd_lt q (set_prev (pred_in (live s) i)) ls2 Hq) as (nq & ls3 & W0 & W1 & W2 & W3).
      exists ls3. split; auto. split; auto. intros j m Hm. rewrite W3 in Hm.
      destruct (Nat.eqb_spec j q) as [->|Hne].
      + injection Hm as <-. exists nq. auto.
      + exists m; auto.
    - exists ls2. split; auto. split; auto. intros j m Hm. exists m; auto. }
  destruct HL3 as (ls3 & W1 & W2 & W3).
  assert (HF : forall j m, nth_error ls3 j = Some m -> exists m1, nth_error (links l) j = Some m1 /\
       alive m = (if j =? i then false else alive m1) /\
       next m = (if match pred_in (live s) i with Some p => j =? p | None => false end
                then succ_in (live s) i else next m1) /\
       prev m = (if match succ_in (live s) i with Some q => j =? q | None => false end
                then pred_in (live s) i else prev m1)).
  { intros j m Hm. destruct (W3 j m Hm) as (m2 & X1 & X2 & X3 & X4).
    destruct (V3 j m2 X1) as (m1 & Y1 & Y2 & Y3 & Y4). rewrite U3 in Y1.
    destruct (Nat.eqb_spec j i) as [->|Hne].
    - injection Y1 as <-. exists n. split; auto. rewrite X2, Y2, X3, Y4, X4, Y3. auto.
    - exists m1. split; auto. rewrite X2, Y2, X3, Y4, X4, Y3. auto. }
  exists (mkLL ls3 (contents l)
            (match pred_in (live s) i with Some _ => head l | None => succ_in (live s) i end)
            (match succ_in (live s) i with Some _ => tail l | None => pred_in (live s) i end)
            (fix_cursor i (succ_in (live s) i) (cur0 l))
            (fix_cursor i (succ_in (live s) i) (cur1 l))
            (fix_cursor i (succ_in (live s) i) (cur2 l))).
  split.
  { destruct (pred_in (live s) i) as [p|]; rewrite ?V1; cbn -[upd];
      destruct (succ_in (live s) i) as [q|]; cbn -[upd];
      try injection V1 as ->; rewrite ?W1; try injection W1 as ->; reflexivity. }
  constructor; simpl; rewrite ?fix_skip.
  - apply (rp_items _ _ R).
  - rewrite W2, V2, U2. apply (rp_len _ _ R).
  - apply remove_sorted; auto.
  - intros j Hj. apply remove_In in Hj as [Hj _]. apply (rp_range _ _ R); auto.
  - intros j m Hm. destruct (HF j m Hm) as (m1 & F1 & F2 & _). rewrite F2, remove_In.
    destruct (Nat.eqb_spec j i) as [->|Hne].
    + split; [discriminate|tauto].
    + rewrite (rp_alive _ _ R j m1 F1). tauto.
  - intros j m Hm Ha. destruct (HF j m Hm) as (m1 & F1 & F2 & F3 & _). rewrite F2 in Ha.
    destruct (Nat.eqb_spec j i) as [->|Hne]; [discriminate|].
    assert (Hj : In j (live s)) by (apply (rp_alive _ _ R j m1 F1); auto).
    rewrite F3, succ_remove by auto. rewrite (rp_next _ _ R j m1 F1 Ha).
    pose proof (succ_pred (live s) j i HS Hj Hi) as SP.
    destruct (pred_in (live s) i) as [p|] eqn:Ep.
    + destruct (Nat.eqb_spec j p) as [->|Hjp].
      * rewrite (proj2 SP eq_refl), Nat.eqb_refl. reflexivity.
      * destruct (succ_in (live s) j) as [k|] eqn:Ek; auto.
        destruct (Nat.eqb_spec k i) as [->|Hk]; auto. destruct SP as [SP _].
        specialize (SP eq_refl); congruence.
    + destruct (succ_in (live s) j) as [k|] eqn:Ek; auto.
      destruct (Nat.eqb_spec k i) as [->|Hk]; auto. destruct SP as [SP _].
      specialize (SP eq_refl); congruence.
  - intros j m Hm Ha. destruct (HF j m Hm) as (m1 & F1 & F2 & _ & F3). rewrite F2 in Ha.
    destruct (Nat.eqb_spec j i) as [->|Hne]; [discriminate|].
    assert (Hj : In j (live s)) by (apply (rp_alive _ _ R j m1 F1); auto).
    rewrite F3, pred_remove by auto. rewrite (rp_prev _ _ R j m1 F1 Ha).
    pose proof (succ_pred (live s) i j HS Hi Hj) as SP.
    destruct (succ_in (live s) i) as [p|] eqn:Ep.
    + destruct (Nat.eqb_spec j p) as [->|Hjp].
      * rewrite (proj1 SP eq_refl), Nat.eqb_refl. reflexivity.
      * destruct (pred_in (live s) j) as [k|] eqn:Ek; auto.
        destruct (Nat.eqb_spec k i) as [->|Hk]; auto. destruct SP as [_ SP].
        specialize (SP eq_refl); congruence.
    + destruct (pred_in (live s) j) as [k|] eqn:Ek; auto.
      destruct (Nat.eqb_spec k i) as [->|Hk]; auto. destruct SP as [_ SP].
      specialize (SP eq_refl); congruence.
  - rewrite first_remove by auto. rewrite (rp_head _ _ R). reflexivity.
  - rewrite lastl_remove by auto. rewrite (rp_tail _ _ R). reflexivity.
  - rewrite (rp_c0 _ _ R); reflexivity.
  - rewrite (rp_c1 _ _ R); reflexivity.
  - rewrite (rp_c2 _ _ R); reflexivity.
  - apply skip_live; auto; apply (rp_l0 _ _ R).
  - apply skip_live; auto; apply (rp_l1 _ _ R).
  - apply skip_live; auto; apply (rp_l2 _ _ R).
Qed.
End Steps.
