(** C06: which deletions a double iteration tolerates. *)
From Coq Require Import Sorted.
From Verif Require Import Base Model_LinkedList Spec_LinkedList Refine_LinkedList
  Proof_LinkedList Proof_LinkedList2 Proof_LinkedList3 Proof_LinkedList4 Proof_LinkedList5.

Notation sorted := (StronglySorted lt).


Lemma filter_pair_other x i L : i <> x -> filter (without x) (map (pair i) L) = map (pair i) (remove_live x L).
Proof.
  intros H. induction L as [|a L IH]; auto. simpl. unfold without at 1. simpl.
  destruct (Nat.eqb_spec i x); [congruence|]. simpl. destruct (a =? x); simpl; rewrite ?IH; auto.
Qed.
Lemma filter_pair_self x L : filter (without x) (map (pair x) L) = [].
Proof. induction L as [|a L IH]; auto. simpl. unfold without at 1. simpl. rewrite Nat.eqb_refl. simpl. auto. Qed.
Lemma filter_pairs x L : sorted L -> filter (without x) (pairs L) = pairs (remove_live x L).
Proof.
  induction L as [|a L IH]; intros H; auto. apply sorted_cons in H as [H1 H2]. cbn [pairs].
  rewrite filter_app, IH by auto. unfold remove_live at 2. cbn [filter].
  destruct (Nat.eqb_spec a x) as [->|N]; cbn [negb].
  - rewrite filter_pair_self. reflexivity.
  - rewrite filter_pair_other by auto. reflexivity.
Qed.

Section D.
Context {A : Type}.
Implicit Types (l : llist A) (s : spec A).

Lemma to_come_det l ps qs : to_come l ps -> to_come l qs -> ps = qs.
Proof.
  intros H. revert qs. induction H as [l H|l l' i j ps H T IH]; intros qs Q; inversion Q; subst; auto; try congruence.
  rewrite H in H0. injection H0 as <- <- <-. f_equal; auto.
Qed.

(** The two shapes of a running double iteration. *)
Lemma end_come l s : represents l s -> c0 s = None \/ c1 s = None -> to_come l [].
Proof.
  intros R H. constructor. pose proof (indicies_double_ref l s R) as I.
  destruct (c0 s); auto. destruct (c1 s); auto. destruct H; discriminate.
Qed.

Lemma row_come n : forall l s pre i mid j rest, represents l s -> live s = pre ++ i :: mid ++ j :: rest ->
  c0 s = Some i -> c1 s = Some j -> length (mid ++ j :: rest) * S (length (mid ++ j :: rest)) + length rest <= n ->
  to_come l (map (pair i) (j :: rest) ++ pairs (mid ++ j :: rest)).
Proof.
  induction n as [|n IH]; intros l s pre i mid j rest R HL H0 H1 Hn.
  { rewrite app_length in Hn. simpl in Hn. lia. }
  assert (HS := rp_sorted _ _ R). pose proof (indicies_double_ref l s R) as I. rewrite H0, H1 in I.
  destruct I as (l1 & E1 & R1 & _). simpl. apply tc_next with (l' := l1); auto.
  assert (Hj : succ_in (live s) j = hd_error rest).
  { rewrite HL. replace (pre ++ i :: mid ++ j :: rest) with ((pre ++ i :: mid) ++ j :: rest) by (rewrite <- app_assoc; reflexivity).
    apply succ_app. rewrite <- app_assoc. rewrite HL in HS. exact HS. }
  unfold dnext in R1. rewrite Hj in R1. destruct rest as [|r rest]; cbn [hd_error] in R1.
  - simpl. assert (Hi : succ_in (live s) i = hd_error (mid ++ [j])).
    { rewrite HL. apply succ_app. rewrite HL in HS. exact HS. }
    rewrite Hi in R1. destruct mid as [|m mid]; cbn [hd_error app obind] in R1.
    + simpl. apply (end_come _ _ R1). right. cbn [c1]. exact Hj.
    + assert (Hm : succ_in (live s) m = hd_error (mid ++ [j])).
      { rewrite HL. replace (pre ++ i :: (m :: mid) ++ [j]) with ((pre ++ [i]) ++ m :: (mid ++ [j])) by (rewrite <- app_assoc; reflexivity).
        apply succ_app. rewrite <- app_assoc. rewrite HL in HS. exact HS. }
      rewrite Hm in R1. destruct mid as [|m' mid]; cbn [hd_error app] in R1.
      * apply (IH l1 _ (pre ++ [i]) m [] j []) in R1; auto.
        -- cbn [live]. rewrite HL, <- app_assoc. reflexivity.
        -- simpl in Hn |- *. lia.
      * apply (IH l1 _ (pre ++ [i]) m [] m' (mid ++ [j])) in R1; auto.
        -- cbn [live]. rewrite HL, <- app_assoc. reflexivity.
        -- simpl in Hn |- *. rewrite !app_length in *. simpl in *. nia.
  - apply (IH l1 _ pre i (mid ++ [j]) r rest) in R1; auto.
    + rewrite <- app_assoc in R1. exact R1.
    + cbn [live]. rewrite HL, <- app_assoc. reflexivity.
    + rewrite <- app_assoc. simpl in Hn |- *. lia.
Qed.

Lemma self_come l s pre i rest : represents l s -> live s = pre ++ i :: rest -> c0 s = Some i -> c1 s = Some i ->
  exists qs, to_come l ((i, i) :: qs).
Proof.
  intros R HL H0 H1. assert (HS := rp_sorted _ _ R). pose proof (indicies_double_ref l s R) as I. rewrite H0, H1 in I.
  destruct I as (l1 & E1 & R1 & _). 
  assert (Hi : succ_in (live s) i = hd_error rest) by (rewrite HL; apply succ_app; rewrite HL in HS; exact HS).
  unfold dnext in R1. rewrite Hi in R1. destruct rest as [|r rest]; cbn [hd_error obind] in R1.
  - exists []. eapply tc_next; eauto. apply (end_come _ _ R1). auto.
  - eexists. eapply tc_next; eauto.
    apply (row_come (length (r :: rest) * S (length (r :: rest)) + length rest) l1 _ pre i [] r rest R1); auto.
Qed.

(** Running states reached by [into_double_iter] and the two kinds of steps. *)
Inductive shape (s : spec A) : list (nat * nat) -> Prop :=
| sh_end : c0 s = None \/ c1 s = None -> shape s []
| sh_row pre i mid j rest : live s = pre ++ i :: mid ++ j :: rest -> c0 s = Some i -> c1 s = Some j ->
    shape s (map (pair i) (j :: rest) ++ pairs (mid ++ j :: rest)).

Lemma shape_come l s qs : represents l s -> shape s qs -> to_come l qs.
Proof.
  intros R [H|pre i mid j rest HL H0 H1].
  - eapply end_come; eauto.
  - eapply row_come; eauto.
Qed.

Lemma shape_start l s pre M : represents l s -> live s = pre ++ M -> c0 s = hd_error M -> c1 s = hd_error (tl M) -> shape s (pairs M).
Proof.
  intros R HL H0 H1. destruct M as [|a [|b M]].
  - apply sh_end; auto.
  - apply sh_end; auto.
  - apply (sh_row s pre a [] b M); auto.
Qed.

Lemma into_shape l s l' : represents l s -> into_double_iter l = Ok l' ->
  exists s', represents l' s' /\ live s' = live s /\ shape s' (pairs (live s)).
Proof.
  intros R E. destruct (into_double_ref l s R) as (l1 & E1 & R1). rewrite E in E1. injection E1 as <-.
  eexists. split; [exact R1|]. split; [reflexivity|].
  apply (shape_start l' _ [] (live s) R1); auto. cbn [c1].
  pose proof (rp_sorted _ _ R) as HS. destruct (live s) as [|x M]; auto. cbn [first hd_error obind tl].
  apply (succ_app [] x M). exact HS.
Qed.

Lemma next_shape l s l' i j qs : represents l s -> shape s qs -> indicies_double l = Ok (l', Some (i, j)) ->
  exists s' qs', qs = (i, j) :: qs' /\ represents l' s' /\ live s' = live s /\ shape s' qs'.
Proof.
  intros R Sh E. pose proof (indicies_double_ref l s R) as I.
  destruct Sh as [H|pre i0 mid j0 rest HL H0 H1].
  { destruct (c0 s); [destruct (c1 s)|]; destruct H; try discriminate; congruence. }
  rewrite H0, H1 in I. destruct I as (l1 & E1 & R1 & _). rewrite E in E1. injection E1 as <- <- <-.
  assert (HS := rp_sorted _ _ R).
  assert (Hj : succ_in (live s) j = hd_error rest).
  { rewrite HL. replace (pre ++ i :: mid ++ j :: rest) with ((pre ++ i :: mid) ++ j :: rest) by (rewrite <- app_assoc; reflexivity).
    apply succ_app. rewrite <- app_assoc. rewrite HL in HS. exact HS. }
  unfold dnext in R1. rewrite Hj in R1. destruct rest as [|r rest]; cbn [hd_error] in R1.
  - eexists. exists (pairs (mid ++ [j])). split; [reflexivity|]. split; [exact R1|]. split; [reflexivity|].
    apply (shape_start l' _ (pre ++ [i]) (mid ++ [j]) R1); cbn [live c0 c1].
    + rewrite HL, <- app_assoc. reflexivity.
    + rewrite HL. apply succ_app. rewrite HL in HS. exact HS.
    + assert (Hi : succ_in (live s) i = hd_error (mid ++ [j])) by (rewrite HL; apply succ_app; rewrite HL in HS; exact HS).
      rewrite Hi. destruct mid as [|m mid]; cbn [hd_error app obind tl].
      * exact Hj.
      * rewrite HL. replace (pre ++ i :: (m :: mid) ++ [j]) with ((pre ++ [i]) ++ m :: (mid ++ [j])) by (rewrite <- app_assoc; reflexivity).
        apply succ_app. rewrite <- app_assoc. rewrite HL in HS. exact HS.
  - eexists. exists (map (pair i) (r :: rest) ++ pairs ((mid ++ [j]) ++ r :: rest)).
    split; [rewrite <- app_assoc; reflexivity|]. split; [exact R1|]. split; [reflexivity|].
    apply (sh_row _ pre i (mid ++ [j]) r rest); auto. cbn [live]. rewrite HL, <- app_assoc. reflexivity.
Qed.

Definition betw (L : list nat) (i j : nat) : nat := length (filter (fun k => (i <? k) && (k <? j)) L).
Lemma filter_none {B} (f : B -> bool) L : (forall x, In x L -> f x = false) -> filter f L = [].
Proof. induction L as [|a L IH]; intros H; auto. simpl. rewrite H by (simpl; auto). apply IH. intros; apply H; simpl; auto. Qed.
Lemma filter_all {B} (f : B -> bool) L : (forall x, In x L -> f x = true) -> filter f L = L.
Proof. induction L as [|a L IH]; intros H; auto. simpl. rewrite H by (simpl; auto). f_equal. apply IH. intros; apply H; simpl; auto. Qed.

Lemma betw_mid pre i mid j rest : sorted (pre ++ i :: mid ++ j :: rest) -> betw (pre ++ i :: mid ++ j :: rest) i j = length mid.
Proof.
  intros H. unfold betw. apply sorted_app in H as (H1 & H2 & H3). apply sorted_cons in H2 as [H2 H4].
  apply sorted_app in H4 as (H4 & H5 & H6). apply sorted_cons in H5 as [H5 H7].
  rewrite filter_app. cbn [filter]. rewrite Nat.ltb_irrefl. cbn [andb].
  rewrite filter_app. cbn [filter]. rewrite (Nat.ltb_irrefl j), andb_false_r.
  rewrite (filter_none _ pre), (filter_all _ mid), (filter_none _ rest).
  - rewrite app_nil_r. reflexivity.
  - intros x Hx. specialize (H5 x Hx). destruct (Nat.ltb_spec x j); [lia|]. apply andb_false_r.
  - intros x Hx. apply andb_true_iff. split; apply Nat.ltb_lt.
    + apply H2. apply in_or_app; auto.
    + apply H6; simpl; auto.
  - intros x Hx. specialize (H3 x i Hx (or_introl eq_refl)). destruct (Nat.ltb_spec i x); [lia|]. reflexivity.
Qed.

Lemma map_pair_in_pairs_lt L a b : sorted L -> In (a, b) (pairs L) -> a < b.
Proof. intros H Hi. apply pairs_spec in Hi; tauto. Qed.

(** One deletion. *)
Lemma del_come l s l' pre i mid j rest x : represents l s -> live s = pre ++ i :: mid ++ j :: rest ->
  c0 s = Some i -> c1 s = Some j -> del l x = (l', Ok tt) ->
  let qs := filter (without x) (map (pair i) (j :: rest) ++ pairs (mid ++ j :: rest)) in
  let ok := (x = i -> length mid = 1) /\ (x = j -> rest = [] -> length mid <= 1) in
  exists s', represents l' s' /\ live s' = remove_live x (live s) /\
    (ok -> shape s' qs) /\ (~ ok -> exists rs, to_come l' rs /\ rs <> qs).
Proof.
  intros R HL H0 H1 E qs ok. assert (HS := rp_sorted _ _ R).
  assert (Hx : In x (live s)).
  { destruct (in_dec Nat.eq_dec x (live s)) as [h|h]; auto. rewrite (del_err l s x R h) in E. discriminate. }
  destruct (del_ref l s x R Hx) as (l1 & E1 & R1). rewrite E in E1. injection E1 as <-.
  rewrite H0, H1 in R1. cbn [skip] in R1.
  eexists. split; [exact R1|]. split; [reflexivity|].
  assert (HS0 := HS). rewrite HL in HS. assert (HN := sorted_NoDup _ HS).
  assert (HSq : sorted (mid ++ j :: rest)).
  { apply sorted_app in HS as (_ & h & _). apply sorted_cons in h. tauto. }
  assert (Hij : i < j).
  { apply sorted_app in HS as (_ & h & _). apply sorted_cons in h as [h _]. apply h, in_or_app. simpl; auto. }
  assert (HSj : sorted (j :: rest)) by (apply sorted_app in HSq; tauto).
  assert (Qs : qs = (if x =? i then [] else map (pair i) (remove_live x (j :: rest))) ++ pairs (remove_live x (mid ++ j :: rest))).
  { unfold qs. rewrite filter_app, filter_pairs by auto. f_equal. destruct (Nat.eqb_spec x i) as [->|N].
    - apply filter_pair_self.
    - apply filter_pair_other; auto. }
  assert (Hnot : forall y, In y (mid ++ j :: rest) -> i < y).
  { apply sorted_app in HS as (_ & h & _). apply sorted_cons in h. tauto. }
  destruct (Nat.eqb_spec i x) as [->|Nxi].
  - (* the first cursor *)
    rewrite Nat.eqb_refl in Qs. cbn [app] in Qs.
    rewrite (remove_notin x (mid ++ j :: rest)) in Qs by (intros h; specialize (Hnot _ h); lia).
    destruct (Nat.eqb_spec j x) as [|Njx]; [lia|].
    assert (Si : succ_in (live s) x = hd_error (mid ++ j :: rest)) by (rewrite HL; apply succ_app; auto).
    rewrite Si in R1.
    assert (Rm : remove_live x (live s) = pre ++ mid ++ j :: rest) by (rewrite HL; apply remove_mid; auto).
    rewrite Rm in R1. rewrite Si, Rm.
    destruct mid as [|m [|m' mid]].
    + split.
      * intros [h _]. specialize (h eq_refl). discriminate.
      * intros _. cbn [app hd_error] in R1. destruct (self_come _ _ pre j rest R1) as (rs & T); auto.
        exists ((j, j) :: rs). split; auto. rewrite Qs. intros h. assert (In (j, j) (pairs ([] ++ j :: rest))) by (rewrite <- h; simpl; auto).
        apply map_pair_in_pairs_lt in H; auto. lia.
    + split.
      * intros _. rewrite Qs. cbn [app hd_error pairs].
        change (map (pair m) (j :: rest) ++ pairs (j :: rest)) with (map (pair m) (j :: rest) ++ pairs ([] ++ j :: rest)).
        apply (sh_row _ pre m [] j rest); auto.
      * intros h. destruct h. split; auto. 
    + split.
      * intros [h _]. specialize (h eq_refl). discriminate.
      * intros _. cbn [app hd_error] in R1.
        assert (T : to_come l' (map (pair m) (j :: rest) ++ pairs ((m' :: mid) ++ j :: rest)))
          by (eapply shape_come; [exact R1|apply (sh_row _ pre m (m' :: mid) j rest); auto]).
        eexists. split; [exact T|]. rewrite Qs. intros h.
        assert (Hl : length (map (pair m) (j :: rest) ++ pairs ((m' :: mid) ++ j :: rest)) = length (pairs ((m :: m' :: mid) ++ j :: rest)))
          by (rewrite h; reflexivity).
        cbn [app pairs] in Hl. rewrite !app_length, !map_length in Hl. cbn [length] in Hl. rewrite !app_length in Hl. cbn [length] in Hl. lia.
  - rewrite (proj2 (Nat.eqb_neq x i)) in Qs by auto.
    destruct (Nat.eqb_spec j x) as [->|Nxj].
    + (* the second cursor *)
      assert (Hm : ~ In x mid) by (intros h; apply sorted_app in HSq as (_ & _ & h2); specialize (h2 x x h (or_introl eq_refl)); lia).
      assert (Hr : ~ In x rest) by (intros h; apply sorted_cons in HSj as [h2 _]; specialize (h2 x h); lia).
      assert (Q2 : qs = map (pair i) rest ++ pairs (mid ++ rest)).
      { rewrite Qs, remove_mid by auto. f_equal. f_equal. unfold remove_live. cbn [filter]. rewrite Nat.eqb_refl. cbn [negb].
        apply (remove_notin x rest Hr). }
      assert (Sx : succ_in (live s) x = hd_error rest).
      { rewrite HL. replace (pre ++ i :: mid ++ x :: rest) with ((pre ++ i :: mid) ++ x :: rest) by (rewrite <- app_assoc; reflexivity).
        apply succ_app. rewrite <- app_assoc. exact HS. }
      assert (Rm : remove_live x (live s) = pre ++ i :: mid ++ rest).
      { rewrite HL. replace (pre ++ i :: mid ++ x :: rest) with ((pre ++ i :: mid) ++ x :: rest) by (rewrite <- app_assoc; reflexivity).
        rewrite remove_mid by (rewrite <- app_assoc; exact HS). rewrite <- app_assoc. reflexivity. }
      rewrite Sx, Rm in R1 |- *. destruct rest as [|r rest]; cbn [hd_error] in *.
      * split.
        -- intros [_ h]. specialize (h eq_refl eq_refl). rewrite Q2. destruct mid as [|m [|m' mid]]; simpl in h |- *; try (apply sh_end; auto). lia.
        -- intros h. exists []. split; [apply (end_come _ _ R1); auto|]. rewrite Q2. intros h2. destruct h. split; [congruence|].
           intros _ _. destruct mid as [|m [|m' mid]]; simpl in h2 |- *; auto; discriminate.
      * split.
        -- intros _. rewrite Q2. apply (sh_row _ pre i mid r rest); auto.
        -- intros h. destruct h. split; [congruence|]. discriminate.
    + (* another element *)
      split; [|intros h; destruct h; split; congruence]. intros _. rewrite Qs.
      assert (Rj : remove_live x (j :: rest) = j :: remove_live x rest)
        by (unfold remove_live; cbn [filter]; rewrite (proj2 (Nat.eqb_neq j x)) by auto; reflexivity).
      rewrite remove_app, Rj.
      apply (sh_row _ (remove_live x pre) i (remove_live x mid) j (remove_live x rest)); auto. cbn [live].
      rewrite HL, remove_app. f_equal. unfold remove_live at 1. cbn [filter]. rewrite (proj2 (Nat.eqb_neq i x)) by auto. cbn [negb]. f_equal.
      fold (remove_live x (mid ++ j :: rest)). rewrite remove_app. f_equal. unfold remove_live at 1. cbn [filter].
      rewrite (proj2 (Nat.eqb_neq j x)) by auto. reflexivity.
Qed.

(** Deletion in general, at the level of lists. *)
Lemma in_split2 (L : list nat) i j : sorted L -> In i L -> In j L -> i < j -> exists pre mid rest, L = pre ++ i :: mid ++ j :: rest.
Proof.
  intros HS Hi Hj Hl. apply in_split in Hi as (pre & q & ->). apply sorted_app in HS as (H1 & H2 & H3).
  apply in_app_or in Hj as [Hj|[Hj|Hj]].
  - specialize (H3 j i Hj (or_introl eq_refl)). lia.
  - lia.
  - apply in_split in Hj as (mid & rest & ->). eauto.
Qed.

Lemma to_come_cursors l s i j qs : represents l s -> to_come l ((i, j) :: qs) -> c0 s = Some i /\ c1 s = Some j.
Proof.
  intros R T. inversion T as [|? l1 ? ? ? E1]; subst. pose proof (indicies_double_ref l s R) as I.
  destruct (c0 s); [destruct (c1 s)|]; try congruence. destruct I as (? & E & _). rewrite E in E1. injection E1 as _ -> ->. auto.
Qed.

Lemma last_iff pre i mid j rest : sorted (pre ++ i :: mid ++ j :: rest) ->
  ((forall k, In k (pre ++ i :: mid ++ j :: rest) -> k <= j) <-> rest = []).
Proof.
  intros H. split.
  - intros Hk. destruct rest as [|r rest]; auto. exfalso.
    apply sorted_app in H as (_ & H & _). apply sorted_cons in H as [_ H]. apply sorted_app in H as (_ & H & _).
    apply sorted_cons in H as [H _]. specialize (H r (or_introl eq_refl)).
    assert (r <= j); [|lia]. apply Hk. apply in_or_app. right. right. apply in_or_app. simpl; auto.
  - intros -> k Hk. apply sorted_app in H as (_ & H & H3). apply in_app_or in Hk as [Hk|[->|Hk]].
    + specialize (H3 k j Hk). assert (k < j); [|lia]. apply H3. right. apply in_or_app; simpl; auto.
    + apply sorted_cons in H as [H _]. assert (k < j); [|lia]. apply H. apply in_or_app; simpl; auto.
    + apply sorted_cons in H as [_ H]. apply sorted_app in H as (_ & _ & H). apply in_app_or in Hk as [Hk|[->|[]]]; auto.
      specialize (H k j Hk (or_introl eq_refl)). lia.
Qed.

Lemma harmless_ok l s pre i mid j rest x : represents l s -> live s = pre ++ i :: mid ++ j :: rest ->
  (harmless l i j x <-> ((x = i -> length mid = 1) /\ (x = j -> rest = [] -> length mid <= 1))).
Proof.
  intros R HL. assert (HS := rp_sorted _ _ R). unfold harmless, between. rewrite (live_of_rep l s R).
  change (length (filter (fun k => (i <? k) && (k <? j)) (live s))) with (betw (live s) i j).
  rewrite HL in *. rewrite (betw_mid _ _ _ _ _ HS). pose proof (last_iff _ _ _ _ _ HS). tauto.
Qed.

Lemma deletion_tolerated_iff l i j ps x l' : reachable l -> to_come l ((i, j) :: ps) -> i < j -> del l x = (l', Ok tt) ->
  (to_come l' (filter (without x) ((i, j) :: ps)) <-> harmless l i j x).
Proof.
  intros HR T Hl E. apply reachable_rep in HR as (s & R). destruct (to_come_cursors _ _ _ _ _ R T) as [H0 H1].
  destruct (in_split2 (live s) i j (rp_sorted _ _ R) (rp_l0 _ _ R i H0) (rp_l1 _ _ R j H1) Hl) as (pre & mid & rest & HL).
  assert (Q : (i, j) :: ps = map (pair i) (j :: rest) ++ pairs (mid ++ j :: rest)).
  { eapply to_come_det; [exact T|]. eapply shape_come; eauto. apply (sh_row s pre); auto. }
  rewrite Q, (harmless_ok l s pre i mid j rest x R HL).
  destruct (del_come l s l' pre i mid j rest x R HL H0 H1 E) as (s' & R' & _ & Hy & Hn).
  split.
  - intros T'. destruct (Nat.eq_dec x i) as [->|Ni].
    + destruct (Nat.eq_dec (length mid) 1) as [Hm|Hm].
      * split; auto. intros ->. lia.
      * exfalso. destruct Hn as (rs & T2 & N); [intros [h _]; auto|]. apply N. eapply to_come_det; eauto.
    + split; [congruence|]. intros -> ->. destruct (le_dec (length mid) 1) as [Hm|Hm]; auto.
      exfalso. destruct Hn as (rs & T2 & N); [intros [_ h]; auto|]. apply N. eapply to_come_det; eauto.
  - intros h. eapply shape_come; eauto.
Qed.

Lemma lex_app ps qs : StronglySorted lexlt ps -> StronglySorted lexlt qs ->
  (forall p q, In p ps -> In q qs -> lexlt p q) -> StronglySorted lexlt (ps ++ qs).
Proof.
  induction ps as [|p ps IH]; intros H1 H2 H; simpl; auto. inversion H1 as [|? ? H3 H4]; subst. constructor.
  - apply IH; auto. intros; apply H; simpl; auto.
  - apply Forall_app. split; auto. apply Forall_forall. intros q Hq. apply H; simpl; auto.
Qed.
Lemma lex_row i L : sorted L -> StronglySorted lexlt (map (pair i) L).
Proof.
  induction L as [|a L IH]; intros H; [constructor|]. apply sorted_cons in H as [H1 H2]. simpl. constructor; auto.
  apply Forall_forall. intros q Hq. apply in_map_iff in Hq as (y & <- & Hy). right. simpl. auto.
Qed.
Lemma lex_pairs L : sorted L -> StronglySorted lexlt (pairs L).
Proof.
  induction L as [|a L IH]; intros H; [constructor|]. cbn [pairs]. apply sorted_cons in H as [H1 H2].
  apply lex_app; auto using lex_row. intros p [q1 q2] Hp Hq. apply in_map_iff in Hp as (y & <- & Hy).
  apply pairs_spec in Hq as (Hq & _); auto. left. simpl. auto.
Qed.
Lemma row_lex i mid j rest : sorted (i :: mid ++ j :: rest) ->
  StronglySorted lexlt (map (pair i) (j :: rest) ++ pairs (mid ++ j :: rest)).
Proof.
  intros H. apply sorted_cons in H as [H1 H2]. apply lex_app.
  - apply lex_row. apply sorted_app in H2. tauto.
  - apply lex_pairs; auto.
  - intros p [q1 q2] Hp Hq. apply in_map_iff in Hp as (y & <- & Hy).
    apply pairs_spec in Hq as (Hq & _); auto. left. simpl. auto.
Qed.

Lemma calm_complete l ps l2 : calm_run l ps l2 -> forall s qs, represents l s -> shape s qs ->
  (exists s2, represents l2 s2) /\ incl (live_of l2) (live_of l) /\
  StronglySorted lexlt ps /\ incl ps qs /\ (forall i j, In (i, j) qs -> In i (live_of l2) -> In j (live_of l2) -> In (i, j) ps).
Proof.
  induction 1 as [l E|l l1 i j ps l2 E C IH|l l1 x ps l2 Hh E C IH|l l1 k f ps l2 E C IH]; intros s qs R Sh.
  - split; [eauto|]. split; [apply incl_refl|]. split; [constructor|]. split; [apply incl_nil_l|].
    assert (T := shape_come _ _ _ R Sh). inversion T; subst; [tauto|]. rewrite E in H. discriminate.
  - destruct (next_shape l s l1 i j qs R Sh E) as (s' & qs' & -> & R' & HL & Sh').
    destruct (IH s' qs' R' Sh') as (R2 & I1 & I2 & I3 & I4). split; auto.
    split; [rewrite (live_of_rep l s R), <- HL, <- (live_of_rep l1 s' R'); auto|].
    split; [|split].
    + constructor; auto. apply Forall_forall. intros [a b] Hab. apply I3 in Hab.
      assert (Hso : StronglySorted lexlt ((i, j) :: qs')).
      { assert (HS := rp_sorted _ _ R). remember ((i, j) :: qs') as q eqn:HQ.
        destruct Sh as [|pre i0 mid j0 rest HL0 H0 H1]; [discriminate|].
        rewrite HL0 in HS. apply sorted_app in HS as (_ & HS & _). apply row_lex; auto. }
      inversion Hso as [|? ? _ HF]; subst. rewrite Forall_forall in HF. exact (HF _ Hab).
    + apply incl_cons; [simpl; auto|]. apply incl_tl. auto.
    + intros a b [Hab|Hab] Ha Hb; [left; auto|right; auto].
  - assert (Hx : In x (live s)).
    { destruct (in_dec Nat.eq_dec x (live s)) as [h|h]; auto. rewrite (del_err l s x R h) in E. discriminate. }
    assert (HSub : forall s', represents l1 s' -> live s' = remove_live x (live s) -> incl (live_of l1) (live_of l) /\ ~ In x (live_of l1)).
    { intros s' R' HL. rewrite (live_of_rep l s R), (live_of_rep l1 s' R'), HL. unfold remove_live. split.
      - intros y Hy. apply filter_In in Hy. tauto.
      - intros Hy. apply filter_In in Hy as [_ Hy]. rewrite Nat.eqb_refl in Hy. discriminate. }
    assert (Main : exists s' , represents l1 s' /\ live s' = remove_live x (live s) /\ shape s' (filter (without x) qs)).
    { assert (Sh2 := Sh). destruct Sh as [HE|pre i0 mid j0 rest HL0 H0 H1].
      - destruct (del_ref l s x R Hx) as (l9 & E9 & R9). rewrite E in E9. injection E9 as <-.
        eexists. split; [exact R9|]. split; [reflexivity|]. cbn [filter]. apply sh_end. cbn [c0 c1].
        destruct HE as [->| ->]; auto.
      - destruct (del_come l s l1 pre i0 mid j0 rest x R HL0 H0 H1 E) as (s' & R' & HL & Hy & _).
        exists s'. split; auto. split; auto. apply Hy. apply (harmless_ok l s pre i0 mid j0 rest x R HL0).
        apply (Hh i0 j0 (map (pair i0) rest ++ pairs (mid ++ j0 :: rest))).
        exact (shape_come l s _ R Sh2). }
    destruct Main as (s' & R' & HL & Sh'). destruct (HSub s' R' HL) as [HI HX].
    destruct (IH s' _ R' Sh') as (R2 & I1 & I2 & I3 & I4). split; auto.
    split; [eapply incl_tran; eauto|]. split; auto. split.
    + intros p Hp. apply I3, filter_In in Hp. tauto.
    + intros a b Hab Ha Hb. apply I4; auto. apply filter_In. split; auto. unfold without. cbn [fst snd].
      apply andb_true_iff. split; apply negb_true_iff, Nat.eqb_neq; intros ->; apply HX, I1; auto.
  - unfold modify_content in E. destruct (nth_error (items s) k) as [y|] eqn:Ey.
    + destruct (modify_ref l s k f y R Ey) as (l9 & E9 & R9). unfold modify_content in E9. rewrite E in E9. injection E9 as <-.
      destruct (IH _ qs R9) as (R2 & I1 & I2 & I3 & I4).
      { destruct Sh as [HE|pre i0 mid j0 rest HL0 H0 H1]; [apply sh_end; auto|apply (sh_row _ pre); auto]. }
      split; auto. split; auto. rewrite (live_of_rep l s R). rewrite (live_of_rep _ _ R9) in I1. exact I1.
    + exfalso. rewrite <- (rp_items _ _ R) in Ey. rewrite (upd_ge _ _ _ Ey) in E. discriminate.
Qed.

Lemma calm_iteration_complete l l0 ps l2 : reachable l -> into_double_iter l = Ok l0 -> calm_run l0 ps l2 ->
  StronglySorted lexlt ps /\
  (forall i j, In (i, j) ps -> In i (live_of l) /\ In j (live_of l) /\ i < j) /\
  (forall i j, In i (live_of l2) -> In j (live_of l2) -> i < j -> In (i, j) ps).
Proof.
  intros HR E C. apply reachable_rep in HR as (s & R). destruct (into_shape l s l0 R E) as (s0 & R0 & HL & Sh).
  destruct (calm_complete l0 ps l2 C s0 _ R0 Sh) as (R2 & I1 & I2 & I3 & I4).
  rewrite (live_of_rep l s R). rewrite (live_of_rep l0 s0 R0), HL in I1. split; auto. split.
  - intros i j Hp. apply I3 in Hp. apply pairs_spec in Hp; [tauto|]. apply (rp_sorted _ _ R).
  - intros i j Hi Hj Hl. apply I4; auto. apply pairs_spec; auto. apply (rp_sorted _ _ R).
Qed.
End D.
