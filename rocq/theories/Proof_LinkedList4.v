From Coq Require Import Sorted.
From Verif Require Import Base Model_LinkedList Spec_LinkedList Refine_LinkedList
  Proof_LinkedList Proof_LinkedList2 Proof_LinkedList3.

Notation sorted := (StronglySorted lt).

(** * List facts *)
Lemma succ_app pre i r : sorted (pre ++ i :: r) -> succ_in (pre ++ i :: r) i = hd_error r.
Proof.
  intros H. apply succ_eq; auto. pose proof H as H'.
  apply sorted_app in H' as (H1 & H2 & H3). apply sorted_cons in H2 as [H2 H4].
  destruct r as [|q r]; simpl.
  - intros m Hm. apply in_app_or in Hm as [Hm|[->|[]]]; auto.
    specialize (H3 m i Hm (or_introl eq_refl)); lia.
  - apply sorted_cons in H4 as [H4 _]. repeat split.
    + apply in_or_app; simpl; auto.
    + apply H2; simpl; auto.
    + intros m Hm Hl. apply in_app_or in Hm as [Hm|[->|[->|Hm]]]; try lia.
      * specialize (H3 m i Hm (or_introl eq_refl)); lia.
      * specialize (H4 _ Hm); lia.
Qed.

Lemma remove_app i a b : remove_live i (a ++ b) = remove_live i a ++ remove_live i b.
Proof. unfold remove_live. apply filter_app. Qed.
Lemma remove_notin i a : ~ In i a -> remove_live i a = a.
Proof.
  induction a as [|x a IH]; simpl; intros H; auto.
  destruct (Nat.eqb_spec x i); simpl; [subst; tauto|]. f_equal. apply IH; tauto.
Qed.
Lemma remove_mid j a b : sorted (a ++ j :: b) -> remove_live j (a ++ j :: b) = a ++ b.
Proof.
  intros H. apply sorted_NoDup in H. apply NoDup_remove in H as [_ H].
  rewrite remove_app. simpl. rewrite Nat.eqb_refl. simpl.
  rewrite !remove_notin; auto; intros Hi; apply H, in_or_app; auto.
Qed.

Section Sweep.
Context {St : Type}.
Variable dec : St -> nat -> nat -> St * bool.

Lemma scan_length x r st : length (fst (scan dec x r st)) <= length r.
Proof.
  revert st; induction r as [|j r IH]; intros st; simpl; auto.
  destruct (dec st x j) as [st1 b]. specialize (IH st1).
  destruct (scan dec x r st1) as [k st2]; simpl in *. destruct b; simpl; lia.
Qed.

Lemma sweep_stable n : forall m l st, length l <= n -> length l <= m ->
  sweep n dec l st = sweep m dec l st.
Proof.
  induction n as [|n IH]; intros m l st Hn Hm.
  - destruct l; [|simpl in Hn; lia]. destruct m; reflexivity.
  - destruct l as [|x r]; [destruct m; reflexivity|]. destruct m as [|m]; [simpl in Hm; lia|].
    simpl. pose proof (scan_length x r st) as HL. destruct (scan dec x r st) as [k st1]. simpl in *.
    rewrite (IH m k st1) by lia. reflexivity.
Qed.

Lemma sweep_cons n x r st : sweep (S n) dec (x :: r) st =
  let (keep, st1) := scan dec x r st in
  let '(ps, surv, st2) := sweep n dec keep st1 in
  (map (pair x) r ++ ps, x :: surv, st2).
Proof. reflexivity. Qed.
Lemma sweep_single n x st : sweep n dec [x] st = ([], [x], st).
Proof. destruct n; [reflexivity|]. simpl. destruct n; reflexivity. Qed.
Lemma sweep_nil n st : sweep n dec [] st = ([], [], st).
Proof. destruct n; reflexivity. Qed.
End Sweep.

Section DRun.
Context {A St : Type}.
Variable dec : St -> nat -> nat -> St * bool.
Implicit Types (l : llist A) (s : spec A).

(** State in the middle of the row of [i]. *)
Definition row_goal (fuel : nat) : Prop :=
  forall l s pre i mid j rest st, represents l s -> live s = pre ++ i :: mid ++ j :: rest ->
  c0 s = Some i -> c1 s = Some j ->
  forall keep st1 ps surv st2,
  scan dec i (j :: rest) st = (keep, st1) ->
  sweep (length (mid ++ keep)) dec (mid ++ keep) st1 = (ps, surv, st2) ->
  length (map (pair i) (j :: rest) ++ ps) < fuel ->
  exists l' s', drun dec fuel l st = Ok (map (pair i) (j :: rest) ++ ps, l', st2) /\
             represents l' s' /\ live s' = pre ++ i :: surv /\ items s' = items s.

(** State at the beginning of a row. *)
Lemma row_start fuel : row_goal fuel ->
  forall l s pre M st ps surv st2, represents l s -> live s = pre ++ M ->
  c0 s = hd_error M -> c1 s = hd_error (tl M) ->
  sweep (length M) dec M st = (ps, surv, st2) ->
  length ps < fuel ->
  exists l' s', drun dec fuel l st = Ok (ps, l', st2) /\ represents l' s' /\ live s' = pre ++ surv
     /\ items s' = items s.
Proof.
  intros HG l s pre M st ps surv st2 R HL H0 H1 HS Hf.
  destruct M as [|i [|j rest]].
  - simpl in *. injection HS as <- <- <-. destruct fuel as [|fuel]; [lia|]. simpl.
    pose proof (indicies_double_ref l s R) as H. rewrite H0 in H. rewrite H. simpl. exists l, s. auto.
  - rewrite sweep_single in HS. injection HS as <- <- <-. simpl in *. destruct fuel as [|fuel]; [lia|]. simpl.
    pose proof (indicies_double_ref l s R) as H. rewrite H0, H1 in H. rewrite H. simpl. exists l, s. auto.
  - cbn [length] in HS. rewrite sweep_cons in HS.
    destruct (scan dec i (j :: rest) st) as [keep st1] eqn:Esc.
    pose proof (scan_length dec i (j :: rest) st) as Hsl. rewrite Esc in Hsl. cbn [fst] in Hsl.
    destruct (sweep (S (length rest)) dec keep st1) as [[ps' surv'] st2'] eqn:Esw.
    injection HS as <- <- <-.
    rewrite (sweep_stable dec (S (length rest)) (length keep) keep st1) in Esw by (simpl in *; lia).
    destruct (HG l s pre i [] j rest st R HL H0 H1 keep st1 ps' surv' st2' Esc Esw Hf)
      as (l' & s' & E1 & E2 & E3). eauto.
Qed.

Lemma row_all fuel : row_goal fuel.
Proof.
  induction fuel as [|fuel IH].
  - intros l s pre i mid j rest st R HL H0 H1 keep st1 ps surv st2 Hsc Hsw Hf. lia.
  - intros l s pre i mid j rest st R HL H0 H1 keep st1 ps surv st2 Hsc Hsw Hf.
    assert (HS := rp_sorted _ _ R).
    assert (HS' : sorted ((pre ++ i :: mid) ++ j :: rest)).
    { rewrite HL in HS. rewrite <- app_assoc. exact HS. }
    assert (HL' : live s = (pre ++ i :: mid) ++ j :: rest).
    { rewrite HL, <- app_assoc. reflexivity. }
    assert (Hij : i < j).
    { apply sorted_app in HS' as (_ & _ & H). apply H; [apply in_or_app; simpl; auto|simpl; auto]. }
    pose proof (indicies_double_ref l s R) as HD. rewrite H0, H1 in HD.
    destruct HD as (l1 & D1 & D2 & _). cbn [drun]. rewrite D1. cbn [bind fst snd].
    cbn [scan] in Hsc. destruct (dec st i j) as [sta b] eqn:Edec.
    destruct (scan dec i rest sta) as [keep' stb] eqn:Esc.
    assert (Hsj : succ_in (live s) j = hd_error rest).
    { rewrite HL'. apply succ_app; auto. }
    assert (Hsi : succ_in (live s) i = hd_error (mid ++ j :: rest)).
    { rewrite HL. apply succ_app. rewrite HL in HS; auto. }
    unfold dnext in D2. rewrite Hsj in D2.
    destruct rest as [|j' rest'].
    + (* last element of the row *)
      cbn [scan] in Esc. injection Esc as <- <-. cbn [hd_error] in D2.
      injection Hsc as <- <-. cbn [map app length] in Hf |- *.
      destruct b.
      * (* deleted *)
        assert (Hj : In j (live s)) by (rewrite HL'; apply in_or_app; simpl; auto).
        destruct (del_ref l1 _ j D2 Hj) as (l2 & E2 & R2). rewrite E2. cbn [bind].
        rewrite app_nil_r in Hsw.
        assert (RS := row_start fuel IH). cbn [items live c0 c1 c2] in R2.
        destruct (RS l2 _ (pre ++ [i]) mid sta ps surv st2 R2) as (l' & s' & F1 & F2 & F3 & F4).
        -- cbn [live]. rewrite HL', remove_mid by auto. rewrite app_nil_r, <- app_assoc. reflexivity.
        -- cbn [c0]. rewrite Hsi. destruct mid as [|m mid]; cbn.
           ++ rewrite Nat.eqb_refl. exact Hsj.
           ++ destruct (Nat.eqb_spec m j) as [->|]; auto. exfalso.
              apply sorted_app in HS' as (_ & _ & H).
              specialize (H j j). assert (j < j); [|lia]. apply H; [apply in_or_app|]; simpl; auto.
        -- cbn [c1]. rewrite Hsi. destruct mid as [|m mid]; cbn [hd_error app obind].
           ++ rewrite Hsj. reflexivity.
           ++ assert (Hsm : succ_in (live s) m = hd_error (mid ++ [j])).
              { rewrite HL. replace (pre ++ i :: (m :: mid) ++ [j]) with ((pre ++ [i]) ++ m :: (mid ++ [j]))
                  by (rewrite <- app_assoc; reflexivity).
                apply succ_app. rewrite <- app_assoc. rewrite HL in HS. exact HS. }
              rewrite Hsm. destruct mid as [|m' mid]; cbn.
              ** rewrite Nat.eqb_refl. exact Hsj.
              ** destruct (Nat.eqb_spec m' j) as [->|]; auto. exfalso.
                 apply sorted_app in HS' as (_ & _ & H).
                 specialize (H j j). assert (j < j); [|lia]. apply H; [apply in_or_app|]; simpl; auto.
        -- exact Hsw.
        -- lia.
        -- rewrite F1. cbn [bind fst snd]. exists l', s'. split; auto. split; auto.
           rewrite F3, <- app_assoc. auto.
      * (* kept *)
        cbn [bind].
        assert (RS := row_start fuel IH).
        destruct (RS l1 _ (pre ++ [i]) (mid ++ [j]) sta ps surv st2 D2) as (l' & s' & F1 & F2 & F3 & F4).
        -- cbn [live]. rewrite HL, <- app_assoc. reflexivity.
        -- cbn [c0]. exact Hsi.
        -- cbn [c1]. rewrite Hsi. destruct mid as [|m mid]; cbn [hd_error app obind tl].
           ++ rewrite Hsj. reflexivity.
           ++ rewrite HL. replace (pre ++ i :: (m :: mid) ++ [j]) with ((pre ++ [i]) ++ m :: (mid ++ [j]))
                  by (rewrite <- app_assoc; reflexivity).
              apply succ_app. rewrite <- app_assoc. rewrite HL in HS. exact HS.
        -- exact Hsw.
        -- lia.
        -- rewrite F1. cbn [bind fst snd]. exists l', s'. split; auto. split; auto.
           rewrite F3, <- app_assoc. auto.
    + cbn [hd_error] in D2. destruct b.
      * injection Hsc as <- <-.
        assert (Hj : In j (live s)) by (rewrite HL'; apply in_or_app; simpl; auto).
        destruct (del_ref l1 _ j D2 Hj) as (l2 & E2 & R2). rewrite E2. cbn [bind].
        cbn [items live c0 c1 c2 skip] in R2.
        destruct (Nat.eqb_spec i j) as [->|_]; [lia|].
        assert (Hjj : j < j').
        { apply sorted_app in HS' as (_ & H & _). apply sorted_cons in H as [H _]. apply H; simpl; auto. }
        destruct (Nat.eqb_spec j' j) as [->|_]; [lia|].
        destruct (IH l2 _ pre i mid j' rest' sta R2) with (keep := keep') (st1 := stb) (ps := ps) (surv := surv) (st2 := st2)
          as (l' & s' & F1 & F2 & F3); auto.
        -- cbn [live]. rewrite HL', remove_mid by auto. rewrite <- app_assoc. reflexivity.
        -- simpl in Hf |- *. lia.
        -- rewrite F1. cbn [bind fst snd]. exists l', s'. split; auto.
      * injection Hsc as <- <-. cbn [bind].
        destruct (IH l1 _ pre i (mid ++ [j]) j' rest' sta D2) with (keep := keep') (st1 := stb) (ps := ps) (surv := surv) (st2 := st2)
          as (l' & s' & F1 & F2 & F3); auto.
        -- cbn [live]. rewrite HL, <- app_assoc. reflexivity.
        -- rewrite <- app_assoc. exact Hsw.
        -- simpl in Hf |- *. lia.
        -- rewrite F1. cbn [bind fst snd]. exists l', s'. split; auto.
Qed.

(** A whole coalescence sweep over a reachable list. *)
Lemma drun_sweep l st ps surv st2 fuel : reachable l ->
  sweep (length (live_of l)) dec (live_of l) st = (ps, surv, st2) -> length ps < fuel ->
  exists l0 l', into_double_iter l = Ok l0 /\
    drun dec fuel l0 st = Ok (ps, l', st2) /\ live_of l' = surv /\ contents l' = contents l.
Proof.
  intros HR HS Hf. apply reachable_rep in HR as (s & R).
  rewrite (live_of_rep l s R) in HS.
  destruct (into_double_ref l s R) as (l0 & E0 & R0).
  destruct (row_start fuel (row_all fuel) l0 _ [] (live s) st ps surv st2 R0) as (l' & s' & F1 & F2 & F3 & F4); auto.
  - cbn [c1]. pose proof (rp_sorted _ _ R) as HSo. destruct (live s) as [|x M]; auto.
    cbn [first hd_error obind tl]. apply (succ_app [] x M). exact HSo.
  - exists l0, l'. split; auto. split; auto. split.
    + rewrite (live_of_rep l' s' F2). exact F3.
    + rewrite (rp_items _ _ F2), (rp_items _ _ R). exact F4.
Qed.
End DRun.

(** * Facts about the specification sweep *)
Section SweepFacts.
Context {St : Type}.
Variable dec : St -> nat -> nat -> St * bool.

Lemma scan_incl x r st j : In j (fst (scan dec x r st)) -> In j r.
Proof.
  revert st; induction r as [|a r IH]; intros st; simpl; auto.
  destruct (dec st x a) as [st1 b]. specialize (IH st1).
  destruct (scan dec x r st1) as [k st2]; simpl in *. destruct b; simpl; tauto.
Qed.

Lemma sweep_len_pairs n : forall l st ps surv st', sweep n dec l st = (ps, surv, st') ->
  length ps <= length (pairs l).
Proof.
  induction n as [|n IH]; intros l st ps surv st' E.
  - injection E as <- <- <-. simpl; lia.
  - destruct l as [|x r]; simpl in E.
    + injection E as <- <- <-; simpl; lia.
    + pose proof (scan_length dec x r st) as Hk. pose proof (scan_incl x r st) as Hin.
      destruct (scan dec x r st) as [k st1]. destruct (sweep n dec k st1) as [[p s] st2] eqn:Es.
      injection E as <- <- <-. specialize (IH _ _ _ _ _ Es). simpl.
      rewrite !app_length, !map_length.
      assert (forall a b : list nat, length a <= length b -> length (pairs a) <= length (pairs b)) as M.
      { clear. induction a as [|y a IHa]; intros [|z b] H; simpl in *; try lia.
        rewrite !app_length, !map_length. specialize (IHa b). lia. }
      specialize (M k r Hk). lia.
Qed.

Lemma sweep_false n : forall l st, length l <= n ->
  sweep n (fun (q : St) _ _ => (q, false)) l st = (pairs l, l, st).
Proof.
  induction n as [|n IH]; intros l st Hl.
  - destruct l; [reflexivity|simpl in Hl; lia].
  - destruct l as [|x r]; [reflexivity|]. simpl.
    assert (Hs : scan (fun (q : St) _ _ => (q, false)) x r st = (r, st)).
    { clear. induction r as [|a r IH]; simpl; auto. rewrite IH. reflexivity. }
    rewrite Hs, IH by (simpl in Hl; lia). reflexivity.
Qed.

Lemma ss_app {B} (R : B -> B -> Prop) L1 L2 :
  StronglySorted R L1 -> StronglySorted R L2 -> (forall x y, In x L1 -> In y L2 -> R x y) ->
  StronglySorted R (L1 ++ L2).
Proof.
  induction L1 as [|a L1 IH]; intros H1 H2 H3; simpl; auto.
  apply StronglySorted_inv in H1 as [H1 H4]. constructor.
  - apply IH; auto. intros; apply H3; simpl; auto.
  - apply Forall_app; split; auto. apply Forall_forall. intros; apply H3; simpl; auto.
Qed.

(** Properties of the sweep: pairs in lexicographic order, members of the start list in order; survivors
    form a sublist; every pair of survivors was looked at. *)
Lemma scan_sorted x r st : sorted r -> sorted (fst (scan dec x r st)).
Proof.
  revert st; induction r as [|a r IH]; intros st H; simpl; auto.
  apply sorted_cons in H as [H1 H2].
  destruct (dec st x a) as [st1 b]. specialize (IH st1 H2). pose proof (scan_incl x r st1) as Hi.
  destruct (scan dec x r st1) as [k st2]; simpl in *. destruct b; simpl; auto.
  apply sorted_cons; split; auto. 
Qed.

Lemma sweep_facts n : forall l st ps surv st', length l <= n -> sorted l ->
  sweep n dec l st = (ps, surv, st') ->
  StronglySorted lexlt ps /\
  (forall i j, In (i, j) ps -> In i l /\ In j l /\ i < j) /\
  sorted surv /\ (forall i, In i surv -> In i l) /\
  (forall i j, In i surv -> In j surv -> i < j -> In (i, j) ps).
Proof.
  induction n as [|n IH]; intros l st ps surv st' Hl HS E.
  - destruct l; [|simpl in Hl; lia]. injection E as <- <- <-.
    repeat split; try constructor; intros; simpl in *; tauto.
  - destruct l as [|x r]; simpl in E.
    + injection E as <- <- <-. repeat split; try constructor; intros; simpl in *; tauto.
    + pose proof (scan_length dec x r st) as Hk. pose proof (scan_incl x r st) as Hin.
      apply sorted_cons in HS as [Hx HS].
      pose proof (scan_sorted x r st HS) as Hso.
      destruct (scan dec x r st) as [k st1]. destruct (sweep n dec k st1) as [[p s] st2] eqn:Es.
      injection E as <- <- <-. simpl in Hk, Hin, Hl, Hso.
      destruct (IH k st1 p s st2) as (I1 & I2 & I3 & I4 & I5); auto; [lia|].
      repeat split.
      * apply ss_app; auto.
        -- clear - HS. induction r as [|a r IHr]; simpl; constructor.
           ++ apply IHr. apply sorted_cons in HS; tauto.
           ++ apply Forall_forall. intros q Hq. apply in_map_iff in Hq as (b & <- & Hb).
              right. simpl. split; auto. apply sorted_cons in HS as [HS _]; auto.
        -- intros [a b] [c d] Ha Hc. apply in_map_iff in Ha as (e & [= <- <-] & He).
           left. simpl. destruct (I2 _ _ Hc) as (J & _). auto.
      * apply in_app_or in H as [H|H].
        -- apply in_map_iff in H as (e & [= <- <-] & He). simpl; auto.
        -- destruct (I2 _ _ H) as (J & _); simpl; auto.
      * apply in_app_or in H as [H|H].
        -- apply in_map_iff in H as (e & [= <- <-] & He). simpl; auto.
        -- destruct (I2 _ _ H) as (_ & J & _); simpl; auto.
      * apply in_app_or in H as [H|H].
        -- apply in_map_iff in H as (e & [= <- <-] & He). simpl; auto.
        -- destruct (I2 _ _ H) as (_ & _ & J); auto.
      * apply sorted_cons; split; auto.
      * intros i [<-|Hi]; simpl; auto.
      * intros i j Hi Hj Hij. apply in_or_app.
        destruct Hi as [<-|Hi].
        -- destruct Hj as [<-|Hj]; [lia|]. left. apply in_map. auto.
        -- destruct Hj as [<-|Hj].
           ++ exfalso. specialize (Hx i (Hin _ (I4 _ Hi))). lia.
           ++ right; auto.
Qed.

Lemma pairs_spec l i j : sorted l -> (In (i, j) (pairs l) <-> In i l /\ In j l /\ i < j).
Proof.
  induction l as [|x r IH]; simpl; intros H; [tauto|].
  apply sorted_cons in H as [H1 H2]. rewrite in_app_iff, (IH H2), in_map_iff. split.
  - intros [(e & [= <- <-] & He)|(A & B & C)]; auto.
  - intros ([<-|Hi] & [<-|Hj] & Hl); try lia.
    + left; eauto.
    + specialize (H1 _ Hi). lia.
    + right; auto.
Qed.
End SweepFacts.
