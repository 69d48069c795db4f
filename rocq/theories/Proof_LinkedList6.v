From Coq Require Import Sorted.
From Verif Require Import Base Model_LinkedList Spec_LinkedList Refine_LinkedList
  Proof_LinkedList Proof_LinkedList2 Proof_LinkedList3 Proof_LinkedList4 Proof_LinkedList5.

Notation sorted := (StronglySorted lt).

Section F.
Context {A : Type}.
Implicit Types (l : llist A) (s : spec A).

Lemma list_refines (cs : list A) os : exists l0, ll_from cs = Ok l0 /\
  match spec_run (spec_from cs) os with
  | Some (s, outs) => exists l, run l0 os = Ok (l, outs) /\ represents l s
  | None => run l0 os = Panic
  end.
Proof. destruct (from_ref cs) as (l0 & E & R). exists l0. split; auto. apply run_ref; auto. Qed.

Lemma walk_some dir k (ls : list node) i n : nth_error ls i = Some n ->
  walk dir (S k) ls (Some i) = (do r <- walk dir k ls (dir n); Ok (i :: r)).
Proof. intros E. cbn [walk]. unfold idx. rewrite E. reflexivity. Qed.

Lemma walk_fwd l s : represents l s -> forall M pre, live s = pre ++ M ->
  walk next (S (length M)) (links l) (hd_error M) = Ok M.
Proof.
  intros R M. induction M as [|i M IH]; intros pre HL.
  - reflexivity.
  - cbn [hd_error length].
    destruct (rep_node l s i R) as (n & E1 & _ & E2 & _).
    { rewrite HL; apply in_or_app; simpl; auto. }
    rewrite (walk_some _ _ _ _ _ E1), E2, HL, succ_app.
    + rewrite (IH (pre ++ [i])); [reflexivity|]. rewrite HL, <- app_assoc. reflexivity.
    + rewrite <- HL. apply (rp_sorted _ _ R).
Qed.

Lemma pred_app pre i r : sorted (pre ++ i :: r) -> pred_in (pre ++ i :: r) i = hd_error (rev pre).
Proof.
  intros H. apply pred_eq; auto. pose proof H as H'.
  apply sorted_app in H' as (H1 & H2 & H3). apply sorted_cons in H2 as [H2 H4].
  destruct (rev pre) as [|q r'] eqn:E.
  - assert (pre = []) as -> by (rewrite <- (rev_involutive pre), E; reflexivity). simpl.
    intros m [<-|Hm]; auto. specialize (H2 _ Hm); lia.
  - assert (Hp : pre = rev r' ++ [q]) by (rewrite <- (rev_involutive pre), E; reflexivity).
    simpl. assert (In q pre) by (rewrite Hp; apply in_or_app; simpl; auto). repeat split.
    + apply in_or_app; auto.
    + apply H3; simpl; auto.
    + intros m Hm Hl. apply in_app_or in Hm as [Hm|[->|Hm]]; try lia.
      * rewrite Hp in Hm, H1. apply in_app_or in Hm as [Hm|[->|[]]]; auto.
        apply sorted_app in H1 as (_ & _ & H1). specialize (H1 m q Hm (or_introl eq_refl)). lia.
      * specialize (H2 _ Hm). lia.
Qed.

Lemma walk_bwd l s : represents l s -> forall M suf, live s = rev M ++ suf ->
  walk prev (S (length M)) (links l) (hd_error M) = Ok M.
Proof.
  intros R M. induction M as [|i M IH]; intros suf HL.
  - reflexivity.
  - cbn [hd_error length].
    destruct (rep_node l s i R) as (n & E1 & _ & _ & E2).
    { rewrite HL; apply in_or_app; left. simpl. apply in_or_app; simpl; auto. }
    rewrite (walk_some _ _ _ _ _ E1). simpl in HL. rewrite <- app_assoc in HL. simpl in HL.
    rewrite E2, HL, pred_app, rev_involutive.
    + rewrite (IH (i :: suf)); [reflexivity|auto].
    + rewrite <- HL. apply (rp_sorted _ _ R).
Qed.

Lemma chains l : reachable l ->
  sorted (live_of l) /\ (forall i, In i (live_of l) -> i < length (contents l)) /\
  length (links l) = length (contents l) /\
  walk next (S (length (live_of l))) (links l) (head l) = Ok (live_of l) /\
  walk prev (S (length (live_of l))) (links l) (tail l) = Ok (rev (live_of l)).
Proof.
  intros H. apply reachable_rep in H as (s & R). rewrite (live_of_rep l s R).
  split; [apply (rp_sorted _ _ R)|]. rewrite (rp_items _ _ R). split; [apply (rp_range _ _ R)|].
  split; [apply (rp_len _ _ R)|]. rewrite (rp_head _ _ R), (rp_tail _ _ R). split.
  - apply (walk_fwd l s R (live s) []). reflexivity.
  - unfold lastl. rewrite <- (rev_length (live s)).
    apply (walk_bwd l s R (rev (live s)) []). rewrite rev_involutive, app_nil_r. reflexivity.
Qed.

Lemma del_total l i : reachable l ->
  (In i (live_of l) -> exists l', del l i = (l', Ok tt) /\ contents l' = contents l /\
      live_of l' = filter (fun k => negb (k =? i)) (live_of l)) /\
  (~ In i (live_of l) -> del l i = (l, Err InvalidArgumentInput)).
Proof.
  intros H. apply reachable_rep in H as (s & R). rewrite (live_of_rep l s R). split; intros Hi.
  - destruct (del_ref l s i R Hi) as (l' & E & R'). exists l'. split; auto. split.
    + rewrite (rp_items _ _ R'), (rp_items _ _ R). reflexivity.
    + apply (live_of_rep l' _ R').
  - apply (del_err l s); auto.
Qed.

Lemma push_total l x : reachable l -> exists l', push l x = Ok l' /\ reachable l' /\
  contents l' = contents l ++ [x] /\ live_of l' = live_of l ++ [length (contents l)].
Proof.
  intros H. pose proof H as H'. apply reachable_rep in H' as (s & R).
  destruct (push_ref l s x R) as (l' & E & R'). exists l'. split; auto. split.
  - apply (reachable_step l (OPush x) l' RUnit H). simpl. rewrite E. reflexivity.
  - rewrite (rp_items _ _ R'), (rp_items _ _ R), (live_of_rep l' _ R'), (live_of_rep l s R). auto.
Qed.

Lemma connect_all_total l : reachable l -> exists l' l2, connect_all l = Ok l' /\
  ll_from (contents l) = Ok l2 /\ contents l' = contents l /\
  live_of l' = seq 0 (length (contents l)) /\
  links l' = links l2 /\ head l' = head l2 /\ tail l' = tail l2.
Proof.
  intros H. apply reachable_rep in H as (s & R).
  destruct (connect_all_ref l s R) as (l' & E & R').
  destruct (connect_all_links l s R) as (ls & E2 & L1 & L2). rewrite E in E2. injection E2 as ->.
  destruct (from_ref (contents l)) as (l2 & F1 & F2).
  exists (mkLL ls (contents l) (first (seq 0 (length (items s)))) (lastl (seq 0 (length (items s))))
           (cur0 l) (cur1 l) (cur2 l)), l2.
  split; auto. split; auto. split; auto. split.
  - rewrite (live_of_rep _ _ R'). simpl. rewrite (rp_items _ _ R). reflexivity.
  - simpl. rewrite (rp_head _ _ F2), (rp_tail _ _ F2). simpl. rewrite (rp_items _ _ R).
    split; auto. unfold ll_from in F1.
    destruct (list_with_length_ok (length (contents l))) as (ls2 & G1 & G2 & G3).
    rewrite G1 in F1. cbn [bind] in F1.
    assert (links l2 = ls2) as ->.
    { destruct (length (contents l)); injection F1 as <-; reflexivity. }
    rewrite (rp_items _ _ R) in G2, G3.
    apply nth_ext with (d := node_new) (d' := node_new); [congruence|].
    intros k Hk. rewrite L1 in Hk.
    specialize (L2 k Hk). specialize (G3 k Hk).
    apply nth_error_nth with (d := node_new) in L2. apply nth_error_nth with (d := node_new) in G3. congruence.
Qed.

Lemma next_live l l' i x : reachable l -> step l ONext = Ok (l', RNext (Some (i, x))) ->
  In i (live_of l) /\ nth_error (contents l) i = Some x /\ live_of l' = live_of l /\ contents l' = contents l.
Proof.
  intros H E. apply reachable_rep in H as (s & R). rewrite (live_of_rep l s R).
  pose proof (enumerate_ref l s R) as HE. simpl in E. destruct (c0 s) as [k|] eqn:E0.
  - destruct HE as (y & l1 & H1 & H2 & H3). rewrite H2 in E. simpl in E. injection E as <- <- <-.
    split; [apply (rp_l0 _ _ R); auto|]. rewrite (rp_items _ _ R), (rp_items _ _ H3), (live_of_rep _ _ H3). auto.
  - rewrite HE in E. simpl in E. discriminate.
Qed.

Lemma pair_live l l' i x j y : reachable l -> step l ONextDouble = Ok (l', RPair (Some (i, x, j, y))) ->
  In i (live_of l) /\ In j (live_of l) /\ nth_error (contents l) i = Some x /\ nth_error (contents l) j = Some y.
Proof.
  intros H E. apply reachable_rep in H as (s & R). rewrite (live_of_rep l s R).
  pose proof (indicies_double_ref l s R) as HE. simpl in E. unfold enumerate_double in E.
  destruct (c0 s) as [k|] eqn:E0; [destruct (c1 s) as [m|] eqn:E1|].
  - destruct HE as (l1 & H1 & H2 & H3). rewrite H1 in E. cbn [bind snd fst] in E. rewrite H3 in E. unfold idx in E.
    destruct (nth_error (contents l) k) eqn:Ek; try discriminate.
    destruct (nth_error (contents l) m) eqn:Em; try discriminate. cbn in E. injection E as <- <- <- <- <-.
    split; [apply (rp_l0 _ _ R); auto|]. split; [apply (rp_l1 _ _ R); auto|]. auto.
  - rewrite HE in E. simpl in E. discriminate.
  - rewrite HE in E. simpl in E. discriminate.
Qed.

Lemma run_total os : forall l, reachable l ->
  (forall i f, In (OModify i f) os -> i < length (contents l)) ->
  exists l' outs, run l os = Ok (l', outs).
Proof.
  induction os as [|o os IH]; intros l H HM; simpl; [eauto|].
  pose proof H as H'. apply reachable_rep in H' as (s & R).
  pose proof (step_ref l s o R) as HS.
  assert (G : exists s1 r, spec_step s o = Some (s1, r) /\ length (items s) <= length (items s1)).
  { destruct o as [x|i| | | | | |i f]; simpl.
    - do 2 eexists; split; [reflexivity|]. simpl. rewrite app_length; lia.
    - destruct (memb i (live s)); do 2 eexists; split; try reflexivity; auto.
    - do 2 eexists; split; [reflexivity|]; auto.
    - do 2 eexists; split; [reflexivity|]; auto.
    - destruct (c0 s) as [i|] eqn:E0; [|do 2 eexists; split; [reflexivity|]; auto].
      destruct (rep_item l s i R) as (x & _ & X); [apply (rp_l0 _ _ R); auto|]. rewrite X. simpl.
      do 2 eexists; split; [reflexivity|]; auto.
    - do 2 eexists; split; [reflexivity|]; auto.
    - destruct (c0 s) as [i|] eqn:E0; [|do 2 eexists; split; [reflexivity|]; auto].
      destruct (c1 s) as [j|] eqn:E1; [|do 2 eexists; split; [reflexivity|]; auto].
      destruct (rep_item l s i R) as (x & _ & X); [apply (rp_l0 _ _ R); auto|]. rewrite X.
      destruct (rep_item l s j R) as (y & _ & Y); [apply (rp_l1 _ _ R); auto|]. rewrite Y. simpl.
      do 2 eexists; split; [reflexivity|]; auto. destruct (succ_in (live s) j); auto.
    - destruct (nth_error (items s) i) as [x|] eqn:E.
      + simpl. do 2 eexists; split; [reflexivity|]. simpl. rewrite replace_length; auto.
      + exfalso. apply nth_error_None in E. specialize (HM i f (or_introl eq_refl)).
        rewrite (rp_items _ _ R) in HM. lia. }
  destruct G as (s1 & r & G1 & G2). rewrite G1 in HS. destruct HS as (l1 & E1 & R1).
  rewrite E1. cbn [bind fst snd].
  destruct (IH l1) as (l2 & outs & E2).
  - apply (reachable_step l o l1 r); auto.
  - intros i f Hi. rewrite (rp_items _ _ R1). specialize (HM i f (or_intror Hi)).
    rewrite (rp_items _ _ R) in HM. lia.
  - rewrite E2. simpl. eauto.
Qed.

(** Undisturbed single iteration. *)
Lemma static_iter m : forall (M : list nat) pre l s, represents l s -> live s = pre ++ M -> c0 s = hd_error M ->
  exists l', run l (repeat ONext (length M + m)) =
    Ok (l', map (fun i => RNext (option_map (pair i) (nth_error (contents l) i))) M ++ repeat (RNext None) m).
Proof.
  induction M as [|i M IH]; intros pre l s R HL H0; cbn [length Nat.add repeat map app].
  - clear HL. induction m as [|m IHm]; cbn [repeat run]; [eauto|].
    assert (E : step l ONext = Ok (l, RNext None)).
    { simpl. pose proof (enumerate_ref l s R) as HE. rewrite H0 in HE. simpl in HE. rewrite HE. reflexivity. }
    rewrite E. cbn [bind fst snd]. destruct IHm as (l' & E').
    simpl in E'. rewrite E'. simpl. eauto.
  - cbn [run]. pose proof (enumerate_ref l s R) as HE. rewrite H0 in HE. cbn [hd_error] in HE.
    destruct HE as (x & l1 & E1 & E2 & R1). cbn [step]. rewrite E2. cbn [bind fst snd].
    destruct (IH (pre ++ [i]) l1 _ R1) as (l' & E').
    + simpl. rewrite HL, <- app_assoc; reflexivity.
    + simpl. rewrite HL. apply succ_app. rewrite <- HL. apply (rp_sorted _ _ R).
    + rewrite E'. cbn [bind fst snd]. exists l'.
      assert (HC : contents l1 = contents l) by (rewrite (rp_items _ _ R1), (rp_items _ _ R); reflexivity).
      rewrite HC, (rp_items _ _ R), E1. reflexivity.
Qed.

Lemma static_iteration l m : reachable l -> exists l',
  run (into_iter l) (repeat ONext (length (live_of l) + m)) =
  Ok (l', map (fun i => RNext (option_map (pair i) (nth_error (contents l) i))) (live_of l)
          ++ repeat (RNext None) m).
Proof.
  intros H. apply reachable_rep in H as (s & R). rewrite (live_of_rep l s R).
  apply (static_iter m (live s) [] (into_iter l) _ (into_iter_ref l s R)); reflexivity.
Qed.

(** Undisturbed double iteration, concretely with contents. *)
Lemma static_double l m : reachable l -> exists l',
  run l (OIntoDouble :: repeat ONextDouble (length (pairs (live_of l)) + m)) =
  Ok (l', RUnit :: map (fun p => RPair (match nth_error (contents l) (fst p), nth_error (contents l) (snd p) with
                                        | Some x, Some y => Some (fst p, x, snd p, y)
                                        | _, _ => None end)) (pairs (live_of l))
          ++ repeat (RPair None) m).
Proof.
  intros H. assert (H' := H). apply reachable_rep in H' as (s & R). rewrite (live_of_rep l s R).
  destruct (into_double_ref l s R) as (l0 & E0 & R0). cbn [run]. cbn [step]. rewrite E0. cbn [bind fst snd].
  assert (HC0 : contents l0 = contents l) by (rewrite (rp_items _ _ R0), (rp_items _ _ R); reflexivity).
  (* remaining pairs *)
  assert (Hnone : forall (la : llist A) (sa : spec A), represents la sa -> (c0 sa = None \/ c1 sa = None) ->
            run la (repeat ONextDouble m) = Ok (la, repeat (RPair None) m)).
  { intros la sa Ra Hn. induction m as [|k IHk]; cbn [repeat run]; auto.
    assert (E : step la ONextDouble = Ok (la, RPair None)).
    { pose proof (indicies_double_ref la sa Ra) as HE. cbn [step]. unfold enumerate_double.
      destruct Hn as [Hn|Hn]; rewrite Hn in HE; [|destruct (c0 sa)]; rewrite HE; reflexivity. }
    rewrite E. cbn [bind fst snd]. rewrite IHk. reflexivity. }
  set (out := fun p : nat * nat => @RPair A (match nth_error (contents l) (fst p), nth_error (contents l) (snd p) with
                                        | Some x, Some y => Some (fst p, x, snd p, y)
                                        | _, _ => None end)).
  assert (Hrow : forall M pre (la : llist A) (sa : spec A), represents la sa -> contents la = contents l -> live sa = pre ++ M ->
     c0 sa = hd_error M -> c1 sa = hd_error (tl M) ->
     exists l', run la (repeat ONextDouble (length (pairs M) + m)) = Ok (l', map out (pairs M) ++ repeat (RPair None) m)).
  { induction M as [|i M IH]; intros pre la sa Ra HC HL H0 H1.
    - simpl. exists la. apply (Hnone la sa); auto.
    - cbn [pairs]. rewrite app_length, map_length, map_app, <- app_assoc.
      assert (Hmid : forall rest mid (la : llist A) (sa : spec A), represents la sa -> contents la = contents l ->
         live sa = pre ++ i :: mid ++ rest -> M = mid ++ rest ->
         (rest <> [] -> c0 sa = Some i /\ c1 sa = hd_error rest) ->
         (rest = [] -> c0 sa = hd_error M /\ c1 sa = hd_error (tl M)) ->
         exists l', run la (repeat ONextDouble (length rest + length (pairs M) + m)) =
            Ok (l', map out (map (pair i) rest) ++ map out (pairs M) ++ repeat (RPair None) m)).
      { induction rest as [|j rest IHr]; intros mid lb sb Rb HCb HLb HM Hc Hn.
        - cbn [length Nat.add map app]. destruct (Hn eq_refl) as [N0 N1].
          apply (IH (pre ++ [i]) lb sb); auto. rewrite HLb, HM, <- app_assoc. reflexivity.
        - cbn [length Nat.add repeat run map app].
          destruct Hc as [N0 N1]; [discriminate|]. cbn [hd_error] in N1.
          pose proof (indicies_double_ref lb sb Rb) as HE. rewrite N0, N1 in HE.
          destruct HE as (lc & HE1 & HE2 & HE3).
          assert (HS := rp_sorted _ _ Rb).
          assert (Hi : In i (live sb)) by (apply (rp_l0 _ _ Rb); auto).
          assert (Hj : In j (live sb)) by (apply (rp_l1 _ _ Rb); auto).
          destruct (rep_item lb sb i Rb Hi) as (x & X1 & _).
          destruct (rep_item lb sb j Rb Hj) as (y & Y1 & _).
          assert (E : step lb ONextDouble = Ok (lc, out (i, j))).
          { cbn [step]. unfold enumerate_double. rewrite HE1. cbn [bind fst snd]. rewrite HE3. unfold idx.
            rewrite X1, Y1. cbn. unfold out. cbn [fst snd]. rewrite <- HCb, X1, Y1. reflexivity. }
          rewrite E. cbn [bind fst snd].
          assert (HLb' : live sb = (pre ++ i :: mid) ++ j :: rest) by (rewrite HLb, <- app_assoc; reflexivity).
          assert (Hsj : succ_in (live sb) j = hd_error rest).
          { rewrite HLb'. apply succ_app. rewrite <- HLb'; auto. }
          unfold dnext in HE2. rewrite Hsj in HE2.
          destruct (IHr (mid ++ [j]) lc _ HE2) as (l' & E').
          + congruence.
          + destruct rest; simpl; rewrite HLb, <- app_assoc; reflexivity.
          + rewrite HM, <- app_assoc; reflexivity.
          + destruct rest as [|j' rest']; [congruence|]. intros _. auto.
          + intros ->. cbn [hd_error]. cbn [c0 c1].
            assert (Hsi : succ_in (live sb) i = hd_error M).
            { rewrite HLb, HM. apply succ_app. rewrite <- HLb; auto. }
            rewrite Hsi. split; auto. rewrite HM in *.
            destruct mid as [|k mid]; cbn [hd_error app obind tl].
            * exact Hsj.
            * rewrite HLb. replace (pre ++ i :: (k :: mid) ++ [j]) with ((pre ++ [i]) ++ k :: mid ++ [j])
                by (rewrite <- app_assoc; reflexivity).
              apply succ_app. rewrite <- app_assoc. simpl. rewrite HLb in HS. exact HS.
          + rewrite E'. cbn [bind fst snd]. eauto. }
      destruct M as [|j M].
      + simpl. exists la. apply (Hnone la sa); auto.
      + apply (Hmid (j :: M) [] la sa); auto. discriminate. }
  destruct (Hrow (live s) [] l0 _ R0 HC0 eq_refl eq_refl) as (l' & E').
  - cbn [c1]. pose proof (rp_sorted _ _ R) as HSo. destruct (live s) as [|x M]; auto.
    cbn [first hd_error obind tl]. apply (succ_app [] x M). exact HSo.
  - rewrite E'. cbn [bind fst snd]. exists l'. reflexivity.
Qed.
End F.

(** Coalescence sweep on a reachable list, all facts. *)
Lemma coalesce {A St} (dec : St -> nat -> nat -> St * bool) (l : llist A) st : reachable l ->
  exists l0 l' ps st', into_double_iter l = Ok l0 /\
    drun dec (S (length (pairs (live_of l)))) l0 st = Ok (ps, l', st') /\
    sweep (length (live_of l)) dec (live_of l) st = (ps, live_of l', st') /\
    contents l' = contents l /\
    StronglySorted lexlt ps /\
    (forall i j, In (i, j) ps -> In i (live_of l) /\ In j (live_of l) /\ i < j) /\
    (forall i j, In i (live_of l') -> In j (live_of l') -> i < j -> In (i, j) ps).
Proof.
  intros HR. destruct (sweep (length (live_of l)) dec (live_of l) st) as [[ps surv] st'] eqn:E.
  pose proof (sweep_len_pairs dec _ _ _ _ _ _ E) as HL.
  destruct (drun_sweep dec l st ps surv st' (S (length (pairs (live_of l)))) HR E) as (l0 & l' & E0 & E1 & E2 & E3); [lia|].
  destruct (chains l HR) as (HSo & _).
  destruct (sweep_facts dec _ _ _ _ _ _ (le_n _) HSo E) as (F1 & F2 & _ & _ & F5).
  exists l0, l', ps, st'. rewrite E2. repeat (split; auto).
Qed.
