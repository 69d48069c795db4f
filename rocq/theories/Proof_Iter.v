(** All ways to advance an iteration agree (C03, C04). *)
From Coq Require Import Sorted.
From Verif Require Import Base Model_LinkedList Spec_LinkedList Refine_LinkedList Proof_LinkedList Proof_LinkedList2 Proof_LinkedList3 Proof_LinkedList4
  Proof_LinkedList5 Proof_LinkedList6 Spec_Iter.

Notation sorted := (StronglySorted lt).

Lemma replace_id {B} (i : nat) (x : B) : forall l, nth_error l i = Some x -> replace_nth i x l = l.
Proof. induction i as [|i IH]; intros [|y r]; cbn; try congruence. intros E. now rewrite (IH r E). Qed.

Lemma nth_error_firstn_lt {B} (k n : nat) : forall (l : list B), k < n -> nth_error (firstn n l) k = nth_error l k.
Proof. revert n. induction k as [|k IH]; intros [|n] [|y r] H; cbn; try lia; auto. apply IH. lia. Qed.

Section P.
Context {A : Type}.
Implicit Types (l : llist A) (s : spec A).

(** One step: every way moves the same cursor, shows its view of the same element and writes that element only. *)
Lemma advance_some l s i w : represents l s -> c0 s = Some i ->
  exists x l', nth_error (items s) i = Some x /\ advance l w = Ok (l', shows w (Some (i, x))) /\
    links l' = links l /\ head l' = head l /\ tail l' = tail l /\
    represents l' (mkSpec (replace_nth i (writes w x) (items s)) (live s) (succ_in (live s) i) (c1 s) (c2 s)).
Proof.
  intros R H0. assert (Hi : In i (live s)) by (apply (rp_l0 _ _ R); auto).
  destruct (rep_node l s i R Hi) as (n & N1 & _ & N2 & _). destruct (rep_item l s i R Hi) as (x & X1 & X2).
  pose proof (enumerate_ref l s R) as EN. rewrite H0 in EN. destruct EN as (x' & l1 & E1 & E2 & R1).
  assert (x' = x) by congruence. subst x'.
  unfold enumerate in E2. rewrite (rp_c0 _ _ R), H0 in E2. unfold idx in E2. rewrite N1 in E2. cbn [bind] in E2.
  cbn [contents with_cur0] in E2. rewrite X1 in E2. cbn [bind] in E2. injection E2 as <-.
  destruct (modify_ref _ _ i (writes w) x R1 E1) as (l2 & M1 & M2).
  assert (EU : upd i (writes w) (contents l) = Ok (replace_nth i (writes w x) (contents l))) by (apply upd_replace; exact X1).
  unfold modify_content in M1. cbn [contents with_cur0] in M1. rewrite EU in M1. cbn [bind] in M1. injection M1 as <-.
  exists x. exists (with_contents (with_cur0 l (next n)) (replace_nth i (writes w x) (contents l))).
  split; [exact E1|]. split; [|split; [reflexivity|split; [reflexivity|split; [reflexivity|exact M2]]]].
  destruct w as [|f| |f|]; cbn [advance shows writes] in *;
    [unfold get|unfold get_mut|unfold enumerate|unfold enumerate_mut|unfold indicies];
    rewrite (rp_c0 _ _ R), H0; unfold idx; rewrite N1; cbn [bind contents with_cur0]; rewrite ?X1; cbn [bind fst snd]; rewrite ?(upd_replace i _ (contents l) x X1); cbn [bind fst snd];
    rewrite ?(replace_id i x (contents l) X1); reflexivity.
Qed.

Lemma advance_none l s w : represents l s -> c0 s = None -> advance l w = Ok (l, shows w None).
Proof.
  intros R H. destruct w; cbn [advance]; [unfold get|unfold get_mut|unfold enumerate|unfold enumerate_mut|unfold indicies];
    rewrite (rp_c0 _ _ R), H; reflexivity.
Qed.

Lemma advance_ended ws : forall l s, represents l s -> c0 s = None -> advance_all l ws = Ok (l, map (fun w => shows w None) ws).
Proof.
  induction ws as [|w ws IH]; intros l s R H; [reflexivity|]. cbn [advance_all map]. rewrite (advance_none l s w R H). cbn [bind fst snd].
  rewrite (IH l s R H). reflexivity.
Qed.

Lemma advance_any ws : forall l s pre M, represents l s -> live s = pre ++ M -> c0 s = hd_error M ->
  exists l' outs, advance_all l ws = Ok (l', outs) /\ links l' = links l /\ head l' = head l /\ tail l' = tail l /\
    (exists s', represents l' s') /\ length outs = length ws /\ length (contents l') = length (contents l) /\
    (forall k w, nth_error ws k = Some w -> nth_error outs k =
        Some (shows w (match nth_error M k with Some i => at_index l i | None => None end))) /\
    (forall k i w, nth_error M k = Some i -> nth_error ws k = Some w ->
        nth_error (contents l') i = option_map (writes w) (nth_error (contents l) i)) /\
    (forall j, ~ In j (firstn (length ws) M) -> nth_error (contents l') j = nth_error (contents l) j).
Proof.
  induction ws as [|w ws IH]; intros l s pre M R HL H0.
  - exists l, []. repeat (split; [reflexivity || (eexists; exact R)|]). split; [intros [|k] w; discriminate|].
    split; [intros k i w _ Hw; destruct k; discriminate Hw|reflexivity].
  - destruct M as [|i M].
    + exists l, (map (fun w => shows w None) (w :: ws)). rewrite (advance_ended (w :: ws) l s R H0).
      repeat (split; [reflexivity || (eexists; exact R)|]). split; [now rewrite map_length|]. split; [reflexivity|].
      split; [|split; [intros [|k]; discriminate|reflexivity]].
      intros k v Hk. rewrite (map_nth_error _ k (w :: ws) Hk). destruct k; reflexivity.
    + assert (HS := rp_sorted _ _ R).
      assert (Hs : succ_in (live s) i = hd_error M) by (rewrite HL; apply succ_app; rewrite HL in HS; auto).
      destruct (advance_some l s i w R H0) as (x & l1 & X1 & E1 & K1 & K2 & K3 & R1).
      destruct (IH l1 _ (pre ++ [i]) M R1) as (l2 & outs & F1 & F2 & F3 & F4 & F5 & F6 & F7 & F8 & F9 & F10).
      { cbn. rewrite HL, <- app_assoc. reflexivity. } { exact Hs. }
      assert (Hni : ~ In i M).
      { intros Hin. rewrite HL in HS. apply sorted_app in HS as (_ & HS & _). apply sorted_cons in HS as [HS _]. specialize (HS _ Hin). lia. }
      assert (HC : contents l1 = replace_nth i (writes w x) (contents l)) by (rewrite (rp_items _ _ R1), (rp_items _ _ R); reflexivity).
      assert (X : nth_error (contents l) i = Some x) by (rewrite (rp_items _ _ R); exact X1).
      assert (Hoth : forall j, j <> i -> nth_error (contents l1) j = nth_error (contents l) j).
      { intros j Hj. rewrite HC, nth_replace. destruct (Nat.eqb_spec j i); [contradiction|reflexivity]. }
      assert (Hself : nth_error (contents l1) i = Some (writes w x)).
      { rewrite HC, nth_replace, Nat.eqb_refl. replace (i <? length (contents l)) with true; [reflexivity|]. symmetry. apply Nat.ltb_lt, nth_error_Some. congruence. }
      cbn [advance_all]. rewrite E1. cbn [bind fst snd]. rewrite F1. cbn [bind fst snd]. exists l2, (shows w (Some (i, x)) :: outs).
      split; [reflexivity|]. do 3 (split; [congruence|]). split; [exact F5|]. split; [cbn; congruence|].
      split; [rewrite F7, HC, replace_length; reflexivity|]. split; [|split].
      * intros [|k] v Hk; cbn [nth_error] in *.
        -- injection Hk as <-. unfold at_index. rewrite X. reflexivity.
        -- rewrite (F8 k v Hk). destruct (nth_error M k) as [j|] eqn:Ej; [|reflexivity]. unfold at_index. rewrite Hoth; [reflexivity|].
           intros ->. apply Hni. now apply nth_error_In in Ej.
      * intros [|k] j v Hj Hk; cbn [nth_error] in *.
        -- injection Hj as <-. injection Hk as <-. rewrite F10, Hself, X; [reflexivity|].
           intros Hin. apply Hni. revert Hin. clear. revert M. induction (length ws) as [|n IHn]; intros [|m M]; cbn; try tauto. intros [->|H]; [auto|right; exact (IHn _ H)].
        -- rewrite (F9 k j v Hj Hk), Hoth; [reflexivity|]. intros ->. apply Hni. now apply nth_error_In in Hj.
      * intros j Hj. cbn [length firstn In] in Hj. rewrite F10, Hoth; tauto || (intros ->; tauto).
Qed.

Lemma any_mix l ws : reachable l ->
  exists l' outs, advance_all (into_iter l) ws = Ok (l', outs) /\
    links l' = links l /\ head l' = head l /\ tail l' = tail l /\
    length outs = length ws /\ length (contents l') = length (contents l) /\
    (forall k w, nth_error ws k = Some w -> nth_error outs k =
        Some (shows w (match nth_error (live_of l) k with Some i => at_index l i | None => None end))) /\
    (forall k i w, nth_error (live_of l) k = Some i -> nth_error ws k = Some w ->
        nth_error (contents l') i = option_map (writes w) (nth_error (contents l) i)) /\
    (forall j, ~ In j (firstn (length ws) (live_of l)) -> nth_error (contents l') j = nth_error (contents l) j).
Proof.
  intros H. apply reachable_rep in H as (s & R). rewrite (live_of_rep l s R).
  destruct (advance_any ws (into_iter l) _ [] (live s) (into_iter_ref l s R) eq_refl eq_refl)
    as (l2 & outs & F1 & F2 & F3 & F4 & F5 & F6 & F7 & F8 & F9 & F10).
  exists l2, outs. repeat (split; [assumption|]). assumption.
Qed.

(** Double iteration: every way shows its view of what [enumerate_double] returns. *)
Lemma advance2_step l l' w q : reachable l -> step l ONextDouble = Ok (l', RPair q) -> advance2 l w = Ok (l', shows2 w q).
Proof.
  intros HR. apply reachable_rep in HR as (s & R). pose proof (indicies_double_ref l s R) as HI. cbn [step]. unfold enumerate_double.
  destruct (c0 s) as [i|] eqn:E0; [destruct (c1 s) as [j|] eqn:E1|].
  2,3: rewrite HI; cbn [bind fst snd]; intros [= <- <-]; destruct w; cbn [advance2]; unfold enumerate_double, get_double; rewrite ?HI;
       rewrite ?(rp_c0 _ _ R), ?(rp_c1 _ _ R), ?E0, ?E1; reflexivity.
  destruct HI as (l1 & I1 & I2 & I3).
  destruct (rep_item l s i R) as (x & X1 & X2); [apply (rp_l0 _ _ R); auto|].
  destruct (rep_item l s j R) as (y & Y1 & Y2); [apply (rp_l1 _ _ R); auto|].
  rewrite I1. cbn [bind fst snd]. unfold idx. rewrite I3, X1, Y1. cbn [bind fst snd]. intros [= <- <-].
  destruct w; cbn [advance2 shows2].
  - revert I1. unfold indicies_double, get_double. rewrite (rp_c0 _ _ R), (rp_c1 _ _ R), E0, E1. destruct (tail l) as [t|]; [|discriminate].
    destruct (j =? t).
    + destruct (idx (links l) i) as [n1| | |]; try discriminate. cbn [bind]. destruct (next_of l (next n1)) as [c| | |]; try discriminate.
      cbn [bind]. intros [= <-]. unfold idx. cbn [contents with_cur0 with_cur1] in *. rewrite X1, Y1. reflexivity.
    + destruct (idx (links l) j) as [n1| | |]; try discriminate. cbn [bind]. intros [= <-]. unfold idx. cbn [contents with_cur1] in *. rewrite X1, Y1. reflexivity.
  - unfold enumerate_double. rewrite I1. cbn [bind fst snd]. unfold idx. rewrite I3, X1, Y1. reflexivity.
  - rewrite I1. reflexivity.
Qed.

Lemma advance2_run ws : forall l l' qs, reachable l -> run l (repeat ONextDouble (length ws)) = Ok (l', map (@RPair A) qs) ->
  exists outs, advance2_all l ws = Ok (l', outs) /\ length outs = length ws /\
    (forall k w, nth_error ws k = Some w -> nth_error outs k = Some (shows2 w (match nth_error qs k with Some q => q | None => None end))).
Proof.
  induction ws as [|w ws IH]; intros l l' qs HR E; cbn [length repeat run] in E.
  - injection E as <- _. exists []. repeat split. intros [|k]; discriminate.
  - destruct (step l ONextDouble) as [(l1, r1)| | |] eqn:ES; try discriminate. cbn [bind fst snd] in E.
    destruct (run l1 (repeat ONextDouble (length ws))) as [(l2, rs)| | |] eqn:ER; try discriminate. cbn [bind fst snd] in E.
    injection E as -> E. destruct qs as [|q qs]; [discriminate|]. injection E as -> ->.
    assert (HR1 : reachable l1). { destruct HR as (cs & os & l0 & o & A1 & A2). exists cs, (os ++ [ONextDouble]), l0, (o ++ [RPair q]). split; [exact A1|].
      eapply run_app; [exact A2|]. cbn [run]. rewrite ES. reflexivity. }
    destruct (IH l1 l' qs HR1 ER) as (outs & O1 & O2 & O3).
    cbn [advance2_all]. rewrite (advance2_step l l1 w q HR ES). cbn [bind fst snd]. rewrite O1. cbn [bind fst snd].
    eexists. split; [reflexivity|]. split; [cbn; congruence|]. intros [|k] v Hk; cbn [nth_error] in *; [now injection Hk as <-|]. exact (O3 k v Hk).
Qed.

Lemma run_split os1 : forall l os2 l2 outs, run l (os1 ++ os2) = Ok (l2, outs) ->
  exists l1, run l os1 = Ok (l1, firstn (length os1) outs).
Proof.
  induction os1 as [|o os1 IH]; intros l os2 l2 outs E; cbn [app run length firstn] in *; [eauto|].
  destruct (step l o) as [(l', r)| | |]; try discriminate. cbn [bind fst snd] in *.
  destruct (run l' (os1 ++ os2)) as [(l3, rs)| | |] eqn:ER; try discriminate. cbn [bind fst snd] in E. injection E as -> <-.
  destruct (IH l' os2 l2 rs ER) as (l1 & E1). rewrite E1. cbn [bind fst snd]. eauto.
Qed.

Lemma any_mix2 l ws : reachable l ->
  exists l0 l' outs, into_double_iter l = Ok l0 /\ advance2_all l0 ws = Ok (l', outs) /\ length outs = length ws /\
    (forall k w, nth_error ws k = Some w -> nth_error outs k =
        Some (shows2 w (match nth_error (pairs (live_of l)) k with Some p => at_pair l p | None => None end))).
Proof.
  intros HR. destruct (static_double l (length ws) HR) as (l' & E). cbn [run step] in E.
  destruct (into_double_iter l) as [l0| | |] eqn:E0; try discriminate. cbn [bind fst snd] in E.
  destruct (run l0 (repeat ONextDouble (length (pairs (live_of l)) + length ws))) as [(l2, rs)| | |] eqn:ER; try discriminate. cbn [bind fst snd] in E.
  injection E as -> E. subst rs. rewrite Nat.add_comm, repeat_app in ER. apply run_split in ER as (l1 & ER). rewrite repeat_length in ER.
  assert (HR0 : reachable l0). { destruct HR as (cs & os & la & o & A1 & A2). exists cs, (os ++ [OIntoDouble]), la, (o ++ [RUnit]). split; [exact A1|].
      eapply run_app; [exact A2|]. cbn [run step]. rewrite E0. reflexivity. }
  set (qs := firstn (length ws) (map (at_pair l) (pairs (live_of l)) ++ repeat None (length ws))).
  destruct (advance2_run ws l0 l1 qs HR0) as (outs & O1 & O2 & O3).
  { rewrite ER. f_equal. f_equal. unfold qs. rewrite <- firstn_map, map_app, map_map. f_equal. f_equal. clear. induction (length ws) as [|n IH]; cbn; [reflexivity|congruence]. }
  exists l0, l1, outs. split; [reflexivity|]. split; [exact O1|]. split; [exact O2|]. intros k w Hk. rewrite (O3 k w Hk). f_equal. f_equal.
  assert (HL : k < length ws) by (apply nth_error_Some; congruence).
  unfold qs. clear - HL. rewrite nth_error_firstn_lt by exact HL.
  destruct (Nat.lt_ge_cases k (length (pairs (live_of l)))) as [H|H].
  - rewrite nth_error_app1 by (rewrite map_length; exact H). destruct (nth_error (pairs (live_of l)) k) as [p|] eqn:Ep.
    + rewrite (map_nth_error _ k _ Ep). reflexivity.
    + apply nth_error_None in Ep. lia.
  - rewrite nth_error_app2 by (rewrite map_length; exact H). rewrite (proj2 (nth_error_None _ _) H). rewrite map_length.
    clear. generalize (k - length (pairs (live_of l))). induction (length ws) as [|n IH]; intros [|m]; cbn; auto.
Qed.
End P.
