(** An ensemble of merging agents that are used again: every member is an experiment with agents of its own. *)
From Coq Require Import Sorted List Lia Arith ZArith.
From Verif Require Import Base Scalar Model_Position Spec_Position Proof_Position Model_System Spec_System Proof_System Model_Agent Spec_Agent
  Proof_Agent Model_LinkedList Spec_LinkedList Refine_LinkedList Proof_LinkedList Proof_LinkedList2 Proof_LinkedList3
  Proof_LinkedList4 Proof_LinkedList5 Proof_LinkedList6 Model_Time Spec_Time Proof_Run Model_Run Spec_Run Proof_Run2 Proof_Run4 Proof_Run5 Spec_Search Model_Search Proof_Search Model_Ensemble Spec_Ensemble Proof_Ensemble.
Import ListNotations.
Local Open Scope nat_scope.

Section Tags.
Context {S : scalar} {G : rng S} (Q : merger S -> Prop).
Notation gen := (rstate G).
Hypothesis Q_put : forall a p, Q a -> Q (mg_set a (mg_dim a) p).
Hypothesis Q_grow : forall a k, Q a -> Q (fst (merger_add_size a k)).
Lemma Q_replace cs i a : Forall Q cs -> Q a -> Forall Q (replace_nth i a cs).
Proof. intros F H. revert i. induction F as [|x cs Hx F IH]; intros [|i]; cbn; constructor; auto. Qed.
Lemma Q_nth (cs : list (merger S)) i a : Forall Q cs -> nth_error cs i = Some a -> Q a.
Proof. intros F E. apply nth_error_In in E. rewrite Forall_forall in F. auto. Qed.
Lemma enum_in {A} (l l1 : llist A) i a : enumerate l = Ok (l1, Some (i, a)) -> contents l1 = contents l /\ nth_error (contents l) i = Some a.
Proof.
  unfold enumerate. destruct (cur0 l) as [j|]; [|discriminate]. destruct (idx (links l) j) as [x| | |]; try discriminate. cbn [bind contents with_cur0].
  unfold idx. destruct (nth_error (contents l) j) as [y|] eqn:E; try discriminate. cbn [bind]. intros X.
  assert (Y : forall (u v : llist A) (p q : nat * A), Ok (u, Some p) = Ok (v, Some q) -> v = u /\ q = p) by (intros; split; congruence). destruct (Y _ _ _ _ X) as (-> & Z).
  assert (i = j /\ a = y) as (-> & ->) by (split; congruence). split; [reflexivity|exact E].
Qed.
Lemma enum_none {A} (l l1 : llist A) : enumerate l = Ok (l1, None) -> l1 = l.
Proof.
  unfold enumerate. destruct (cur0 l) as [j|]; [|congruence]. destruct (idx (links l) j) as [x| | |]; try discriminate. cbn [bind]. destruct (idx _ j); try discriminate.
Qed.
Lemma move_Q (sys : syscore S G) tg dt k : forall (l : llist (merger S)) g, Forall Q (contents l) -> Forall Q (contents (fst (fst (move_loop merger_mover sys tg k dt l g)))).
Proof.
  induction k as [|k IH]; intros l g F; [exact F|]. cbn [move_loop]. destruct (enumerate l) as [(l1, [(i, a)|])| | |] eqn:E; try exact F.
  - destruct (enum_in _ _ _ _ E) as (C & Ea). pose proof (Q_nth _ _ _ F Ea) as Qa.
    destruct (mv_move merger_mover a g dt) as (g1, mv). destruct mv as [dp| | |]; try (cbn [fst]; rewrite C; exact F). destruct (sc_check_bc sys _ dp) as (p, r).
    assert (F2 : Forall Q (contents (with_contents l1 (replace_nth i (mv_put (merger_mover (G := G)) a p) (contents l1))))).
    { cbn [contents with_contents]. rewrite C. apply Q_replace; [exact F|]. apply Q_put. exact Qa. }
    destruct r; try exact F2. destruct (check_find tg p) as [[]| | |]; try exact F2. apply IH. exact F2.
  - rewrite (enum_none _ _ E). exact F.
Qed.
Lemma double_contents {A} (l l1 : llist A) q : enumerate_double l = Ok (l1, q) -> contents l1 = contents l.
Proof.
  unfold enumerate_double, indicies_double. destruct (cur0 l) as [i|]; [|cbn; congruence]. destruct (cur1 l) as [j|]; [|cbn; congruence]. destruct (tail l) as [t|]; [|discriminate].
  assert (Y : forall (u v : llist A) (p r : option (nat * A * nat * A)), Ok (u, p) = Ok (v, r) -> v = u) by congruence.
  destruct (j =? t).
  - destruct (idx (links l) i) as [x| | |]; try discriminate. cbn [bind]. destruct (next_of l (next x)) as [c| | |]; try discriminate. cbn [bind fst snd]. cbn [contents with_cur1 with_cur0].
    destruct (idx (contents l) i); try discriminate. cbn [bind]. destruct (idx (contents l) j); try discriminate. cbn [bind]. intros E. rewrite (Y _ _ _ _ E). reflexivity.
  - destruct (idx (links l) j) as [x| | |]; try discriminate. cbn [bind fst snd]. cbn [contents with_cur1].
    destruct (idx (contents l) i); try discriminate. cbn [bind]. destruct (idx (contents l) j); try discriminate. cbn [bind]. intros E. rewrite (Y _ _ _ _ E). reflexivity.
Qed.
Lemma del_contents {A} (l : llist A) i : contents (fst (del l i)) = contents l.
Proof.
  unfold del. destruct (nth_error (links l) i) as [n0|]; [|reflexivity]. destruct (negb (alive n0)); [reflexivity|].
  destruct (upd i (set_alive false) (links l)) as [ls| | |]; try reflexivity. cbn [bind links with_links]. destruct (idx ls i) as [n| | |]; try reflexivity. cbn [bind].
  destruct (prev n) as [p|]; cbn [links with_cur with_links with_head bind].
  - destruct (upd p _ ls) as [ls1| | |]; try reflexivity. cbn [bind]. destruct (next n) as [q|]; cbn [links with_links with_cur]; [destruct (upd q _ ls1)|]; reflexivity.
  - destruct (next n) as [q|]; cbn [links with_links with_cur with_head bind]; [destruct (upd q _ ls)|]; reflexivity.
Qed.
Lemma merge_Q (l : llist (merger S)) i j : Forall Q (contents l) -> Forall Q (contents (fst (ll_merge merger_size merger_add_size l i j))).
Proof.
  intros F. unfold ll_merge. destruct (nth_error (contents l) j) as [x2|]; [|exact F]. destruct (nth_error (contents l) i) as [x1|] eqn:E; [|exact F].
  pose proof (Q_grow x1 (merger_size x2) (Q_nth _ _ _ F E)) as H. destruct (merger_add_size x1 (merger_size x2)) as (x, r). cbn [fst] in H.
  assert (F2 : Forall Q (contents (with_contents l (replace_nth i x (contents l))))) by (apply Q_replace; assumption).
  destruct r; try exact F2. rewrite del_contents. exact F2.
Qed.
Lemma pair_Q rf k : forall l : llist (merger S), Forall Q (contents l) -> Forall Q (contents (fst (pair_loop rf k l))).
Proof.
  induction k as [|k IH]; intros l F; [exact F|]. cbn [pair_loop]. destruct (enumerate_double l) as [(l1, [(((i, a), j), b)|])| | |] eqn:E; try exact F.
  - pose proof (double_contents _ _ _ E) as C. assert (F1 : Forall Q (contents l1)) by now rewrite C. destruct (distance (mg_pos a) (mg_pos b)) as [d| | |]; try exact F1. destruct (ltb d _); [|now apply IH].
    pose proof (merge_Q l1 i j F1) as F2. destruct (ll_merge merger_size merger_add_size l1 i j) as (l2, r). cbn [fst] in F2. destruct r; try exact F2. now apply IH.
  - cbn [fst]. rewrite (double_contents _ _ _ E). exact F.
Qed.
Lemma step_Q (sys : syscore S G) tg rf dt (l : llist (merger S)) g : Forall Q (contents l) -> Forall Q (contents (fst (fst (merge_step sys tg rf dt l g)))).
Proof.
  intros F. unfold merge_step, move_pass. pose proof (move_Q sys tg dt (Datatypes.S (length (contents l))) (into_iter l) g F) as F1. destruct (move_loop merger_mover sys tg _ dt (into_iter l) g) as ((l1, g1), r). cbn [fst] in F1.
  destruct r as [[]| | |]; try exact F1. unfold pair_pass. destruct (into_double_iter l1) as [l2| | |] eqn:E; try exact F1.
  assert (C : contents l2 = contents l1). { unfold into_double_iter in E. destruct (next_of l1 (head l1)); try discriminate. cbn [bind] in E. assert (Y : forall u v : llist (merger S), Ok u = Ok v -> v = u) by congruence. now rewrite (Y _ _ E). }
  pose proof (pair_Q rf (Datatypes.S (length (contents l1) * length (contents l1))) l2 ltac:(now rewrite C)) as F2. destruct (pair_loop rf _ l2) as (l3, r). cbn [fst] in F2. destruct r; exact F2.
Qed.
Lemma clocked_Q {St} (next : St -> outcome (St * option (S * S))) (sys : syscore S G) tg rf last fuel : forall s (l : llist (merger S)) g, Forall Q (contents l) ->
  Forall Q (contents (fst (fst (clocked_run next (merge_step sys tg rf) last fuel s l g)))).
Proof.
  induction fuel as [|k IH]; intros s l g F; cbn [clocked_run]; [exact F|]. destruct (next s) as [(s1, [(t, dt)|])| | |]; try exact F.
  pose proof (step_Q sys tg rf dt l g F) as F1. destruct (merge_step sys tg rf dt l g) as ((l1, g1), r). cbn [fst] in F1. destruct r as [[]| | |]; try exact F1. now apply IH.
Qed.
End Tags.

Section Reuse.
Context {S : scalar} {G : rng S}.
Notation gen := (rstate G).
Lemma vet_put (a : merger S) p : mg_type a = ContinuousPassiveInteracting /\ mg_itype a = Uniform -> mg_type (mg_set a (mg_dim a) p) = ContinuousPassiveInteracting /\ mg_itype (mg_set a (mg_dim a) p) = Uniform.
Proof. auto. Qed.
Lemma vet_grow (a : merger S) k : mg_type a = ContinuousPassiveInteracting /\ mg_itype a = Uniform ->
  mg_type (fst (merger_add_size a k)) = ContinuousPassiveInteracting /\ mg_itype (fst (merger_add_size a k)) = Uniform.
Proof. intros H. unfold merger_add_size, recoeff. cbn [mg_mtype mg_resize]. destruct (mg_mtype a); exact H. Qed.

Lemma build_length {A} (new : gen -> gen * outcome A) n : forall g g' v, build_agents new n g = (g', Ok v) -> length v = n.
Proof.
  induction n as [|n IH]; intros g g' v E; cbn [build_agents] in E; [assert (v = []) as -> by congruence; reflexivity|].
  destruct (new g) as (g1, [a| | |]); try discriminate. destruct (build_agents new n g1) as (g2, r2) eqn:E2. destruct r2 as [w| | |]; try discriminate. cbn [bind] in E.
  assert (v = a :: w) as -> by congruence. cbn. now rewrite (IH _ _ _ E2).
Qed.
Lemma from_shape {A B} (v : list A) (w : list B) l l' : ll_from v = Ok l -> ll_from w = Ok l' -> length v = length w -> links l = links l' /\ head l = head l' /\ tail l = tail l'.
Proof.
  unfold ll_from. intros E E' L. rewrite L in E. destruct (list_with_length (length w)) as [ls| | |]; try discriminate. cbn [bind] in E, E'.
  assert (Y : forall X (a b : llist X), Ok a = Ok b -> b = a) by congruence. rewrite (Y _ _ _ E), (Y _ _ _ E'). destruct (length w); repeat split.
Qed.

Lemma large_as_fresh inner pf fuel sy tg radius alpha (clock : expstep S) (l : llist (merger S)) (g : gen) a b len : built sy -> length (tg_pos tg) = sysdim sy ->
  reachable l -> Forall (veteran (sysdim sy) radius alpha) (contents l) -> es_titype clock = Model_Time.Exponential a b len ->
  exists clock0, es_renew clock = Ok clock0 /\
  let '(l', g', r) := large_n_fpt inner pf fuel (core sy) tg clock l g in
  reachable l' /\ length (contents l') = length (contents l) /\ Forall (veteran (sysdim sy) radius alpha) (contents l') /\
  fresh_merging_run inner pf fuel (core sy) tg (fpow (of_Z 1) (opp alpha)) radius alpha (length (contents l)) clock0 g = (g', r).
Proof.
  intros B T HR HF Tc.
  assert (HF' : Forall (recruit (sysdim sy) radius alpha) (contents l)) by (eapply Forall_impl; [|exact HF]; intros x Hx; exact (proj1 Hx)).
  destruct (large_n_ok inner pf fuel sy tg radius alpha clock l g a b len B T HR HF' Tc) as (clock0 & l' & g' & r & Ec & E & R' & L' & F' & _).
  exists clock0. split; [exact Ec|]. pose proof E as E0. rewrite E. split; [exact R'|]. split; [exact L'|].
  unfold large_n_fpt in E0. rewrite Ec in E0. destruct (connect_all_total l HR) as (l1 & l2 & E1 & E2 & C1 & Lv & Kl & Kh & Kt). rewrite E1 in E0.
  assert (HR1 : reachable l1) by (apply (reachable_step l (OConnectAll) l1 RUnit HR); cbn; now rewrite E1).
  rewrite renew_loop_each in E0.
  destruct (for_each_ref (renew_body inner pf (core sy) tg) l1 g HR1) as (l3 & g3 & r3 & E3 & E4 & R3 & L3). rewrite E3 in E0.
  destruct (for_each_frame (renew_body inner pf (core sy) tg) (Datatypes.S (length (contents l1))) (into_iter l1) g) as (cs & c & Fr). rewrite E3 in Fr. cbn [fst] in Fr.
  pose proof (each_build inner pf sy tg radius alpha B T (contents l1) [] g ltac:(now rewrite C1)) as X. cbn [length app] in X. rewrite <- C1 in Lv. rewrite Lv in E4. rewrite E4 in X.
  destruct X as (r' & Eb & V & C). specialize (V (Forall_nil _)). rewrite C1 in Eb.
  unfold fresh_merging_run. rewrite Eb.
  destruct C as [(-> & v & -> & Cv)|(-> & ->)].
  - cbn [app] in Cv. subst v. cbn [bind]. destruct (from_fresh (contents l3)) as (l0 & El0 & _ & Cl0 & _). rewrite El0.
    assert (Sv : length (contents l3) = length (contents l)) by exact (build_length _ _ _ _ _ Eb).
    destruct (from_shape _ _ _ _ El0 E2 Sv) as (A1 & A2 & A3).
    assert (X : exists c0 c1 c2, l3 = curs l0 c0 c1 c2).
    { apply same_lists; [| |  |]; [|now rewrite Cl0| |]; rewrite Fr; cbn [links head tail with_cur0 with_contents into_iter]; congruence. }
    destruct X as (c0 & c1 & c2 & X). rewrite X in E0. 
    pose proof (clocked_cur (diff_next es_next es_dt) (merge_step (core sy) tg mg_radius) (Err UnexpectedEnd) (merge_step_cur (core sy) tg mg_radius) fuel clock0 l0 g3 c0 c1 c2) as Y.
    pose proof (clocked_Q (fun x => mg_type x = ContinuousPassiveInteracting /\ mg_itype x = Uniform) (fun x p => vet_put x p) vet_grow (diff_next es_next es_dt) (core sy) tg mg_radius (Err UnexpectedEnd) fuel clock0 (curs l0 c0 c1 c2) g3) as W.
    assert (W0 : Forall (fun x => mg_type x = ContinuousPassiveInteracting /\ mg_itype x = Uniform) (contents (curs l0 c0 c1 c2))).
    { cbn [contents curs]. rewrite Cl0. eapply Forall_impl; [|exact V]. intros x Hx. exact (proj2 Hx). }
    specialize (W W0). rewrite E0 in W. cbn [fst] in W.
    destruct (clocked_run (diff_next es_next es_dt) (merge_step (core sy) tg mg_radius) (Err UnexpectedEnd) fuel clock0 l0 g3) as ((l5, g5), r5). destruct Y as (l6 & Y). rewrite Y in E0.
    assert (Z : forall (x y : llist (merger S)) (p q : gen) (o w : outcome S), (x, p, o) = (y, q, w) -> p = q /\ o = w) by (intros; split; congruence). destruct (Z _ _ _ _ _ _ E0) as (-> & ->).
    split; [|reflexivity]. apply Forall_forall. intros x Hx. split; [exact (proj1 (Forall_forall _ _) F' x Hx)|exact (proj1 (Forall_forall _ _) W x Hx)].
  - cbn [bind]. assert (Z : forall (x y : llist (merger S)) (p q : gen) (o w : outcome S), (x, p, o) = (y, q, w) -> x = y /\ p = q /\ o = w) by (intros; repeat split; congruence).
    destruct (Z _ _ _ _ _ _ E0) as (<- & -> & <-). split; [exact V|reflexivity].
Qed.
End Reuse.
