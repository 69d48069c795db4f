(** The cursors a list was left with do not matter to the next pass; agents that are renewed do not remember. *)
From Coq Require Import Sorted List Lia Arith ZArith.
From Verif Require Import Base Scalar Model_Position Spec_Position Proof_Position Model_System Spec_System Proof_System Model_Agent Spec_Agent
  Proof_Agent Model_LinkedList Spec_LinkedList Refine_LinkedList Proof_LinkedList Proof_LinkedList2 Proof_LinkedList3
  Proof_LinkedList4 Proof_LinkedList5 Proof_LinkedList6 Model_Time Spec_Time Proof_Run Model_Run Spec_Run Proof_Run2 Proof_Run4 Proof_Run5 Model_Ensemble Spec_Ensemble.
Import ListNotations.
Local Open Scope nat_scope.

(** ** Cursors *)
Section Cursors.
Context {A : Type}.
Implicit Types l : llist A.
Definition cur12 l c1 c2 : llist A := mkLL (links l) (contents l) (head l) (tail l) (cur0 l) c1 c2.
Definition curs l c0 c1 c2 : llist A := mkLL (links l) (contents l) (head l) (tail l) c0 c1 c2.
Definition curt l c2 : llist A := mkLL (links l) (contents l) (head l) (tail l) (cur0 l) (cur1 l) c2.

Lemma enumerate_12 l c1 c2 : enumerate (cur12 l c1 c2) = do r <- enumerate l; Ok (cur12 (fst r) c1 c2, snd r).
Proof. unfold enumerate. cbn [cur0 cur12]. destruct (cur0 l) as [i|]; [|reflexivity]. cbn [links cur12]. destruct (idx (links l) i) as [x| | |]; try reflexivity. cbn [bind contents with_cur0 cur12].
  destruct (idx (contents l) i); reflexivity. Qed.
Lemma double_2 l c : enumerate_double (curt l c) = do r <- enumerate_double l; Ok (curt (fst r) c, snd r).
Proof.
  unfold enumerate_double, indicies_double. cbn [cur0 cur1 curt]. destruct (cur0 l) as [i|]; [|reflexivity]. destruct (cur1 l) as [j|]; [|reflexivity].
  cbn [tail curt]. destruct (tail l) as [t|]; [|reflexivity]. cbn [links curt]. destruct (j =? t).
  - destruct (idx (links l) i) as [x| | |]; try reflexivity. cbn [bind]. unfold next_of. cbn [links curt]. destruct (next x) as [k|].
    + destruct (idx (links l) k) as [y| | |]; try reflexivity. cbn [bind fst snd contents with_cur1 with_cur0 curt]. destruct (idx (contents l) i) as [a| | |]; try reflexivity.
      cbn [bind]. destruct (idx (contents l) j); reflexivity.
    + cbn [bind fst snd contents with_cur1 with_cur0 curt]. destruct (idx (contents l) i) as [a| | |]; try reflexivity. cbn [bind]. destruct (idx (contents l) j); reflexivity.
  - destruct (idx (links l) j) as [x| | |]; try reflexivity. cbn [bind fst snd contents with_cur1 curt]. destruct (idx (contents l) i) as [a| | |]; try reflexivity.
    cbn [bind]. destruct (idx (contents l) j); reflexivity.
Qed.
Lemma del_2 l c i : exists c', del (curt l c) i = (curt (fst (del l i)) c', snd (del l i)).
Proof.
  unfold del. cbn [links curt]. destruct (nth_error (links l) i) as [n0|]; [|now exists c]. destruct (negb (alive n0)); [now exists c|].
  destruct (upd i (set_alive false) (links l)) as [ls| | |]; try (now exists c). cbn [bind links with_links]. destruct (idx ls i) as [n| | |]; try (now exists c). cbn [bind].
  destruct (prev n) as [p|]; cbn [links with_cur with_links with_head bind curt].
  - destruct (upd p _ ls) as [ls1| | |]; try (now exists c). cbn [bind]. destruct (next n) as [q|]; cbn [links with_links with_cur]; [destruct (upd q _ ls1); try (now exists c)|]; cbn [bind fst snd]; eexists; reflexivity.
  - destruct (next n) as [q|]; cbn [links with_links with_cur with_head bind]; [destruct (upd q _ ls); try (now exists c)|]; cbn [bind fst snd]; eexists; reflexivity.
Qed.
Lemma merge_2 size grow l c i j : exists c', ll_merge size grow (curt l c) i j = (curt (fst (ll_merge size grow l i j)) c', snd (ll_merge size grow l i j)).
Proof.
  unfold ll_merge. cbn [contents curt]. destruct (nth_error (contents l) j) as [x2|]; [|now exists c]. destruct (nth_error (contents l) i) as [x1|]; [|now exists c].
  destruct (grow x1 (size x2)) as (x, r). destruct r; try (now exists c). change (with_contents (curt l c) (replace_nth i x (contents l))) with (curt (with_contents l (replace_nth i x (contents l))) c). apply del_2.
Qed.
Lemma double_start l c0 c1 c2 : into_double_iter (curs l c0 c1 c2) = do x <- into_double_iter l; Ok (curt x c2).
Proof. unfold into_double_iter, next_of. cbn [head links curs]. destruct (head l) as [i|]; [|reflexivity]. destruct (idx (links l) i); reflexivity. Qed.
Lemma same_lists l l' : links l = links l' -> contents l = contents l' -> head l = head l' -> tail l = tail l' -> exists c0 c1 c2, l = curs l' c0 c1 c2.
Proof. destruct l, l'. cbn. intros -> -> -> ->. do 3 eexists. reflexivity. Qed.
Lemma curs_curs l a b c a' b' c' : curs (curs l a b c) a' b' c' = curs l a' b' c'. Proof. reflexivity. Qed.
Lemma curs_12 l c1 c2 : cur12 l c1 c2 = curs l (cur0 l) c1 c2. Proof. reflexivity. Qed.
Lemma curs_t l c2 : curt l c2 = curs l (cur0 l) (cur1 l) c2. Proof. reflexivity. Qed.
End Cursors.

Section Loops.
Context {S : scalar} {G : rng S}.
Notation gen := (rstate G).
Lemma move_12 {A} (m : mover A) (sys : syscore S G) tg dt k : forall (l : llist A) g c1 c2,
  move_loop m sys tg k dt (cur12 l c1 c2) g = let '(l1, g1, r) := move_loop m sys tg k dt l g in (cur12 l1 c1 c2, g1, r).
Proof.
  induction k as [|k IH]; intros l g c1 c2; [reflexivity|]. cbn [move_loop]. rewrite enumerate_12. destruct (enumerate l) as [(l1, [(i, a)|])| | |]; cbn [bind fst snd]; try reflexivity.
  destruct (mv_move m a g dt) as (g1, mv). destruct mv as [dp| | |]; try reflexivity. destruct (sc_check_bc sys (mv_pos m a) dp) as (p, r).
  change (with_contents (cur12 l1 c1 c2) (replace_nth i (mv_put m a p) (contents (cur12 l1 c1 c2)))) with (cur12 (with_contents l1 (replace_nth i (mv_put m a p) (contents l1))) c1 c2).
  destruct r; try reflexivity. destruct (check_find tg p) as [[]| | |]; try reflexivity. apply IH.
Qed.
Lemma move_pass_cur {A} (m : mover A) (sys : syscore S G) tg dt (l : llist A) g c0 c1 c2 : exists b0 b1 b2,
  move_pass m sys tg dt (curs l c0 c1 c2) g = let '(l1, g1, r) := move_pass m sys tg dt l g in (curs l1 b0 b1 b2, g1, r).
Proof.
  unfold move_pass. change (into_iter (curs l c0 c1 c2)) with (cur12 (into_iter l) c1 c2). cbn [contents curs]. rewrite move_12.
  destruct (move_loop m sys tg _ dt (into_iter l) g) as ((l1, g1), r). exists (cur0 l1), c1, c2. reflexivity.
Qed.
Lemma pair_2 rf k : forall (l : llist (merger S)) c, exists c', pair_loop rf k (curt l c) = (curt (fst (pair_loop rf k l)) c', snd (pair_loop rf k l)).
Proof.
  induction k as [|k IH]; intros l c; cbn [pair_loop]; [now exists c|]. rewrite double_2. destruct (enumerate_double l) as [(l1, [(((i, a), j), b)|])| | |]; cbn [bind fst snd]; try (now exists c).
  destruct (distance (mg_pos a) (mg_pos b)) as [d| | |]; try (now exists c). destruct (ltb d (mul s2 (rf a))); [|apply IH].
  destruct (merge_2 merger_size merger_add_size l1 c i j) as (c' & E). rewrite E. destruct (ll_merge merger_size merger_add_size l1 i j) as (l2, r). cbn [fst snd].
  destruct r; try (now exists c'). apply IH.
Qed.
Lemma pair_pass_cur rf (l : llist (merger S)) c0 c1 c2 : exists b0 b1 b2, pair_pass rf (curs l c0 c1 c2) = (curs (fst (pair_pass rf l)) b0 b1 b2, snd (pair_pass rf l)).
Proof.
  unfold pair_pass. rewrite double_start. destruct (into_double_iter l) as [l1| | |]; cbn [bind]; try (now exists c0, c1, c2). cbn [contents curs].
  destruct (pair_2 rf (Datatypes.S (length (contents l) * length (contents l))) l1 c2) as (c' & E). rewrite E. do 3 eexists. reflexivity.
Qed.
Lemma merge_step_cur (sys : syscore S G) tg rf dt (l : llist (merger S)) g c0 c1 c2 : exists b0 b1 b2,
  merge_step sys tg rf dt (curs l c0 c1 c2) g = let '(l1, g1, r) := merge_step sys tg rf dt l g in (curs l1 b0 b1 b2, g1, r).
Proof.
  unfold merge_step. destruct (move_pass_cur (merger_mover (G := G)) sys tg dt l g c0 c1 c2) as (b0 & b1 & b2 & E). rewrite E. destruct (move_pass merger_mover sys tg dt l g) as ((l1, g1), r).
  destruct r as [[]| | |]; try (now exists b0, b1, b2). destruct (pair_pass_cur rf l1 b0 b1 b2) as (d0 & d1 & d2 & E2). rewrite E2. destruct (pair_pass rf l1) as (l2, r2). cbn [fst snd].
  destruct r2; now exists d0, d1, d2.
Qed.
Lemma clocked_cur {A St} (next : St -> outcome (St * option (S * S))) (step : S -> llist A -> gen -> llist A * gen * outcome bool) last
  (H : forall dt l g c0 c1 c2, exists b0 b1 b2, step dt (curs l c0 c1 c2) g = let '(l1, g1, r) := step dt l g in (curs l1 b0 b1 b2, g1, r)) fuel :
  forall s l g c0 c1 c2, let '(_, g1, r) := clocked_run next step last fuel s l g in exists l', clocked_run next step last fuel s (curs l c0 c1 c2) g = (l', g1, r).
Proof.
  induction fuel as [|k IH]; intros s l g c0 c1 c2; cbn [clocked_run]; [eauto|]. destruct (next s) as [(s1, [(t, dt)|])| | |]; try (eexists; reflexivity).
  destruct (H dt l g c0 c1 c2) as (b0 & b1 & b2 & E). rewrite E. destruct (step dt l g) as ((l1, g1), r). destruct r as [[]| | |]; try (eexists; reflexivity). apply IH.
Qed.

(** ** Renewing everybody is placing everybody anew *)
Lemma renew_fresh inner pf sy tg radius alpha (a : merger S) (g : gen) : built sy -> length (tg_pos tg) = sysdim sy -> veteran (sysdim sy) radius alpha a ->
  let '(a', g', r) := merger_renew inner pf (core sy) tg g a in
  exists r', merger_new_uniform inner pf (core sy) tg g (Brownian (fpow (of_Z 1) (opp alpha))) radius alpha = (g', r') /\ veteran (sysdim sy) radius alpha a' /\
    ((r = Ok tt /\ r' = Ok a') \/ (r = Fuel /\ r' = Fuel)).
Proof.
  intros B T (( D & (c & M) & Ra & Al) & Ty & It). unfold merger_renew, merger_new_uniform. rewrite renew_start_cases.
  assert (Dm : (if negb (length (mg_pos a) =? sysdim sy) then dim (sc_out (core (G := G) sy)) else mg_dim a) = sysdim sy).
  { destruct (negb (length (mg_pos a) =? sysdim sy)); [apply out_length|exact D]. }
  rewrite Dm. destruct (place_ok sy tg inner pf g (sc_out (core (G := G) sy)) B T (out_length sy)) as [(q & k & -> & L & C)|(q & g2 & ->)].
  - unfold recoeff. cbn [mg_mtype mg_resize mg_set]. rewrite M. cbn [bind]. unfold dim. rewrite L. eexists. split; [reflexivity|]. split.
    + split; [|split; [exact Ty|exact It]]. split; [reflexivity|]. split; [eexists; reflexivity|]. split; [exact Ra|exact Al].
    + left. split; [reflexivity|]. unfold mg_remove, mg_resize, mg_set. cbn [mg_type mg_mtype mg_itype mg_dim mg_pos mg_radius mg_size mg_alpha]. rewrite Ty, It, Ra, Al. reflexivity.
  - eexists. split; [reflexivity|]. split; [|right; split; reflexivity]. split; [|split; [exact Ty|exact It]]. split; [reflexivity|]. split; [exists c; exact M|]. split; [exact Ra|exact Al].
Qed.

Lemma each_build inner pf sy tg radius alpha : built sy -> length (tg_pos tg) = sysdim sy -> forall (old new : list (merger S)) (g : gen), Forall (veteran (sysdim sy) radius alpha) old ->
  let '(cs, g', r) := each (renew_body inner pf (core sy) tg) (seq (length new) (length old)) (new ++ old) g in
  exists r', build_agents (fun g => merger_new_uniform inner pf (core sy) tg g (Brownian (fpow (of_Z 1) (opp alpha))) radius alpha) (length old) g = (g', r') /\
    (Forall (veteran (sysdim sy) radius alpha) new -> Forall (veteran (sysdim sy) radius alpha) cs) /\
    ((r = Ok false /\ exists v, r' = Ok v /\ cs = new ++ v) \/ (r = Fuel /\ r' = Fuel)).
Proof.
  intros B T. induction old as [|a old IH]; intros new g F.
  - cbn [length seq each build_agents]. eexists. split; [reflexivity|]. split; [rewrite app_nil_r; auto|]. left. split; [reflexivity|]. exists []. split; [reflexivity|reflexivity].
  - inversion F as [|? ? Fa Fo]; subst. cbn [length seq each]. rewrite nth_error_app2 by lia. rewrite Nat.sub_diag. cbn [nth_error]. unfold renew_body at 1.
    pose proof (renew_fresh inner pf sy tg radius alpha a g B T Fa) as X. destruct (merger_renew inner pf (core sy) tg g a) as ((a', g1), r). destruct X as (r' & E & Va & C).
    assert (W : replace_nth (length new) a' (new ++ a :: old) = (new ++ [a']) ++ old).
    { clear. induction new as [|x new IHn]; cbn; [reflexivity|]. now rewrite IHn. }
    cbn [build_agents]. rewrite E. destruct C as [(-> & ->)|(-> & ->)]; cbn [write].
    + specialize (IH (new ++ [a']) g1 Fo). rewrite app_length in IH. cbn [length] in IH. rewrite Nat.add_1_r in IH. rewrite W.
      destruct (each (renew_body inner pf (core sy) tg) (seq (Datatypes.S (length new)) (length old)) ((new ++ [a']) ++ old) g1) as ((cs, g'), r).
      destruct IH as (r' & E' & V & C). rewrite E'. eexists. split; [reflexivity|]. split.
      * intros Fn. apply V. apply Forall_app. split; [exact Fn|]. constructor; [exact Va|constructor].
      * destruct C as [(-> & v & -> & ->)|(-> & ->)]; [left|right; split; reflexivity]. split; [reflexivity|]. exists (a' :: v). split; [reflexivity|]. now rewrite <- app_assoc.
    + eexists. split; [reflexivity|]. split; [|right; split; reflexivity]. intros Fn. rewrite W. apply Forall_app. split; [|exact Fo]. apply Forall_app. split; [exact Fn|]. constructor; [exact Va|constructor].
Qed.
(** The loop writes contents and moves the first cursor, nothing else. *)
Lemma for_each_frame {A St} (body : nat -> A -> St -> option A * St * outcome bool) k : forall (l : llist A) st, exists cs c,
  fst (fst (for_each body k l st)) = with_cur0 (with_contents l cs) c.
Proof.
  induction k as [|k IH]; intros l st; cbn [for_each].
  - exists (contents l), (cur0 l). destruct l; reflexivity.
  - assert (X : forall l1 q, enumerate l = Ok (l1, q) -> exists c, l1 = with_cur0 l c).
    { intros l1 q. unfold enumerate. destruct (cur0 l) as [i|] eqn:C.
      - destruct (idx (links l) i) as [x| | |]; try discriminate. cbn [bind]. destruct (idx _ i); try discriminate. cbn [bind]. intros E. eexists. assert (Y : forall (a b : llist A) (p r : option (nat * A)), Ok (a, p) = Ok (b, r) -> b = a) by congruence. exact (Y _ _ _ _ E).
      - intros E. exists (cur0 l). assert (l1 = l) by congruence. subst. destruct l; reflexivity. }
    destruct (enumerate l) as [(l1, [(i, a)|])| | |]; cbn [fst]; try (exists (contents l), (cur0 l); destruct l; reflexivity).
    + destruct (X _ _ eq_refl) as (c & ->). destruct (body i a st) as ((o, st1), r).
      assert (Y : exists cs c', with_contents (with_cur0 l c) (write i o (contents (with_cur0 l c))) = with_cur0 (with_contents l cs) c') by (do 2 eexists; reflexivity).
      destruct r as [[]| | |]; cbn [fst]; try exact Y. destruct (IH (with_contents (with_cur0 l c) (write i o (contents (with_cur0 l c)))) st1) as (cs & c' & E). rewrite E. do 2 eexists. reflexivity.
    + destruct (X _ _ eq_refl) as (c & ->). exists (contents l), c. destruct l; reflexivity.
Qed.
End Loops.
