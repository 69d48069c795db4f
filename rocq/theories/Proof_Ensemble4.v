(** Samples of examples/mfpt_exp.rs do not remember the samples before them. *)
From Coq Require Import Sorted List Lia Arith ZArith Reals.
From Verif Require Import Base Scalar Model_Position Spec_Position Proof_Position Model_System Spec_System Proof_System Model_Agent Spec_Agent
  Proof_Agent Proof_Agent2 Model_LinkedList Spec_LinkedList Refine_LinkedList Proof_LinkedList Proof_LinkedList2 Proof_LinkedList3
  Proof_LinkedList4 Proof_LinkedList5 Proof_LinkedList6 Model_Time Spec_Time Proof_Time Proof_Run Model_Run Spec_Run Proof_Run2 Proof_Run4 Proof_Run5 Spec_Run2 Proof_Run6 Proof_Run7 Proof_Run8 Proof_Run9 Proof_Run10
  Spec_Search Spec_Ensemble Proof_Ensemble Proof_Ensemble2.
Import ListNotations.
Local Open Scope nat_scope.

Definition same {A} (l l' : llist A) : Prop := links l' = links l /\ contents l' = contents l /\ head l' = head l /\ tail l' = tail l.
Lemma same_curs {A} (l l' : llist A) : same l l' -> exists c0 c1 c2, l' = curs l c0 c1 c2.
Proof. intros (E1 & E2 & E3 & E4). now apply same_lists. Qed.

Section Same.
Context {S : scalar} {G : rng S}.
Notation gen := (rstate G).
Variables (n : nat).

Lemma disp_same (a b : expag S) v v' : exp_in n a -> exp_in n b -> length v = n -> length v' = n ->
  exists e d, expag_mutual_displacement_to_vec a b v = (e, Ok d) /\ expag_mutual_displacement_to_vec a b v' = (e, Ok d) /\ length e = n.
Proof.
  intros (A1 & A2 & _) (B1 & B2 & _) L L'. unfold expag_mutual_displacement_to_vec, mut_displacement_to_vec, dim. rewrite A1, B1, L, L', Nat.eqb_refl. cbn [negb orb].
  pose proof (disp_loop_eq (ex_pos a) (ex_pos b) v ltac:(lia) ltac:(lia) [] [] [] s0 eq_refl eq_refl) as K.
  pose proof (disp_loop_eq (ex_pos a) (ex_pos b) v' ltac:(lia) ltac:(lia) [] [] [] s0 eq_refl eq_refl) as K'. cbn [length app] in K, K'. rewrite A2 in K, K'. rewrite K, K'.
  do 2 eexists. split; [reflexivity|]. split; [reflexivity|]. unfold mut_scalar_mul. rewrite map_length. cbn [app].
  unfold dvec. rewrite map_length, combine_length. rewrite A2, B2. apply Nat.min_id.
Qed.
Lemma mul_len (v : pos S) (x : S) : length (mut_scalar_mul v x) = length v.
Proof. apply map_length. Qed.

Lemma force_same dt k : forall (l : llist (expag S)) c d d' m m', Forall (exp_in n) (contents l) -> length d = n -> length d' = n -> contents m' = contents m ->
  let '(l1, d1, m1, r) := force_loop dt k l d m in let '(l2, d2, m2, r2) := force_loop dt k (curt l c) d' m' in
  l2 = curt l1 c /\ contents l1 = contents l /\ contents m2 = contents m1 /\ r2 = r.
Proof.
  induction k as [|k IH]; intros l c d d' m m' F Ld Ld' Em; cbn [force_loop]; [auto|]. rewrite double_2. destruct (enumerate_double l) as [(l1, [(((i, a), j), b)|])| | |] eqn:E; cbn [bind fst snd]; auto.
  2:{ pose proof (double_contents _ _ _ E) as C. auto. }
  pose proof (double_contents _ _ _ E) as C.
  assert (X : nth_error (contents l) i = Some a /\ nth_error (contents l) j = Some b).
  { clear - E. revert E. unfold enumerate_double. destruct (indicies_double l) as [(l2, [(p, q)|])| | |] eqn:EI; cbn [bind fst snd]; try discriminate.
    assert (Cl : contents l2 = contents l).
    { revert EI. unfold indicies_double. destruct (cur0 l) as [i0|]; [|congruence]. destruct (cur1 l) as [j0|]; [|congruence]. destruct (tail l) as [t|]; [|discriminate].
      assert (Y : forall (u v : llist (expag S)) (p r : option (nat * nat)), Ok (u, p) = Ok (v, r) -> v = u) by congruence.
      destruct (j0 =? t); [destruct (idx (links l) i0) as [x| | |]; try discriminate; cbn [bind]; destruct (next_of l (next x)) as [cc| | |]; try discriminate; cbn [bind]; intros EI; rewrite (Y _ _ _ _ EI); reflexivity|].
      destruct (idx (links l) j0) as [x| | |]; try discriminate; cbn [bind]; intros EI; rewrite (Y _ _ _ _ EI); reflexivity. }
    rewrite Cl. unfold idx. destruct (nth_error (contents l) p) as [x|] eqn:Ep; [|discriminate]. cbn [bind]. destruct (nth_error (contents l) q) as [y|] eqn:Eq; [|discriminate]. cbn [bind].
    intros E. assert (p = i /\ x = a /\ q = j /\ y = b) as (<- & <- & <- & <-) by (repeat split; congruence). auto. }
  destruct X as (Ha & Hb). pose proof (proj1 (Forall_forall _ _) F _ (nth_error_In _ _ Ha)) as Ia. pose proof (proj1 (Forall_forall _ _) F _ (nth_error_In _ _ Hb)) as Ib.
  destruct (disp_same a b d d' Ia Ib Ld Ld') as (e & ds & E1 & E2 & Le). rewrite E1, E2. rewrite Em.
  destruct (idx (contents m) i) as [mi| | |]; cbn [bind]; auto. destruct (mut_sub mi _) as [mi'| | |]; cbn [bind]; auto. destruct (idx (replace_nth i mi' (contents m)) j) as [mj| | |]; cbn [bind]; auto.
  destruct (mut_add mj _) as [mj'| | |]; cbn [bind]; auto.
  pose proof (IH l1 c (mut_scalar_mul e (expag_force a ds * dt)%S) (mut_scalar_mul e (expag_force a ds * dt)%S)
    (with_contents m (replace_nth j mj' (replace_nth i mi' (contents m)))) (with_contents m' (replace_nth j mj' (replace_nth i mi' (contents m)))) ltac:(now rewrite C) ltac:(now rewrite mul_len) ltac:(now rewrite mul_len) eq_refl) as X.
  destruct (force_loop dt k l1 _ _) as (((l2, d2), m2), r2). destruct (force_loop dt k (curt l1 c) _ _) as (((l3, d3), m3), r3). rewrite <- C. exact X.
Qed.
Lemma moves_same (sys : syscore S G) tg limit dt k : forall (l : llist (expag S)) c1 c2 m m' (g : gen), contents m' = contents m ->
  let '(l1, m1, g1, r) := exp_move_loop sys tg limit dt k l m g in let '(l2, m2, g2, r2) := exp_move_loop sys tg limit dt k (cur12 l c1 c2) m' g in
  l2 = cur12 l1 c1 c2 /\ contents m2 = contents m1 /\ g2 = g1 /\ r2 = r.
Proof.
  induction k as [|k IH]; intros l c1 c2 m m' g Em; cbn [exp_move_loop]; [auto|]. rewrite enumerate_12. destruct (enumerate l) as [(l1, [(i, a)|])| | |]; cbn [bind fst snd]; auto. rewrite Em.
  destruct (idx (contents m) i) as [v| | |]; auto. destruct (expag_random_move_to_vec a g dt v) as ((v1, g1), r). destruct r; auto.
  destruct (sc_check_bc sys (ex_pos a) (limit_move limit v1)) as (p, r). destruct r; auto. destruct (check_find tg p) as [[]| | |]; auto.
  apply (IH (with_contents l1 (replace_nth i (Expag (ex_type a) (ex_int a) (ex_mtype a) (ex_itype a) (ex_dim a) p (ex_gamma a) (ex_strength a) (ex_cpot a) (ex_cforce a)) (contents l1))) c1 c2
    (with_contents m (replace_nth i (limit_move limit v1) (contents m))) (with_contents m' (replace_nth i (limit_move limit v1) (contents m))) g1). reflexivity.
Qed.
Lemma step_same N (sys : syscore S G) tg limit dt (l l' : llist (expag S)) d d' m m' (g : gen) : same l l' -> Forall (exp_in n) (contents l) -> length d = n -> length d' = n ->
  move_list n N m -> move_list n N m' ->
  let '(l1, d1, m1, g1, r) := exp_step sys tg limit dt l d m g in let '(l2, d2, m2, g2, r2) := exp_step sys tg limit dt l' d' m' g in same l1 l2 /\ g2 = g1 /\ r2 = r.
Proof.
  intros Hs F Ld Ld' M M'. destruct (same_curs _ _ Hs) as (c0 & c1 & c2 & ->). unfold exp_step.
  destruct (clear_moves n N m M) as (m0 & E & _ & C). destruct (clear_moves n N m' M') as (m0' & E' & _ & C'). rewrite E, E'. rewrite double_start.
  assert (X : forall x, into_double_iter l = Ok x -> contents x = contents l).
  { intros x. unfold into_double_iter. destruct (next_of l (head l)); try discriminate. cbn [bind]. intros Ex. assert (Y : forall u v : llist (expag S), Ok u = Ok v -> v = u) by congruence. now rewrite (Y _ _ Ex). }
  destruct (into_double_iter l) as [x| | |]; cbn [bind]; [specialize (X x eq_refl)| | |]; try (split; [exact Hs|auto]). cbn [contents curs].
  pose proof (force_same dt (Datatypes.S (length (contents l) * length (contents l))) x c2 d d' m0 m0' ltac:(now rewrite X) Ld Ld' (eq_trans C' (eq_sym C))) as W.
  destruct (force_loop dt _ x d m0) as (((l2, d2), m2), r2). destruct (force_loop dt _ (curt x c2) d' m0') as (((l3, d3), m3), r3). destruct W as (-> & _ & Em & ->).
  assert (Sc : same l2 (curt l2 c2)) by (repeat split).
  destruct r2; try (split; [exact Sc|auto]). change (into_iter (curt l2 c2)) with (cur12 (into_iter l2) (cur1 l2) c2).
  pose proof (moves_same sys tg limit dt (Datatypes.S (length (contents l))) (into_iter l2) (cur1 l2) c2 m2 m3 g Em) as W.
  destruct (exp_move_loop sys tg limit dt _ (into_iter l2) m2 g) as (((l4, m4), g4), r4). destruct (exp_move_loop sys tg limit dt _ (cur12 (into_iter l2) _ c2) m3 g) as (((l5, m5), g5), r5).
  destruct W as (-> & _ & -> & ->). split; [repeat split|auto].
Qed.
End Same.

Section Repeat.
Context {S : scalar} {G : rng S}.
Notation gen := (rstate G).
Variables (sy : anysys S) (tg : target S) (limit : S) (inner pf : nat).
Hypothesis B : built sy.
Hypothesis T : length (tg_pos tg) = sysdim sy.
Notation n := (sysdim sy).
Variable (a0 : expag S).
Hypothesis D0 : ex_dim a0 = n.
Hypothesis C0 : exp_coeff n (ex_gamma a0) (ex_strength a0) = Ok (ex_cpot a0, ex_cforce a0).
Hypothesis M0 : exists c, ex_mtype a0 = Brownian c.
Definition sib (a : expag S) : Prop := exists p, a = exp_put a0 p.
Definition sib_in (a : expag S) : Prop := exp_in n a /\ sib a.

Lemma sib_renew (a : expag S) (g : gen) : sib a -> expag_renew inner pf (core sy) tg g a =
  let '(p1, g1, r) := place inner pf (core sy) tg g (sc_out (core (G := G) sy)) in (exp_put a0 p1, g1, r).
Proof.
  intros (p & ->). unfold expag_renew. rewrite renew_start_cases. cbn [ex_pos exp_put ex_dim ex_gamma ex_strength ex_cpot ex_cforce ex_type ex_int ex_mtype ex_itype].
  pose proof (out_length (G := G) sy) as O. unfold dim. destruct (negb (length p =? n)).
  - rewrite O, C0. destruct (place inner pf (core sy) tg g _) as ((p1, g1), r). unfold exp_put. now rewrite D0.
  - destruct (place inner pf (core sy) tg g _) as ((p1, g1), r). reflexivity.
Qed.
Lemma sib_any (a : expag S) (g : gen) : sib a -> let '(a', g1, o) := expag_renew inner pf (core sy) tg g a in sib a' /\ ((o = Ok tt /\ sib_in a') \/ o = Fuel).
Proof.
  intros Ha. rewrite (sib_renew a g Ha).
  destruct (place_ok sy tg inner pf g (sc_out (core (G := G) sy)) B T (out_length sy)) as [(q & k & -> & L & C)|(q & g2 & ->)].
  - split; [eexists; reflexivity|]. left. split; [reflexivity|]. split; [|eexists; reflexivity]. split; [exact D0|]. split; [exact L|exact M0].
  - split; [eexists; reflexivity|]. now right.
Qed.
Lemma sib_bc (a : expag S) v : sib_in a -> length v = n -> True -> let (p, r) := sc_check_bc (core (G := G) sy) (ex_pos a) v in
  sib_in (exp_put a p) /\ (r = Ok tt -> accepts sy p) /\ (r = Ok tt \/ exists e, r = Err e /\ tle_ok (Err e)).
Proof.
  intros (Ia & (q & E)) L _. pose proof (bc_any (G := G) sy B a v Ia L I) as X. destruct (sc_check_bc (core (G := G) sy) (ex_pos a) v) as (p, r). destruct X as (X1 & X2).
  split; [|exact X2]. split; [exact X1|]. exists p. rewrite E. reflexivity.
Qed.
Lemma slots_same cs : forall cs' (g : gen), Forall sib cs -> Forall sib cs' -> length cs' = length cs ->
  let '(x, g1, o) := renew_slots inner pf (core sy) tg cs g in let '(x', g2, o2) := renew_slots inner pf (core sy) tg cs' g in g2 = g1 /\ o2 = o /\ (o = Ok tt -> x' = x).
Proof.
  induction cs as [|a cs IH]; intros cs' g F F' L; destruct cs' as [|b cs']; try discriminate L; [cbn [renew_slots]; repeat split|]. apply Forall_cons_iff in F as (Fa & Fo). apply Forall_cons_iff in F' as (Fa' & Fo'). cbn [renew_slots].
  rewrite (sib_renew a g Fa), (sib_renew b g Fa'). destruct (place inner pf (core sy) tg g _) as ((p1, g1), r). destruct r as [u| | |]; try (split; [reflexivity|]; split; [reflexivity|discriminate]).
  specialize (IH cs' g1 Fo Fo' ltac:(cbn in L; lia)). destruct (renew_slots inner pf (core sy) tg cs g1) as ((x, g2), o). destruct (renew_slots inner pf (core sy) tg cs' g1) as ((x', g3), o').
  destruct IH as (-> & -> & X). split; [reflexivity|]. split; [reflexivity|]. intros H. now rewrite (X H).
Qed.
Variables (N : nat) (St : Type) (next : St -> outcome (St * option (S * S))) (Inv : St -> Prop).
Hypothesis next_ok : forall s, Inv s -> exists s' o, next s = Ok (s', o) /\ Inv s'.
Notation team l := (exp_crew n N l /\ Forall sib_in (contents l)).

Lemma run_same fuel : forall c (l l' : llist (expag S)) d d' m m' (g : gen), team l -> team l' -> same l l' -> length d = n -> length d' = n -> move_list n N m -> move_list n N m' ->
  let '(_, _, _, g1, r) := exp_run next (core sy) tg limit fuel c l d m g in let '(_, _, _, g2, r2) := exp_run next (core sy) tg limit fuel c l' d' m' g in g2 = g1 /\ r2 = r.
Proof.
  induction fuel as [|k IH]; intros c l l' d d' m m' g HT HT' Hs Ld Ld' M M'; cbn [exp_run]; [auto|]. destruct (next c) as [(c1, [(t, dt)|])| | |]; auto.
  pose proof (step_same n N (core sy) tg limit dt l l' d d' m m' g Hs (ec_crew _ _ _ (proj1 HT)) Ld Ld' M M') as W.
  pose proof (fun l1 d1 m1 g1 r => exp_step_inv n N (core sy) tg limit sib_in (accepts sy) (fun _ => True) tle_ok (fun a H => proj1 H) (fun _ _ => I) T sib_bc (fun x => or_introl (ex_intro _ x eq_refl)) dt l d m g l1 d1 m1 g1 r HT M Ld) as Q.
  pose proof (fun l1 d1 m1 g1 r => exp_step_inv n N (core sy) tg limit sib_in (accepts sy) (fun _ => True) tle_ok (fun a H => proj1 H) (fun _ _ => I) T sib_bc (fun x => or_introl (ex_intro _ x eq_refl)) dt l' d' m' g l1 d1 m1 g1 r HT' M' Ld') as Q'.
  destruct (exp_step (core sy) tg limit dt l d m g) as ((((l1, d1), m1), g1), r). destruct (exp_step (core sy) tg limit dt l' d' m' g) as ((((l2, d2), m2), g2), r2). destruct W as (W & -> & ->).
  specialize (Q _ _ _ _ _ eq_refl). specialize (Q' _ _ _ _ _ eq_refl). destruct r as [[]| | |]; auto. apply IH; tauto.
Qed.
Definition ready (l : llist (expag S)) : Prop := reachable l /\ length (contents l) = N /\ Forall sib (contents l).
Lemma connected l cs : ready l -> length cs = N -> Forall sib_in cs -> exists l2, connect_all (with_contents l cs) = Ok l2 /\ team l2 /\ contents l2 = cs /\
  forall l0, ll_from cs = Ok l0 -> links l2 = links l0 /\ head l2 = head l0 /\ tail l2 = tail l0.
Proof.
  intros (R & L & F) Lc C. assert (R1 : reachable (with_contents l cs)) by (apply contents_reach; [exact R|congruence]).
  destruct (connect_all_total _ R1) as (l2 & l0 & E & E0 & C2 & Lv & A1 & A2 & A3). cbn [contents with_contents] in C2, Lv, E0. exists l2. split; [exact E|].
  assert (HR2 : reachable l2) by (apply (reachable_step _ (OConnectAll) l2 RUnit R1); cbn [step]; now rewrite E).
  split. { split; [split; [exact HR2|congruence|congruence|]|now rewrite C2]. rewrite C2. eapply Forall_impl; [|exact C]. intros a Ha. exact (proj1 Ha). }
  split; [exact C2|]. intros l1 E1. assert (l1 = l0) by congruence. subst. auto.
Qed.
Lemma sample_same fuel c (l l' : llist (expag S)) d d' m m' (g : gen) : ready l -> ready l' -> length d = n -> length d' = n -> move_list n N m -> move_list n N m' ->
  let '(_, _, _, g1, r) := exp_sample next inner pf (core sy) tg limit fuel c l d m g in let '(_, _, _, g2, r2) := exp_sample next inner pf (core sy) tg limit fuel c l' d' m' g in g2 = g1 /\ r2 = r.
Proof.
  intros H H' Ld Ld' M M'. unfold exp_sample.
  pose proof (slots_same (contents l) (contents l') g (proj2 (proj2 H)) (proj2 (proj2 H')) ltac:(rewrite (proj1 (proj2 H)), (proj1 (proj2 H')); reflexivity)) as X.
  destruct (renew_slots_ok (core sy) tg sib_in sib inner pf sib_any (contents l) g (proj2 (proj2 H))) as (cs & g1 & o & E & Lc & F1 & C). rewrite E in *.
  destruct (renew_slots inner pf (core sy) tg (contents l') g) as ((cs', g2), o2). destruct X as (-> & -> & X).
  destruct C as [(-> & C)| ->]; [|auto]. rewrite (X eq_refl).
  assert (LN : length cs = N) by (rewrite Lc; exact (proj1 (proj2 H))).
  destruct (connected l cs H LN C) as (l2 & E2 & T2 & C2 & K2). destruct (connected l' cs H' LN C) as (l3 & E3 & T3 & C3 & K3). rewrite E2, E3.
  assert (Ss : same l2 l3).
  { destruct (from_fresh cs) as (l0 & E0 & _). destruct (K2 _ E0) as (A1 & A2 & A3). destruct (K3 _ E0) as (B1 & B2 & B3). repeat split; congruence. }
  destruct (next c) as [(c1, [x|])| | |]; auto. now apply run_same.
Qed.
(** A run of many samples is many runs of one sample. *)
Lemma ensemble_same fuel c (Ic : Inv c) (li : llist (expag S)) (di : pos S) (mi : llist (pos S)) (Hi : ready li) (Li : length di = n) (Mi : move_list n N mi) (sample : gen -> gen * outcome S) :
  (forall g, sample g = let '(_, _, _, g1, r) := exp_sample next inner pf (core sy) tg limit fuel c li di mi g in (g1, r)) ->
  forall num l d m g, ready l -> length d = n -> move_list n N m -> forall ts g' o,
  exp_ensemble next inner pf (core sy) tg limit fuel c num l d m g = (ts, g', o) ->
  exists g1, sampled sample g ts g1 /\
   ((o = Ok tt /\ length ts = num /\ g' = g1) \/
    (length ts < num /\ ((o = Fuel /\ sample g1 = (g', Fuel)) \/ (exists e, o = Err e /\ sample g1 = (g', Err e))))).
Proof.
  intros Hsm. induction num as [|k IH]; intros l d m g H Ld M ts g' o E; cbn [exp_ensemble] in E.
  - assert (ts = [] /\ g' = g /\ o = Ok tt) as (-> & -> & ->) by (repeat split; congruence). exists g. split; [constructor|]. left. auto.
  - pose proof (sample_same fuel c li l di d mi m g Hi H Li Ld Mi M) as X.
    destruct (exp_sample_ok n N (core sy) tg limit sib_in sib (accepts sy) (fun _ => True) tle_ok (fun a Ha => proj1 Ha) (fun a Ha => proj2 Ha) (fun _ _ => I) T sib_bc (fun x => or_introl (ex_intro _ x eq_refl))
      tle_panic tle_fuel inner pf sib_any St next Inv next_ok fuel c l d m g Ic (proj1 H) (proj1 (proj2 H)) (proj2 (proj2 H)) M Ld) as (l1 & d1 & m1 & g1 & r & Es & H1 & M1 & L1 & Cr).
    rewrite Es in E, X. specialize (Hsm g). destruct (exp_sample next inner pf (core sy) tg limit fuel c li di mi g) as ((((l2, d2), m2), g2), r2). destruct X as (-> & ->).
    destruct r2 as [t|e| |].
    + destruct (exp_ensemble next inner pf (core sy) tg limit fuel c k l1 d1 m1 g2) as ((ts1, g3), o3) eqn:E3.
      assert (ts = t :: ts1 /\ g' = g3 /\ o = o3) as (-> & -> & ->) by (repeat split; congruence).
      destruct (IH l1 d1 m1 g2 H1 L1 M1 _ _ _ E3) as (g4 & K1 & K2). exists g4. split; [econstructor; eauto|]. cbn [length].
      destruct K2 as [(-> & <- & ->)|(K & K2)]; [left; auto|right; split; [lia|exact K2]].
    + assert (ts = [] /\ g' = g2 /\ o = Err e) as (-> & -> & ->) by (repeat split; congruence). exists g. split; [constructor|]. right. split; [cbn; lia|]. right. exists e. auto.
    + exfalso. destruct Cr as [Cr|[(e & Cr & _)|[(first & vs & t & dt & s1 & Cr & _)|(vs & Cr & _)]]]; discriminate Cr.
    + assert (ts = [] /\ g' = g2 /\ o = Fuel) as (-> & -> & ->) by (repeat split; congruence). exists g. split; [constructor|]. right. split; [cbn; lia|]. left. auto.
Qed.
End Repeat.

Section Program.
Context {S : scalar} {G : rng S}.
Notation gen := (rstate G).
Lemma convert_shape m (args : expag_args S) : exp_args_for m args ->
  exists a, expag_convert_from args = Ok (repeat a (ea_num args)) /\ ex_dim a = m /\ (exists c, ex_mtype a = Brownian c) /\ exp_coeff m (ex_gamma a) (ex_strength a) = Ok (ex_cpot a, ex_cforce a).
Proof.
  intros (D & (c & M) & It). unfold expag_convert_from.
  assert (X : exists p d0, (match ea_itype args with Uniform => (0%nat, []) | SpecificPosition p => (dim p, p) end) = (d0, p) /\ (d0 = 0 \/ d0 = m)).
  { destruct (ea_itype args) as [p|]; [|do 2 eexists; split; [reflexivity|now left]]. exists p, (dim p). split; [reflexivity|]. unfold dim. tauto. }
  destruct X as (p & d0 & -> & [->| ->]); cbn [Nat.eqb]; [|rewrite D; destruct (m =? 0); [|rewrite Nat.eqb_refl; cbn [negb]]]; cbn [bind]; rewrite ?D; unfold exp_coeff; eexists; (split; [reflexivity|]);
   (split; [reflexivity|]); (split; [exists c; exact M|reflexivity]).
Qed.
Lemma mfpt_repeats (sy : anysys S) (tg : target S) (args : expag_args S) limit (clock : expstep S) inner pf fuel num (g : gen) a b len :
  built sy -> length (tg_pos tg) = sysdim sy -> exp_args_for (sysdim sy) args -> es_titype clock = Model_Time.Exponential a b len ->
  forall ts g' o, mfpt_exp (diff_next es_next es_dt) inner pf fuel num (core sy) (sysdim sy) tg args limit clock g = (ts, g', o) ->
  let sample := one_sample (diff_next es_next es_dt) inner pf fuel (core sy) (sysdim sy) tg args limit clock in
  exists g1, sampled sample g ts g1 /\
   ((o = Ok tt /\ length ts = num /\ g' = g1) \/
    (length ts < num /\ ((o = Fuel /\ sample g1 = (g', Fuel)) \/ (exists e, o = Err e /\ sample g1 = (g', Err e))))).
Proof.
  intros B T HA Tc ts g' o E sample. destruct (convert_shape _ _ HA) as (a0 & Ea & D0 & M0 & C0). pose proof HA as (D & _).
  destruct (build_lists (sysdim sy) args HA) as (v & l & mv & E1 & E2 & E3 & R & L & F & M).
  assert (v = repeat a0 (ea_num args)) as -> by congruence.
  assert (Hl : ready a0 (ea_num args) l).
  { split; [exact R|]. split; [exact L|]. destruct (from_fresh (repeat a0 (ea_num args))) as (l0 & E0 & _ & C & _). assert (l0 = l) by congruence. subst l0. rewrite C.
    apply Forall_forall. intros x Hx. apply repeat_spec in Hx. subst x. exists (ex_pos a0). destruct a0; reflexivity. }
  assert (Em : forall k (g0 : gen), mfpt_exp (G := G) (diff_next es_next es_dt) inner pf fuel k (core sy) (sysdim sy) tg args limit clock g0 =
    exp_ensemble (G := G) (diff_next es_next es_dt) inner pf (core sy) tg limit fuel clock k l (repeat s0 (sysdim sy)) mv g0).
  { intros k g0. unfold mfpt_exp. rewrite E1, D, Nat.eqb_refl. cbn [negb]. rewrite E3, E2. reflexivity. }
  rewrite Em in E.
  refine (ensemble_same sy tg limit inner pf B T a0 D0 C0 M0 (ea_num args) _ (diff_next es_next es_dt) _ Proof_Run5.es_next_total fuel clock
    (ex_intro _ a (ex_intro _ b (ex_intro _ len Tc))) l (repeat s0 (sysdim sy)) mv Hl (repeat_length _ _) M sample _ num l (repeat s0 (sysdim sy)) mv g Hl (repeat_length _ _) M ts g' o E).
  intros g0. unfold sample, one_sample. rewrite Em. cbn [exp_ensemble].
  destruct (exp_sample _ inner pf (core sy) tg limit fuel clock l _ mv g0) as ((((l1, d1), m1), g1), r). destruct r; reflexivity.
Qed.
End Program.
