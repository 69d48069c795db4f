(** Whole runs of merging and of independent searchers in double precision. *)
From Coq Require Import Reals ZArith List Lra Lia Sorted.
From Flocq.Core Require Import Core.
From Flocq.IEEE754 Require Import BinarySingleNaN.
From Verif Require Import Base Scalar Float64 Model_Position Spec_Position Proof_Position Model_System Spec_System Proof_System Proof_System2 Proof_System4 Proof_System6 Proof_System7 Proof_System11 Proof_Norm64 Proof_Sum64
  Model_LinkedList Spec_LinkedList Refine_LinkedList Proof_LinkedList Proof_LinkedList2 Proof_LinkedList3
  Proof_LinkedList4 Proof_LinkedList5 Proof_LinkedList6 Proof_Run Model_Run
  Model_Agent Spec_Agent Proof_Agent Spec_Wall64 Proof_Wall64 Proof_Wall64b Spec_Run Proof_Run2 Proof_Run3 Proof_Run4 Proof_Run5 Proof_Search Spec_Run64 Proof_Run64 Proof_Run64b.
Import ListNotations.
Local Open Scope R_scope.

Section Geo.
Context {lm : libm} {G : rng (F64 lm)}.
Local Notation F := (F64 lm).
Lemma near_64 (p q : list b64) (w d : b64) : few (length p) -> length p = length q -> on_scale p -> on_scale q -> fin w = true -> / 2 ^ 400 <= B2 w -> distance (S := F) p q = Ok (d : F) -> Bltb d w = true ->
  near_upto w p q.
Proof.
  intros Fk L Sp Sq Fw W E H. pose proof (distance_64 lm p q L) as E2. assert (d = n64 (diffs p q)) as -> by congruence.
  pose proof (diff_within p q 302 ltac:(lia) Sp Sq) as D. cbn [Nat.add] in D. assert (Ld : length (diffs p q) = length p) by (unfold diffs; rewrite map_length, combine_length; lia).
  assert (Fd : fin (n64 (diffs p q)) = true). { exact (norm_ok _ (eq_ind_r few Fk Ld) D). }
  destruct (distance_64_bounds lm p q _ (within_fin _ _ Sp) (within_fin _ _ Sq) E Fd) as (P & Lo & _).
  assert (C : B2 (n64 (diffs p q)) < B2 w) by (apply (ltb64 _ _ Fd Fw); exact H).
  apply (dist_up (length p) _ (B2 w) Fk); [unfold euclid; apply sqrt_pos|exact W|]. assert (Q : B2 (n64 (diffs p q)) ^ 2 <= B2 w ^ 2) by (apply pow_incr; lra). lra.
Qed.

Lemma ltb_asym (x y : b64) : Bltb x y = true -> Bltb y x = false.
Proof.
  intros H. pose proof (Bcompare_swap _ _ x y) as E. unfold Bltb, SpecFloat.SFltb in *. unfold Bcompare in E. rewrite E. clear E. destruct (SpecFloat.SFcompare (B2SF x) (B2SF y)) as [[]|]; (reflexivity || discriminate H).
Qed.
(** Looking for the target. *)
Lemma found_64 (sy : anysys F) (tg : target F) z (q : list b64) : ordinary sy -> fair_target tg -> length (tg_pos tg) = sysdim sy -> on_scale q -> length q = sysdim sy -> check_find tg q = Ok z ->
  if z then on_upto tg q else off_upto tg q.
Proof.
  intros O (Tp & Ts) Lt Sq Lq Ef.
  unfold check_find, target_distance in Ef. pose proof (distance_64 lm (tg_pos tg) q (eq_trans Lt (eq_sym Lq))) as Dd.
  assert (Fk : few (length q)) by (exact (eq_ind_r few (proj1 O) Lq)). destruct Ts as (T1 & T2 & T3).
  assert (Lqt : length q = length (tg_pos tg)) by (rewrite Lq; symmetry; exact Lt). assert (Fk2 : few (length (tg_pos tg))) by (exact (eq_ind _ few Fk _ Lqt)).
  assert (Sy : euclid (reals (tg_pos tg)) (reals q) = euclid (reals q) (reals (tg_pos tg))). { apply (euclid_metric _ _ (reals q)); [|reflexivity]. unfold reals. rewrite !map_length. exact (eq_sym Lqt). }
  rewrite Dd in Ef. cbn [bind] in Ef. change (ltb (n64 (diffs (tg_pos tg) q) : F) (tg_size tg)) with (Bltb (n64 (diffs (tg_pos tg) q)) (tg_size tg)) in Ef.
  destruct (Bltb (n64 (diffs (tg_pos tg) q)) (tg_size tg)) eqn:Eb; injection Ef as <-.
  - unfold on_upto, near_upto. rewrite <- Sy, Lqt. exact (near_64 _ _ _ _ Fk2 (eq_sym Lqt) Tp Sq T1 T2 Dd Eb).
  - unfold off_upto, apart_upto. rewrite <- Sy, Lqt. exact (apart_64 _ _ _ _ Fk2 (eq_sym Lqt) Tp Sq T1 T2 Dd Eb).
Qed.
(** One agent's move. *)
Lemma moved_64 (sy : anysys F) (tg : target F) (c dt : F) z g0 g1 (p dp q : list b64) : ordinary sy -> built sy -> fair_target tg -> length (tg_pos tg) = sysdim sy -> calm G ->
  mild c -> mild dt -> on_scale p -> length p = sysdim sy ->
  rnd_move (G := G) (Brownian c) (sysdim sy) g0 dt = (g1, Ok (dp : pos F)) -> sc_check_bc (core (G := G) sy) p dp = (q, Ok tt) -> check_find tg q = Ok z ->
  on_scale q /\ inside_upto sy q /\ (if z then on_upto tg q else off_upto tg q).
Proof.
  intros O B (Tp & Ts) Lt Cg Mc Md Sp Lp Em Ec Ef. rewrite rnd_move_kick in Em. apply pair_equal_spec in Em as (_ & Em).
  assert (Ed : dp = brownian_kick (S := F) c dt (fst (draws (gauss G) (sysdim sy) g0))) by congruence.
  assert (Ld : length dp = sysdim sy). { rewrite Ed. unfold brownian_kick. rewrite map_length. apply draws_len. }
  assert (Wd : within 300 dp).
  { rewrite Ed. apply (within_up 254); [lia|]. apply kick_within; [exact Mc|exact Md|]. clear - Cg. generalize (sysdim sy) as n. intros n. revert g0. induction n as [|n IH]; intros g0; [constructor|].
    cbn [draws]. pose proof (Cg g0) as C0. destruct (gauss G g0) as (x, g1). specialize (IH g1). destruct (draws (gauss G) n g1) as (l, g2). constructor; [exact C0|exact IH]. }
  destruct (step_64 sy p dp q O B Lp Ld Sp Wd Ec) as (Sq & Iq). split; [exact Sq|]. split; [exact Iq|].
  exact (found_64 sy tg z q O (conj Tp Ts) Lt Sq (proj1 (proj2 Iq)) Ef).
Qed.
End Geo.

Section Generic.
Context {S : scalar} {G : rng S}.
Lemma live_size (sz : merger S -> nat) (l : llist (merger S)) i a : live_at l i a -> (sz a <= total_size sz l)%nat.
Proof.
  intros (Hi & Ha). unfold total_size. revert Hi. induction (live_of l) as [|j js IH]; [intros []|]. cbn [map list_sum fold_right]. intros [->|Hi].
  - rewrite Ha. apply Nat.le_add_r.
  - specialize (IH Hi). apply Nat.le_trans with (1 := IH). rewrite Nat.add_comm. apply Nat.le_add_r.
Qed.
Lemma merge_step_moves (sy : anysys S) (tg : target S) (rf : merger S -> S) m0 radius alpha dt (l : llist (merger S)) (g : rstate G) l' g' r :
  built sy -> length (tg_pos tg) = sysdim sy -> (forall a b, mg_radius a = mg_radius b -> rf a = rf b) ->
  reachable l -> Forall (crew (sysdim sy) m0 radius alpha) (contents l) -> merge_step (core sy) tg rf dt l g = (l', g', r) ->
  (r = Ok false -> forall i b, In i (live_of l) -> nth_error (contents l') i = Some b -> exists a b1, live_at l i a /\ stepped (merger_mover (G := G)) (core sy) tg dt false a b1 /\ mg_pos b = mg_pos b1) /\
  (r = Ok true -> exists i a b, live_at l i a /\ live_at l' i b /\ stepped (merger_mover (G := G)) (core sy) tg dt true a b).
Proof.
  intros B T RF2 HR HF. unfold merge_step.
  assert (FM : forall (a : merger S) (g0 : rstate G) (dt0 : S), crew (sysdim sy) m0 radius alpha a -> length (mv_pos (merger_mover (G := G)) a) = sysdim sy /\
    exists g1 dp, mv_move merger_mover a g0 dt0 = (g1, Ok dp) /\ length dp = sysdim sy).
  { intros a g0 dt0 ((D & L & c & M) & _). split; [exact L|]. cbn. unfold merger_random_move. rewrite M, D. apply rnd_move_brownian. }
  destruct (move_pass_ok (G := G) merger_mover (crew (sysdim sy) m0 radius alpha) (sysdim sy) FM (crew_put _ _ _ _) (fun _ _ => eq_refl)
    sy tg dt l g B eq_refl T HR HF) as (l1 & g1 & r1 & E & R1 & L1 & N1 & F1 & _ & _ & Ro & _).
  destruct (pass_trace merger_mover (core sy) tg dt l g l1 g1 r1 HR E) as (_ & _ & T1 & T2). rewrite E.
  destruct Ro as [->|[->| ->]]; [intros [= <- <- <-]; split; [discriminate|exact T2]| |intros [= <- <- <-]; split; discriminate].
  destruct (pair_pass_ok rf RF2 (sysdim sy) (crew (sysdim sy) m0 radius alpha) (fun a H => proj1 H) (crew_grow _ _ _ _) l1 R1 F1) as (l2 & E2 & _ & _ & N2 & P2 & _). rewrite E2.
  intros [= <- <- <-]. split; [|discriminate]. intros _ i b Hi Hb. assert (Hl : (i < length (contents l1))%nat) by (rewrite <- N2; apply nth_error_Some; congruence).
  destruct (nth_error (contents l1) i) as [x|] eqn:Ex; [|apply nth_error_None in Ex; lia]. destruct (P2 i x Ex) as (y & Hy & Py & _). assert (y = b) as -> by congruence.
  destruct (T1 eq_refl i x) as (a & La & St); [split; [now rewrite L1|exact Ex]|]. exists a, x. auto.
Qed.
Lemma dts_run {A} (step : S -> llist A -> rstate G -> llist A * rstate G * outcome bool) (Q : S -> Prop) (I J : llist A -> Prop) :
  (forall dt (l : llist A) g (l1 : llist A) g1, Q dt -> I l -> step dt l g = (l1, g1, Ok false) -> I l1 /\ J l1) ->
  forall dts (l : llist A) g (l' : llist A) g', Forall Q dts -> I l -> after_dts step dts l g = Some (l', g') -> I l' /\ (dts <> [] -> J l').
Proof.
  intros H. induction dts as [|dt dts IH]; intros l g l' g' FQ Il E; cbn in E; [injection E as <- <-; split; [exact Il|intros X; now elim X]|].
  apply Forall_cons_iff in FQ as (Qd & FQ). destruct (step dt l g) as ((l1, g1), [[]| | |]) eqn:Es; try discriminate. destruct (H dt l g l1 g1 Qd Il Es) as (I1 & J1).
  destruct (IH l1 g1 l' g' FQ I1 E) as (I2 & J2). split; [exact I2|]. intros _. destruct dts as [|d ds]; [cbn in E; injection E as <- <-; exact J1|]. apply J2. discriminate.
Qed.
Lemma steps_are_dts {A} (step : S -> llist A -> rstate G -> llist A * rstate G * outcome bool) dt k : forall (l : llist A) g, after_steps (step dt) k l g = after_dts step (repeat dt k) l g.
Proof. induction k as [|k IH]; intros l g; [reflexivity|]. cbn. destruct (step dt l g) as ((l1, g1), [[]| | |]); auto. Qed.
End Generic.

Section Runs.
Context {lm : libm} {G : rng (F64 lm)}.
Local Notation F := (F64 lm).
Variables (sy : anysys F) (tg : target F).
Hypothesis Sc : scene sy tg.
Hypothesis Cg : calm G.

Lemma merger_stepped (c : F) m0 (radius alpha : F) N (dt : F) z (l : llist (merger F)) i a b : m0 = Brownian c -> mild c -> mild_growth (lm := lm) alpha N -> mild dt ->
  population (sysdim sy) m0 radius alpha N l -> live_at l i a -> on_scale (mg_pos a) -> stepped (merger_mover (G := G)) (core sy) tg dt z a b ->
  on_scale (mg_pos b) /\ length (mg_pos b) = sysdim sy /\ inside_upto sy (mg_pos b) /\ (if z then on_upto tg (mg_pos b) else off_upto tg (mg_pos b)).
Proof.
  intros Em0 Mc Mg Md [_ _ HF HT] La Sa (g0 & g1 & dp & p & Em & Ec & -> & Ef). destruct Sc as (O & B & Ft & Lt).
  pose proof (proj1 (Forall_forall _ _) HF a (nth_error_In _ _ (proj2 La))) as ((D & L & _) & Mo & _ & Al). pose proof (live_size mg_size l i a La) as Sz. rewrite HT in Sz.
  cbn [mv_move mv_pos mv_put merger_mover] in *. unfold merger_random_move in Em. rewrite D in Em.
  assert (exists c2 : F, mg_mtype a = Brownian c2 /\ mild c2) as (c2 & E2 & M2).
  { destruct Mo as [(_ & E)|(K & E)]; [exists c; split; [congruence|exact Mc]|]. rewrite Al in E. eexists. split; [exact E|]. apply Mg. split; assumption. }
  rewrite E2 in Em. destruct (moved_64 sy tg c2 dt z g0 g1 (mg_pos a) dp p O B Ft Lt Cg M2 Md Sa L Em Ec Ef) as (H1 & H2 & H3).
  split; [exact H1|]. split; [exact (proj1 (proj2 H2))|]. split; [exact H2|exact H3].
Qed.
Lemma merging_step_64 (c : F) (rf : merger F -> F) (radius alpha : F) N (dt : F) (l : llist (merger F)) (g : rstate G) (l' : llist (merger F)) (g' : rstate G) r : mild c -> mild_growth (lm := lm) alpha N -> mild dt -> roomy radius ->
  (forall a : merger F, mg_radius a = radius -> rf a = radius) -> (forall a b : merger F, mg_radius a = mg_radius b -> rf a = rf b) ->
  population (sysdim sy) (Brownian c) radius alpha N l -> placed mg_pos l -> merge_step (core (G := G) sy) tg rf dt l g = (l', g', r) ->
  population (sysdim sy) (Brownian c) radius alpha N l' /\
  (r = Ok false -> placed mg_pos l' /\ all_off sy tg mg_pos l' /\ all_apart radius (sysdim sy) l' /\
     forall j, In j (live_of l) -> ~ In j (live_of l') -> exists i a b, live_at l' i a /\ nth_error (contents l') j = Some b /\
       euclid (reals (mg_pos a)) (reals (mg_pos b)) <= 2 * B2 radius * (1 + slack (sysdim sy))) /\
  (r = Ok true -> one_on sy tg mg_pos l').
Proof.
  intros Mc Mg Md (R1 & R2 & R3) RF RF2 HP Pl E. pose proof Sc as (O & B & Ft & Lt).
  destruct (step_pop sy tg rf (Brownian c) radius alpha dt N l g B Lt RF RF2 HP) as (l2 & g2 & r2 & E2 & P2 & Li & _ & _ & K & _). rewrite E in E2.
  assert (l2 = l' /\ r2 = r) as (-> & ->) by (split; congruence). split; [exact P2|].
  pose proof HP as [HR _ HF _]. destruct (merge_step_moves sy tg rf (Brownian c) radius alpha dt l g l' g' r B Lt RF2 HR HF E) as (M1 & M2).
  assert (Two : fin (mul (s := F) s2 radius : b64) = true /\ B2 (mul (s := F) s2 radius : b64) = 2 * B2 radius).
  { destruct (of_Z_exact 2) as (F2 & E3); [lia|]. destruct (mult_val (b64_of_Z 2) radius F2 R1) as (_ & V). change (mul (s := F) s2 radius : b64) with (Bmult mode_NE (b64_of_Z 2) radius).
    destruct (op_bound _ _ 301 (proj1 (mult_val (b64_of_Z 2) radius F2 R1)) V) as (A & _); [|lia|].
    { rewrite E3, Rabs_pos_eq; [change (2 ^ 301) with (2 * 2 ^ 300); lra|]. apply Rmult_le_pos; [lra|]. apply Rle_trans with (2 := R2). apply Rlt_le, Rinv_0_lt_compat, pow_lt. lra. }
    split; [exact A|]. rewrite (fin_mult_eq _ _ A), E3. apply rnd64_fmt, double_format, fmt. }
  split.
  - intros ->. pose proof (M1 eq_refl) as M. clear M1 M2. destruct (K eq_refl) as (_ & Se & Va).
    assert (Ev : forall i b, In i (live_of l) -> nth_error (contents l') i = Some b -> on_scale (mg_pos b) /\ length (mg_pos b) = sysdim sy /\ inside_upto sy (mg_pos b) /\ off_upto tg (mg_pos b)).
    { intros i b Hi Hb. destruct (M i b Hi Hb) as (a & b1 & La & St & ->). exact (merger_stepped c (Brownian c) radius alpha N dt false l i a b1 eq_refl Mc Mg Md HP La (Pl i a La) St). }
    split; [intros i a (Hi & Ha); exact (proj1 (Ev i a (Li i Hi) Ha))|]. split; [intros i a (Hi & Ha); exact (proj2 (proj2 (Ev i a (Li i Hi) Ha)))|]. split.
    + intros i j a b La Lb Hij. destruct (Ev i a (Li i (proj1 La)) (proj2 La)) as (Sa & Na & _). destruct (Ev j b (Li j (proj1 Lb)) (proj2 Lb)) as (Sb & Nb & _).
      assert (L : length (mg_pos a) = length (mg_pos b)) by congruence. pose proof (distance_64 lm (mg_pos a) (mg_pos b) L) as D.
      assert (Fk : few (length (mg_pos a))) by (exact (eq_ind_r few (proj1 O) Na)).
      destruct (Bltb (n64 (diffs (mg_pos a) (mg_pos b))) (mul (s := F) s2 radius)) eqn:Eb. { exfalso. apply (Se i j a b La Lb Hij). eexists. split; [exact D|exact Eb]. }
      pose proof (apart_64 _ _ _ _ Fk L Sa Sb (proj1 Two) ltac:(rewrite (proj2 Two); lra) D Eb) as X. unfold apart_upto in X. rewrite (proj2 Two) in X. exact (eq_ind _ (fun k => 2 * B2 radius * (1 - slack k) <= euclid (reals (mg_pos a)) (reals (mg_pos b))) X _ Na).
    + intros j Hj Nj. destruct (Va j Hj Nj) as (i & a & b & La & Hb & d & D & Eb). exists i, a, b. split; [exact La|]. split; [exact Hb|].
      destruct (Ev i a (Li i (proj1 La)) (proj2 La)) as (Sa & Na & _). destruct (Ev j b Hj Hb) as (Sb & Nb & _).
      assert (L : length (mg_pos a) = length (mg_pos b)) by congruence. assert (Fk : few (length (mg_pos a))) by (exact (eq_ind_r few (proj1 O) Na)).
      pose proof (near_64 _ _ _ _ Fk L Sa Sb (proj1 Two) ltac:(rewrite (proj2 Two); lra) D Eb) as X. unfold near_upto in X. rewrite (proj2 Two) in X. exact (eq_ind _ (fun k => euclid (reals (mg_pos a)) (reals (mg_pos b)) <= 2 * B2 radius * (1 + slack k)) X _ Na).
  - intros ->. destruct (M2 eq_refl) as (i & a & b & La & Lb & St). exists i, b. split; [exact Lb|].
    exact (proj2 (proj2 (merger_stepped c (Brownian c) radius alpha N dt true l i a b eq_refl Mc Mg Md HP La (Pl i a La) St))).
Qed.
End Runs.

Section Runs2.
Context {lm : libm} {G : rng (F64 lm)}.
Local Notation F := (F64 lm).
Variables (sy : anysys F) (tg : target F).
Hypothesis Sc : scene sy tg.
Hypothesis Cg : calm G.

Lemma merging_run_64 (c : F) (rf : merger F -> F) (radius alpha : F) N (dts : list F) (l : llist (merger F)) (g : rstate G) (l' : llist (merger F)) (g' : rstate G) : mild c -> mild_growth (lm := lm) alpha N -> roomy radius ->
  (forall a : merger F, mg_radius a = radius -> rf a = radius) -> (forall a b : merger F, mg_radius a = mg_radius b -> rf a = rf b) ->
  Forall (fun dt : F => mild dt) dts -> population (sysdim sy) (Brownian c) radius alpha N l -> placed mg_pos l ->
  after_dts (merge_step (core (G := G) sy) tg rf) dts l g = Some (l', g') ->
  population (sysdim sy) (Brownian c) radius alpha N l' /\ placed mg_pos l' /\ (dts <> [] -> all_off sy tg mg_pos l' /\ all_apart radius (sysdim sy) l').
Proof.
  intros Mc Mg Rr RF RF2 Md HP Pl E.
  destruct (dts_run (merge_step (core (G := G) sy) tg rf) (fun dt : F => mild dt) (fun l => population (sysdim sy) (Brownian c) radius alpha N l /\ placed mg_pos l) (fun l => all_off sy tg mg_pos l /\ all_apart radius (sysdim sy) l)) with (dts := dts) (l := l) (g := g) (l' := l') (g' := g') as ((I1 & I2) & J); [|exact Md|split; assumption|exact E|auto].
  intros dt l0 g0 l1 g1 Q (P0 & Pl0) Es. destruct (merging_step_64 sy tg Sc Cg c rf radius alpha N dt l0 g0 l1 g1 (Ok false) Mc Mg Q Rr RF RF2 P0 Pl0 Es) as (P1 & K & _).
  destruct (K eq_refl) as (K1 & K2 & K3 & _). auto.
Qed.

Lemma searcher_stepped (c : F) N (dt : F) z (l : llist (indep F)) i a b : mild c -> mild dt ->
  searchers (sysdim sy) (Brownian c) N l -> live_at l i a -> on_scale (in_pos a) -> stepped (indep_mover (G := G)) (core sy) tg dt z a b ->
  on_scale (in_pos b) /\ inside_upto sy (in_pos b) /\ (if z then on_upto tg (in_pos b) else off_upto tg (in_pos b)).
Proof.
  intros Mc Md [_ _ _ HF] La Sa (g0 & g1 & dp & p & Em & Ec & -> & Ef). destruct Sc as (O & B & Ft & Lt).
  destruct (proj1 (Forall_forall _ _) HF a (nth_error_In _ _ (proj2 La))) as ((D & L & _) & E2).
  cbn [mv_move mv_pos mv_put indep_mover] in *. unfold indep_random_move in Em. rewrite D, E2 in Em.
  exact (moved_64 sy tg c dt z g0 g1 (in_pos a) dp p O B Ft Lt Cg Mc Md Sa L Em Ec Ef).
Qed.
Lemma searching_step_64 (c : F) N (dt : F) (l : llist (indep F)) (g : rstate G) (l' : llist (indep F)) (g' : rstate G) r : mild c -> mild dt ->
  searchers (sysdim sy) (Brownian c) N l -> placed in_pos l -> move_pass indep_mover (core (G := G) sy) tg dt l g = (l', g', r) ->
  searchers (sysdim sy) (Brownian c) N l' /\ (r = Ok false -> placed in_pos l' /\ all_off sy tg in_pos l') /\ (r = Ok true -> one_on sy tg in_pos l').
Proof.
  intros Mc Md HP Pl E. pose proof Sc as (O & B & Ft & Lt).
  destruct (indep_step sy tg (Brownian c) dt N l g B Lt HP) as (l2 & g2 & r2 & E2 & P2 & _). rewrite E in E2. assert (l2 = l') as -> by congruence. split; [exact P2|].
  pose proof HP as [HR _ _ _]. destruct (pass_trace indep_mover (core sy) tg dt l g l' g' r HR E) as (_ & _ & M1 & M2). split.
  - intros R. assert (Ev : forall i b, live_at l' i b -> on_scale (in_pos b) /\ inside_upto sy (in_pos b) /\ off_upto tg (in_pos b)).
    { intros i b Lb. destruct (M1 R i b Lb) as (a & La & St). exact (searcher_stepped c N dt false l i a b Mc Md HP La (Pl i a La) St). }
    split; intros i b Lb; apply (Ev i b Lb).
  - intros R. destruct (M2 R) as (i & a & b & La & Lb & St). exists i, b. split; [exact Lb|]. exact (proj2 (searcher_stepped c N dt true l i a b Mc Md HP La (Pl i a La) St)).
Qed.
Lemma searching_run_64 (c : F) N (dts : list F) (l : llist (indep F)) (g : rstate G) (l' : llist (indep F)) (g' : rstate G) : mild c ->
  Forall (fun dt : F => mild dt) dts -> searchers (sysdim sy) (Brownian c) N l -> placed in_pos l ->
  after_dts (move_pass indep_mover (core (G := G) sy) tg) dts l g = Some (l', g') ->
  searchers (sysdim sy) (Brownian c) N l' /\ placed in_pos l' /\ (dts <> [] -> all_off sy tg in_pos l').
Proof.
  intros Mc Md HP Pl E.
  destruct (dts_run (move_pass indep_mover (core (G := G) sy) tg) (fun dt : F => mild dt) (fun l => searchers (sysdim sy) (Brownian c) N l /\ placed in_pos l) (fun l => all_off sy tg in_pos l)) with (dts := dts) (l := l) (g := g) (l' := l') (g' := g') as ((I1 & I2) & J); [|exact Md|split; assumption|exact E|auto].
  intros dt l0 g0 l1 g1 Q (P0 & Pl0) Es. destruct (searching_step_64 c N dt l0 g0 l1 g1 (Ok false) Mc Q P0 Pl0 Es) as (P1 & K & _). destruct (K eq_refl) as (K1 & K2). auto.
Qed.

(** Placing. *)
Lemma random_to_64 inner (g : rstate G) (v q : list b64) g' : unif_64 G -> length v = sysdim sy -> sc_random_to (core (G := G) sy) inner g v = (q, g', Ok tt) -> length q = sysdim sy /\ on_scale q.
Proof.
  intros U L E. destruct Sc as ((Fk & O) & B & _). 
  assert (Bd : forall (s : b64) (q : list b64), roomy s -> Forall (bounded64 s) q -> on_scale q).
  { intros s q0 (_ & R) H. apply Forall_impl with (2 := H). intros x (A & A2). split; [exact A|]. apply Rle_trans with (1 := A2), Rle_trans with (1 := proj2 R). apply pow_up. lia. }
  destruct sy as [s|s|s]; cbn [sysdim core circ_core cubic_core cyl_core sc_random_to] in *.
  - destruct (circ_random_to_64 lm inner s g v (roomy_fit _ O) U L) as [(q1 & g1 & E1 & L1 & B1 & _)|K]; [|rewrite E in K; discriminate K]. rewrite E in E1. assert (q1 = q) as -> by congruence. split; [exact L1|exact (Bd _ _ O B1)].
  - destruct (cubic_random_to_64 lm inner s g v (roomy_fit _ O) U L) as (q1 & g1 & E1 & L1 & B1 & _). rewrite E in E1. assert (q1 = q) as -> by congruence. split; [exact L1|exact (Bd _ _ O B1)].
  - destruct (built_cyl_inv s B) as (d & T & _ & D & _). destruct O as (Or & Ol).
    destruct (cyl_random_to_64 lm inner s d g v T D (roomy_fit _ Or) (roomy_fit _ Ol) U L) as [(q1 & g1 & E1 & L1 & F1 & N1 & A1)|K]; [|rewrite E in K; discriminate K]. rewrite E in E1. assert (q1 = q) as -> by congruence.
    split; [exact L1|]. pose proof Or as (Fr & R1 & R2). assert (R0 : 0 <= B2 (cy_radius s)) by (apply Rle_trans with (2 := R1), Rlt_le, Rinv_0_lt_compat, pow_lt; lra).
    assert (L2 : @length b64 q = cy_dim s) by exact L1. assert (Lf : @length b64 (firstn d q) = d) by (rewrite firstn_length, L2; lia). assert (Ff : finite_pos (firstn d q)). { apply Forall_forall. intros x I. apply (proj1 (Forall_forall _ _) F1). rewrite <- (firstn_skipn d q). apply in_or_app. now left. }
    pose proof (few_part _ d Fk D) as Fd. pose proof (proj1 (norm_le_bounds (cy_radius s) (firstn d q) Fr R0 Ff) (ltb_asym _ _ N1)) as N. rewrite Lf in N.
    pose proof (norm_up d _ _ Fd (euclid_norm_nonneg (reals (firstn d q))) R1 N) as X. pose proof (slack_small _ Fd) as Sl.
    rewrite <- (firstn_skipn d q). apply Forall_app. split.
    + apply (within_up 301); [lia|]. apply from_norm; [exact Ff|]. apply Rle_trans with (1 := X). change (2 ^ 301) with (2 * 2 ^ 300). assert (B2 (cy_radius s) * (1 + slack d) <= B2 (cy_radius s) * 2) by (apply Rmult_le_compat_l; lra). lra.
    + apply Forall_forall. intros x I. split. { apply (proj1 (Forall_forall _ _) F1). rewrite <- (firstn_skipn d q). apply in_or_app. now right. }
      apply Rle_trans with (1 := proj1 (Forall_forall _ _) A1 x I). apply Rle_trans with (2 ^ 301); [|apply pow_up; lia]. change (2 ^ 301) with (2 * 2 ^ 300). destruct Ol as (_ & _ & O2). lra.
Qed.
Lemma place_64 inner fuel : unif_64 G -> forall (g : rstate G) (v q : list b64) g', length v = sysdim sy -> place inner fuel (core (G := G) sy) tg g v = (q, g', Ok tt) -> on_scale q /\ off_upto tg q.
Proof.
  intros U. induction fuel as [|k IH]; intros g v q g' L E; cbn [place] in E; [discriminate|].
  destruct (sc_random_to (core sy) inner g v) as ((v1, g1), [[]| | |]) eqn:Er; try discriminate. destruct (random_to_64 inner g v v1 g1 U L Er) as (L1 & S1).
  destruct (check_find tg v1) as [[]| | |] eqn:Ef; try discriminate; [exact (IH g1 v1 q g' L1 E)|]. assert (v1 = q) as -> by congruence. split; [exact S1|].
  destruct Sc as (O & _ & Ft & Lt). exact (found_64 sy tg false q O Ft Lt S1 L1 Ef).
Qed.
Lemma build_64 inner pf m radius alpha n : unif_64 G -> forall (g : rstate G) v g', build_agents (fun g => merger_new_uniform inner pf (core (G := G) sy) tg g m radius alpha) n g = (g', Ok v) ->
  Forall (fun a : merger F => on_scale (mg_pos a) /\ off_upto tg (mg_pos a)) v.
Proof.
  intros U. induction n as [|n IH]; intros g v g' E; cbn [build_agents] in E; [injection E as _ <-; constructor|].
  unfold merger_new_uniform in E at 1. destruct (place inner pf (core sy) tg g (sc_out (core sy))) as ((p, g1), [[]| | |]) eqn:Ep; cbn [bind] in E; try discriminate.
  destruct (build_agents _ n g1) as (g2, [w| | |]) eqn:Eb; try discriminate. cbn [bind] in E. injection E as _ <-. constructor; [|exact (IH _ _ _ Eb)]. exact (place_64 inner pf U g _ p g1 (out_length sy) Ep).
Qed.
Lemma build_indep_64 inner pf m n : unif_64 G -> forall (g : rstate G) v g', build_agents (fun g => indep_new_uniform inner pf (core (G := G) sy) tg g m) n g = (g', Ok v) ->
  Forall (fun a : indep F => on_scale (in_pos a) /\ off_upto tg (in_pos a)) v.
Proof.
  intros U. induction n as [|n IH]; intros g v g' E; cbn [build_agents] in E; [injection E as _ <-; constructor|].
  unfold indep_new_uniform in E at 1. destruct (place inner pf (core sy) tg g (sc_out (core sy))) as ((p, g1), [[]| | |]) eqn:Ep; cbn [bind] in E; try discriminate.
  destruct (build_agents _ n g1) as (g2, [w| | |]) eqn:Eb; try discriminate. cbn [bind] in E. injection E as _ <-. constructor; [|exact (IH _ _ _ Eb)]. exact (place_64 inner pf U g _ p g1 (out_length sy) Ep).
Qed.
Lemma renew_64 inner pf (a b : merger F) (g g' : rstate G) : unif_64 G -> merger_renew inner pf (core (G := G) sy) tg g a = (b, g', Ok tt) -> on_scale (mg_pos b) /\ off_upto tg (mg_pos b).
Proof.
  intros U. unfold merger_renew. rewrite renew_start_cases.
  destruct (place inner pf (core sy) tg g (sc_out (core sy))) as ((p, g1), [[]| | |]) eqn:Ep; try discriminate. intros E.
  assert (K : mg_pos b = p). { unfold recoeff in E. cbn [mg_mtype mg_resize mg_set] in E. destruct (mg_mtype a); [|discriminate]. injection E as <- _. reflexivity. }
  rewrite K. exact (place_64 inner pf U g _ p g1 (out_length sy) Ep).
Qed.
Lemma renew_all_64 inner pf (l : llist (merger F)) (g : rstate G) l' g' : unif_64 G -> reachable l -> live_of l = seq 0 (length (contents l)) ->
  renew_loop inner pf (core (G := G) sy) tg (Datatypes.S (length (contents l))) (into_iter l) g = (l', g', Ok tt) ->
  forall i b, live_at l' i b -> on_scale (mg_pos b) /\ off_upto tg (mg_pos b).
Proof.
  intros U HR HL. rewrite renew_loop_each.
  destruct (for_each_ref (renew_body inner pf (core sy) tg) l g HR) as (l1 & g1 & r & E1 & E2 & R1 & L1). rewrite E1. intros E. assert (l1 = l') as -> by congruence.
  destruct (chains l HR) as (CS & CR & _). destruct (each_trace _ _ _ _ _ _ _ E2 (sorted_NoDup _ CS) CR) as (_ & T1 & T2).
  assert (Rf : r = Ok false).
  { destruct r as [[]| | |]; try discriminate; [|reflexivity]. exfalso. destruct (T2 eq_refl) as (i & _ & a & s0 & o & s1 & _ & Eb & _). unfold renew_body in Eb. destruct (merger_renew inner pf (core sy) tg s0 a) as ((a2, g2), [| | |]); discriminate Eb. }
  intros i b (Li & Hb). rewrite L1 in Li. destruct (T1 Rf i Li) as (a & s0 & o & s1 & Ea & Eb & Ec). rewrite Rf in Eb. unfold renew_body in Eb.
  destruct (merger_renew inner pf (core sy) tg s0 a) as ((a2, g2), [[]| | |]) eqn:Er; try discriminate Eb. injection Eb as <- _. rewrite Hb in Ec. injection Ec as ->. exact (renew_64 inner pf a a2 s0 g2 U Er).
Qed.
End Runs2.
