(** Whole runs of the merging simulations. *)
From Coq Require Import Sorted List Lia Arith ZArith.
From Verif Require Import Base Scalar Model_Position Spec_Position Proof_Position Model_System Spec_System Model_Agent Spec_Agent Proof_Agent Proof_System5
  Model_LinkedList Spec_LinkedList Refine_LinkedList Proof_LinkedList Proof_LinkedList2 Proof_LinkedList3
  Proof_LinkedList4 Proof_LinkedList5 Proof_LinkedList6 Proof_Run Model_Run Spec_Run Proof_Run2 Proof_Run3 Proof_System3 Proof_System8 Proof_System9.
Import ListNotations.
Local Open Scope nat_scope.

Section M.
Context {S : scalar} {G : rng S}.
Notation gen := (rstate G).
Implicit Types (a b : merger S) (l : llist (merger S)) (sy : anysys S) (tg : target S) (g : gen).

Lemma total_size_ext {A} (sz : A -> nat) (l l' : llist A) : live_of l' = live_of l ->
  (forall i x, nth_error (contents l) i = Some x -> exists y, nth_error (contents l') i = Some y /\ sz y = sz x) -> length (contents l') = length (contents l) ->
  total_size sz l' = total_size sz l.
Proof.
  intros E H L. unfold total_size. rewrite E. f_equal. apply map_ext. intros i. destruct (nth_error (contents l) i) as [x|] eqn:Ei.
  - destruct (H i x Ei) as (y & -> & Ey). exact Ey.
  - apply nth_error_None in Ei. destruct (nth_error (contents l') i) eqn:Ej; [|reflexivity].
    assert (i < length (contents l')) by (apply nth_error_Some; congruence). lia.
Qed.

Lemma crew_put n m0 radius alpha a (p : pos S) : crew n m0 radius alpha a -> length p = n -> crew n m0 radius alpha (mv_put (merger_mover (G := G)) a p).
Proof.
  intros ((D & L & c & M) & Mo & Ra & Al) Lp. cbn. unfold mg_set, crew, brownian_in, mobility_law in *. cbn. repeat split; eauto.
Qed.
Lemma crew_grow n m0 radius alpha a b : crew n m0 radius alpha a -> crew n m0 radius alpha b -> crew n m0 radius alpha (fst (merger_add_size a (merger_size b))).
Proof.
  intros ((D & L & c & M) & Mo & Ra & Al) (_ & Mb & _). unfold merger_add_size, recoeff. destruct a as [ty mt it d p r k al]. cbn in *. rewrite M. cbn.
  unfold crew, brownian_in, mobility_law in *. cbn in *.
  assert (1 <= k) by (destruct Mo as [(-> & _)|(? & _)]; lia). assert (1 <= merger_size b) by (unfold merger_size; destruct Mb as [(-> & _)|(? & _)]; lia).
  split; [split; [auto|split; [auto|eauto]]|]. split; [right; split; [lia|reflexivity]|auto].
Qed.

Lemma merge_step_ok sy tg (rf : merger S -> S) m0 radius alpha dt l g :
  built sy -> length (tg_pos tg) = sysdim sy -> (forall a, mg_radius a = radius -> rf a = radius) -> (forall a b, mg_radius a = mg_radius b -> rf a = rf b) ->
  reachable l -> Forall (crew (sysdim sy) m0 radius alpha) (contents l) ->
  exists l' g' r, merge_step (core sy) tg rf dt l g = (l', g', r) /\ reachable l' /\ Forall (crew (sysdim sy) m0 radius alpha) (contents l') /\
    length (contents l') = length (contents l) /\ total_size mg_size l' = total_size mg_size l /\
    (forall i, In i (live_of l') -> In i (live_of l)) /\
    (forall i, ~ In i (live_of l) -> nth_error (contents l') i = nth_error (contents l) i) /\
    (r = Ok true \/ r = Ok false \/ r = Err TooLargeTimeStep) /\
    (r <> Ok false -> live_of l' = live_of l) /\
    (r = Ok false -> all_searching sy tg mg_pos l' /\ settled radius l' /\
       (forall j, In j (live_of l) -> ~ In j (live_of l') -> exists i a b, live_at l' i a /\ nth_error (contents l') j = Some b /\ touching radius a b)) /\
    (r = Ok true -> exists i a, live_at l' i a /\ on_target sy tg (mg_pos a)).
Proof.
  intros B T RF RF2 HR HF. unfold merge_step.
  assert (FM : forall a g0 dt0, crew (sysdim sy) m0 radius alpha a -> length (mv_pos (merger_mover (G := G)) a) = sysdim sy /\
    exists g1 dp, mv_move merger_mover a g0 dt0 = (g1, Ok dp) /\ length dp = sysdim sy).
  { intros a g0 dt0 ((D & L & c & M) & _). split; [exact L|]. cbn. unfold merger_random_move. rewrite M, D. apply rnd_move_brownian. }
  destruct (move_pass_ok (G := G) merger_mover (crew (sysdim sy) m0 radius alpha) (sysdim sy) FM (crew_put _ _ _ _) (fun _ _ => eq_refl)
    sy tg dt l g B eq_refl T HR HF) as (l1 & g1 & r & E & R1 & L1 & N1 & F1 & D1 & Mv & Ro & Se & Fo).
  rewrite E.
  assert (TS : total_size mg_size l1 = total_size mg_size l).
  { apply total_size_ext; auto. intros i x Hx. destruct (Mv i x Hx) as (y & Hy & p & [->| ->]); eauto. }
  destruct Ro as [->|[->| ->]].
  - exists l1, g1, (Ok true). rewrite L1. repeat (split; [now auto|]). exact Fo.
  - destruct (pair_pass_ok rf RF2 (sysdim sy) (crew (sysdim sy) m0 radius alpha) (fun a H => proj1 H) (crew_grow _ _ _ _) l1 R1 F1)
      as (l2 & E2 & R2 & F2 & N2 & P2 & T2 & L2 & D2 & A2 & X2). rewrite E2.
    exists l2, g1, (Ok false). split; [reflexivity|]. split; [exact R2|]. split; [exact F2|]. split; [congruence|].
    split; [etransitivity; [exact T2|exact TS]|]. rewrite L1 in *. split; [exact L2|]. split; [intros i Hi; rewrite D2, D1 by exact Hi; reflexivity|].
    split; [auto|]. split; [congruence|]. split; [|discriminate]. intros _.
    assert (CR : forall i a, nth_error (contents l2) i = Some a -> rf a = radius).
    { intros i a Ha. apply RF. apply (proj1 (Forall_forall _ _) F2 a (nth_error_In _ _ Ha)). }
    split; [|split].
    + intros i a (Hi & Ha). assert (Hl : i < length (contents l1)) by (rewrite <- N2; apply nth_error_Some; congruence).
      destruct (nth_error (contents l1) i) as [x|] eqn:Ex; [|apply nth_error_None in Ex; lia].
      destruct (P2 i x Ex) as (y & Hy & Py & _). rewrite Ha in Hy. injection Hy as <-. rewrite Py. apply (Se eq_refl i x (L2 i Hi) Ex).
    + intros i j a b Ha Hb Hij (d & Hd & Ht). specialize (A2 i j a b Ha Hb Hij). unfold closeb in A2. rewrite Hd, (CR i a (proj2 Ha)) in A2. congruence.
    + intros j Hj Nj. destruct (X2 j Hj Nj) as (i & a & b & Ha & Hb & C). exists i, a, b. split; [exact Ha|]. split; [exact Hb|].
      unfold closeb in C. rewrite (CR i a (proj2 Ha)) in C. unfold touching. destruct (distance (mg_pos a) (mg_pos b)) as [d| | |]; try discriminate. eauto.
  - exists l1, g1, (Err TooLargeTimeStep). rewrite L1. repeat (split; [now auto|]). discriminate.
Qed.

(** ** Runs *)
Lemma after_steps_inv {A} (step : llist A -> gen -> llist A * gen * outcome bool) (Inv : llist A -> Prop) :
  (forall (l : llist A) g (l1 : llist A) g1, Inv l -> step l g = (l1, g1, Ok false) -> Inv l1) ->
  forall k (l : llist A) g (l' : llist A) g', Inv l -> after_steps step k l g = Some (l', g') -> Inv l'.
Proof.
  intros H. induction k as [|k IH]; intros l g l' g' I E; cbn in E; [injection E as <- <-; exact I|].
  destruct (step l g) as ((l1, g1), [[]| | |]) eqn:Es; try discriminate. eauto.
Qed.
Lemma after_steps_last {A} (step : llist A -> gen -> llist A * gen * outcome bool) : forall k (l : llist A) g (l' : llist A) g',
  after_steps step (Datatypes.S k) l g = Some (l', g') -> exists (l1 : llist A) g1, after_steps step k l g = Some (l1, g1) /\ step l1 g1 = (l', g', Ok false).
Proof.
  induction k as [|k IH]; intros l g l' g' E.
  - cbn in E. destruct (step l g) as ((l1, g1), [[]| | |]) eqn:Es; try discriminate. injection E as <- <-. exists l, g. auto.
  - cbn [after_steps] in E. destruct (step l g) as ((l1, g1), [[]| | |]) eqn:Es; try discriminate.
    destruct (IH l1 g1 l' g' E) as (l2 & g2 & H1 & H2). exists l2, g2. split; [|exact H2]. cbn. now rewrite Es.
Qed.

Lemma ticks_add (dt : S) j k : ticks dt (j + Datatypes.S k) = ticks dt (Datatypes.S j + k).
Proof. now rewrite Nat.add_succ_r. Qed.
Lemma fixed_run_cases {A} (step : S -> llist A -> gen -> llist A * gen * outcome bool) dt : forall fuel j (l : llist A) g,
  (exists k (l1 : llist A) g1 (l2 : llist A) g2 q, k < fuel /\ after_steps (step dt) k l g = Some (l1, g1) /\ step dt l1 g1 = (l2, g2, q) /\ q <> Ok false /\
     fixed_run step fuel dt (ticks dt j) l g = (l2, g2, match q with Ok _ => Ok (ticks dt (j + Datatypes.S k)) | Err e => Err e | Panic => Panic | Fuel => Fuel end)) \/
  (exists (l1 : llist A) g1, after_steps (step dt) fuel l g = Some (l1, g1) /\ fixed_run step fuel dt (ticks dt j) l g = (l1, g1, Fuel)).
Proof.
  induction fuel as [|fuel IH]; intros j l g; [right; cbn; eauto|].
  destruct (step dt l g) as ((l1, g1), q) eqn:Es. cbn [fixed_run after_steps]. change (add (ticks dt j) dt) with (ticks dt (Datatypes.S j)).
  destruct q as [[]|e| |].
  2:{ rewrite Es. destruct (IH (Datatypes.S j) l1 g1) as [(k & l2 & g2 & l3 & g3 & q & H1 & H2 & H3 & H4 & H5)|(l2 & g2 & H1 & H2)].
      - left. exists (Datatypes.S k), l2, g2, l3, g3, q. split; [lia|]. split; [cbn [after_steps]; now rewrite Es|]. split; [exact H3|]. split; [exact H4|].
        rewrite H5. destruct q; try reflexivity. replace (j + Datatypes.S (Datatypes.S k)) with (Datatypes.S j + Datatypes.S k) by lia. reflexivity.
      - right. exists l2, g2. split; [exact H1|exact H2]. }
  all: left; exists 0, l, g, l1, g1; eexists; split; [lia|]; split; [reflexivity|]; split; [exact Es|]; split; [discriminate|]; rewrite Es;
    try reflexivity; now rewrite Nat.add_1_r.
Qed.

(** ** Placement *)
Lemma core_sampler sy : built sy -> exists acc cand, sampler (sysdim sy) acc cand (sc_random_to (core (G := G) sy)) /\ forall u, length u = sysdim sy -> length (cand u) = sysdim sy.
Proof.
  intros B. destruct sy as [s|s|s].
  - do 2 eexists. split; [exact (circ_sampler s)|]. intros u L. now rewrite spread_length.
  - do 2 eexists. split; [exact (cubic_sampler s)|]. intros u L. now rewrite spread_length.
  - assert (exists d, cy_type s = ContinuousCylindrical d /\ d <= cy_dim s) as (d & Td & D).
    { destruct B as [(c & r & ll & n & E)|(x & E)].
      - unfold cyl_new in E. destruct (n <? c) eqn:C; [discriminate|]. cbn [orb] in E. destruct (leb r s0 || leb ll s0 || (n =? 0)); [discriminate|].
        injection E as <-. exists c. split; [reflexivity|]. apply Nat.ltb_ge in C. exact C.
      - unfold cyl_convert_from in E. destruct (cy_type x) as [| |c1| |] eqn:Tx; try discriminate. destruct (cy_bc x) as [| |c2]; try discriminate.
        destruct (c1 =? c2); cbn [negb orb] in E; [|discriminate]. destruct (cy_dim x <? c1) eqn:C; [discriminate|]. cbn [orb] in E.
        destruct (ltb (cy_radius x) s0 || leb (cy_length x) s0 || (cy_dim x =? 0)); [discriminate|].
        injection E as <-. exists c1. split; [reflexivity|]. apply Nat.ltb_ge in C. exact C. }
    do 2 eexists. split; [exact (cyl_sampler s d Td D)|]. intros u L. unfold cyl_cand_to. rewrite cyl_scale_length, map_length. exact L.
Qed.

Lemma place_ok sy tg inner fuel g (v : pos S) : built sy -> length (tg_pos tg) = sysdim sy -> length v = sysdim sy ->
  (exists q k, place inner fuel (core sy) tg g v = (q, after_blocks (unif G) (sysdim sy) (Datatypes.S k) g, Ok tt) /\ length q = sysdim sy /\ check_find tg q = Ok false) \/
  (exists q g', place inner fuel (core sy) tg g v = (q, g', Fuel)).
Proof.
  intros B T L. destruct (core_sampler sy B) as (acc & cand & SM & LC).
  destruct (place_sampler (sysdim sy) acc cand (core sy) tg SM LC T) as (_ & M). destruct (M inner fuel g v L) as [(k & H1 & H2 & H3 & H4)|(_ & H)]; [left|right; exact H].
  exists (cand (nth_block (unif G) (sysdim sy) k g)), k. split; [exact H4|]. split; [apply LC, nth_block_len|exact H2].
Qed.

Lemma build_ok {A} (new : gen -> gen * outcome A) (Q : A -> Prop) :
  (forall g, (exists (a : A) g', new g = (g', Ok a) /\ Q a) \/ exists g', new g = (g', Fuel)) ->
  forall n g, (exists v g', build_agents new n g = (g', Ok v) /\ length v = n /\ Forall Q v) \/ exists g', build_agents new n g = (g', Fuel).
Proof.
  intros H. induction n as [|n IH]; intros g; [left; exists [], g; auto|]. cbn [build_agents].
  destruct (H g) as [(a & g1 & -> & Qa)|(g1 & ->)]; [|eauto]. destruct (IH g1) as [(v & g2 & -> & L & Qv)|(g2 & ->)]; [|eauto].
  left. exists (a :: v), g2. cbn. split; [reflexivity|]. split; [now rewrite L|now constructor].
Qed.

Lemma from_fresh {A} (v : list A) : exists l : llist A, ll_from v = Ok l /\ reachable l /\ contents l = v /\ live_of l = seq 0 (length v).
Proof.
  destruct (from_ref v) as (l & E & R). exists l. split; [exact E|]. split; [apply (reachable_from _ _ E)|]. split; [exact (rp_items _ _ R)|exact (live_of_rep _ _ R)].
Qed.
Lemma total_fresh {A} (sz : A -> nat) (l : llist A) : live_of l = seq 0 (length (contents l)) -> Forall (fun a : A => sz a = 1) (contents l) -> total_size sz l = length (contents l).
Proof.
  intros H F. unfold total_size. rewrite H. rewrite <- (seq_length (length (contents l)) 0) at 2.
  assert (K : forall i, In i (seq 0 (length (contents l))) -> match nth_error (contents l) i with Some x => sz x | None => 0 end = 1).
  { intros i Hi. apply in_seq in Hi. destruct (nth_error (contents l) i) eqn:E; [|apply nth_error_None in E; lia].
    apply (proj1 (Forall_forall _ _) F _ (nth_error_In _ _ E)). }
  clear H; induction (seq 0 (length (contents l))) as [|i is IH]; [reflexivity|]. cbn. rewrite K by now left. cbn. f_equal. apply IH. intros j Hj. apply K. now right.
Qed.

Definition starts (tg : target S) (a : merger S) : Prop := mg_size a = 1 /\ check_find tg (mg_pos a) = Ok false.

Lemma new_ok sy tg inner pf c radius alpha g : built sy -> length (tg_pos tg) = sysdim sy ->
  (exists a g', merger_new_uniform inner pf (core sy) tg g (Brownian c) radius alpha = (g', Ok a) /\ (crew (sysdim sy) (Brownian c) radius alpha a /\ starts tg a)) \/
  exists g', merger_new_uniform inner pf (core sy) tg g (Brownian c) radius alpha = (g', Fuel).
Proof.
  intros B T. unfold merger_new_uniform. destruct (place_ok sy tg inner pf g (sc_out (core (G := G) sy)) B T (out_length sy)) as [(q & k & -> & L & C)|(q & g' & ->)]; [left|right; cbn; eauto].
  cbn [bind]. do 2 eexists. split; [reflexivity|]. unfold crew, brownian_in, mobility_law, starts. cbn. unfold dim. repeat split; eauto.
Qed.

Lemma step_pop sy tg (rf : merger S -> S) m0 radius alpha dt N l g :
  built sy -> length (tg_pos tg) = sysdim sy -> (forall a, mg_radius a = radius -> rf a = radius) -> (forall a b, mg_radius a = mg_radius b -> rf a = rf b) ->
  population (sysdim sy) m0 radius alpha N l ->
  exists l' g' r, merge_step (core sy) tg rf dt l g = (l', g', r) /\ population (sysdim sy) m0 radius alpha N l' /\
    (forall i, In i (live_of l') -> In i (live_of l)) /\
    (r = Ok true \/ r = Ok false \/ r = Err TooLargeTimeStep) /\
    (r <> Ok false -> live_of l' = live_of l) /\
    (r = Ok false -> all_searching sy tg mg_pos l' /\ settled radius l' /\
       (forall j, In j (live_of l) -> ~ In j (live_of l') -> exists i a b, live_at l' i a /\ nth_error (contents l') j = Some b /\ touching radius a b)) /\
    (r = Ok true -> exists i a, live_at l' i a /\ on_target sy tg (mg_pos a)).
Proof.
  intros B T RF RF2 [H1 H2 H3 H4].
  destruct (merge_step_ok sy tg rf m0 radius alpha dt l g B T RF RF2 H1 H3) as (l' & g' & r & E & K1 & K2 & K3 & K4 & K5 & _ & K6 & K7 & K8 & K9).
  exists l', g', r. split; [exact E|]. split; [constructor; congruence|]. repeat (split; [assumption|]). exact K9.
Qed.

Lemma pop_live n m0 radius alpha N l : population n m0 radius alpha N l -> 1 <= N -> live_of l <> [].
Proof. intros [_ _ _ H] HN E. unfold total_size in H. rewrite E in H. cbn in H. lia. Qed.

Lemma run_pop sy tg (rf : merger S -> S) m0 radius alpha dt N l g k l' g' :
  built sy -> length (tg_pos tg) = sysdim sy -> (forall a, mg_radius a = radius -> rf a = radius) -> (forall a b, mg_radius a = mg_radius b -> rf a = rf b) ->
  population (sysdim sy) m0 radius alpha N l ->
  after_steps (merge_step (core sy) tg rf dt) k l g = Some (l', g') ->
  population (sysdim sy) m0 radius alpha N l' /\ (forall i, In i (live_of l') -> In i (live_of l)) /\
  (1 <= k -> all_searching sy tg mg_pos l' /\ settled radius l').
Proof.
  intros B T RF RF2 HP E.
  assert (I : population (sysdim sy) m0 radius alpha N l' /\ (forall i, In i (live_of l') -> In i (live_of l))).
  { revert E. apply (after_steps_inv _ (fun l' => population (sysdim sy) m0 radius alpha N l' /\ (forall i, In i (live_of l') -> In i (live_of l)))); [|auto].
    intros l0 g0 l1 g1 (P0 & I0) Es. destruct (step_pop sy tg rf m0 radius alpha dt N l0 g0 B T RF RF2 P0) as (l2 & g2 & r & E2 & P2 & L2 & _).
    rewrite Es in E2. injection E2 as <- _ _. split; [exact P2|auto]. }
  destruct I as (I1 & I2). split; [exact I1|]. split; [exact I2|]. intros Hk. destruct k as [|k]; [lia|].
  destruct (after_steps_last _ _ _ _ _ _ E) as (l1 & g1 & E1 & Es).
  assert (P1 : population (sysdim sy) m0 radius alpha N l1).
  { revert E1. apply (after_steps_inv _ (population (sysdim sy) m0 radius alpha N)); [|exact HP].
    intros l0 g0 l2 g2 P0 Es'. destruct (step_pop sy tg rf m0 radius alpha dt N l0 g0 B T RF RF2 P0) as (l3 & g3 & r & E2 & P2 & _).
    rewrite Es' in E2. injection E2 as <- _ _. exact P2. }
  destruct (step_pop sy tg rf m0 radius alpha dt N l1 g1 B T RF RF2 P1) as (l2 & g2 & r & E2 & _ & _ & _ & _ & F & _). rewrite Es in E2. injection E2 as <- _ <-.
  destruct (F eq_refl) as (F1 & F2 & _). auto.
Qed.

Lemma merge_fpt_ok inner pf fuel sy tg c dt n radius alpha g : built sy -> length (tg_pos tg) = sysdim sy ->
  (exists v g0 l0, build_agents (fun g => merger_new_uniform inner pf (core sy) tg g (Brownian c) radius alpha) n g = (g0, Ok v) /\ ll_from v = Ok l0 /\
     population (sysdim sy) (Brownian c) radius alpha n l0 /\ live_of l0 = seq 0 n /\ Forall (fun a => check_find tg (mg_pos a) = Ok false) v /\
     ((exists k l1 g1 l2 g2, k < fuel /\ after_steps (merge_step (core sy) tg (fun _ => radius) dt) k l0 g0 = Some (l1, g1) /\
         ((merge_step (core sy) tg (fun _ => radius) dt l1 g1 = (l2, g2, Ok true) /\
           merge_fpt inner pf fuel (core sy) tg (Brownian c) dt n radius alpha g = (g2, Ok (ticks dt (Datatypes.S k)))) \/
          (merge_step (core sy) tg (fun _ => radius) dt l1 g1 = (l2, g2, Err TooLargeTimeStep) /\
           merge_fpt inner pf fuel (core sy) tg (Brownian c) dt n radius alpha g = (g2, Err TooLargeTimeStep)))) \/
      (exists l1 g1, after_steps (merge_step (core sy) tg (fun _ => radius) dt) fuel l0 g0 = Some (l1, g1) /\
         merge_fpt inner pf fuel (core sy) tg (Brownian c) dt n radius alpha g = (g1, Fuel)))) \/
  (exists g1, build_agents (fun g => merger_new_uniform inner pf (core sy) tg g (Brownian c) radius alpha) n g = (g1, Fuel) /\
     merge_fpt inner pf fuel (core sy) tg (Brownian c) dt n radius alpha g = (g1, Fuel)).
Proof.
  intros B T.
  destruct (build_ok (fun g => merger_new_uniform inner pf (core sy) tg g (Brownian c) radius alpha)
    (fun a => crew (sysdim sy) (Brownian c) radius alpha a /\ starts tg a) (fun g => new_ok sy tg inner pf c radius alpha g B T) n g)
    as [(v & g0 & E & L & F)|(g0 & E)]; [left|right; exists g0; split; [exact E|]; unfold merge_fpt; now rewrite E].
  destruct (from_fresh v) as (l0 & E0 & R0 & C0 & V0). exists v, g0, l0. split; [exact E|]. split; [exact E0|].
  assert (P0 : population (sysdim sy) (Brownian c) radius alpha n l0).
  { constructor; [exact R0|congruence| |].
    - rewrite C0. eapply Forall_impl; [|exact F]. cbn. tauto.
    - rewrite (total_fresh mg_size l0); [congruence|rewrite C0; exact V0|]. rewrite C0. eapply Forall_impl; [|exact F]. unfold starts. cbn. tauto. }
  split; [exact P0|]. split; [congruence|]. split; [eapply Forall_impl; [|exact F]; unfold starts; cbn; tauto|].
  unfold merge_fpt. rewrite E, E0.
  destruct (fixed_run_cases (merge_step (core sy) tg (fun _ => radius)) dt fuel 0 l0 g0)
    as [(k & l1 & g1 & l2 & g2 & q & H1 & H2 & H3 & H4 & H5)|(l1 & g1 & H1 & H2)].
  - left. cbn [ticks] in H5. rewrite H5. cbn [Nat.add]. exists k, l1, g1, l2, g2. split; [exact H1|]. split; [exact H2|].
    destruct (run_pop sy tg (fun _ => radius) (Brownian c) radius alpha dt n l0 g0 k l1 g1 B T (fun _ _ => eq_refl) (fun _ _ _ => eq_refl) P0 H2) as (P1 & _).
    destruct (step_pop sy tg (fun _ => radius) (Brownian c) radius alpha dt n l1 g1 B T (fun _ _ => eq_refl) (fun _ _ _ => eq_refl) P1) as (l3 & g3 & r & E3 & _ & _ & Ro & _).
    rewrite H3 in E3. injection E3 as <- <- <-. destruct Ro as [->|[->| ->]]; [left; auto|congruence|right; auto].
  - right. cbn [ticks] in H2. rewrite H2. exists l1, g1. auto.
Qed.

(** Nobody to search: the loop never ends. *)
Lemma merge_fpt_nobody inner pf fuel (sys : syscore S G) tg mt dt radius alpha g : merge_fpt inner pf fuel sys tg mt dt 0 radius alpha g = (g, Fuel).
Proof.
  unfold merge_fpt. cbn [build_agents]. destruct (ll_from (@nil (merger S))) as [l| | |] eqn:E; try discriminate E.
  assert (H : forall fuel t, fixed_run (merge_step sys tg (fun _ => radius)) fuel dt t l g = (l, g, Fuel)).
  { assert (St : merge_step sys tg (fun _ => radius) dt l g = (l, g, Ok false)) by (injection E as <-; reflexivity).
    induction fuel0 as [|k IH]; intros t; [reflexivity|]. cbn [fixed_run]. rewrite St. apply IH. }
  now rewrite H.
Qed.
End M.
