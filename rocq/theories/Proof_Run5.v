(** Runs of independent searchers and runs driven by a clock. *)
From Coq Require Import Sorted List Lia Arith ZArith.
From Verif Require Import Base Scalar Model_Position Spec_Position Proof_Position Model_System Spec_System Model_Time Spec_Time Model_Agent Spec_Agent Proof_Agent
  Model_LinkedList Spec_LinkedList Refine_LinkedList Proof_LinkedList Proof_LinkedList2 Proof_LinkedList3
  Proof_LinkedList4 Proof_LinkedList5 Proof_LinkedList6 Proof_Run Model_Run Spec_Run Proof_Run2 Proof_Run3 Proof_Run4.
Import ListNotations.
Local Open Scope nat_scope.

Section M.
Context {S : scalar} {G : rng S}.
Notation gen := (rstate G).
Implicit Types (sy : anysys S) (tg : target S) (g : gen).

(** ** Independent searchers *)
Lemma indep_step sy tg m0 dt N (l : llist (indep S)) g : built sy -> length (tg_pos tg) = sysdim sy -> searchers (sysdim sy) m0 N l ->
  exists l' g' r, move_pass indep_mover (core sy) tg dt l g = (l', g', r) /\ searchers (sysdim sy) m0 N l' /\
    (r = Ok true \/ r = Ok false \/ r = Err TooLargeTimeStep) /\
    (r = Ok false -> all_searching sy tg in_pos l') /\
    (r = Ok true -> exists i a, live_at l' i a /\ on_target sy tg (in_pos a)).
Proof.
  intros B T [HR HN HL HF].
  pose (fitA := fun a : indep S => indep_in (sysdim sy) a /\ in_mtype a = m0).
  assert (FM : forall a g0 dt0, fitA a -> length (mv_pos (indep_mover (G := G)) a) = sysdim sy /\
    exists g1 dp, mv_move indep_mover a g0 dt0 = (g1, Ok dp) /\ length dp = sysdim sy).
  { intros a g0 dt0 ((D & L & c & M) & _). split; [exact L|]. cbn. unfold indep_random_move. rewrite M, D. apply rnd_move_brownian. }
  assert (FP : forall a p, fitA a -> length p = sysdim sy -> fitA (mv_put (indep_mover (G := G)) a p)).
  { intros a p ((D & L & c & M) & E) Lp. unfold fitA, indep_in. cbn. repeat split; eauto. }
  destruct (move_pass_ok (G := G) indep_mover fitA (sysdim sy) FM FP (fun _ _ => eq_refl) sy tg dt l g B eq_refl T HR HF)
    as (l1 & g1 & r & E & R1 & L1 & N1 & F1 & D1 & Mv & Ro & Se & Fo).
  exists l1, g1, r. split; [exact E|]. split; [constructor; [exact R1|congruence|congruence|exact F1]|]. split; [exact Ro|]. split; [|exact Fo].
  intros Hr i a (Hi & Ha). apply (Se Hr i a); [congruence|exact Ha].
Qed.

Lemma indep_run sy tg m0 dt N (l : llist (indep S)) g k l' g' : built sy -> length (tg_pos tg) = sysdim sy -> searchers (sysdim sy) m0 N l ->
  after_steps (move_pass indep_mover (core sy) tg dt) k l g = Some (l', g') ->
  searchers (sysdim sy) m0 N l' /\ (1 <= k -> all_searching sy tg in_pos l').
Proof.
  intros B T HP E.
  assert (I : forall k l' g', after_steps (move_pass indep_mover (core sy) tg dt) k l g = Some (l', g') -> searchers (sysdim sy) m0 N l').
  { intros k0 l0 g0. apply (after_steps_inv _ (searchers (sysdim sy) m0 N)); [|exact HP].
    intros l2 g2 l3 g3 P0 Es. destruct (indep_step sy tg m0 dt N l2 g2 B T P0) as (l4 & g4 & r & E2 & P2 & _). rewrite Es in E2. injection E2 as <- _ _. exact P2. }
  split; [exact (I _ _ _ E)|]. intros Hk. destruct k as [|k]; [lia|]. destruct (after_steps_last _ _ _ _ _ _ E) as (l1 & g1 & E1 & Es).
  destruct (indep_step sy tg m0 dt N l1 g1 B T (I _ _ _ E1)) as (l2 & g2 & r & E2 & _ & _ & F & _). rewrite Es in E2. injection E2 as <- _ <-. auto.
Qed.

Lemma indep_new_ok sy tg inner pf c g : built sy -> length (tg_pos tg) = sysdim sy ->
  (exists (a : indep S) g', indep_new_uniform inner pf (core sy) tg g (Brownian c) = (g', Ok a) /\
     ((indep_in (sysdim sy) a /\ in_mtype a = Brownian c) /\ check_find tg (in_pos a) = Ok false)) \/
  exists g', indep_new_uniform inner pf (core sy) tg g (Brownian c) = (g', Fuel).
Proof.
  intros B T. unfold indep_new_uniform. destruct (place_ok sy tg inner pf g (sc_out (core (G := G) sy)) B T (out_length sy)) as [(q & k & -> & L & C)|(q & g' & ->)]; [left|right; cbn; eauto].
  cbn [bind]. do 2 eexists. split; [reflexivity|]. unfold indep_in. cbn. unfold dim. repeat split; eauto.
Qed.

Lemma indep_fpt_ok inner pf fuel sy tg c dt n g : built sy -> length (tg_pos tg) = sysdim sy ->
  (exists v g0 l0, build_agents (fun g => indep_new_uniform inner pf (core sy) tg g (Brownian c)) n g = (g0, Ok v) /\ ll_from v = Ok l0 /\
     searchers (sysdim sy) (Brownian c) n l0 /\ Forall (fun a => check_find tg (in_pos a) = Ok false) v /\
     ((exists k l1 g1 l2 g2, k < fuel /\ after_steps (move_pass indep_mover (core sy) tg dt) k l0 g0 = Some (l1, g1) /\
         ((move_pass indep_mover (core sy) tg dt l1 g1 = (l2, g2, Ok true) /\
           indep_fpt inner pf fuel (core sy) tg (Brownian c) dt n g = (g2, Ok (ticks dt (Datatypes.S k)))) \/
          (move_pass indep_mover (core sy) tg dt l1 g1 = (l2, g2, Err TooLargeTimeStep) /\
           indep_fpt inner pf fuel (core sy) tg (Brownian c) dt n g = (g2, Err TooLargeTimeStep)))) \/
      (exists l1 g1, after_steps (move_pass indep_mover (core sy) tg dt) fuel l0 g0 = Some (l1, g1) /\
         indep_fpt inner pf fuel (core sy) tg (Brownian c) dt n g = (g1, Fuel)))) \/
  (exists g1, build_agents (fun g => indep_new_uniform inner pf (core sy) tg g (Brownian c)) n g = (g1, Fuel) /\
     indep_fpt inner pf fuel (core sy) tg (Brownian c) dt n g = (g1, Fuel)).
Proof.
  intros B T.
  destruct (build_ok (fun g => indep_new_uniform inner pf (core sy) tg g (Brownian c))
    (fun a : indep S => (indep_in (sysdim sy) a /\ in_mtype a = Brownian c) /\ check_find tg (in_pos a) = Ok false) (fun g => indep_new_ok sy tg inner pf c g B T) n g)
    as [(v & g0 & E & L & F)|(g0 & E)]; [left|right; exists g0; split; [exact E|]; unfold indep_fpt; now rewrite E].
  destruct (from_fresh v) as (l0 & E0 & R0 & C0 & V0). exists v, g0, l0. split; [exact E|]. split; [exact E0|].
  assert (P0 : searchers (sysdim sy) (Brownian c) n l0).
  { constructor; [exact R0|congruence|congruence|]. rewrite C0. eapply Forall_impl; [|exact F]. cbn. tauto. }
  split; [exact P0|]. split; [eapply Forall_impl; [|exact F]; cbn; tauto|].
  unfold indep_fpt. rewrite E, E0.
  destruct (fixed_run_cases (move_pass indep_mover (core sy) tg) dt fuel 0 l0 g0)
    as [(k & l1 & g1 & l2 & g2 & q & H1 & H2 & H3 & H4 & H5)|(l1 & g1 & H1 & H2)].
  - left. cbn [ticks] in H5. rewrite H5. cbn [Nat.add]. exists k, l1, g1, l2, g2. split; [exact H1|]. split; [exact H2|].
    destruct (indep_run sy tg (Brownian c) dt n l0 g0 k l1 g1 B T P0 H2) as (P1 & _).
    destruct (indep_step sy tg (Brownian c) dt n l1 g1 B T P1) as (l3 & g3 & r & E3 & _ & Ro & _).
    rewrite H3 in E3. injection E3 as <- <- <-. destruct Ro as [->|[->| ->]]; [left; auto|congruence|right; auto].
  - right. cbn [ticks] in H2. rewrite H2. exists l1, g1. auto.
Qed.

(** ** Clocked runs *)
Lemma clocked_cases {A St : Type} (next : St -> outcome (St * option (S * S))) (step : S -> llist A -> gen -> llist A * gen * outcome bool) (Inv : St -> Prop) last :
  (forall s, Inv s -> exists s' o, next s = Ok (s', o) /\ Inv s') ->
  forall fuel s (l : llist A) g, Inv s ->
  (exists vs t dt s1 l1 g1 l2 g2 q, length vs < fuel /\ collect next (Datatypes.S (length vs)) s = Ok (vs ++ [(t, dt)], s1) /\
     after_dts step (map snd vs) l g = Some (l1, g1) /\ step dt l1 g1 = (l2, g2, q) /\ q <> Ok false /\
     clocked_run next step last fuel s l g = (l2, g2, match q with Ok _ => Ok t | Err e => Err e | Panic => Panic | Fuel => Fuel end)) \/
  (exists vs l1 g1, length vs < fuel /\ yields_all next s vs /\ after_dts step (map snd vs) l g = Some (l1, g1) /\
     clocked_run next step last fuel s l g = (l1, g1, last)) \/
  (exists vs s1 l1 g1, length vs = fuel /\ collect next fuel s = Ok (vs, s1) /\ after_dts step (map snd vs) l g = Some (l1, g1) /\
     clocked_run next step last fuel s l g = (l1, g1, Fuel)).
Proof.
  intros HI. induction fuel as [|fuel IH]; intros s l g Is; [right; right; exists [], s, l, g; auto|].
  destruct (HI s Is) as (s1 & [(t, dt)|] & En & Is1); cbn [clocked_run]; rewrite En.
  2:{ right; left. exists [], l, g. cbn [length map after_dts]. split; [lia|]. split; [exists s, s1; auto|auto]. }
  destruct (step dt l g) as ((l1, g1), q) eqn:Es. destruct q as [[]|e| |].
  2:{ destruct (IH s1 l1 g1 Is1) as [(vs & t' & dt' & s2 & l2 & g2 & l3 & g3 & q & H1 & H2 & H3 & H4 & H5 & H6)|[(vs & l2 & g2 & H1 & (sa & sb & H2 & H2') & H3 & H4)|(vs & s2 & l2 & g2 & H1 & H2 & H3 & H4)]].
      - left. exists ((t, dt) :: vs), t', dt', s2, l2, g2, l3, g3, q. cbn [length app map snd after_dts]. split; [lia|]. split.
        { set (n := Datatypes.S (length vs)) in *. cbn [collect]. rewrite En. cbn [bind]. rewrite H2. reflexivity. }
        rewrite Es. auto.
      - right; left. exists ((t, dt) :: vs), l2, g2. cbn [length map snd after_dts]. split; [lia|]. split.
        { exists sa, sb. split; [|exact H2']. cbn [length collect]. rewrite En. cbn [bind]. rewrite H2. reflexivity. }
        rewrite Es. auto.
      - right; right. exists ((t, dt) :: vs), s2, l2, g2. cbn [length map snd after_dts]. split; [lia|]. split.
        { cbn [collect]. rewrite En. cbn [bind]. rewrite H2. reflexivity. }
        rewrite Es. auto. }
  all: left; exists [], t, dt, s1, l, g, l1, g1; eexists; cbn [length map after_dts app]; split; [lia|]; split; [cbn [collect]; rewrite En; reflexivity|];
    split; [reflexivity|]; split; [exact Es|]; split; [discriminate|]; reflexivity.
Qed.

Lemma after_dts_inv {A} (step : S -> llist A -> gen -> llist A * gen * outcome bool) (Inv : llist A -> Prop) :
  (forall dt (l : llist A) g (l1 : llist A) g1, Inv l -> step dt l g = (l1, g1, Ok false) -> Inv l1) ->
  forall dts (l : llist A) g (l' : llist A) g', Inv l -> after_dts step dts l g = Some (l', g') -> Inv l'.
Proof.
  intros H. induction dts as [|dt dts IH]; intros l g l' g' I E; cbn in E; [injection E as <- <-; exact I|].
  destruct (step dt l g) as ((l1, g1), [[]| | |]) eqn:Es; try discriminate. eauto.
Qed.
Lemma after_dts_last {A} (step : S -> llist A -> gen -> llist A * gen * outcome bool) dt : forall dts (l : llist A) g (l' : llist A) g',
  after_dts step (dts ++ [dt]) l g = Some (l', g') -> exists (l1 : llist A) g1, after_dts step dts l g = Some (l1, g1) /\ step dt l1 g1 = (l', g', Ok false).
Proof.
  induction dts as [|d dts IH]; intros l g l' g' E; cbn [app after_dts] in E.
  - destruct (step dt l g) as ((l1, g1), [[]| | |]) eqn:Es; try discriminate. injection E as <- <-. exists l, g. auto.
  - destruct (step d l g) as ((l1, g1), [[]| | |]) eqn:Es; try discriminate.
    destruct (IH l1 g1 l' g' E) as (l2 & g2 & H1 & H2). exists l2, g2. split; [|exact H2]. cbn. now rewrite Es.
Qed.

Lemma run_pop_dts sy tg (rf : merger S -> S) m0 radius alpha dts N (l : llist (merger S)) g (l' : llist (merger S)) g' :
  built sy -> length (tg_pos tg) = sysdim sy -> (forall a, mg_radius a = radius -> rf a = radius) -> (forall a b, mg_radius a = mg_radius b -> rf a = rf b) ->
  population (sysdim sy) m0 radius alpha N l ->
  after_dts (merge_step (core sy) tg rf) dts l g = Some (l', g') ->
  population (sysdim sy) m0 radius alpha N l' /\ (forall i, In i (live_of l') -> In i (live_of l)) /\
  (dts <> [] -> all_searching sy tg mg_pos l' /\ settled radius l').
Proof.
  intros B T RF RF2 HP E.
  assert (I : forall dts l' g', after_dts (merge_step (core sy) tg rf) dts l g = Some (l', g') ->
    population (sysdim sy) m0 radius alpha N l' /\ (forall i, In i (live_of l') -> In i (live_of l))).
  { intros ds la ga. apply (after_dts_inv _ (fun l' => population (sysdim sy) m0 radius alpha N l' /\ (forall i, In i (live_of l') -> In i (live_of l)))); [|auto].
    intros dt l0 g0 l1 g1 (P0 & I0) Es. destruct (step_pop sy tg rf m0 radius alpha dt N l0 g0 B T RF RF2 P0) as (l2 & g2 & r & E2 & P2 & L2 & _).
    rewrite Es in E2. injection E2 as <- _ _. split; [exact P2|auto]. }
  destruct (I _ _ _ E) as (I1 & I2). split; [exact I1|]. split; [exact I2|]. intros Hk.
  destruct (exists_last Hk) as (ds & dt & ->). destruct (after_dts_last _ _ _ _ _ _ _ E) as (l1 & g1 & E1 & Es).
  destruct (step_pop sy tg rf m0 radius alpha dt N l1 g1 B T RF RF2 (proj1 (I _ _ _ E1))) as (l2 & g2 & r & E2 & _ & _ & _ & _ & F & _).
  rewrite Es in E2. injection E2 as <- _ <-. destruct (F eq_refl) as (F1 & F2 & _). auto.
Qed.

(** ** Renewal of everybody *)
Definition renew_body (inner pf : nat) (sys : syscore S G) tg (i : nat) (a : merger S) g : option (merger S) * gen * outcome bool :=
  let '(a', g1, r) := merger_renew inner pf sys tg g a in
  (Some a', g1, match r with Ok _ => Ok false | Err e => Err e | Panic => Panic | Fuel => Fuel end).
Lemma renew_loop_each inner pf (sys : syscore S G) tg fuel : forall (l : llist (merger S)) g,
  renew_loop inner pf sys tg fuel l g = let '(l', g', r) := for_each (renew_body inner pf sys tg) fuel l g in
    (l', g', match r with Ok _ => Ok tt | Err e => Err e | Panic => Panic | Fuel => Fuel end).
Proof.
  induction fuel as [|k IH]; intros l g; [reflexivity|]. cbn [renew_loop for_each]. destruct (enumerate l) as [(l1, [(i, a)|])| | |]; try reflexivity.
  unfold renew_body. destruct (merger_renew inner pf sys tg g a) as ((a', g1), r). destruct r as [[]| | |]; try reflexivity. cbn [write]. apply IH.
Qed.

Lemma renew_all_ok inner pf sy tg radius alpha (l : llist (merger S)) g : built sy -> length (tg_pos tg) = sysdim sy -> reachable l ->
  live_of l = seq 0 (length (contents l)) -> Forall (recruit (sysdim sy) radius alpha) (contents l) ->
  exists l' g' r, renew_loop inner pf (core sy) tg (Datatypes.S (length (contents l))) (into_iter l) g = (l', g', r) /\ reachable l' /\
    length (contents l') = length (contents l) /\ live_of l' = live_of l /\ Forall (recruit (sysdim sy) radius alpha) (contents l') /\
    (r = Ok tt \/ r = Fuel) /\
    (r = Ok tt -> population (sysdim sy) (Brownian (fpow (of_Z 1) (opp alpha))) radius alpha (length (contents l)) l' /\
       Forall (fun a => check_find tg (mg_pos a) = Ok false) (contents l')).
Proof.
  intros B T HR HL HF. rewrite renew_loop_each.
  destruct (for_each_ref (renew_body inner pf (core sy) tg) l g HR) as (l' & g' & r & E1 & E2 & R' & L'). rewrite E1.
  set (m0 := Brownian (fpow (of_Z 1) (opp alpha)) : movetype S).
  assert (Step : forall i a st, recruit (sysdim sy) radius alpha a -> let '(o, st1, r) := renew_body inner pf (core sy) tg i a st in
    (forall b, o = Some b -> recruit (sysdim sy) radius alpha b /\ True) /\ (r = Ok false \/ r = Fuel) /\
    (r = Ok false -> exists b, o = Some b /\ (crew (sysdim sy) m0 radius alpha b /\ starts tg b)) /\ (r = Ok true -> exists b, o = Some b /\ False)).
  { intros i a st (D & (c & M) & Ra & Al). unfold renew_body, merger_renew. rewrite renew_start_cases.
    assert (Dm : (if negb (length (mg_pos a) =? sysdim sy) then dim (sc_out (core (G := G) sy)) else mg_dim a) = sysdim sy).
    { destruct (negb (length (mg_pos a) =? sysdim sy)); [apply out_length|exact D]. }
    rewrite Dm. destruct (place_ok sy tg inner pf st (sc_out (core (G := G) sy)) B T (out_length sy)) as [(q & k & -> & L & C)|(q & g2 & ->)].
    - unfold recoeff. cbn [mg_mtype mg_resize mg_set]. rewrite M. split.
      { intros b [= <-]. split; [|exact I]. unfold recruit. cbn. eauto. }
      split; [auto|]. split; [|discriminate]. intros _. eexists. split; [reflexivity|].
      unfold crew, brownian_in, mobility_law, starts. cbn. rewrite Al. repeat split; eauto.
    - split; [|split; [auto|split; discriminate]]. intros b [= <-]. split; [|exact I]. unfold recruit. cbn. eauto. }
  destruct (chains l HR) as (CS & CR & _).
  destruct (each_inv (renew_body inner pf (core sy) tg) (recruit (sysdim sy) radius alpha) (fun _ _ => True) (fun b => crew (sysdim sy) m0 radius alpha b /\ starts tg b)
    (fun _ => False) (fun r => r = Ok false \/ r = Fuel) (fun _ => I) (or_introl eq_refl) Step _ _ _ _ _ _ E2 (sorted_NoDup _ CS) CR HF) as (I1 & I2 & I3 & _ & _ & I6 & _).
  exists l', g'. eexists. split; [reflexivity|]. split; [exact R'|]. split; [exact I1|]. split; [exact L'|]. split; [exact I2|].
  destruct I3 as [->| ->]; [split; [auto|]|split; [auto|discriminate]]. intros _.
  assert (FD : Forall (fun b => crew (sysdim sy) m0 radius alpha b /\ starts tg b) (contents l')).
  { apply Forall_forall. intros b Hb. apply In_nth_error in Hb as (i & Hi). apply (I6 eq_refl i b); [|exact Hi]. rewrite HL. apply in_seq.
    assert (i < length (contents l')) by (apply nth_error_Some; congruence). lia. }
  split; [|eapply Forall_impl; [|exact FD]; unfold starts; cbn; tauto].
  constructor; [exact R'|exact I1|eapply Forall_impl; [|exact FD]; cbn; tauto|].
  rewrite <- I1. apply total_fresh; [congruence|]. eapply Forall_impl; [|exact FD]. unfold starts. cbn. tauto.
Qed.

Lemma pop_recruits n c radius alpha N (l : llist (merger S)) : population n (Brownian c) radius alpha N l -> Forall (recruit n radius alpha) (contents l).
Proof. intros [_ _ H _]. eapply Forall_impl; [|exact H]. intros a ((D & _ & M) & _ & Ra & Al). unfold recruit. auto. Qed.

Lemma es_next_total (s : expstep S) : (exists a b len, es_titype s = Model_Time.Exponential a b len) ->
  exists s' o, diff_next es_next es_dt s = Ok (s', o) /\ exists a b len, es_titype s' = Model_Time.Exponential a b len.
Proof.
  intros (a & b & len & T). unfold diff_next, es_next. rewrite T.
  destruct (if ltb (es_dt s) b && (es_count s =? len) then _ else _) as (d, c). destruct (leb (es_current s) (es_tmax s)); cbn [bind]; do 2 eexists; (split; [reflexivity|]); cbn; eauto.
Qed.

Lemma large_n_ok inner pf fuel sy tg radius alpha (clock : expstep S) (l : llist (merger S)) g a b len : built sy -> length (tg_pos tg) = sysdim sy ->
  reachable l -> Forall (recruit (sysdim sy) radius alpha) (contents l) -> es_titype clock = Model_Time.Exponential a b len ->
  let N := length (contents l) in let m0 := Brownian (fpow (of_Z 1) (opp alpha)) : movetype S in
  exists clock0 l' g' r, es_renew clock = Ok clock0 /\ large_n_fpt inner pf fuel (core sy) tg clock l g = (l', g', r) /\
    reachable l' /\ length (contents l') = N /\ Forall (recruit (sysdim sy) radius alpha) (contents l') /\
    (r = Fuel \/ exists l0 g0, population (sysdim sy) m0 radius alpha N l0 /\ live_of l0 = seq 0 N /\ Forall (fun x => check_find tg (mg_pos x) = Ok false) (contents l0) /\
      population (sysdim sy) m0 radius alpha N l' /\
      ((exists vs t dt s1 l1 g1, collect (diff_next es_next es_dt) (Datatypes.S (length vs)) clock0 = Ok (vs ++ [(t, dt)], s1) /\
          after_dts (merge_step (core sy) tg mg_radius) (map snd vs) l0 g0 = Some (l1, g1) /\
          ((merge_step (core sy) tg mg_radius dt l1 g1 = (l', g', Ok true) /\ r = Ok t) \/
           (merge_step (core sy) tg mg_radius dt l1 g1 = (l', g', Err TooLargeTimeStep) /\ r = Err TooLargeTimeStep))) \/
       (exists vs, yields_all (diff_next es_next es_dt) clock0 vs /\
          after_dts (merge_step (core sy) tg mg_radius) (map snd vs) l0 g0 = Some (l', g') /\ r = Err UnexpectedEnd))).
Proof.
  intros B T HR HF Tc N m0. assert (exists c0, es_renew clock = Ok c0 /\ es_titype c0 = Model_Time.Exponential a b len) as (c0 & Ec & Tc0).
  { unfold es_renew. rewrite Tc. eexists. split; [reflexivity|]. reflexivity. }
  exists c0. unfold large_n_fpt. rewrite Ec. destruct (reachable_rep l HR) as (s & Rs). destruct (connect_all_ref l s Rs) as (l1 & E1 & R1). rewrite E1.
  assert (HR1 : reachable l1) by (apply (reachable_step l (OConnectAll) l1 RUnit HR); cbn; now rewrite E1).
  assert (C1 : contents l1 = contents l) by (rewrite (rp_items _ _ R1), (rp_items _ _ Rs); reflexivity).
  assert (L1 : live_of l1 = seq 0 (length (contents l1))) by (rewrite (live_of_rep _ _ R1), (rp_items _ _ R1); reflexivity).
  destruct (renew_all_ok inner pf sy tg radius alpha l1 g B T HR1 L1 ltac:(now rewrite C1)) as (l2 & g2 & r & E2 & R2 & N2 & L2 & F2 & Ro & P2). rewrite E2.
  destruct Ro as [->| ->].
  2:{ exists l2, g2, Fuel. split; [reflexivity|]. split; [reflexivity|]. split; [exact R2|]. split; [unfold N; congruence|]. split; [exact F2|]. now left. }
  destruct (P2 eq_refl) as (P & O). rewrite C1 in P. fold N in P. fold m0 in P.
  assert (RFa : forall a0 : merger S, mg_radius a0 = radius -> mg_radius a0 = radius) by auto.
  assert (RFb : forall a0 b0 : merger S, mg_radius a0 = mg_radius b0 -> mg_radius a0 = mg_radius b0) by auto.
  destruct (clocked_cases (diff_next es_next es_dt) (merge_step (core sy) tg mg_radius) (fun s => exists a b len, es_titype s = Model_Time.Exponential a b len)
     (Err UnexpectedEnd) es_next_total fuel c0 l2 g2 (ex_intro _ a (ex_intro _ b (ex_intro _ len Tc0)))) as
     [(vs & t & dt & s1 & l3 & g3 & l4 & g4 & q & H1 & H2 & H3 & H4 & H5 & H6)|[(vs & l3 & g3 & H1 & H2 & H3 & H4)|(vs & s2 & l3 & g3 & H1 & H2 & H3 & H4)]].
  - rewrite H6. destruct (run_pop_dts sy tg mg_radius m0 radius alpha _ N l2 g2 l3 g3 B T RFa RFb P H3) as (P3 & _ & _).
    destruct (step_pop sy tg mg_radius m0 radius alpha dt N l3 g3 B T RFa RFb P3) as (l5 & g5 & r & E5 & P5 & _ & Ro & _).
    rewrite H4 in E5. injection E5 as <- <- <-. exists l4, g4. eexists. split; [reflexivity|]. split; [reflexivity|]. split; [exact (pop_list _ _ _ _ _ _ P5)|].
    split; [exact (pop_slots _ _ _ _ _ _ P5)|]. split; [exact (pop_recruits _ _ _ _ _ _ P5)|]. right. exists l2, g2. split; [exact P|]. split; [rewrite L2, L1, C1; reflexivity|].
    split; [exact O|]. split; [exact P5|]. left. exists vs, t, dt, s1, l3, g3. split; [exact H2|]. split; [exact H3|].
    destruct Ro as [->|[->| ->]]; [left; auto|congruence|right; auto].
  - rewrite H4. destruct (run_pop_dts sy tg mg_radius m0 radius alpha _ N l2 g2 l3 g3 B T RFa RFb P H3) as (P3 & _ & _).
    exists l3, g3, (Err UnexpectedEnd). split; [reflexivity|]. split; [reflexivity|]. split; [exact (pop_list _ _ _ _ _ _ P3)|].
    split; [exact (pop_slots _ _ _ _ _ _ P3)|]. split; [exact (pop_recruits _ _ _ _ _ _ P3)|]. right. exists l2, g2. split; [exact P|]. split; [rewrite L2, L1, C1; reflexivity|].
    split; [exact O|]. split; [exact P3|]. right. exists vs. auto.
  - rewrite H4. destruct (run_pop_dts sy tg mg_radius m0 radius alpha _ N l2 g2 l3 g3 B T RFa RFb P H3) as (P3 & _ & _).
    exists l3, g3, Fuel. split; [reflexivity|]. split; [reflexivity|]. split; [exact (pop_list _ _ _ _ _ _ P3)|].
    split; [exact (pop_slots _ _ _ _ _ _ P3)|]. split; [exact (pop_recruits _ _ _ _ _ _ P3)|]. now left.
Qed.
End M.
