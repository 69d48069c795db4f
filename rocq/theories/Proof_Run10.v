(** The whole program examples/mfpt_exp.rs: samples and ensemble. *)
From Coq Require Import Sorted List Lia Arith ZArith Reals Lra.
From Verif Require Import Base Scalar Model_Position Spec_Position Proof_Position Model_System Spec_System Proof_System Proof_System2 Proof_System5 Proof_System8 Model_Agent Spec_Agent
  Proof_Agent Proof_Agent2 Proof_Agent4 Model_LinkedList Spec_LinkedList Refine_LinkedList Proof_LinkedList Proof_LinkedList2 Proof_LinkedList3
  Proof_LinkedList4 Proof_LinkedList5 Proof_LinkedList6 Model_Time Spec_Time Proof_Time Proof_Run Model_Run Spec_Run Proof_Run2 Proof_Run4 Proof_Run5 Spec_Run2 Proof_Run6 Proof_Run7 Proof_Run8 Proof_Run9.
Import ListNotations.
Local Open Scope nat_scope.

Section Sample.
Context {S : scalar} {G : rng S}.
Notation gen := (rstate G).
Variables (n N : nat) (sys : syscore S G) (tg : target S) (limit : S) (P recruit : expag S -> Prop) (inside : pos S -> Prop) (V : pos S -> Prop) (Rok : outcome bool -> Prop).
Hypothesis P_in : forall a, P a -> exp_in n a.
Hypothesis P_recruit : forall a, P a -> recruit a.
Hypothesis V_limit : forall v, length v = n -> V (limit_move limit v).
Hypothesis tg_dim : length (tg_pos tg) = n.
Hypothesis bc_ok : forall a v, P a -> length v = n -> V v -> let (p, r) := sc_check_bc sys (ex_pos a) v in
  P (exp_put a p) /\ (r = Ok tt -> inside p) /\ (r = Ok tt \/ exists e, r = Err e /\ Rok (Err e)).
Hypothesis Rok_ok : forall x, Rok (Ok x).
Hypothesis Rok_only : Rok Panic -> False.
Hypothesis Rok_fuel : Rok Fuel -> False.
Variables (inner pf : nat).
Hypothesis renew_ok : forall a g, recruit a -> let '(a', g1, o) := expag_renew inner pf sys tg g a in recruit a' /\ ((o = Ok tt /\ P a') \/ o = Fuel).

Notation team l := (exp_crew n N l /\ Forall P (contents l)).

Lemma renew_slots_ok cs : forall g, Forall recruit cs -> exists cs' g' o, renew_slots inner pf sys tg cs g = (cs', g', o) /\ length cs' = length cs /\ Forall recruit cs' /\
  ((o = Ok tt /\ Forall P cs') \/ o = Fuel).
Proof.
  induction cs as [|a cs IH]; intros g H; [exists [], g, (Ok tt); split; [reflexivity|]; split; [reflexivity|]; split; [constructor|]; left; split; [reflexivity|constructor]|]. apply Forall_cons_iff in H as (Ha & H). cbn [renew_slots].
  pose proof (renew_ok a g Ha) as R. destruct (expag_renew inner pf sys tg g a) as ((a', g1), o). destruct R as (R1 & [(-> & R2)| ->]).
  - destruct (IH g1 H) as (cs' & g' & o & -> & L & F & C). exists (a' :: cs'), g', o. split; [reflexivity|]. split; [cbn; congruence|]. split; [auto|].
    destruct C as [(-> & C)| ->]; auto.
  - exists (a' :: cs), g1, Fuel. split; [reflexivity|]. auto.
Qed.

Lemma crew_recruit l : team l -> reachable l /\ length (contents l) = N /\ Forall recruit (contents l).
Proof. intros ([R L _ _] & F). split; [exact R|]. split; [exact L|]. eapply Forall_impl; [|exact F]. exact P_recruit. Qed.

Lemma exp_step_inv dt l d m g l1 d1 m1 g1 r : team l -> move_list n N m -> length d = n -> exp_step sys tg limit dt l d m g = (l1, d1, m1, g1, r) ->
  team l1 /\ move_list n N m1 /\ length d1 = n /\ Rok r /\
  (r = Ok false -> Forall (fun b => inside (ex_pos b) /\ check_find tg (ex_pos b) = Ok false) (contents l1)) /\
  (r = Ok true -> Exists (fun b => inside (ex_pos b) /\ check_find tg (ex_pos b) = Ok true) (contents l1)).
Proof.
  intros HT HM Ld E. destruct (exp_step_ok n sys tg limit P inside V Rok P_in V_limit tg_dim bc_ok Rok_ok dt N l d m g HT HM Ld) as (l' & d' & m' & g' & r' & E' & A1 & A2 & A3 & A4 & _ & A6 & A7).
  rewrite E in E'. injection E' as <- <- <- <- <-. do 4 (split; [assumption|]). split.
  - intros Hr. apply Forall_forall. intros b Hb. apply In_nth_error in Hb as (i & Hi).
    assert (i < N). { destruct A1 as ([_ L _ _] & _). rewrite <- L. apply nth_error_Some. congruence. }
    destruct (A6 Hr i H) as (a & b' & _ & Hb' & _ & Hin). rewrite Hi in Hb'. injection Hb' as <-. exact Hin.
  - intros Hr. destruct (A7 Hr) as (i & b & _ & Hb & Hin). apply Exists_exists. exists b. split; [apply (nth_error_In _ _ Hb)|exact Hin].
Qed.

Variables (St : Type) (next : St -> outcome (St * option (S * S))) (Inv : St -> Prop).
Hypothesis next_ok : forall s, Inv s -> exists s' o, next s = Ok (s', o) /\ Inv s'.

Lemma exp_run_ok fuel c l d m g : Inv c -> team l -> move_list n N m -> length d = n ->
  exists l' d' m' g' r, exp_run next sys tg limit fuel c l d m g = (l', d', m', g', r) /\ team l' /\ move_list n N m' /\ length d' = n /\
   (r = Fuel \/
    (exists e, r = Err e /\ Rok (Err e)) \/
    (exists vs t dt s1, r = Ok t /\ collect next (Datatypes.S (length vs)) c = Ok (vs ++ [(t, dt)], s1) /\
       Exists (fun b => inside (ex_pos b) /\ check_find tg (ex_pos b) = Ok true) (contents l')) \/
    (exists vs, r = Ok s0 /\ yields_all next c vs /\
       (vs <> [] -> Forall (fun b => inside (ex_pos b) /\ check_find tg (ex_pos b) = Ok false) (contents l')))).
Proof.
  intros Ic HT HM Ld.
  set (I := fun (l : llist (expag S)) (d : pos S) (m : llist (pos S)) => team l /\ move_list n N m /\ length d = n).
  assert (IS : forall dt l d m g l1 d1 m1 g1, I l d m -> exp_step sys tg limit dt l d m g = (l1, d1, m1, g1, Ok false) -> I l1 d1 m1).
  { intros dt l0 d0 m0 g0 l1 d1 m1 g1 (X1 & X2 & X3) E. destruct (exp_step_inv dt l0 d0 m0 g0 l1 d1 m1 g1 _ X1 X2 X3 E) as (Y1 & Y2 & Y3 & _). split; auto. }
  destruct (exp_run_cases next sys tg limit Inv next_ok fuel c l d m g Ic) as
    [(vs & t & dt & s1 & l1 & d1 & m1 & g1 & l2 & d2 & m2 & g2 & q & H1 & H2 & H3 & H4 & H5 & H6)|[(vs & l1 & d1 & m1 & g1 & H1 & H2 & H3 & H4)|(vs & s1 & l1 & d1 & m1 & g1 & H1 & H2 & H3 & H4)]].
  - pose proof (exp_after_inv sys tg limit I IS _ _ _ _ _ _ _ _ _ (conj HT (conj HM Ld)) H3) as (X1 & X2 & X3).
    destruct (exp_step_inv _ _ _ _ _ _ _ _ _ _ X1 X2 X3 H4) as (Y1 & Y2 & Y3 & Y4 & Y5 & Y6).
    rewrite H6. do 5 eexists. split; [reflexivity|]. do 3 (split; [assumption|]).
    destruct q as [[]|e| |]; [|contradiction|right; left; eauto|exfalso; exact (Rok_only Y4)|exfalso; exact (Rok_fuel Y4)].
    right; right; left. exists vs, t, dt, s1. split; [reflexivity|]. split; [exact H2|]. now apply Y6.
  - pose proof (exp_after_inv sys tg limit I IS _ _ _ _ _ _ _ _ _ (conj HT (conj HM Ld)) H3) as (X1 & X2 & X3).
    rewrite H4. do 5 eexists. split; [reflexivity|]. do 3 (split; [assumption|]). right; right; right. exists vs. split; [reflexivity|]. split; [exact H2|].
    intros Nv. destruct (exists_last Nv) as (vs0 & (t, dt) & ->). rewrite map_app in H3. cbn [map snd] in H3.
    destruct (exp_after_last sys tg limit dt _ _ _ _ _ _ _ _ _ H3) as (l0 & d0 & m0 & g0 & E1 & E2).
    pose proof (exp_after_inv sys tg limit I IS _ _ _ _ _ _ _ _ _ (conj HT (conj HM Ld)) E1) as (Z1 & Z2 & Z3).
    destruct (exp_step_inv _ _ _ _ _ _ _ _ _ _ Z1 Z2 Z3 E2) as (_ & _ & _ & _ & W & _). now apply W.
  - pose proof (exp_after_inv sys tg limit I IS _ _ _ _ _ _ _ _ _ (conj HT (conj HM Ld)) H3) as (X1 & X2 & X3).
    rewrite H4. do 5 eexists. split; [reflexivity|]. do 3 (split; [assumption|]). now left.
Qed.

(** One sample. *)
Lemma exp_sample_ok fuel c l d m g : Inv c -> reachable l -> length (contents l) = N -> Forall recruit (contents l) -> move_list n N m -> length d = n ->
  exists l' d' m' g' r, exp_sample next inner pf sys tg limit fuel c l d m g = (l', d', m', g', r) /\
   (reachable l' /\ length (contents l') = N /\ Forall recruit (contents l')) /\ move_list n N m' /\ length d' = n /\
   (r = Fuel \/
    (exists e, r = Err e /\ Rok (Err e)) \/
    (exists first vs t dt s1, r = Ok t /\ collect next (Datatypes.S (Datatypes.S (length vs))) c = Ok (first :: vs ++ [(t, dt)], s1) /\
       Exists (fun b => inside (ex_pos b) /\ check_find tg (ex_pos b) = Ok true) (contents l')) \/
    (exists vs, r = Ok s0 /\ yields_all next c vs /\
       (2 <= length vs -> Forall (fun b => inside (ex_pos b) /\ check_find tg (ex_pos b) = Ok false) (contents l')))).
Proof.
  intros Ic HR HL HF HM Ld. unfold exp_sample. destruct (renew_slots_ok (contents l) g HF) as (cs & g1 & o & E & L1 & F1 & C). rewrite E.
  pose proof (contents_reach cs l HR L1) as R1.
  destruct C as [(-> & C)| ->].
  2:{ do 5 eexists. split; [reflexivity|]. split; [split; [exact R1|split; [cbn; congruence|exact F1]]|]. do 2 (split; [assumption|]). now left. }
  destruct (reachable_rep _ R1) as (s & Rs). destruct (connect_all_ref _ s Rs) as (l2 & E2 & R2). rewrite E2.
  assert (HR2 : reachable l2) by (apply (reachable_step _ (OConnectAll) l2 RUnit R1); cbn [step]; now rewrite E2).
  assert (C2 : contents l2 = cs) by (rewrite (rp_items _ _ R2); pose proof (rp_items _ _ Rs) as X; cbn in X |- *; congruence).
  assert (L2 : live_of l2 = seq 0 N).
  { rewrite (live_of_rep _ _ R2). cbn [live]. pose proof (rp_items _ _ Rs) as X. cbn in X. rewrite <- X. f_equal. congruence. }
  assert (T2 : team l2).
  { split; [split; [exact HR2|congruence|exact L2|]|rewrite C2; exact C]. rewrite C2. eapply Forall_impl; [|exact C]. exact P_in. }
  destruct (next_ok c Ic) as (c1 & [first|] & En & I1); rewrite En.
  2:{ do 5 eexists. split; [reflexivity|]. split; [exact (crew_recruit l2 T2)|]. do 2 (split; [assumption|]). right; right; right. exists []. split; [reflexivity|].
      split; [exists c, c1; auto|cbn; lia]. }
  destruct (exp_run_ok fuel c1 l2 d m g1 I1 T2 HM Ld) as (l' & d' & m' & g' & r & Er & T' & M' & D' & Cr).
  exists l', d', m', g', r. split; [exact Er|]. split; [exact (crew_recruit l' T')|]. do 2 (split; [assumption|]).
  destruct Cr as [->|[(e & Ee & Re)|[(vs & t & dt & s1 & -> & Hc & Hx)|(vs & -> & (sa & sb & Hy1 & Hy2) & Hx)]]].
  - now left.
  - right; left; eauto.
  - right; right; left. exists first, vs, t, dt, s1. split; [reflexivity|]. split; [|exact Hx].
    set (k := Datatypes.S (length vs)) in *. cbn [collect]. rewrite En. cbn [bind]. rewrite Hc. reflexivity.
  - right; right; right. exists (first :: vs). split; [reflexivity|]. split.
    + exists sa, sb. split; [|exact Hy2]. cbn [length collect]. rewrite En. cbn [bind]. rewrite Hy1. reflexivity.
    + intros Hl. apply Hx. intros ->. cbn in Hl. lia.
Qed.

Notation written := (exp_value next).
Lemma exp_ensemble_ok fuel c num : forall l d m g, Inv c -> reachable l -> length (contents l) = N -> Forall recruit (contents l) -> move_list n N m -> length d = n ->
  exists ts g' o, exp_ensemble next inner pf sys tg limit fuel c num l d m g = (ts, g', o) /\ Forall (written c) ts /\
    ((o = Ok tt /\ length ts = num) \/ (length ts < num /\ (o = Fuel \/ exists e, o = Err e /\ Rok (Err e)))).
Proof.
  induction num as [|k IH]; intros l d m g Ic HR HL HF HM Ld; [exists [], g, (Ok tt); split; [reflexivity|]; split; [constructor|]; left; split; reflexivity|]. cbn [exp_ensemble].
  destruct (exp_sample_ok fuel c l d m g Ic HR HL HF HM Ld) as (l' & d' & m' & g' & r & -> & (R' & L' & F') & M' & D' & Cr).
  assert (Go : forall t, written c t -> r = Ok t -> exists ts g'' o, (let '(ts, g2, o) := exp_ensemble next inner pf sys tg limit fuel c k l' d' m' g' in (t :: ts, g2, o)) = (ts, g'', o) /\
     Forall (written c) ts /\ ((o = Ok tt /\ length ts = Datatypes.S k) \/ (length ts < Datatypes.S k /\ (o = Fuel \/ exists e, o = Err e /\ Rok (Err e))))).
  { intros t Wt _. destruct (IH l' d' m' g' Ic R' L' F' M' D') as (ts & g2 & o & -> & Ft & Co). exists (t :: ts), g2, o. split; [reflexivity|]. split; [auto|].
    cbn [length]. destruct Co as [(-> & Lt)|(Lt & Co)]; [left; split; [reflexivity|lia]|right; split; [lia|exact Co]]. }
  destruct Cr as [->|[(e & -> & Re)|[(first & vs & t & dt & s1 & -> & Hc & _)|(vs & -> & _)]]].
  - exists [], g', Fuel. split; [reflexivity|]. split; [auto|]. right. cbn. split; [lia|auto].
  - exists [], g', (Err e). split; [reflexivity|]. split; [auto|]. right. cbn. split; [lia|eauto].
  - apply Go; [right; eauto 6|reflexivity].
  - apply Go; [now left|reflexivity].
Qed.
End Sample.

Section Any.
Context {S : scalar} {G : rng S}.
Notation gen := (rstate G).
Variables (sy : anysys S) (tg : target S) (limit : S) (inner pf : nat).
Hypothesis B : built sy.
Hypothesis T : length (tg_pos tg) = sysdim sy.
Notation n := (sysdim sy).

Lemma exp_put_in m (a : expag S) p : exp_in m a -> length p = m -> exp_in m (exp_put a p).
Proof. intros (A1 & _ & A3) L. split; [exact A1|]. split; [exact L|exact A3]. Qed.

Definition tle_ok (r : outcome bool) : Prop := (exists b, r = Ok b) \/ r = Err TooLargeTimeStep.
Lemma tle_panic : tle_ok Panic -> False.
Proof. intros [(b & E)|E]; discriminate E. Qed.
Lemma tle_fuel : tle_ok Fuel -> False.
Proof. intros [(b & E)|E]; discriminate E. Qed.
Lemma bc_any (a : expag S) v : exp_in n a -> length v = n -> True -> let (p, r) := sc_check_bc (core (G := G) sy) (ex_pos a) v in
  exp_in n (exp_put a p) /\ (r = Ok tt -> accepts sy p) /\ (r = Ok tt \/ exists e, r = Err e /\ tle_ok (Err e)).
Proof.
  clear T. intros Pa Lv _. destruct (core_shape (G := G) sy B (ex_pos a) v) as (_ & _ & Sh). destruct Pa as (A1 & A2 & A3).
  destruct (Sh ltac:(lia) A2) as (q & Lq & [E|E]); rewrite E.
  - split; [apply exp_put_in; [split; auto|exact Lq]|]. split; [intros _; exact (core_ok_inside sy _ _ _ E)|now left].
  - split; [apply exp_put_in; [split; auto|exact Lq]|]. split; [discriminate|]. right. exists TooLargeTimeStep. split; [reflexivity|now right].
Qed.
Lemma renew_eq (a : expag S) (g : gen) : ex_dim a = n -> exists cp cf, expag_renew inner pf (core sy) tg g a =
  let '(p1, g1, r) := place inner pf (core sy) tg g (sc_out (core (G := G) sy)) in
  (Expag (ex_type a) (ex_int a) (ex_mtype a) (ex_itype a) n p1 (ex_gamma a) (ex_strength a) cp cf, g1, r).
Proof.
  intros D. unfold expag_renew. rewrite renew_start_cases. unfold exp_coeff. pose proof (out_length (G := G) sy) as O. unfold dim.
  destruct (negb (length (ex_pos a) =? n)).
  - rewrite O. do 2 eexists. reflexivity.
  - rewrite D. do 2 eexists. reflexivity.
Qed.
Lemma renew_any (a : expag S) (g : gen) : exp_recruit n a -> let '(a', g1, o) := expag_renew inner pf (core sy) tg g a in exp_recruit n a' /\ ((o = Ok tt /\ exp_in n a') \/ o = Fuel).
Proof.
  intros (D & c & M). destruct (renew_eq a g D) as (cp & cf & ->).
  destruct (place_ok sy tg inner pf g (sc_out (core (G := G) sy)) B T (out_length sy)) as [(q & k & -> & L & C)|(q & g2 & ->)].
  - split; [split; [reflexivity|exists c; exact M]|]. left. split; [reflexivity|]. split; [reflexivity|]. split; [exact L|exists c; exact M].
  - split; [split; [reflexivity|exists c; exact M]|]. now right.
Qed.
End Any.

(** The program: what it writes and how it ends. *)
Lemma build_lists {S : scalar} m (args : expag_args S) : exp_args_for m args -> exists v l mv,
  expag_convert_from args = Ok v /\ ll_from v = Ok l /\ ll_from (repeat (repeat s0 m) (length v)) = Ok mv /\
  reachable l /\ length (contents l) = ea_num args /\ Forall (exp_recruit m) (contents l) /\ move_list (S := S) m (ea_num args) mv.
Proof.
  intros (D & (c & M) & It).
  assert (exists a, expag_convert_from args = Ok (repeat a (ea_num args)) /\ exp_recruit m a) as (a & E & R).
  { unfold expag_convert_from. assert (X : exists p d0, (match ea_itype args with Uniform => (0%nat, []) | SpecificPosition p => (dim p, p) end) = (d0, p) /\ (d0 = 0 \/ d0 = m)).
    { destruct (ea_itype args) as [p|]; [|do 2 eexists; split; [reflexivity|now left]]. exists p, (dim p). split; [reflexivity|]. unfold dim. tauto. }
    destruct X as (p & d0 & -> & [->| ->]); cbn [Nat.eqb].
    - cbn [bind]. unfold exp_coeff. eexists. split; [reflexivity|]. split; [exact D|exists c; exact M].
    - rewrite D. destruct (m =? 0) eqn:Z; [|rewrite Nat.eqb_refl; cbn [negb]]; cbn [bind]; unfold exp_coeff; eexists; (split; [reflexivity|]); (split; [reflexivity|exists c; exact M]). }
  destruct (from_fresh (repeat a (ea_num args))) as (l & El & Rl & Cl & _).
  destruct (from_fresh (repeat (repeat (s0 : S) m) (length (repeat a (ea_num args))))) as (mv & Em & Rm & Cm & Lm).
  exists (repeat a (ea_num args)), l, mv. split; [exact E|]. split; [exact El|]. split; [exact Em|]. split; [exact Rl|]. split; [rewrite Cl; apply repeat_length|].
  split; [rewrite Cl; apply Forall_forall; intros x Hx; apply repeat_spec in Hx; now subst|].
  rewrite repeat_length in Cm, Lm. rewrite repeat_length in Lm. split; [exact Rm|refine (eq_trans (f_equal (@length _) Cm) _); apply repeat_length|exact Lm|].
  refine (eq_ind_r (Forall (fun v0 => length v0 = m)) _ Cm). apply Forall_forall. intros x Hx. apply repeat_spec in Hx. subst x. apply repeat_length.
Qed.

Lemma mfpt_exp_any {S : scalar} {G : rng S} (sy : anysys S) (tg : target S) (args : expag_args S) limit (clock : expstep S) inner pf fuel num (g : rstate G) a b len :
  built sy -> length (tg_pos tg) = sysdim sy -> exp_args_for (sysdim sy) args -> es_titype clock = Model_Time.Exponential a b len ->
  exists ts g' o, mfpt_exp (diff_next es_next es_dt) inner pf fuel num (core sy) (sysdim sy) tg args limit clock g = (ts, g', o) /\
    Forall (exp_value (diff_next es_next es_dt) clock) ts /\
    ((o = Ok tt /\ length ts = num) \/ (length ts < num /\ (o = Fuel \/ o = Err TooLargeTimeStep))).
Proof.
  intros B T HA Tc. destruct (build_lists (sysdim sy) args HA) as (v & l & mv & E1 & E2 & E3 & R & L & F & M).
  unfold mfpt_exp. rewrite E1. destruct HA as (D & _). rewrite D, Nat.eqb_refl. cbn [negb]. rewrite E3, E2.
  destruct (exp_ensemble_ok (sysdim sy) (ea_num args) (core sy) tg limit (exp_in (sysdim sy)) (exp_recruit (sysdim sy)) (accepts sy) (fun _ => True) tle_ok
    (fun _ H => H) (fun a0 H => conj (proj1 H) (proj2 (proj2 H))) (fun _ _ => I) T (bc_any sy B) (fun x => or_introl (ex_intro _ x eq_refl))
    tle_panic tle_fuel
    inner pf (renew_any sy tg inner pf B T) _ (diff_next es_next es_dt) _ Proof_Run5.es_next_total fuel clock num l (repeat s0 (sysdim sy)) mv g
    (ex_intro _ a (ex_intro _ b (ex_intro _ len Tc))) R L F M (repeat_length _ _)) as (ts & g' & o & -> & Ft & Co).
  exists ts, g', o. split; [reflexivity|]. split; [exact Ft|]. destruct Co as [Co|(Lt & [->|(e & -> & [(x & Hx)|He])])]; [now left|right; auto|discriminate Hx|].
  right. split; [exact Lt|]. right. congruence.
Qed.

Lemma nok_panic : (exists y : bool, Panic = Ok y) -> False.
Proof. intros (y & E); discriminate E. Qed.
Lemma nok_fuel : (exists y : bool, Fuel = Ok y) -> False.
Proof. intros (y & E); discriminate E. Qed.
(** In a ball, with moves limited to a diameter, it never fails. *)
Lemma mfpt_exp_ball {G : rng RR} (s : circ RR) (tg : target RR) (args : expag_args RR) (limit : R) (clock : expstep RR) inner pf fuel num (g : rstate G) a b len :
  built_circ s -> unif_R G -> length (tg_pos tg) = ci_dim s -> exp_args_for (ci_dim s) args -> es_titype clock = Model_Time.Exponential a b len ->
  (0 < limit <= 2 * (ci_size s : R))%R ->
  exists ts g' o, mfpt_exp (diff_next es_next es_dt) inner pf fuel num (core (ACirc s)) (ci_dim s) tg args (limit : RR) clock g = (ts, g', o) /\
    Forall (exp_value (diff_next es_next es_dt) clock) ts /\
    ((o = Ok tt /\ length ts = num) \/ (length ts < num /\ o = Fuel)).
Proof.
  intros B U T HA Tc (Hl & Hl2). destruct (build_lists (ci_dim s) args HA) as (v & l & mv & E1 & E2 & E3 & RL & L & F & M).
  unfold mfpt_exp. rewrite E1. destruct HA as (D & _). rewrite D, Nat.eqb_refl. cbn [negb]. rewrite E3, E2.
  set (P := fun a : expag RR => exp_in (ci_dim s) a /\ in_ball (ci_dim s) (ci_size s) (ex_pos a)).
  assert (VL : forall w : list R, length w = ci_dim s -> (euclid_norm (limit_move (limit : RR) w) <= 2 * (ci_size s : R))%R).
  { intros w _. destruct (limit_R limit w Hl) as (w' & E & Hw & _). rewrite E. lra. }
  assert (BC : forall (x : expag RR) (w : pos RR), P x -> length w = ci_dim s -> (euclid_norm w <= 2 * (ci_size s : R))%R ->
     let (p, r) := sc_check_bc (core (G := G) (ACirc s)) (ex_pos x) w in P (exp_put x p) /\ (r = Ok tt -> in_ball (ci_dim s) (ci_size s) p) /\ (r = Ok tt \/ exists e, r = Err e /\ exists y : bool, Err e = Ok y)).
  { intros x w (X1 & X2) Lw Hw. destruct (ball_step s (ex_pos x) w B X2 Lw Hw) as (q & E & Q). change (sc_check_bc (core (G := G) (ACirc s)) (ex_pos x) w) with (circ_check_bc s (ex_pos x) w).
    refine (eq_ind_r (fun z : list RR * outcome unit => let (p, r) := z in P (exp_put x p) /\ (r = Ok tt -> in_ball (ci_dim s) (ci_size s) p) /\ (r = Ok tt \/ exists e : errcode, r = Err e /\ exists y : bool, Err e = Ok y)) _ E).
    split; [split; [apply exp_put_in; [exact X1|exact (proj1 Q)]|exact Q]|]. split; [auto|now left]. }
  assert (RN : forall (x : expag RR) (g0 : rstate G), exp_recruit (ci_dim s) x -> let '(x', g1, o) := expag_renew inner pf (core (ACirc s)) tg g0 x in exp_recruit (ci_dim s) x' /\ ((o = Ok tt /\ P x') \/ o = Fuel)).
  { intros x g0 (Dx & c & Mx). destruct (renew_eq (ACirc s) tg inner pf x g0 Dx) as (cp & cf & ->).
    destruct (place_R (ACirc s) tg inner pf g0 (sc_out (core (G := G) (ACirc s))) B (fun H => H) U T (out_length (ACirc s))) as [(k & (A1 & A2) & _ & E)|(_ & q & g2 & E)].
    - rewrite E. split; [split; [reflexivity|exists c; exact Mx]|]. left. split; [reflexivity|]. split; [|exact A1]. split; [reflexivity|]. split; [exact (proj1 A1)|exists c; exact Mx].
    - rewrite E. split; [split; [reflexivity|exists c; exact Mx]|]. now right. }
  destruct (exp_ensemble_ok (ci_dim s) (ea_num args) (core (ACirc s)) tg (limit : RR) P (exp_recruit (ci_dim s)) (in_ball (ci_dim s) (ci_size s)) (fun w => (euclid_norm w <= 2 * (ci_size s : R))%R)
    (fun r => exists y, r = Ok y) (fun _ H => proj1 H) (fun a0 H => conj (proj1 (proj1 H)) (proj2 (proj2 (proj1 H)))) VL T BC (fun x => ex_intro _ x eq_refl)
    nok_panic nok_fuel
    inner pf RN _ (diff_next es_next es_dt) _ Proof_Run5.es_next_total fuel clock num l (repeat s0 (ci_dim s)) mv g
    (ex_intro _ a (ex_intro _ b (ex_intro _ len Tc))) RL L F M (repeat_length _ _)) as (ts & g' & o & E & Ft & Co).
  rewrite E. exists ts, g', o. split; [reflexivity|]. split; [exact Ft|]. destruct Co as [Co|(Lt & [->|(e & _ & y & Hy)])]; [now left|right; auto|discriminate Hy].
Qed.
