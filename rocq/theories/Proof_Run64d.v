(** Whole simulations in double precision. *)
From Coq Require Import Reals ZArith List Lra Lia Sorted.
From Flocq.Core Require Import Core.
From Flocq.IEEE754 Require Import BinarySingleNaN.
From Verif Require Import Base Scalar Float64 Model_Position Spec_Position Model_System Spec_System Proof_System8 Model_LinkedList Spec_LinkedList Refine_LinkedList Proof_LinkedList Proof_LinkedList2 Proof_LinkedList3
  Proof_LinkedList4 Proof_LinkedList5 Proof_LinkedList6 Proof_Run Model_Run
  Model_Agent Spec_Agent Proof_Agent Model_Time Spec_Time Proof_Time Proof_Time4 Spec_Wall64 Spec_Run Proof_Run2 Proof_Run3 Proof_Run4 Proof_Run5 Spec_Run64 Proof_Run64 Proof_Run64b Proof_Run64c.
Import ListNotations.
Local Open Scope R_scope.

Section Sim.
Context {lm : libm} {G : rng (F64 lm)}.
Local Notation F := (F64 lm).
Variables (sy : anysys F) (tg : target F).
Hypothesis Sc : scene sy tg.
Hypothesis Cg : calm G.
Hypothesis Ug : unif_64 G.

Lemma steps_run {A} (step : llist A -> rstate G -> llist A * rstate G * outcome bool) k : forall (l : llist A) g, after_steps step k l g = after_dts (S := F) (fun _ => step) (repeat s0 k) l g.
Proof. induction k as [|k IH]; intros l g; [reflexivity|]. cbn. destruct (step l g) as ((l1, g1), [[]| | |]); auto. Qed.

Lemma merging_moments (c dt : F) (radius alpha : F) n (l0 : llist (merger F)) (g0 : rstate G) k l1 g1 l2 g2 : mild c -> mild dt -> mild_growth (lm := lm) alpha n -> roomy radius ->
  population (sysdim sy) (Brownian c) radius alpha n l0 -> placed mg_pos l0 ->
  after_steps (merge_step (core (G := G) sy) tg (fun _ => radius) dt) k l0 g0 = Some (l1, g1) ->
  merge_step (core (G := G) sy) tg (fun _ => radius) dt l1 g1 = (l2, g2, Ok true) ->
  (forall j lj gj, (1 <= j)%nat -> after_steps (merge_step (core (G := G) sy) tg (fun _ => radius) dt) j l0 g0 = Some (lj, gj) -> all_off sy tg mg_pos lj /\ all_apart radius (sysdim sy) lj) /\
  one_on sy tg mg_pos l2.
Proof.
  intros Mc Md Mg Rr HP Pl E1 E2.
  assert (K : forall j lj gj, after_steps (merge_step (core (G := G) sy) tg (fun _ => radius) dt) j l0 g0 = Some (lj, gj) ->
    population (sysdim sy) (Brownian c) radius alpha n lj /\ placed mg_pos lj /\ (repeat dt j <> [] -> all_off sy tg mg_pos lj /\ all_apart radius (sysdim sy) lj)).
  { intros j lj gj E. rewrite (steps_are_dts (merge_step (core (G := G) sy) tg (fun _ => radius)) dt j l0 g0) in E.
    apply (merging_run_64 sy tg Sc Cg c (fun _ => radius) radius alpha n (repeat dt j) l0 g0 lj gj Mc Mg Rr (fun _ _ => eq_refl) (fun _ _ _ => eq_refl)); [|exact HP|exact Pl|exact E].
    apply Forall_forall. intros x I. apply repeat_spec in I. now subst x. }
  split; [intros j lj gj Hj E; apply (proj2 (proj2 (K j lj gj E))); destruct j; [lia|discriminate]|].
  destruct (K k l1 g1 E1) as (P1 & S1 & _).
  apply (proj2 (proj2 (merging_step_64 sy tg Sc Cg c (fun _ => radius) radius alpha n dt l1 g1 l2 g2 (Ok true) Mc Mg Md Rr (fun _ _ => eq_refl) (fun _ _ _ => eq_refl) P1 S1 E2))). reflexivity.
Qed.
Lemma merging_sim_64 inner pf fuel (c dt : F) n (radius alpha : F) (g g' : rstate G) t : mild c -> mild dt -> mild_growth (lm := lm) alpha n -> roomy radius ->
  merge_fpt inner pf fuel (core (G := G) sy) tg (Brownian c) dt n radius alpha g = (g', Ok t) ->
  let step := merge_step (core (G := G) sy) tg (fun _ => radius) dt in
  exists l0 g0 k l1 g1 l2, live_of l0 = seq 0 n /\ well_placed tg mg_pos l0 /\
    after_steps step k l0 g0 = Some (l1, g1) /\ step l1 g1 = (l2, g', Ok true) /\ t = ticks dt (Datatypes.S k) /\
    (forall j lj gj, (1 <= j)%nat -> after_steps step j l0 g0 = Some (lj, gj) -> all_off sy tg mg_pos lj /\ all_apart radius (sysdim sy) lj) /\
    one_on sy tg mg_pos l2.
Proof.
  intros Mc Md Mg Rr E step. pose proof Sc as (O & B & Ft & Lt).
  destruct (merge_fpt_ok inner pf fuel sy tg c dt n radius alpha g B Lt) as [(v & g0 & l0 & E0 & Ef & HP & Lv & _ & [(k & l1 & g1 & l2 & g2 & Hk & E1 & [(E2 & E3)|(_ & E3)])|(l1 & g1 & _ & E3)])|(g1 & _ & E3)]; rewrite E in E3;
    apply pair_equal_spec in E3 as (Eg & Et); try discriminate Et.
  pose proof (build_64 sy tg Sc inner pf (Brownian c) radius alpha n Ug g v g0 E0) as Bu.
  assert (Bl : well_placed tg mg_pos l0).
  { intros i a (_ & Ha). destruct (from_fresh v) as (l & E4 & _ & C4 & _). rewrite Ef in E4. assert (l0 = l) as -> by congruence. rewrite C4 in Ha. exact (proj1 (Forall_forall _ _) Bu a (nth_error_In _ _ Ha)). }
  destruct (merging_moments c dt radius alpha n l0 g0 k l1 g1 l2 g2 Mc Md Mg Rr HP (fun i a La => proj1 (Bl i a La)) E1 E2) as (M1 & M2).
  exists l0, g0, k, l1, g1, l2. split; [exact Lv|]. split; [exact Bl|]. split; [exact E1|]. split; [rewrite Eg; exact E2|]. split; [congruence|]. split; [exact M1|exact M2].
Qed.

Lemma searching_sim_64 inner pf fuel (c dt : F) n (g g' : rstate G) t : mild c -> mild dt ->
  indep_fpt inner pf fuel (core (G := G) sy) tg (Brownian c) dt n g = (g', Ok t) ->
  let step := move_pass indep_mover (core (G := G) sy) tg dt in
  exists l0 g0 k l1 g1 l2, live_of l0 = seq 0 n /\ well_placed tg in_pos l0 /\
    after_steps step k l0 g0 = Some (l1, g1) /\ step l1 g1 = (l2, g', Ok true) /\ t = ticks dt (Datatypes.S k) /\
    (forall j lj gj, (1 <= j)%nat -> after_steps step j l0 g0 = Some (lj, gj) -> live_of lj = seq 0 n /\ all_off sy tg in_pos lj) /\
    live_of l2 = seq 0 n /\ one_on sy tg in_pos l2.
Proof.
  intros Mc Md E step. pose proof Sc as (O & B & Ft & Lt).
  destruct (indep_fpt_ok inner pf fuel sy tg c dt n g B Lt) as [(v & g0 & l0 & E0 & Ef & HP & _ & [(k & l1 & g1 & l2 & g2 & Hk & E1 & [(E2 & E3)|(_ & E3)])|(l1 & g1 & _ & E3)])|(g1 & _ & E3)]; rewrite E in E3;
    apply pair_equal_spec in E3 as (Eg & Et); try discriminate Et.
  pose proof (build_indep_64 sy tg Sc inner pf (Brownian c) n Ug g v g0 E0) as Bu.
  assert (Bl : well_placed tg in_pos l0).
  { intros i a (_ & Ha). destruct (from_fresh v) as (l & E4 & _ & C4 & _). rewrite Ef in E4. assert (l0 = l) as -> by congruence. rewrite C4 in Ha. exact (proj1 (Forall_forall _ _) Bu a (nth_error_In _ _ Ha)). }
  assert (K : forall j lj gj, after_steps (move_pass indep_mover (core (G := G) sy) tg dt) j l0 g0 = Some (lj, gj) ->
    searchers (sysdim sy) (Brownian c) n lj /\ placed in_pos lj /\ (repeat dt j <> [] -> all_off sy tg in_pos lj)).
  { intros j lj gj Ej. rewrite (steps_are_dts (move_pass indep_mover (core (G := G) sy) tg) dt j l0 g0) in Ej.
    apply (searching_run_64 sy tg Sc Cg c n (repeat dt j) l0 g0 lj gj Mc); [|exact HP|exact (fun i a La => proj1 (Bl i a La))|exact Ej].
    apply Forall_forall. intros x I. apply repeat_spec in I. now subst x. }
  destruct (K k l1 g1 E1) as (P1 & S1 & _).
  destruct (searching_step_64 sy tg Sc Cg c n dt l1 g1 l2 g2 (Ok true) Mc Md P1 S1 E2) as (P2 & _ & K2).
  exists l0, g0, k, l1, g1, l2. split; [exact (sea_live _ _ _ _ HP)|]. split; [exact Bl|]. split; [exact E1|]. split; [rewrite Eg; exact E2|]. split; [congruence|]. split.
  - intros j lj gj Hj Ej. destruct (K j lj gj Ej) as (P & _ & A). split; [exact (sea_live _ _ _ _ P)|]. apply A. destruct j; [lia|discriminate].
  - split; [exact (sea_live _ _ _ _ P2)|exact (K2 eq_refl)].
Qed.

Lemma clocked_sim_64 inner pf fuel (radius alpha : F) (clock : expstep F) (l : llist (merger F)) (g : rstate G) l' g' t a b len : roomy radius ->
  reachable l -> Forall (recruit (sysdim sy) radius alpha) (contents l) -> es_titype clock = Model_Time.Exponential a b len ->
  let N := length (contents l) in let step := merge_step (core (G := G) sy) tg mg_radius in
  mild (fpow (s := F) (of_Z (s := F) 1) (opp (s := F) alpha)) -> mild_growth (lm := lm) alpha N ->
  (forall clock0 n vs s, es_renew clock = Ok clock0 -> collect (diff_next es_next es_dt) n clock0 = Ok (vs, s) -> Forall (fun v : F * F => mild (snd v)) vs) ->
  large_n_fpt inner pf fuel (core (G := G) sy) tg clock l g = (l', g', Ok t) ->
  exists clock0 l0 g0 vs dt s1 l1 g1, es_renew clock = Ok clock0 /\ live_of l0 = seq 0 N /\ well_placed tg mg_pos l0 /\
    collect (diff_next es_next es_dt) (Datatypes.S (length vs)) clock0 = Ok (vs ++ [(t, dt)], s1) /\
    after_dts step (map snd vs) l0 g0 = Some (l1, g1) /\ step dt l1 g1 = (l', g', Ok true) /\
    (forall us ws lj gj, vs = us ++ ws -> us <> [] -> after_dts step (map snd us) l0 g0 = Some (lj, gj) -> all_off sy tg mg_pos lj /\ all_apart radius (sysdim sy) lj) /\
    one_on sy tg mg_pos l'.
Proof.
  intros Rr HR HF Tc N step M1 Mg Mt. pose proof Sc as (O & B & Lt). destruct Lt as (Ft & Lt). set (m0 := Brownian (fpow (of_Z 1) (opp alpha)) : movetype F).
  assert (exists c0, es_renew clock = Ok c0 /\ es_titype c0 = Model_Time.Exponential a b len) as (c0 & Ec & Tc0).
  { unfold es_renew. rewrite Tc. eexists. split; [reflexivity|]. reflexivity. }
  unfold large_n_fpt. rewrite Ec. destruct (reachable_rep l HR) as (s & Rs). destruct (connect_all_ref l s Rs) as (l1 & E1 & R1). rewrite E1.
  assert (HR1 : reachable l1) by (apply (reachable_step l (OConnectAll) l1 RUnit HR); cbn; now rewrite E1).
  assert (C1 : contents l1 = contents l) by (rewrite (rp_items _ _ R1), (rp_items _ _ Rs); reflexivity).
  assert (L1 : live_of l1 = seq 0 (length (contents l1))) by (rewrite (live_of_rep _ _ R1), (rp_items _ _ R1); reflexivity).
  destruct (renew_all_ok (G := G) inner pf sy tg radius alpha l1 g B Lt HR1 L1 ltac:(now rewrite C1)) as (l2 & g2 & r & E2 & R2 & N2 & L2 & F2 & Ro & P2).
  pose proof (fun l' g' E => renew_all_64 sy tg Sc inner pf l1 g l' g' Ug HR1 L1 E) as Pl. rewrite E2.
  destruct Ro as [->| ->]; [|discriminate]. specialize (Pl l2 g2 E2). destruct (P2 eq_refl) as (P & _). rewrite C1 in P. fold N in P. fold m0 in P.
  assert (RFa : forall a0 : merger F, mg_radius a0 = radius -> mg_radius a0 = radius) by auto.
  assert (RFb : forall a0 b0 : merger F, mg_radius a0 = mg_radius b0 -> mg_radius a0 = mg_radius b0) by auto.
  assert (Lf : live_of l2 = seq 0 N) by (rewrite L2, L1, C1; reflexivity).
  destruct (clocked_cases (diff_next es_next es_dt) (merge_step (core sy) tg mg_radius) (fun s => exists a b len, es_titype s = Model_Time.Exponential a b len)
     (Err UnexpectedEnd) es_next_total fuel c0 l2 g2 (ex_intro _ a (ex_intro _ b (ex_intro _ len Tc0)))) as
     [(vs & t1 & dt & s1 & l3 & g3 & l4 & g4 & q & H1 & H2 & H3 & H4 & H5 & H6)|[(vs & l3 & g3 & H1 & H2 & H3 & H4)|(vs & s2 & l3 & g3 & H1 & H2 & H3 & H4)]];
    [|rewrite H4; discriminate..].
  rewrite H6. intros E. pose proof (Mt c0 _ _ _ Ec H2) as MV. apply Forall_app in MV as (MV & MD). apply Forall_inv in MD. cbn [snd] in MD.
  assert (K : forall us ws lj gj, vs = us ++ ws -> after_dts step (map snd us) l2 g2 = Some (lj, gj) -> population (sysdim sy) m0 radius alpha N lj /\ placed mg_pos lj /\ (map snd us <> [] -> all_off sy tg mg_pos lj /\ all_apart radius (sysdim sy) lj)).
  { intros us ws lj gj -> Ej. apply (merging_run_64 sy tg Sc Cg _ mg_radius radius alpha N (map snd us) l2 g2 lj gj M1 Mg Rr RFa RFb); [|exact P|exact (fun i a La => proj1 (Pl i a La))|exact Ej].
    apply Forall_app in MV as (MV & _). apply Forall_forall. intros x I. apply in_map_iff in I as (y & <- & I). exact (proj1 (Forall_forall _ _) MV y I). }
  destruct (K vs [] l3 g3 (eq_sym (app_nil_r vs)) H3) as (P3 & S3 & _).
  assert (exists z, q = Ok z) as (z & Ez) by (destruct q as [z| | |]; [eauto|discriminate E..]). subst q. assert (z = true) as -> by (destruct z; [reflexivity|now elim H5]).
  assert (l4 = l' /\ g4 = g' /\ t1 = t) as (-> & -> & ->) by (repeat split; congruence).
  exists c0, l2, g2, vs, dt, s1, l3, g3. split; [reflexivity|]. split; [exact Lf|]. split; [exact Pl|]. split; [exact H2|]. split; [exact H3|]. split; [exact H4|]. split.
  - intros us ws lj gj Ev Nu Ej. apply (K us ws lj gj Ev Ej). destruct us; [now elim Nu|discriminate].
  - exact (proj2 (proj2 (merging_step_64 sy tg Sc Cg _ mg_radius radius alpha N dt l3 g3 l' g' (Ok true) M1 Mg MD Rr RFa RFb P3 S3 H4)) eq_refl).
Qed.
End Sim.

Section Clock.
Context {lm : libm}.
Local Notation F := (F64 lm).
Lemma mild_between (a b x : b64) : mild a -> mild b -> Bleb a x = true -> Bleb x b = true -> mild x.
Proof.
  intros (Fa & A) (Fb & B) H1 H2. assert (Fx : fin x = true).
  { destruct x as [s|[]| |s m e p]; try reflexivity; exfalso; destruct a as [sa|sa| |sa ma ea pa]; destruct b as [sb|sb| |sb mb eb pb]; try discriminate Fa; try discriminate Fb; cbv in H1, H2; try discriminate; destruct sa, sb; discriminate. }
  apply (leb64 a x Fa Fx) in H1. apply (leb64 x b Fx Fb) in H2. split; [exact Fx|lra].
Qed.
Context {G : rng F}.
Lemma ready_steps (a b : b64) len (c0 : expstep F) : mild a -> mild b -> ready (fun i : F => nan (i : b64) = false) (a : F) (b : F) len c0 ->
  forall n vs s, collect (diff_next es_next es_dt) n c0 = Ok (vs, s) -> Forall (fun v : F * F => mild (snd v)) vs.
Proof.
  intros Ma Mb R n vs s E. assert (Na : nan a = false) by (destruct Ma as (K & _); destruct a; easy). assert (Nb : nan b = false) by (destruct Mb as (K & _); destruct b; easy).
  destruct (ready_life lm a b len Na Nb c0 n vs s R E) as (H & _). apply Forall_impl with (2 := H). intros td (H1 & H2 & _). exact (mild_between a b (snd td) Ma Mb H1 H2).
Qed.
Lemma clocked_sim_ready_64 (sy : anysys F) (tg : target F) inner pf fuel (radius alpha : F) (clock clock0 : expstep F) (l : llist (merger F)) (g : rstate G) l' g' t (a b : b64) len :
  scene sy tg -> calm G -> unif_64 G -> roomy radius ->
  reachable l -> Forall (recruit (sysdim sy) radius alpha) (contents l) ->
  es_renew clock = Ok clock0 -> ready (fun i : F => nan (i : b64) = false) (a : F) (b : F) len clock0 -> mild a -> mild b ->
  let N := length (contents l) in let step := merge_step (core (G := G) sy) tg mg_radius in
  mild (fpow (s := F) (of_Z (s := F) 1) (opp (s := F) alpha)) -> mild_growth (lm := lm) alpha N ->
  large_n_fpt inner pf fuel (core (G := G) sy) tg clock l g = (l', g', Ok t) ->
  exists l0 g0 vs dt s1 l1 g1, live_of l0 = seq 0 N /\ well_placed tg mg_pos l0 /\
    collect (diff_next es_next es_dt) (Datatypes.S (length vs)) clock0 = Ok (vs ++ [(t, dt)], s1) /\
    after_dts step (map snd vs) l0 g0 = Some (l1, g1) /\ step dt l1 g1 = (l', g', Ok true) /\
    (forall us ws lj gj, vs = us ++ ws -> us <> [] -> after_dts step (map snd us) l0 g0 = Some (lj, gj) -> all_off sy tg mg_pos lj /\ all_apart radius (sysdim sy) lj) /\
    one_on sy tg mg_pos l'.
Proof.
  intros Sc Cg Ug Rr HR HF Ec Rd Ma Mb N step M1 Mg E.
  assert (exists a2 b2 len2, es_titype clock = Model_Time.Exponential a2 b2 len2) as (a2 & b2 & len2 & Tc). { unfold es_renew in Ec. destruct (es_titype clock); try discriminate. eauto. }
  destruct (clocked_sim_64 sy tg Sc Cg Ug inner pf fuel radius alpha clock l g l' g' t a2 b2 len2 Rr HR HF Tc M1 Mg) as (c0 & l0 & g0 & vs & dt & s1 & l1 & g1 & Ec0 & K); [|exact E|].
  - intros c0 n vs s Ec0 Cl. assert (c0 = clock0) as -> by congruence. exact (ready_steps a b len clock0 Ma Mb Rd n vs s Cl).
  - assert (c0 = clock0) as -> by congruence. exists l0, g0, vs, dt, s1, l1, g1. exact K.
Qed.
End Clock.
