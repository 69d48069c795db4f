(** A sample of examples/mfpt_exp.rs in double precision. *)
From Coq Require Import Reals ZArith List Lra Lia.
From Flocq.Core Require Import Core.
From Flocq.IEEE754 Require Import BinarySingleNaN.
From Verif Require Import Base Scalar Float64 Model_Position Spec_Position Proof_Position Model_System Spec_System Proof_System Proof_System2 Proof_System4 Proof_System7 Proof_System8 Proof_Norm64
  Model_LinkedList Spec_LinkedList Refine_LinkedList Proof_LinkedList Proof_LinkedList2 Proof_LinkedList3
  Proof_LinkedList4 Proof_LinkedList5 Proof_LinkedList6 Model_Time Spec_Time Proof_Time Proof_Run Model_Run
  Model_Agent Spec_Agent Proof_Agent Proof_Agent2 Proof_Agent4 Spec_Wall64 Proof_Wall64b Spec_Run Spec_Run2 Proof_Run2 Proof_Run3 Proof_Run4 Proof_Run5 Proof_Search Proof_Run6 Proof_Run7 Proof_Run8 Proof_Run9 Proof_Run10
  Spec_Run64 Proof_Run64 Proof_Run64b Proof_Run64c Spec_Rep64 Proof_Rep64 Proof_Rep64b Proof_Rep64c Proof_Rep64d.
Import ListNotations.
Local Open Scope R_scope.

Section E.
Context {lm : libm} {G : rng (F64 lm)}.
Local Notation F := (F64 lm).
Variables (sy : anysys F) (tg : target F) (limit : F) (inner pf : nat).
Hypothesis D : decaying lm.
Hypothesis Sc : scene sy tg.
Hypothesis Cg : calm G.
Hypothesis Ug : unif_64 G.
Hypothesis Ml : modest limit.
Notation n := (sysdim sy).

Lemma exp_renew_64 (a a' : expag F) (g g1 : rstate G) : exp_recruit n a -> tamable a -> expag_renew inner pf (core (G := G) sy) tg g a = (a', g1, Ok tt) -> exp_in n a' /\ tame a' /\ off_upto tg (ex_pos a').
Proof.
  intros Rc ((c & Mt & Mc) & Rg & (F1 & B1) & (F2 & B2')) E. assert (St := Sc). destruct St as (O & B & Ft & Lt). pose proof (renew_any sy tg inner pf B Lt a g Rc) as K. rewrite E in K.
  destruct K as (_ & [(_ & In)|X]); [|discriminate X]. split; [exact In|]. destruct Rc as (Da & _). unfold expag_renew in E. rewrite renew_start_cases in E. pose proof (out_length (G := G) sy) as Ol. unfold dim, exp_coeff in E.
  assert (P : exists p cp cf g2, place inner pf (core (G := G) sy) tg g (sc_out (core (G := G) sy)) = (p, g2, Ok tt) /\ coefficient cf /\
    a' = Expag (ex_type a) (ex_int a) (ex_mtype a) (ex_itype a) n p (ex_gamma a) (ex_strength a) cp cf).
  { destruct (negb (length (ex_pos a) =? n)%nat).
    - rewrite Ol in E. destruct (place inner pf (core (G := G) sy) tg g (sc_out (core (G := G) sy))) as ((p, g2), o) eqn:Ep. apply pair_equal_spec in E as (E & Eo). apply pair_equal_spec in E as (E & _). subst o.
      exists p, (ex_strength a), (div (s := F) (ex_strength a) (ex_gamma a)), g2. split; [reflexivity|]. split; [split; assumption|exact (eq_sym E)].
    - rewrite Da in E. destruct (place inner pf (core (G := G) sy) tg g (sc_out (core (G := G) sy))) as ((p, g2), o) eqn:Ep. apply pair_equal_spec in E as (E & Eo). apply pair_equal_spec in E as (E & _). subst o.
      exists p, (ex_cpot a), (ex_cforce a), g2. split; [reflexivity|]. split; [split; assumption|exact (eq_sym E)]. }
  destruct P as (p & cp & cf & g2 & Ep & (Fc & Bc) & ->). destruct (place_64 sy tg Sc inner pf Ug g _ p g2 Ol Ep) as (Sp & Of).
  split; [|exact Of]. split; [exists c; split; [exact Mt|exact Mc]|]. split; [exact Rg|]. split; [exact Fc|]. split; [exact Bc|exact Sp].
Qed.
Lemma renew_slots_64 (cs : list (expag F)) : forall (g : rstate G) cs' g', Forall (exp_recruit n) cs -> Forall tamable cs -> renew_slots inner pf (core (G := G) sy) tg cs g = (cs', g', Ok tt) ->
  length cs' = length cs /\ Forall (exp_in n) cs' /\ Forall tame cs' /\ Forall (fun a : expag F => off_upto tg (ex_pos a)) cs'.
Proof.
  induction cs as [|a cs IH]; intros g cs' g' HR HT E; cbn [renew_slots] in E.
  { apply pair_equal_spec in E as (E & _). apply pair_equal_spec in E as (E & _). subst cs'. repeat split; constructor. }
  apply Forall_cons_iff in HR as (Ra & HR). apply Forall_cons_iff in HT as (Ta & HT). destruct (expag_renew inner pf (core (G := G) sy) tg g a) as ((a', g1), o) eqn:Ea. destruct o as [[]| | |]; try discriminate E.
  destruct (renew_slots inner pf (core (G := G) sy) tg cs g1) as ((r', g2), o2) eqn:Er. apply pair_equal_spec in E as (E & Eo). apply pair_equal_spec in E as (E & _). subst o2. rewrite <- E.
  destruct (exp_renew_64 a a' g g1 Ra Ta Ea) as (X1 & X2 & X3). destruct (IH g1 r' g2 HR HT Er) as (Y0 & Y1 & Y2 & Y3). split; [cbn [length]; now f_equal|]. repeat split; constructor; assumption.
Qed.

(** The steps of a run that reports a time or the end of the clock. *)
Lemma exp_moments N (HN : INR N <= 2 ^ 20) (dts : list F) (dt : F) (l : llist (expag F)) disp mv (g : rstate G) l1 d1 m1 g1 l2 d2 m2 g2 : Forall (fun dt : F => mild dt) (dts ++ [dt]) ->
  ready_team n N l -> move_list n N mv -> length disp = n -> exp_after (core (G := G) sy) tg limit dts l disp mv g = Some (l1, d1, m1, g1) ->
  exp_step (core (G := G) sy) tg limit dt l1 d1 m1 g1 = (l2, d2, m2, g2, Ok true) -> kept_apart (G := G) sy tg limit (dts ++ [dt]) l disp mv g ->
  (forall us ws lj dj mj gj, dts = us ++ ws -> us <> [] -> exp_after (core (G := G) sy) tg limit us l disp mv g = Some (lj, dj, mj, gj) -> team_off sy tg lj) /\ team_on sy tg l2.
Proof.
  intros HF HR HM Ld E Es KA. split.
  - intros us ws lj dj mj gj -> Hu Ej. rewrite <- app_assoc in HF, KA. apply Forall_app in HF as (HF & _).
    destruct (exp_after_64 sy tg limit D Sc Cg Ml N HN us l disp mv g lj dj mj gj HF HR HM Ld Ej) as (_ & _ & _ & X); [|exact (X Hu)].
    intros us2 ws2 lk dk mk gk -> Hw Ek. apply (KA us2 (ws2 ++ (ws ++ [dt])) lk dk mk gk); [exact (eq_sym (app_assoc us2 ws2 (ws ++ [dt])))| |exact Ek]. intros X. apply Hw. destruct ws2; [reflexivity|]. discriminate X.
  - apply Forall_app in HF as (HF & Md). apply Forall_cons_iff in Md as (Md & _). destruct (exp_after_64 sy tg limit D Sc Cg Ml N HN dts l disp mv g l1 d1 m1 g1 HF HR HM Ld E) as (R1 & M1 & D1 & _).
    { intros us ws lj dj mj gj -> Hw Ej. apply (KA us (ws ++ [dt]) lj dj mj gj); [exact (eq_sym (app_assoc us ws [dt]))|intros X; destruct ws; discriminate X|exact Ej]. }
    assert (S1 : spread (contents l1)). { apply (KA dts [dt] l1 d1 m1 g1 eq_refl); [discriminate|exact E]. }
    destruct (exp_step_64 sy tg limit D Sc Cg Ml N dt l1 d1 m1 g1 l2 d2 m2 g2 _ HN Md R1 S1 M1 D1 Es) as (_ & _ & _ & _ & X). destruct (X eq_refl) as (i & a & b & _ & _ & Eb & _ & Ib & Ob). exists i, b. auto.
Qed.

Lemma exp_sample_64 {St : Type} (next : St -> outcome (St * option (F * F))) (Inv : St -> Prop) N fuel (clock : St) (l : llist (expag F)) (disp : pos F) (mv : llist (pos F)) (g : rstate G) l' d' mv' g' t :
  (forall s, Inv s -> exists s' o, next s = Ok (s', o) /\ Inv s') -> (forall k vs s, collect next k clock = Ok (vs, s) -> Forall (fun v : F * F => mild (snd v)) vs) -> Inv clock ->
  INR N <= 2 ^ 20 -> reachable l -> length (contents l) = N -> Forall (exp_recruit n) (contents l) -> Forall tamable (contents l) -> move_list n N mv -> length disp = n ->
  exp_sample next inner pf (core (G := G) sy) tg limit fuel clock l disp mv g = (l', d', mv', g', Ok t) ->
  exists l0 g0, ready_team n N l0 /\ (forall i b, nth_error (contents l0) i = Some b -> off_upto tg (ex_pos b)) /\
   ((exists first vs dt s1 l1 d1 m1 g1, collect next (Datatypes.S (Datatypes.S (length vs))) clock = Ok (first :: vs ++ [(t, dt)], s1) /\
      exp_after (core (G := G) sy) tg limit (map snd vs) l0 disp mv g0 = Some (l1, d1, m1, g1) /\ exp_step (core (G := G) sy) tg limit dt l1 d1 m1 g1 = (l', d', mv', g', Ok true) /\
      (kept_apart (G := G) sy tg limit (map snd vs ++ [dt]) l0 disp mv g0 ->
        (forall us ws lj dj mj gj, map snd vs = us ++ ws -> us <> [] -> exp_after (core (G := G) sy) tg limit us l0 disp mv g0 = Some (lj, dj, mj, gj) -> team_off sy tg lj) /\ team_on sy tg l')) \/
    (t = s0 (s := F) /\ exists vs, yields_all next clock vs /\ exp_after (core (G := G) sy) tg limit (map snd (tl vs)) l0 disp mv g0 = Some (l', d', mv', g') /\
      (kept_apart (G := G) sy tg limit (map snd (tl vs)) l0 disp mv g0 -> (2 <= length vs)%nat -> team_off sy tg l'))).
Proof.
  intros Nx Mi Ic HN HR HL HF HT HM Ld E. unfold exp_sample in E. destruct (renew_slots inner pf (core (G := G) sy) tg (contents l) g) as ((cs, g0), o) eqn:Er. destruct o as [[]| | |]; try discriminate E.
  destruct (renew_slots_64 (contents l) g cs g0 HF HT Er) as (Lc & In & Tm & Of). pose proof (contents_reach cs l HR Lc) as R1.
  destruct (reachable_rep _ R1) as (s & Rs). destruct (connect_all_ref _ s Rs) as (l2 & E2 & R2). rewrite E2 in E.
  assert (HR2 : reachable l2) by (apply (reachable_step _ (OConnectAll) l2 RUnit R1); cbn [step]; now rewrite E2).
  assert (C2 : contents l2 = cs) by (rewrite (rp_items _ _ R2); pose proof (rp_items _ _ Rs) as X; cbn in X |- *; congruence).
  assert (L2 : live_of l2 = seq 0 N). { rewrite (live_of_rep _ _ R2). cbn [live]. pose proof (rp_items _ _ Rs) as X. cbn in X. rewrite <- X. f_equal. congruence. }
  assert (T2 : ready_team n N l2). { split; [split; [exact HR2|rewrite C2; exact (eq_trans Lc HL)|exact L2|rewrite C2; exact In]|rewrite C2; exact Tm]. }
  exists l2, g0. split; [exact T2|]. split. { rewrite C2. intros i b Hb. exact (proj1 (Forall_forall _ _) Of b (nth_error_In _ _ Hb)). }
  destruct (Nx clock Ic) as (c1 & [first|] & En & I1); rewrite En in E.
  2:{ right. injection E as <- <- <- <- <-. split; [reflexivity|]. exists []. split; [exists clock, c1; auto|]. split; [reflexivity|]. cbn [length]. intros _ X. lia. }
  assert (Mi2 : forall k vs s, collect next k c1 = Ok (vs, s) -> Forall (fun v : F * F => mild (snd v)) vs).
  { intros k vs s3 Hc. specialize (Mi (Datatypes.S k) (first :: vs) s3). cbn [collect] in Mi. rewrite En in Mi. cbn [bind] in Mi. rewrite Hc in Mi. exact (proj2 (proj1 (Forall_cons_iff _ _ _) (Mi eq_refl))). }
  assert (Snd : forall vs, Forall (fun v : F * F => mild (snd v)) vs -> Forall (fun dt : F => mild dt) (map snd vs)). { intros vs. induction 1; cbn [map]; constructor; assumption. }
  destruct (exp_run_cases next (core (G := G) sy) tg limit Inv Nx fuel c1 l2 disp mv g0 I1) as
    [(vs & t2 & dt & s1 & l1 & d1 & m1 & g1 & l3 & d3 & m3 & g3 & q & H1 & H2 & H3 & H4 & H5 & H6)|[(vs & l1 & d1 & m1 & g1 & H1 & (sa & sb & Y1 & Y2) & H3 & H4)|(vs & s1 & l1 & d1 & m1 & g1 & H1 & H2 & H3 & H4)]].
  - left. assert (X := eq_trans (eq_sym H6) E). destruct q as [[]| | |]; try discriminate X; [|now elim H5]. injection X as -> -> -> -> ->. exists first, vs, dt, s1, l1, d1, m1, g1. split.
    { set (k := Datatypes.S (length vs)) in *. cbn [collect]. rewrite En. cbn [bind]. rewrite H2. reflexivity. }
    split; [exact H3|]. split; [exact H4|]. intros KA. apply (exp_moments N HN (map snd vs) dt l2 disp mv g0 l1 d1 m1 g1 l' d' mv' g'); [|exact T2|exact HM|exact Ld|exact H3|exact H4|exact KA].
    pose proof (Snd _ (Mi2 _ _ _ H2)) as X. rewrite map_app in X. exact X.
  - right. assert (X := eq_trans (eq_sym H4) E). injection X as -> -> -> -> <-. split; [reflexivity|]. exists (first :: vs). split.
    { exists sa, sb. split; [|exact Y2]. cbn [length collect]. rewrite En. cbn [bind]. rewrite Y1. reflexivity. }
    cbn [tl]. split; [exact H3|]. intros KA Hl. destruct (exp_after_64 sy tg limit D Sc Cg Ml N HN (map snd vs) l2 disp mv g0 l' d' mv' g' (Snd _ (Mi2 _ _ _ Y1)) T2 HM Ld H3 KA) as (_ & _ & _ & X).
    apply X. intros Z. destruct vs; [cbn [length] in Hl; lia|discriminate Z].
  - assert (X := eq_trans (eq_sym H4) E). discriminate X.
Qed.
End E.
