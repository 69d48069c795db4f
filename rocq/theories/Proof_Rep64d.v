(** Steps and runs of repelling agents in double precision. *)
From Coq Require Import Reals ZArith List Lra Lia.
From Flocq.Core Require Import Core.
From Flocq.IEEE754 Require Import BinarySingleNaN.
From Verif Require Import Base Scalar Float64 Model_Position Spec_Position Proof_Position Model_System Spec_System Proof_System Proof_System2 Proof_System4 Proof_System7 Proof_Norm64 Proof_Sum64
  Model_LinkedList Spec_LinkedList Refine_LinkedList Proof_LinkedList Proof_LinkedList2 Proof_LinkedList3
  Proof_LinkedList4 Proof_LinkedList5 Proof_LinkedList6 Proof_Run Model_Run
  Model_Agent Spec_Agent Proof_Agent Proof_Agent2 Proof_Agent4 Spec_Wall64 Proof_Wall64b Spec_Run Spec_Run2 Proof_Run2 Proof_Run3 Proof_Run4 Proof_Run5 Proof_Search Proof_Run6 Proof_Run7 Proof_Run8 Proof_Run9 Proof_Run10
  Spec_Run64 Proof_Run64 Proof_Run64b Proof_Run64c Spec_Rep64 Proof_Rep64 Proof_Rep64b Proof_Rep64c.
Import ListNotations.
Local Open Scope R_scope.

Section D.
Context {lm : libm} {G : rng (F64 lm)}.
Local Notation F := (F64 lm).
Lemma noisy_zip (c dt : F) (v zs : list b64) : noisy_kick (S := F) c dt v zs = map (fun xy : b64 * b64 => Bplus mode_NE (Bplus mode_NE (fst xy) (snd xy)) (b64_of_Z 0)) (combine v (brownian_kick (S := F) c dt zs)).
Proof. revert zs. induction v as [|x v IH]; intros [|z zs]; [reflexivity..|]. unfold noisy_kick, brownian_kick in *. cbn [combine map fst snd]. f_equal. apply IH. Qed.
Lemma draws_calm n : calm G -> forall g : rstate G, Forall (fun z : b64 => fin z = true /\ Rabs (B2 z) <= 2 ^ 100) (fst (draws (gauss G) n g)).
Proof.
  intros Cg. induction n as [|n IH]; intros g; [constructor|]. cbn [draws]. pose proof (Cg g) as C0. destruct (gauss G g) as (x, g1). specialize (IH g1). destruct (draws (gauss G) n g1) as (l, g2). constructor; [exact C0|exact IH].
Qed.
Lemma noise_64 (c dt : F) (v zs : list b64) : mild c -> mild dt -> within 993 v -> Forall (fun z : b64 => fin z = true /\ Rabs (B2 z) <= 2 ^ 100) zs -> finite_pos (noisy_kick (S := F) c dt v zs).
Proof.
  intros Mc Md Hv Hz. rewrite noisy_zip. pose proof (kick_within (lm := lm) c dt zs Mc Md Hz) as K. revert K. generalize (brownian_kick (S := F) c dt zs) as d. intros d. clear Hz. revert d.
  induction Hv as [|x v (Fx & Bx) _ IH]; intros [|y d] Hd; try (constructor; fail). apply Forall_cons_iff in Hd as ((Fy & By) & Hd). cbn [combine map fst snd]. constructor; [|exact (IH d Hd)].
  destruct (plus_val x y Fx Fy) as (N1 & V1). destruct (op_bound _ _ 994 N1 V1) as (F1 & B1). { apply Rle_trans with (1 := Rabs_triang _ _). assert (2 ^ 254 <= 2 ^ 993) by (apply pow_up; lia). change (2 ^ 994) with (2 * 2 ^ 993). lra. } { lia. }
  destruct (of_Z_exact 0 ltac:(lia)) as (F0 & E0). destruct (plus_val _ _ F1 F0) as (N2 & V2). rewrite E0 in V2. exact (proj1 (op_bound _ _ 995 N2 V2 ltac:(rewrite Rplus_0_r; exact B1) ltac:(lia))).
Qed.

Variables (sy : anysys F) (tg : target F) (limit : F).
Hypothesis D : decaying lm.
Hypothesis Sc : scene sy tg.
Hypothesis Cg : calm G.
Hypothesis Ml : modest limit.
Notation n := (sysdim sy).

Lemma limit_within (w : list b64) : few (length w) -> finite_pos w -> euclid_norm (reals w) <= B2 limit * (1 + 2 * slack (length w)) -> within 300 w.
Proof.
  intros Fk Fw H. apply from_norm; [exact Fw|]. apply Rle_trans with (1 := H). destruct (slack_u _ Fk) as (S1 & S2). pose proof u64_pos as U0. destruct Ml as (_ & L1 & L2).
  assert (L0 : 0 < B2 limit) by (apply Rlt_le_trans with (2 := L1), Rinv_0_lt_compat, pow_lt; lra). change (2 ^ 300) with (2 * (2 * 2 ^ 298)). assert (0 <= 2 ^ 298) by (apply pow_le; lra).
  assert (B2 limit * (1 + 2 * slack (length w)) <= B2 limit * 2) by (apply Rmult_le_compat_l; lra). lra.
Qed.

Lemma exp_stepped_64 (dt : F) plan z i (a b : expag F) : mild dt -> exp_in n a -> tame a -> Forall (fun v : pos F => within 993 v) plan -> Forall (fun v : pos F => length v = n) plan ->
  exp_stepped (core (G := G) sy) tg limit dt plan z i a b ->
  tame b /\ short_move (G := G) sy limit a b /\ inside_upto sy (ex_pos b) /\ (if z then on_upto tg (ex_pos b) else off_upto tg (ex_pos b)).
Proof.
  intros Md (Da & La & c & Mt) ((c2 & Mt2 & Mc) & Rg & Ff & Fb & Sp) Wp Lp (g0 & g1 & v & v1 & p & Ev & En & Eb & -> & Ef). destruct Sc as (O & B & Ft & Lt).
  assert (c2 = c) as -> by congruence. assert (Wv : within 993 v) by exact (proj1 (Forall_forall _ _) Wp v (nth_error_In _ _ Ev)). assert (Lv : length v = n) by exact (proj1 (Forall_forall _ _) Lp v (nth_error_In _ _ Ev)).
  pose proof (random_move_to_draws (AExp a) g0 dt c v Mt2 (eq_trans Lv (eq_sym Da))) as R. change (a_random_move_to_vec (AExp a) g0 dt v) with (expag_random_move_to_vec a g0 dt v) in R. rewrite En in R.
  assert (E1 : v1 = noisy_kick c dt v (fst (draws (gauss G) (ex_dim a) g0))). { apply pair_equal_spec in R as (R & _). apply pair_equal_spec in R as (R & _). exact R. }
  assert (F1 : finite_pos v1). { rewrite E1. apply noise_64; [exact Mc|exact Md|exact Wv|]. apply draws_calm, Cg. }
  assert (L1 : @length b64 v1 = n). { rewrite E1. unfold noisy_kick. rewrite map_length, combine_length, draws_len. change (@length (car F) v) with (length v). rewrite Lv, Da. apply Nat.min_id. }
  assert (Fk : few n) by exact (proj1 O). destruct (limit_64 limit v1 Ml (eq_ind_r few Fk L1) F1) as (Lw & Fw & Nw). set (w := limit_move limit v1 : list b64) in *.
  assert (Lwn : @length b64 w = n) by (exact (eq_trans Lw L1)). assert (Nw2 : euclid_norm (reals w) <= B2 limit * (1 + 2 * slack n)). { rewrite <- L1. exact Nw. }
  assert (Ww : within 300 w). { apply limit_within; [exact (eq_ind_r few Fk Lwn)|exact Fw|]. rewrite Lwn. exact Nw2. }
  destruct (step_64 sy (ex_pos a) w p O B La Lwn Sp Ww Eb) as (Sq & Iq). split.
  { split; [exists c; split; [exact Mt2|exact Mc]|]. split; [exact Rg|]. split; [exact Ff|]. split; [exact Fb|exact Sq]. }
  split. { exists w. split; [exact Lwn|]. split; [exact Fw|]. split; [exact Nw2|exact Eb]. }
  split; [exact Iq|]. exact (found_64 sy tg z p O Ft Lt Sq (proj1 (proj2 Iq)) Ef).
Qed.

Lemma plans_length (dt : F) (cs : list (expag F)) (disp : pos F) : Forall (exp_in n) cs -> length disp = n -> Forall (fun v : pos F => length v = n) (plans n dt cs disp).
Proof.
  intros Hin Ld. unfold plans. apply (fold_good n dt cs (length cs) (pairs (seq 0 (length cs))) Hin). cbn [fst snd]. split; [exact Ld|]. split; [apply repeat_length|].
  apply Forall_forall. intros v Hv. apply repeat_spec in Hv. subst v. apply repeat_length.
Qed.

Theorem exp_step_64 N (dt : F) (l : llist (expag F)) (disp : pos F) (mv : llist (pos F)) (g : rstate G) l' disp' mv' g' r : INR N <= 2 ^ 20 -> mild dt ->
  ready_team n N l -> spread (contents l) -> move_list n N mv -> length disp = n -> exp_step (core (G := G) sy) tg limit dt l disp mv g = (l', disp', mv', g', r) ->
  exp_crew n N l' /\ move_list n N mv' /\ length disp' = n /\
  (r = Ok false -> ready_team n N l' /\ forall i, (i < N)%nat -> exists a b, nth_error (contents l) i = Some a /\ nth_error (contents l') i = Some b /\
     short_move (G := G) sy limit a b /\ inside_upto sy (ex_pos b) /\ off_upto tg (ex_pos b)) /\
  (r = Ok true -> exists i a b, (i < N)%nat /\ nth_error (contents l) i = Some a /\ nth_error (contents l') i = Some b /\
     short_move (G := G) sy limit a b /\ inside_upto sy (ex_pos b) /\ on_upto tg (ex_pos b)).
Proof.
  intros HN Md (HC & HT) Sp HM Ld E. destruct Sc as (O & B & Ft & Lt).
  destruct (exp_step_shape (G := G) sy tg limit B Lt dt N l disp mv g HC HM Ld) as (l2 & d2 & m2 & g2 & r2 & E2 & C2 & M2 & D2 & _). rewrite E in E2. injection E2 as <- <- <- <- <-.
  destruct (exp_step_trace n (core (G := G) sy) tg limit dt N l disp mv g _ _ _ _ _ HC HM Ld E) as (T1 & T2).
  pose proof (ec_crew _ _ _ HC) as Hin. pose proof (ec_slots _ _ _ HC) as Sl.
  assert (Wp : Forall (fun v : pos F => within 993 v) (plans n dt (contents l) disp)). { apply plans_64; [exact D|exact Md|exact (proj1 O)|exact Hin|exact HT|exact Sp|rewrite Sl; exact HN]. }
  pose proof (plans_length dt (contents l) disp Hin Ld) as Lp.
  assert (St : forall z i a b, nth_error (contents l) i = Some a -> exp_stepped (core (G := G) sy) tg limit dt (plans n dt (contents l) disp) z i a b ->
    tame b /\ short_move (G := G) sy limit a b /\ inside_upto sy (ex_pos b) /\ (if z then on_upto tg (ex_pos b) else off_upto tg (ex_pos b))).
  { intros z i a b Ea. apply exp_stepped_64; [exact Md|exact (crew_nth n _ _ _ Hin Ea)|exact (proj1 (Forall_forall _ _) HT a (nth_error_In _ _ Ea))|exact Wp|exact Lp]. }
  split; [exact C2|]. split; [exact M2|]. split; [exact D2|]. split.
  - intros Hr. split.
    + split; [exact C2|]. apply Forall_forall. intros b Hb. apply In_nth_error in Hb as (i & Hi). assert (Li : (i < N)%nat). { rewrite <- (ec_slots _ _ _ C2). apply nth_error_Some. intros X. rewrite X in Hi. discriminate Hi. }
      destruct (T1 Hr i Li) as (a & b2 & Ea & Eb & X). assert (b2 = b) as -> by congruence. exact (proj1 (St _ _ _ _ Ea X)).
    + intros i Li. destruct (T1 Hr i Li) as (a & b & Ea & Eb & X). exists a, b. split; [exact Ea|]. split; [exact Eb|]. exact (proj2 (St _ _ _ _ Ea X)).
  - intros Hr. destruct (T2 Hr) as (i & a & b & Li & Ea & Eb & X). exists i, a, b. split; [exact Li|]. split; [exact Ea|]. split; [exact Eb|]. exact (proj2 (St _ _ _ _ Ea X)).
Qed.

(** Any number of steps. *)
Theorem exp_after_64 N : INR N <= 2 ^ 20 -> forall (dts : list F) (l : llist (expag F)) (disp : pos F) (mv : llist (pos F)) (g : rstate G) l' disp' mv' g', Forall (fun dt : F => mild dt) dts ->
  ready_team n N l -> move_list n N mv -> length disp = n -> exp_after (core (G := G) sy) tg limit dts l disp mv g = Some (l', disp', mv', g') ->
  kept_apart (G := G) sy tg limit dts l disp mv g ->
  ready_team n N l' /\ move_list n N mv' /\ length disp' = n /\
  (dts <> [] -> team_off sy tg l').
Proof.
  intros HN. induction dts as [|dt dts IH]; intros l disp mv g l' disp' mv' g' HF HR HM Ld E Sp.
  { cbn [exp_after] in E. injection E as <- <- <- <-. split; [exact HR|]. split; [exact HM|]. split; [exact Ld|]. intros X. now elim X. }
  apply Forall_cons_iff in HF as (Md & HF). cbn [exp_after] in E. destruct (exp_step (core (G := G) sy) tg limit dt l disp mv g) as ((((l1, d1), m1), g1), r1) eqn:Es. destruct r1 as [[]| | |]; try discriminate E.
  pose proof (Sp [] (dt :: dts) l disp mv g eq_refl ltac:(discriminate) eq_refl) as S0.
  destruct (exp_step_64 N dt l disp mv g _ _ _ _ _ HN Md HR S0 HM Ld Es) as (C1 & M1 & D1 & X & _). destruct (X eq_refl) as (R1 & Y). clear X.
  assert (Z : ready_team n N l' /\ move_list n N mv' /\ length disp' = n /\ (dts <> [] -> team_off sy tg l')).
  { apply (IH l1 d1 m1 g1 l' disp' mv' g' HF R1 M1 D1 E). intros us ws lj dj mj gj -> Hw Ej. apply (Sp (dt :: us) ws lj dj mj gj eq_refl Hw). cbn [exp_after]. rewrite Es. exact Ej. }
  destruct Z as (Z1 & Z2 & Z3 & Z4). split; [exact Z1|]. split; [exact Z2|]. split; [exact Z3|]. intros _. destruct dts as [|d2 dts]; [|apply Z4; discriminate].
  cbn [exp_after] in E. injection E as <- <- <- <-. intros i b Hb. assert (Li : (i < N)%nat). { rewrite <- (ec_slots _ _ _ C1). apply nth_error_Some. intros X. rewrite X in Hb. discriminate Hb. }
  destruct (Y i Li) as (a & b2 & _ & Eb & _ & In & Off). assert (b2 = b) as -> by congruence. auto.
Qed.
End D.
