(** Boundary steps, targets and distances in double precision for whole runs. *)
From Coq Require Import Reals ZArith List Lra Lia.
From Flocq.Core Require Import Core.
From Flocq.IEEE754 Require Import BinarySingleNaN.
From Verif Require Import Base Scalar Float64 Model_Position Spec_Position Proof_Position Model_System Spec_System Proof_System Proof_System2 Proof_System4 Proof_System7 Proof_Norm64 Proof_Sum64
  Model_Agent Spec_Agent Spec_Wall64 Proof_Wall64b Spec_Run Proof_Run2 Spec_Run64.
Import ListNotations.

Local Open Scope R_scope.
Local Notation vsum := Spec_System.vsum.

Lemma tiny_e k (w : R) : few k -> / 2 ^ 400 <= w -> INR k * eta64 <= u64 * w ^ 2.
Proof.
  intros Fk Hw. destruct (eta_T k Fk) as (E & _). apply Rle_trans with (1 := E). apply Rmult_le_compat_l; [apply Rlt_le, u64_pos|].
  apply pow_incr. pose proof T410_pos. split; [lra|]. apply Rle_trans with (2 := Hw). rewrite T400. assert (1 <= 2 ^ 10) by (apply pow_R1_Rle; lra). nra.
Qed.

(** A computed norm that is not above [w]: the exact one is not above [w] either, up to the slack. *)
Lemma norm_up k (n w : R) : few k -> 0 <= n -> / 2 ^ 400 <= w -> (1 - u64) ^ (k + 3) * n ^ 2 <= w ^ 2 + INR k * eta64 -> n <= w * (1 + slack k).
Proof.
  intros Fk n0 Hw H. pose proof (tiny_e k w Fk Hw) as E. assert (W0 : 0 < w). { apply Rlt_le_trans with (2 := Hw). apply Rinv_0_lt_compat, pow_lt. lra. }
  pose proof (l_lin (k + 3)) as L. rewrite plus_INR in L. simpl (INR 3) in L. pose proof (al_small k Fk) as As. rewrite slack_al. unfold al in *. pose proof (pos_INR k) as K0. pose proof u64_pos as U0.
  set (A := (1 - u64) ^ (k + 3)) in *. set (e := INR k * eta64) in *. set (K := INR k) in *. clearbody A e K.
  apply sq_le_le. { apply Rmult_le_pos; [lra|]. nra. }
  set (a := (K + 4) * u64) in *. assert (La : 1 - a <= A) by (unfold a; lra). assert (a0 : 0 <= a) by (unfold a; apply Rmult_le_pos; lra). assert (ua : u64 <= a) by (unfold a; nra). clearbody a.
  assert (N : (1 - a) * n ^ 2 <= (1 + a) * w ^ 2). { apply Rle_trans with (A * n ^ 2). apply Rmult_le_compat_r; [apply pow2_ge_0|exact La]. apply Rle_trans with (1 := H). pose proof (pow2_ge_0 w). nra. }
  pose proof (pow2_ge_0 n) as n2. pose proof (pow2_ge_0 w) as w2. rewrite Rpow_mult_distr. set (N2 := n ^ 2) in *. set (W2 := w ^ 2) in *. clearbody N2 W2. assert (E1 : N2 <= W2 * (1 + 3 * a)). { apply Rmult_le_reg_l with (1 - a); [lra|]. apply Rle_trans with (1 := N). replace ((1 - a) * (W2 * (1 + 3 * a))) with (W2 * ((1 - a) * (1 + 3 * a))) by ring. rewrite (Rmult_comm (1 + a)). apply Rmult_le_compat_l; [exact w2|]. nra. }
  apply Rle_trans with (1 := E1). apply Rmult_le_compat_l; [exact w2|]. nra.
Qed.
Lemma dist_up k (n w : R) : few k -> 0 <= n -> / 2 ^ 400 <= w -> (1 - u64) ^ (k + 5) * n ^ 2 <= w ^ 2 + INR k * eta64 -> n <= w * (1 + slack k).
Proof.
  intros Fk n0 Hw H. pose proof (tiny_e k w Fk Hw) as E. assert (W0 : 0 < w). { apply Rlt_le_trans with (2 := Hw). apply Rinv_0_lt_compat, pow_lt. lra. }
  pose proof (l_lin (k + 5)) as L. rewrite plus_INR in L. simpl (INR 5) in L. pose proof (al_small k Fk) as As. rewrite slack_al. unfold al in *. pose proof (pos_INR k) as K0. pose proof u64_pos as U0.
  set (A := (1 - u64) ^ (k + 5)) in *. set (e := INR k * eta64) in *. set (K := INR k) in *. clearbody A e K.
  apply sq_le_le. { apply Rmult_le_pos; [lra|]. nra. }
  set (a := (K + 4) * u64) in *. assert (La : 1 - 2 * a <= A) by (unfold a; nra). assert (a0 : 0 <= a) by (unfold a; apply Rmult_le_pos; lra). assert (ua : u64 <= a) by (unfold a; nra). clearbody a.
  assert (N : (1 - 2 * a) * n ^ 2 <= (1 + a) * w ^ 2). { apply Rle_trans with (A * n ^ 2). apply Rmult_le_compat_r; [apply pow2_ge_0|exact La]. apply Rle_trans with (1 := H). pose proof (pow2_ge_0 w). nra. }
  pose proof (pow2_ge_0 n) as n2. pose proof (pow2_ge_0 w) as w2. rewrite Rpow_mult_distr. set (N2 := n ^ 2) in *. set (W2 := w ^ 2) in *. clearbody N2 W2. assert (E1 : N2 <= W2 * (1 + 4 * a)). { apply Rmult_le_reg_l with (1 - 2 * a); [lra|]. apply Rle_trans with (1 := N). replace ((1 - 2 * a) * (W2 * (1 + 4 * a))) with (W2 * ((1 - 2 * a) * (1 + 4 * a))) by ring. rewrite (Rmult_comm (1 + a)). apply Rmult_le_compat_l; [exact w2|]. nra. }
  apply Rle_trans with (1 := E1). apply Rmult_le_compat_l; [exact w2|]. nra.
Qed.

(** A computed distance that is not below [w]: the exact one is not below [w] either, up to the slack. *)
Lemma dist_low k (n w d : R) : few k -> 0 <= n -> / 2 ^ 400 <= w -> w <= d -> d ^ 2 <= (1 + u64) ^ (k + 5) * n ^ 2 + (1 + u64) ^ (k + 2) * (INR k * eta64) -> w * (1 - slack k) <= n.
Proof.
  intros Fk n0 Hw Hd H. pose proof (tiny_e k w Fk Hw) as E. assert (W0 : 0 < w). { apply Rlt_le_trans with (2 := Hw). apply Rinv_0_lt_compat, pow_lt. lra. }
  pose proof (al_small k Fk) as As. rewrite slack_al. unfold al in *. pose proof (pos_INR k) as K0. pose proof u64_pos as U0.
  assert (G5 : (1 + u64) ^ (k + 5) <= 1 + 2 * INR (k + 5) * u64) by (apply g_lin; rewrite plus_INR; simpl (INR 5); nra).
  assert (G2 : (1 + u64) ^ (k + 2) <= 1 + 2 * INR (k + 2) * u64) by (apply g_lin; rewrite plus_INR; simpl (INR 2); nra).
  rewrite plus_INR in G5, G2. simpl (INR 5) in G5. simpl (INR 2) in G2. assert (e0 : 0 <= INR k * eta64) by (apply Rmult_le_pos; [exact K0|apply Rlt_le, eta64_pos]).
  assert (WD : w ^ 2 <= d ^ 2) by (apply pow_incr; lra).
  set (B := (1 + u64) ^ (k + 5)) in *. set (C := (1 + u64) ^ (k + 2)) in *. set (e := INR k * eta64) in *. set (K := INR k) in *. clearbody B C e K.
  set (a := (K + 4) * u64) in *. assert (Ku : 0 <= K * u64) by (apply Rmult_le_pos; lra). assert (LB : B <= 1 + 4 * a) by (unfold a; lra). assert (LC : C <= 2) by (unfold a in As; lra). assert (a0 : 0 <= a) by (unfold a; lra). assert (ua : u64 <= a) by (unfold a; lra). clearbody a.
  destruct (Rle_or_lt (1 - 32 * a) 0) as [Neg|Pos]; [apply Rle_trans with 0; [rewrite <- (Rmult_0_r w); apply Rmult_le_compat_l; lra|exact n0]|]. apply sq_le_le; [exact n0|].
  pose proof (pow2_ge_0 n) as n2. pose proof (pow2_ge_0 w) as w2. rewrite Rpow_mult_distr. set (N2 := n ^ 2) in *. set (W2 := w ^ 2) in *. set (D2 := d ^ 2) in *. clearbody N2 W2 D2.
  assert (M1 : B * N2 <= (1 + 4 * a) * N2) by (apply Rmult_le_compat_r; assumption). assert (M2 : C * e <= 2 * e) by (apply Rmult_le_compat_r; assumption).
  assert (M3 : u64 * W2 <= a * W2) by (apply Rmult_le_compat_r; assumption). assert (N : W2 * (1 - 2 * a) <= (1 + 4 * a) * N2) by lra.
  apply Rmult_le_reg_l with (1 + 4 * a); [lra|]. apply Rle_trans with (2 := N). apply Rle_trans with (W2 * ((1 + 4 * a) * (1 - 32 * a) ^ 2)); [right; ring|]. apply Rmult_le_compat_l; [exact w2|]. nra.
Qed.

(** The sum of the squares of at most 2^40 numbers of at most 2^m. *)
Lemma norm_few (h : list R) m : INR (length h) <= 2 ^ 40 -> Forall (fun x => Rabs x <= 2 ^ m) h -> euclid_norm h <= 2 ^ (m + 20).
Proof.
  intros L H. apply sq_le_le; [apply pow_le; lra|]. rewrite norm_sq.
  assert (E : sq h <= INR (length h) * (2 ^ m) ^ 2).
  { clear L. induction H as [|x h Hx _ IH]; [change (sq []) with 0; cbn [length INR]; lra|]. change (sq (x :: h)) with (x ^ 2 + sq h). cbn [length]. rewrite S_INR.
    assert (x ^ 2 <= (2 ^ m) ^ 2) by (rewrite <- (pow2_abs x); apply pow_incr; split; [apply Rabs_pos|exact Hx]). nra. }
  apply Rle_trans with (1 := E). rewrite pow_add, Rpow_mult_distr, Rmult_comm. apply Rmult_le_compat_l; [apply pow2_ge_0|]. apply Rle_trans with (1 := L). rewrite <- pow_mult. apply Rle_refl.
Qed.
Lemma few_part k d : few k -> (d <= k)%nat -> few d.
Proof. unfold few. intros H L. apply Rle_trans with (2 := H). now apply le_INR. Qed.
Lemma pow_up m n : (m <= n)%nat -> 2 ^ m <= 2 ^ n. Proof. intros H. apply Rle_pow; [lra|exact H]. Qed.

(** A rounded number is finite and grows by less than a factor of two. *)
Lemma op_bound (z : b64) (r : R) (m : nat) : nan z = false -> val z = rnd r -> Rabs r <= 2 ^ m -> (m <= 1000)%nat -> fin z = true /\ Rabs (B2 z) <= 2 ^ S m.
Proof.
  intros N V H M. pose proof (rnd64_err r) as E. pose proof u64_lt1 as U1. pose proof u64_pos as U0.
  assert (P : 1 <= 2 ^ m) by (apply pow_R1_Rle; lra).
  assert (Et : eta64 <= 1 / 2). { unfold eta64. rewrite <- (Rinv_inv (1 / 2)). apply Rinv_le_contravar; [lra|]. replace (/ (1 / 2)) with (2 ^ 1) by (simpl; field). apply pow_up. lia. }
  assert (A : Rabs (rnd64 r) <= 2 ^ S m).
  { change (2 ^ S m) with (2 * 2 ^ m). replace (rnd64 r) with ((rnd64 r - r) + r) by ring. apply Rle_trans with (1 := Rabs_triang _ _). assert (u64 * Rabs r <= 1 / 2 * 2 ^ m) by (apply Rmult_le_compat; try lra; apply Rabs_pos). lra. }
  assert (T : Rabs (rnd64 r) < top). { apply Rle_lt_trans with (1 := A). apply Rlt_le_trans with (2 ^ 1024); [apply Rlt_pow; [lra|lia]|]. unfold top. rewrite <- (bpow_pow 1024). apply Rle_refl. }
  pose proof (rnd64_lt_fin z r N V T) as F. split; [exact F|]. rewrite <- (val_fin z F), V, (rnd_small r T). exact A.
Qed.

Lemma vsum_len {S : scalar} (p q : list S) : length p = length q -> length (vsum p q) = length p.
Proof. intros H. unfold vsum. rewrite map_length, combine_length, H. apply Nat.min_id. Qed.
Section Step.
Context {lm : libm}.
Local Notation F := (F64 lm).
Definition within (m : nat) (p : list b64) : Prop := Forall (fun x : b64 => fin x = true /\ Rabs (B2 x) <= 2 ^ m) p.
Lemma within_fin m p : within m p -> finite_pos p. Proof. intros H. apply Forall_impl with (2 := H). intros x (A & _). exact A. Qed.
Lemma within_up m n p : (m <= n)%nat -> within m p -> within n p.
Proof. intros L H. apply Forall_impl with (2 := H). intros x (A & B). split; [exact A|]. apply Rle_trans with (1 := B). now apply pow_up. Qed.
Lemma within_firstn m d p : within m p -> within m (firstn d p).
Proof. intros H. apply Forall_forall. intros x I. apply (proj1 (Forall_forall _ _) H). rewrite <- (firstn_skipn d p). apply in_or_app. now left. Qed.
Lemma within_norm m p : few (length p) -> within m p -> euclid_norm (reals p) <= 2 ^ (m + 20).
Proof.
  intros L H. apply norm_few; [unfold reals; rewrite map_length; exact L|]. apply Forall_forall. intros x I. apply in_map_iff in I as (y & <- & I). exact (proj2 (proj1 (Forall_forall _ _) H y I)).
Qed.
Lemma sum_within (p q : list b64) : forall m, (m <= 999)%nat -> within m p -> within m q -> within (m + 2) (vsum (S := F) p q).
Proof.
  intros m M Hp. revert q. induction Hp as [|x p (Fx & Bx) _ IH]; intros [|y q] Hq; try (constructor; fail). apply Forall_cons_iff in Hq as ((Fy & By) & Hq).
  change (vsum (S := F) (x :: p) (y :: q)) with (Bplus mode_NE x y :: vsum (S := F) p q). constructor; [|exact (IH q Hq)].
  destruct (plus_val x y Fx Fy) as (N & V). destruct (op_bound _ _ (S m) N V) as (A & B); [|lia|].
  - apply Rle_trans with (1 := Rabs_triang _ _). change (2 ^ S m) with (2 * 2 ^ m). lra.
  - split; [exact A|]. replace (m + 2)%nat with (S (S m)) by lia. exact B.
Qed.
Lemma diff_within (p q : list b64) : forall m, (m <= 999)%nat -> within m p -> within m q -> within (m + 2) (diffs p q).
Proof.
  intros m M Hp. revert q. induction Hp as [|x p (Fx & Bx) _ IH]; intros [|y q] Hq; try (constructor; fail). apply Forall_cons_iff in Hq as ((Fy & By) & Hq).
  change (diffs (x :: p) (y :: q)) with (Bminus mode_NE x y :: diffs p q). constructor; [|exact (IH q Hq)].
  destruct (minus_val x y Fx Fy) as (N & V). destruct (op_bound _ _ (S m) N V) as (A & B); [|lia|].
  - unfold Rminus. apply Rle_trans with (1 := Rabs_triang _ _). rewrite Rabs_Ropp. change (2 ^ S m) with (2 * 2 ^ m). lra.
  - split; [exact A|]. replace (m + 2)%nat with (S (S m)) by lia. exact B.
Qed.
Lemma kick_within (c dt : b64) (zs : list b64) : mild c -> mild dt -> Forall (fun z : b64 => fin z = true /\ Rabs (B2 z) <= 2 ^ 100) zs -> within 254 (brownian_kick (S := F) c dt zs).
Proof.
  intros (Fc & Bc) (Fd & Bd) H. destruct (of_Z_exact 2) as (F2 & E2); [lia|].
  destruct (mult_val (b64_of_Z 2) c F2 Fc) as (N1 & V1). destruct (op_bound _ _ 151 N1 V1) as (A1 & B1); [rewrite E2, Rabs_pos_eq by lra; change (2 ^ 151) with (2 * 2 ^ 150); lra|lia|].
  set (x := Bmult mode_NE (b64_of_Z 2) c) in *. assert (P1 : 0 <= B2 x). { unfold x. rewrite fin_mult_eq by exact A1. apply rnd64_pos. rewrite E2. lra. }
  destruct (mult_val x dt A1 Fd) as (N2 & V2). rewrite Rabs_pos_eq in B1 by exact P1.
  destruct (op_bound _ _ 302 N2 V2) as (A2 & B2'). { rewrite Rabs_pos_eq by (apply Rmult_le_pos; lra). replace (2 ^ 302) with (2 ^ 152 * 2 ^ 150) by (rewrite <- pow_add; reflexivity). apply Rmult_le_compat; lra. } { lia. }
  set (y := Bmult mode_NE x dt) in *. assert (P2 : 0 <= B2 y). { unfold y. rewrite fin_mult_eq by exact A2. apply rnd64_pos. apply Rmult_le_pos; lra. }
  rewrite Rabs_pos_eq in B2' by exact P2. destruct (sqrt_val y A2 P2) as (A3 & E3). set (s := Bsqrt mode_NE y) in *.
  assert (B3 : Rabs (B2 s) <= 2 ^ 153).
  { pose proof (rnd64_sqrt y P2) as E. rewrite <- E3 in E. assert (Q : sqrt (B2 y) <= 2 ^ 152). { rewrite <- (sqrt_pow2 (2 ^ 152)) by (apply pow_le; lra). apply sqrt_le_1_alt. apply Rle_trans with (1 := B2'). rewrite <- pow_mult. apply pow_up. lia. }
    pose proof (sqrt_pos (B2 y)) as Q0. pose proof u64_lt1 as U1. pose proof u64_pos as U0. replace (B2 s) with ((B2 s - sqrt (B2 y)) + sqrt (B2 y)) by ring. apply Rle_trans with (1 := Rabs_triang _ _). rewrite (Rabs_pos_eq (sqrt _)) by exact Q0.
    change (2 ^ 153) with (2 * 2 ^ 152). assert (u64 * sqrt (B2 y) <= 1 * sqrt (B2 y)) by (apply Rmult_le_compat_r; lra). lra. }
  induction H as [|z zs (Fz & Bz) _ IH]; [constructor|]. change (brownian_kick (S := F) c dt (z :: zs)) with (Bmult mode_NE z s :: brownian_kick (S := F) c dt zs). constructor; [|exact IH].
  destruct (mult_val z s Fz A3) as (N4 & V4). apply (op_bound _ _ 253 N4 V4); [|lia]. rewrite Rabs_mult. replace (2 ^ 253) with (2 ^ 100 * 2 ^ 153) by (rewrite <- pow_add; reflexivity). apply Rmult_le_compat; auto; apply Rabs_pos.
Qed.

Lemma roomy_fit l : roomy l -> fit l.
Proof. intros (A & B & C). split; [exact A|]. split; [apply Rle_trans with (2 := B), Rlt_le, Rinv_0_lt_compat, pow_lt; lra|]. apply Rle_trans with (1 := C). apply pow_up. lia. Qed.
Lemma from_norm (m : nat) (h : list b64) : finite_pos h -> euclid_norm (reals h) <= 2 ^ m -> within m h.
Proof.
  intros H E. apply Forall_forall. intros x I. split; [exact (proj1 (Forall_forall _ _) H x I)|]. apply Rle_trans with (2 := E). apply coord_le. now apply in_map.
Qed.
Lemma slack_small k : few k -> 0 <= slack k <= 1.
Proof. intros Fk. pose proof (al_small k Fk) as A. pose proof (al_pos k) as P. pose proof u64_pos. rewrite slack_al. lra. Qed.

Lemma norm_ok (h : list b64) : few (length h) -> within 304 h -> fin (n64 h) = true.
Proof. intros L H. apply norm_finite; [exact L|exact (within_fin _ _ H)|]. apply Rle_trans with (1 := within_norm 304 _ L H). apply pow_up. lia. Qed.
(** A step that succeeds: inside the true system up to rounding, and on scale again. *)
Lemma step_64 {G : rng F} (sy : anysys F) (p dp q : list b64) : ordinary sy -> built sy -> length p = sysdim sy -> length dp = sysdim sy -> on_scale p -> within 300 dp ->
  sc_check_bc (core (G := G) sy) p dp = (q, Ok tt) -> on_scale q /\ inside_upto sy q.
Proof.
  intros (Fk & O) B Lp Ld Sp Sd H. pose proof (sum_within p dp 302 ltac:(lia) Sp (within_up 300 302 dp ltac:(lia) Sd)) as M. cbn [Nat.add] in M.
  assert (Lpd : length p = length dp) by (transitivity (sysdim sy); [exact Lp|symmetry; exact Ld]).
  assert (Lm : length (vsum (S := F) p dp) = sysdim sy). { transitivity (length p); [exact (vsum_len (S := F) p dp Lpd)|exact Lp]. }
  assert (Nf : forall d, few d -> length (firstn d (vsum (S := F) p dp)) = d -> fin (n64 (firstn d (vsum (S := F) p dp))) = true).
  { intros d Fd Ln. pose proof (within_firstn 304 d _ M) as Md. exact (norm_ok _ (eq_ind_r few Fd Ln) Md). }
  destruct sy as [s|s|s].
  - cbn [sysdim] in *. destruct (circ_ok_finite lm s p dp q (roomy_fit _ O) Lpd) as (Lq & Fq & Iq); [|exact H|].
    { exact (norm_ok (vsum (S := F) p dp) (eq_ind_r few Fk Lm) M). }
    destruct O as (Fr & R1 & R2). assert (R0 : 0 <= B2 (ci_size s)) by (apply Rle_trans with (2 := R1), Rlt_le, Rinv_0_lt_compat, pow_lt; lra).
    pose proof (proj1 (circ_inclusion_64 lm s q Lq Fr R0 Fq) Iq) as N. assert (Fq' : few (length q)) by (rewrite Lq; exact Fk).
    pose proof (norm_up (length q) _ _ Fq' (euclid_norm_nonneg (reals q)) R1 N) as U. pose proof (slack_small _ Fq') as Sl.
    split; [|split; [exact Fq|split; [exact Lq|rewrite <- Lq; exact U]]]. apply (within_up 301); [lia|]. apply from_norm; [exact Fq|]. apply Rle_trans with (1 := U). change (2 ^ 301) with (2 * 2 ^ 300). assert (B2 (ci_size s) * (1 + slack (length q)) <= B2 (ci_size s) * 2) by (apply Rmult_le_compat_l; lra). lra.
  - cbn [sysdim] in *. destruct (cubic_ok_bounded lm s p dp q (roomy_fit _ O) (within_fin _ _ Sp) (within_fin _ _ Sd) Lpd H) as (Lq & Bq).
    split; [|split; [apply Forall_impl with (2 := Bq); intros x (A & _); exact A|split; [exact Lq|apply Forall_impl with (2 := Bq); intros x (_ & A); exact A]]].
    apply Forall_impl with (2 := Bq). intros x (A & A2). split; [exact A|]. apply Rle_trans with (1 := A2), Rle_trans with (1 := proj2 (proj2 O)). apply pow_up. lia.
  - cbn [sysdim] in *. destruct (built_cyl_inv s B) as (d & T & Bc & D & _). destruct O as (Or & Ol). pose proof (few_part _ d Fk D) as Fd.
    destruct (cyl_ok_bounded lm s d p dp q T Bc D (roomy_fit _ Or) (roomy_fit _ Ol) (within_fin _ _ Sp) (within_fin _ _ Sd) Lpd) as (Lq & Fq & Aq & Rq); [|exact H|].
    { apply Nf; [exact Fd|]. rewrite firstn_length, Lm. lia. }
    destruct Or as (Fr & R1 & R2). assert (R0 : 0 <= B2 (cy_radius s)) by (apply Rle_trans with (2 := R1), Rlt_le, Rinv_0_lt_compat, pow_lt; lra).
    assert (Lf : length (firstn d q) = d) by (rewrite firstn_length, Lq; lia). assert (Ff : finite_pos (firstn d q)). { apply Forall_forall. intros x I. apply (proj1 (Forall_forall _ _) Fq). rewrite <- (firstn_skipn d q). apply in_or_app. now left. }
    pose proof (proj1 (norm_le_bounds (cy_radius s) (firstn d q) Fr R0 Ff) Rq) as N. rewrite Lf in N. pose proof (norm_up d _ _ Fd (euclid_norm_nonneg (reals (firstn d q))) R1 N) as U. pose proof (slack_small _ Fd) as Sl.
    split; [|split; [exact Fq|split; [exact Lq|]]].
    + rewrite <- (firstn_skipn d q). apply Forall_app. split.
      * apply (within_up 301); [lia|]. apply from_norm; [exact Ff|]. apply Rle_trans with (1 := U). change (2 ^ 301) with (2 * 2 ^ 300). assert (B2 (cy_radius s) * (1 + slack d) <= B2 (cy_radius s) * 2) by (apply Rmult_le_compat_l; lra). lra.
      * apply Forall_impl with (2 := Aq). intros x (A & A2). split; [exact A|]. apply Rle_trans with (1 := A2), Rle_trans with (1 := proj2 (proj2 Ol)). apply pow_up. lia.
    + exists d. split; [exact T|]. split; [exact U|]. apply Forall_impl with (2 := Aq). intros x (_ & A). exact A.
Qed.

(** A distance not below [w]. *)
Lemma apart_64 (p q : list b64) (w d : b64) : few (length p) -> length p = length q -> on_scale p -> on_scale q -> fin w = true -> / 2 ^ 400 <= B2 w -> distance (S := F) p q = Ok (d : F) -> Bltb d w = false -> apart_upto w p q.
Proof.
  intros Fk L Sp Sq Fw W E H. pose proof (distance_64 lm p q L) as E2. assert (d = n64 (diffs p q)) as -> by congruence.
  pose proof (diff_within p q 302 ltac:(lia) Sp Sq) as D. cbn [Nat.add] in D. assert (Ld : length (diffs p q) = length p) by (unfold diffs; rewrite map_length, combine_length; lia).
  assert (Fd : fin (n64 (diffs p q)) = true). { exact (norm_ok _ (eq_ind_r few Fk Ld) D). }
  destruct (distance_64_bounds lm p q _ (within_fin _ _ Sp) (within_fin _ _ Sq) E Fd) as (P & _ & U).
  apply (dist_low (length p) _ (B2 w) (B2 (n64 (diffs p q))) Fk); [unfold euclid; apply sqrt_pos|exact W| |exact U]. apply Rnot_lt_le. intros C. assert (Bltb (n64 (diffs p q)) w = true) by (apply (ltb64 _ _ Fd Fw); exact C). congruence.
Qed.
End Step.
