(** The limit on the displacement of repelling agents in double precision. *)
From Coq Require Import Reals ZArith List Lra Lia.
From Flocq Require Import Core IEEE754.BinarySingleNaN.
From Verif Require Import Base Scalar Float64 Model_Position Spec_Position Proof_Position Model_System Spec_System Proof_System Proof_System2 Proof_System4 Proof_Norm64 Proof_Sum64 Proof_Force64
  Model_Agent Spec_Agent Spec_Wall64 Proof_Wall64 Proof_Wall64b Proof_Pair64 Model_Run Spec_Run Spec_Run64 Spec_Rep64 Proof_Run64.
Import ListNotations.
Local Open Scope R_scope.

Lemma near_scaled (a e : R) : 0 <= a -> 0 <= e -> forall v w : list R, Forall2 (fun x y => Rabs y <= a * Rabs x + e) v w -> euclid_norm w <= a * euclid_norm v + INR (length v) * e.
Proof.
  intros a0 e0 v w H. induction H as [|x y v w Hxy H IH]; [unfold euclid_norm; cbn; rewrite sqrt_0; lra|].
  pose proof (euclid_norm_nonneg v) as V0. pose proof (euclid_norm_nonneg w) as W0. pose proof (euclid_norm_nonneg (x :: v)) as X0. cbn [length]. rewrite S_INR.
  pose proof (norm_sq v) as Qv. pose proof (norm_sq w) as Qw. pose proof (norm_sq (x :: v)) as Qx. pose proof (norm_sq (y :: w)) as Qy.
  change (sq (x :: v)) with (x ^ 2 + sq v) in Qx. change (sq (y :: w)) with (y ^ 2 + sq w) in Qy. rewrite <- Qv in Qx. rewrite <- Qw in Qy.
  pose proof (pos_INR (length v)) as K0. set (k := INR (length v)) in *. set (V := euclid_norm v) in *. set (W := euclid_norm w) in *. set (X := euclid_norm (x :: v)) in *.
  clearbody k V W X. clear H Qv Qw. apply sq_le_le; [assert (0 <= a * X) by (apply Rmult_le_pos; lra); assert (0 <= (k + 1) * e) by (apply Rmult_le_pos; lra); lra|]. rewrite Qy.
  rewrite <- (pow2_abs y). rewrite <- (pow2_abs x) in Qx. pose proof (Rabs_pos x) as x0. pose proof (Rabs_pos y) as y0. set (x1 := Rabs x) in *. set (y1 := Rabs y) in *. clearbody x1 y1.
  assert (x1 <= X) by (apply sq_le_le; [lra|nra]). assert (V <= X) by (apply sq_le_le; [lra|nra]).
  assert (Y2 : y1 ^ 2 <= (a * x1 + e) ^ 2) by (apply pow_incr; lra). assert (W2 : W ^ 2 <= (a * V + k * e) ^ 2) by (apply pow_incr; lra).
  assert (ke : 0 <= k * e) by (apply Rmult_le_pos; lra). assert (A1 : a * x1 <= a * X) by (apply Rmult_le_compat_l; lra). assert (A2 : a * V <= a * X) by (apply Rmult_le_compat_l; lra).
  assert (AX : (a * X) ^ 2 = (a * x1) ^ 2 + (a * V) ^ 2) by (rewrite !Rpow_mult_distr, Qx; ring).
  assert (0 <= a * x1) by (apply Rmult_le_pos; lra). assert (0 <= a * V) by (apply Rmult_le_pos; lra).
  replace ((k + 1) * e) with (k * e + e) by ring. set (p := a * x1) in *. set (q := a * V) in *. set (s := a * X) in *. set (f := k * e) in *. clearbody p q s f.
  apply Rle_trans with ((p + e) ^ 2 + (q + f) ^ 2); [lra|]. assert (p * e <= s * e) by (apply Rmult_le_compat_r; lra). assert (q * f <= s * f) by (apply Rmult_le_compat_r; lra).
  assert (0 <= e * f) by (apply Rmult_le_pos; lra). assert (0 <= s * e) by (apply Rmult_le_pos; lra). assert (0 <= s * f) by (apply Rmult_le_pos; lra). nra.
Qed.

Section L.
Context {lm : libm}.
Local Notation F := (F64 lm).

Lemma one_value : fin (b64_of_Z 1) = true /\ B2 (b64_of_Z 1) = 1.
Proof. exact (of_Z_exact 1 ltac:(lia)). Qed.
Lemma rnd64_one : rnd64 1 = 1.
Proof. destruct one_value as (A & B). rewrite <- B. apply round_generic; [auto with typeclass_instances|apply generic_format_B2R]. Qed.
Lemma times_zero (x : b64) s : fin x = true -> fin (Bmult mode_NE x (B754_zero s)) = true /\ B2 (Bmult mode_NE x (B754_zero s)) = 0.
Proof. destruct x as [s0|s0| |s0 m e H]; intros H0; try discriminate H0; split; reflexivity. Qed.
Lemma one_over_inf : Bdiv mode_NE (b64_of_Z 1) (B754_infinity false) = B754_zero false.
Proof. apply B2SF_inj. vm_compute. reflexivity. Qed.
Lemma inf_over (L : b64) : fin L = true -> 0 < B2 L -> Bdiv mode_NE (B754_infinity false) L = B754_infinity false.
Proof.
  destruct L as [s|s| |[] m e H]; intros F0 P; try discriminate F0; try reflexivity; [cbn in P; lra|]. exfalso. cbn in P. unfold F2R in P. cbn [Fnum Fexp cond_Zopp] in P. pose proof (bpow_gt_0 radix2 e).
  assert (IZR (Z.neg m) < 0) by (apply IZR_lt; lia). nra.
Qed.
Lemma one_lt_inf : Bltb (b64_of_Z 1) (B754_infinity false) = true.
Proof. vm_compute. reflexivity. Qed.
Lemma over_zero k : euclid_norm (repeat 0 k) = 0.
Proof. unfold euclid_norm. induction k as [|k IH]; [cbn; apply sqrt_0|]. cbn [repeat map fold_right] in *. revert IH. unfold rsum. cbn. rewrite !Rmult_0_l, ?Rplus_0_l. auto. Qed.
Lemma slack_u k : few k -> 128 * u64 <= slack k <= 1 / 30.
Proof.
  intros Fk. rewrite slack_al. pose proof (al_small k Fk) as A. unfold al in *. pose proof (pos_INR k). pose proof u64_pos. split; [|lra]. assert (0 <= INR k * u64) by (apply Rmult_le_pos; lra). lra.
Qed.
Lemma eta_few k : few k -> INR k * eta64 <= u64 * / 2 ^ 400 /\ 0 <= INR k * eta64 /\ eta64 <= u64.
Proof.
  intros Fk. destruct (eta_T k Fk) as (E & E2). pose proof eta64_pos as P. pose proof u64_pos as U0. pose proof T410_pos as T0.
  assert (T2 : / 2 ^ 400 <= 1). { rewrite <- Rinv_1. apply Rinv_le_contravar; [lra|apply pow_R1_Rle; lra]. }
  assert (T1 : T410 ^ 2 <= / 2 ^ 400). { rewrite T400 in T2 |- *. assert (1 <= 2 ^ 10) by (apply pow_R1_Rle; lra). assert (T410 <= 1) by nra. nra. }
  split; [apply Rle_trans with (1 := E); apply Rmult_le_compat_l; lra|]. split; [apply Rmult_le_pos; [apply pos_INR|lra]|]. apply Rle_trans with (1 := E2). rewrite <- (Rmult_1_r u64) at 2. apply Rmult_le_compat_l; lra.
Qed.

(** A number rounded to at most 1; one rounded to more than 1. *)
Lemma rnd_le_one r : 0 <= r -> rnd64 r <= 1 -> r <= 1 + 4 * u64.
Proof.
  intros r0 H. pose proof (rnd64_err r) as E. apply Rabs_le_inv in E. rewrite (Rabs_pos_eq r r0) in E. pose proof u64_pos. pose proof u64_tiny as U. destruct (eta_few 0) as (_ & _ & Et). { unfold few. change (INR 0) with 0. apply pow_le. lra. }
  assert (r * (1 - u64) <= 1 + u64) by lra. apply Rmult_le_reg_r with (1 - u64); [lra|]. nra.
Qed.
Lemma rnd_gt_one r : 1 < rnd64 r -> 1 < r.
Proof. intros H. apply Rnot_le_lt. intros C. apply (Rlt_not_le _ _ H). rewrite <- rnd64_one. apply round_le; auto with typeclass_instances. Qed.

Lemma unscaled k (n N L : R) : few k -> 0 <= n -> 0 <= N -> / 2 ^ 400 <= L -> (1 - u64) ^ (k + 3) * n ^ 2 <= N ^ 2 + INR k * eta64 -> N <= L * (1 + 4 * u64) -> n <= L * (1 + 2 * slack k).
Proof.
  intros Fk n0 N0 HL H HN. destruct (slack_u k Fk) as (S1 & S2). pose proof u64_pos as U0. assert (L0 : 0 < L). { apply Rlt_le_trans with (2 := HL). apply Rinv_0_lt_compat, pow_lt. lra. }
  assert (W : / 2 ^ 400 <= L * (1 + 4 * u64)). { apply Rle_trans with (1 := HL). rewrite <- (Rmult_1_r L) at 1. apply Rmult_le_compat_l; lra. }
  assert (X : n <= L * (1 + 4 * u64) * (1 + slack k)). { apply (norm_up k n _ Fk n0 W). apply Rle_trans with (1 := H). apply Rplus_le_compat_r. apply pow_incr. lra. }
  apply Rle_trans with (1 := X). rewrite Rmult_assoc. apply Rmult_le_compat_l; [lra|]. nra.
Qed.
Lemma n64_small (v : list b64) : fin (n64 v) = true -> B2 (n64 v) <= 2 ^ 513.
Proof.
  intros H. pose proof (sqrt_fin_inv _ H) as H2. pose proof (ss_nonneg v H2) as P. destruct (sqrt_val _ H2 P) as (_ & V). fold (n64 v) in V. rewrite V.
  pose proof (rnd64_sqrt _ P) as E. apply Rabs_le_inv in E. pose proof (sqrt_pos (B2 (ss (b64_of_Z 0) v))) as Q0. pose proof u64_lt1 as U1.
  assert (Q : sqrt (B2 (ss (b64_of_Z 0) v)) <= 2 ^ 512). { rewrite <- (sqrt_pow2 (2 ^ 512)) by (apply pow_le; lra). apply sqrt_le_1_alt. rewrite <- pow_mult. pose proof (abs_B2R_lt_emax 53 1024 (ss (b64_of_Z 0) v)) as T. rewrite Rabs_pos_eq in T by exact P.
    apply Rlt_le. change (512 * 2)%nat with 1024%nat. rewrite <- (bpow_pow 1024). exact T. }
  change (2 ^ 513) with (2 * 2 ^ 512). assert (u64 * sqrt (B2 (ss (b64_of_Z 0) v)) <= 1 * sqrt (B2 (ss (b64_of_Z 0) v))) by (apply Rmult_le_compat_r; lra). lra.
Qed.
Lemma scaled k (n N L m t : R) : few k -> 0 <= n -> / 2 ^ 400 <= L -> 1 < N / L -> (1 - u64) ^ (k + 3) * n ^ 2 <= N ^ 2 + INR k * eta64 ->
  0 <= t <= (1 + 2 * u64) / (N / L * (1 - 2 * u64)) -> m <= (1 + u64) * t * n + INR k * eta64 -> m <= L * (1 + 2 * slack k).
Proof.
  intros Fk n0 HL Hq H Ht Hm. destruct (slack_u k Fk) as (S1 & S2). pose proof u64_pos as U0. pose proof u64_tiny as U1. assert (L0 : 0 < L). { apply Rlt_le_trans with (2 := HL). apply Rinv_0_lt_compat, pow_lt. lra. }
  assert (NL : L < N). { apply Rmult_lt_reg_r with (/ L); [now apply Rinv_0_lt_compat|]. rewrite Rinv_r by lra. exact Hq. }
  assert (X : n <= N * (1 + slack k)). { apply (norm_up k n N Fk n0); [lra|exact H]. }
  assert (T : t <= L / N * (1 + 5 * u64)).
  { apply Rle_trans with (1 := proj2 Ht). replace ((1 + 2 * u64) / (N / L * (1 - 2 * u64))) with (L / N * ((1 + 2 * u64) / (1 - 2 * u64))) by (field; lra). apply Rmult_le_compat_l; [apply Rlt_le, Rdiv_lt_0_compat; lra|].
    apply Rmult_le_reg_r with (1 - 2 * u64); [lra|]. unfold Rdiv. rewrite Rmult_assoc, Rinv_l by lra. nra. }
  assert (TN : t * n <= L * (1 + 5 * u64) * (1 + slack k)).
  { apply Rle_trans with (L / N * (1 + 5 * u64) * (N * (1 + slack k))); [apply Rmult_le_compat; lra|]. right. field. lra. }
  destruct (eta_few k Fk) as (E & _). assert (E2 : INR k * eta64 <= u64 * L) by (apply Rle_trans with (1 := E), Rmult_le_compat_l; lra).
  apply Rle_trans with (1 := Hm). apply Rle_trans with ((1 + u64) * (L * (1 + 5 * u64) * (1 + slack k)) + u64 * L).
  - apply Rplus_le_compat; [|exact E2]. rewrite Rmult_assoc. apply Rmult_le_compat_l; lra.
  - replace ((1 + u64) * (L * (1 + 5 * u64) * (1 + slack k)) + u64 * L) with (L * ((1 + u64) * (1 + 5 * u64) * (1 + slack k) + u64)) by ring. apply Rmult_le_compat_l; [lra|]. assert ((1 + u64) * (1 + 5 * u64) <= 1 + 7 * u64) by nra. nra.
Qed.
Lemma limit_unfold (limit : F) (v : pos F) : limit_move limit v =
  if Bltb (b64_of_Z 1) (Bdiv mode_NE (n64 v) limit) then map (fun x : b64 => Bmult mode_NE x (Bdiv mode_NE (b64_of_Z 1) (Bdiv mode_NE (n64 v) limit))) v else v.
Proof. reflexivity. Qed.
Lemma zeros_norm (v : list b64) : euclid_norm (reals (map (fun x : b64 => Bmult mode_NE x (B754_zero false)) v)) = 0 \/ ~ finite_pos v.
Proof.
  destruct (Forall_dec (fun x : b64 => fin x = true) (fun x => bool_dec (fin x) true) v) as [H|H]; [|right; exact H]. left.
  replace (reals (map (fun x : b64 => Bmult mode_NE x (B754_zero false)) v)) with (repeat 0 (length v)); [apply over_zero|].
  induction H as [|x v Fx _ IH]; [reflexivity|]. cbn [length repeat map reals] in *. unfold reals in *. cbn [map]. rewrite <- IH. now rewrite (proj2 (times_zero x false Fx)).
Qed.
Lemma scale_near (t : b64) (v : list b64) : fin t = true -> 0 <= B2 t <= 1 -> finite_pos v ->
  let w := map (fun x : b64 => Bmult mode_NE x t) v in finite_pos w /\ euclid_norm (reals w) <= (1 + u64) * B2 t * euclid_norm (reals v) + INR (length v) * eta64.
Proof.
  intros Ft T Fv w. pose proof u64_pos as U0. pose proof eta64_pos as E0.
  assert (K : Forall2 (fun x y : b64 => fin y = true /\ Rabs (B2 y) <= (1 + u64) * B2 t * Rabs (B2 x) + eta64) v w).
  { unfold w. clear w. induction Fv as [|x v Fx _ IH]; [constructor|]. cbn [map]. constructor; [|exact IH]. destruct (mult_val x t Fx Ft) as (N & V).
    assert (Fm : fin (Bmult mode_NE x t) = true).
    { apply (rnd64_lt_fin _ _ N V). apply Rle_lt_trans with (Rabs (B2 x)); [|exact (abs_B2R_lt_emax 53 1024 x)].
      destruct (Rle_or_lt 0 (B2 x)) as [P|P].
      - rewrite (Rabs_pos_eq (B2 x)) by exact P. rewrite Rabs_pos_eq by (apply rnd64_pos, Rmult_le_pos; lra). apply Rle_trans with (rnd64 (B2 x)); [apply round_le; auto with typeclass_instances; nra|right; apply rnd64_fmt, fmt].
      - rewrite (Rabs_left (B2 x)) by exact P. assert (rnd64 (B2 x * B2 t) <= 0). { rewrite <- rnd64_0. apply round_le; auto with typeclass_instances. nra. }
        rewrite Rabs_left1 by assumption. apply Ropp_le_contravar. apply Rle_trans with (rnd64 (B2 x)); [right; symmetry; apply rnd64_fmt, fmt|apply round_le; auto with typeclass_instances; nra]. }
    split; [exact Fm|]. rewrite (fin_mult_eq _ _ Fm). pose proof (rnd64_err (B2 x * B2 t)) as E. rewrite Rabs_mult, (Rabs_pos_eq (B2 t)) in E by lra.
    replace (rnd64 (B2 x * B2 t)) with ((rnd64 (B2 x * B2 t) - B2 x * B2 t) + B2 x * B2 t) by ring. apply Rle_trans with (1 := Rabs_triang _ _). rewrite (Rabs_mult (B2 x)), (Rabs_pos_eq (B2 t)) by lra. lra. }
  split.
  - clear - K. induction K as [|x y v w (A & _) _ IH]; constructor; assumption.
  - assert (Lr : length (reals v) = length v) by apply map_length. rewrite <- Lr. apply near_scaled; [apply Rmult_le_pos; lra|lra|]. clear - K. induction K as [|x y v w (_ & A) _ IH]; [constructor|]. cbn [map reals] in *. constructor; assumption.
Qed.
Lemma limit_64 (limit : F) (v : list b64) : modest limit -> few (length v) -> finite_pos v ->
  let w : list b64 := limit_move (S := F) limit v in length w = length v /\ finite_pos w /\ euclid_norm (reals w) <= B2 limit * (1 + 2 * slack (length v)).
Proof.
  intros (Fl & L1 & L2) Fk Fv. cbv zeta. rewrite limit_unfold. assert (L0 : 0 < B2 limit). { apply Rlt_le_trans with (2 := L1). apply Rinv_0_lt_compat, pow_lt. lra. }
  pose proof u64_pos as U0. pose proof u64_tiny as U1. pose proof (euclid_norm_nonneg (reals v)) as n0. destruct (slack_u _ Fk) as (S1 & S2). destruct one_value as (F1 & V1).
  assert (Far : Bdiv mode_NE (n64 v) limit = B754_infinity false -> let w := map (fun x : b64 => Bmult mode_NE x (Bdiv mode_NE (b64_of_Z 1) (Bdiv mode_NE (n64 v) limit))) v in
    length w = length v /\ finite_pos w /\ euclid_norm (reals w) <= B2 limit * (1 + 2 * slack (length v))).
  { intros E. rewrite E, one_over_inf. cbv zeta. split; [apply map_length|]. split.
    - apply Forall_map, Forall_impl with (2 := Fv). intros x Fx. exact (proj1 (times_zero x false Fx)).
    - destruct (zeros_norm v) as [Z|C]; [rewrite Z; apply Rmult_le_pos; lra|contradiction]. }
  destruct (n64_cases v Fv) as [Fn|En].
  2:{ rewrite En in Far |- *. rewrite (inf_over limit Fl L0) in Far |- *. rewrite one_lt_inf. exact (Far eq_refl). }
  destruct (n64_bounds v Fn) as (N0 & Lo & _). pose proof (n64_small v Fn) as Hi.
  assert (Lo2 : (1 - u64) ^ (length v + 3) * euclid_norm (reals v) ^ 2 <= B2 (n64 v) ^ 2 + INR (length v) * eta64). { rewrite <- rss_reals. lra. }
  destruct (div_val (n64 v) limit Fn Fl ltac:(lra)) as (Nd & Vd). set (q := B2 (n64 v) / B2 limit) in *. assert (q0 : 0 <= q) by (unfold q, Rdiv; apply Rmult_le_pos; [lra|apply Rlt_le, Rinv_0_lt_compat; lra]).
  assert (q1 : q <= 2 ^ 913). { unfold q, Rdiv. replace (2 ^ 913) with (2 ^ 513 * 2 ^ 400) by (rewrite <- pow_add; reflexivity). apply Rmult_le_compat; [lra|apply Rlt_le, Rinv_0_lt_compat; lra|lra|]. rewrite <- (Rinv_inv (2 ^ 400)). apply Rinv_le_contravar; [apply Rinv_0_lt_compat, pow_lt; lra|lra]. }
  destruct (op_bound _ q 913 Nd Vd) as (Fd & Bd); [rewrite Rabs_pos_eq; lra|lia|].
  assert (Ed : B2 (Bdiv mode_NE (n64 v) limit) = rnd64 q) by (apply fin_div_eq; auto; lra). set (D := Bdiv mode_NE (n64 v) limit) in *. clearbody D.
  destruct (Bltb (b64_of_Z 1) D) eqn:Lt.
  - apply (ltb64 _ _ F1 Fd) in Lt. rewrite V1, Ed in Lt. pose proof (rnd_gt_one q Lt) as Q. destruct (div_val (b64_of_Z 1) D F1 Fd ltac:(lra)) as (Nt & Vt). rewrite V1, Ed in Vt.
    assert (T1 : 0 < / rnd64 q <= 1). { split; [apply Rinv_0_lt_compat; lra|]. rewrite <- Rinv_1. apply Rinv_le_contravar; lra. } replace (1 / rnd64 q) with (/ rnd64 q) in Vt by (field; lra).
    destruct (op_bound _ _ 0 Nt Vt) as (Ft & _); [rewrite pow_O, Rabs_pos_eq; lra|lia|]. assert (Et : B2 (Bdiv mode_NE (b64_of_Z 1) D) = rnd64 (/ rnd64 q)). { rewrite fin_div_eq by (auto; lra). rewrite V1, Ed. f_equal. field. lra. }
    set (t := Bdiv mode_NE (b64_of_Z 1) D) in *. clearbody t.
    assert (T0 : 0 <= B2 t <= 1). { rewrite Et. split; [apply rnd64_pos; lra|]. rewrite <- rnd64_one. apply round_le; auto with typeclass_instances. lra. }
    destruct (scale_near t v Ft T0 Fv) as (Fw & Nw). split; [apply map_length|]. split; [exact Fw|].
    apply (scaled (length v) (euclid_norm (reals v)) (B2 (n64 v)) (B2 limit) _ (B2 t) Fk n0 L1 Q Lo2); [|exact Nw]. split; [lra|]. fold q.
    pose proof (rnd64_err q) as E1. apply Rabs_le_inv in E1. rewrite (Rabs_pos_eq q) in E1 by lra. pose proof (rnd64_err (/ rnd64 q)) as E2. apply Rabs_le_inv in E2. rewrite (Rabs_pos_eq (/ rnd64 q)) in E2 by lra.
    destruct (eta_few _ Fk) as (_ & _ & Eu). assert (uq : u64 * 1 <= u64 * q) by (apply Rmult_le_compat_l; lra). assert (D1 : q * (1 - 2 * u64) <= rnd64 q) by (clear - E1 Eu uq; lra). assert (D2 : rnd64 q <= 2 ^ 914) by (rewrite <- Ed; apply Rle_trans with (2 := Bd); apply Rle_abs).
    assert (D3 : / 2 ^ 914 <= / rnd64 q) by (apply Rinv_le_contravar; lra). assert (Ee : eta64 <= u64 * / 2 ^ 914).
    { unfold eta64. rewrite u64_v. rewrite <- Rinv_mult. rewrite <- pow_add. apply Rinv_le_contravar; [apply pow_lt; lra|]. apply pow_up. lia. }
    assert (Ee2 : eta64 <= u64 * / rnd64 q) by (apply Rle_trans with (1 := Ee), Rmult_le_compat_l; lra). rewrite Et. apply Rle_trans with ((1 + 2 * u64) * / rnd64 q); [lra|].
    unfold Rdiv. apply Rmult_le_compat_l; [lra|]. apply Rinv_le_contravar; [apply Rmult_lt_0_compat; lra|exact D1].
  - assert (Le : rnd64 q <= 1). { apply Rnot_lt_le. intros C. assert (Bltb (b64_of_Z 1) D = true) by (apply (ltb64 _ _ F1 Fd); rewrite V1, Ed; exact C). congruence. }
    split; [reflexivity|]. split; [exact Fv|]. apply (unscaled _ _ (B2 (n64 v)) _ Fk n0 N0 L1 Lo2). pose proof (rnd_le_one q q0 Le) as Q. apply Rmult_le_reg_r with (/ B2 limit); [now apply Rinv_0_lt_compat|]. fold (B2 (n64 v) / B2 limit). fold q. apply Rle_trans with (1 := Q). right. field. lra.
Qed.
End L.
Section Kept.
Context {lm : libm}.
Local Notation F := (F64 lm).
(** A move short enough is kept as it is. *)
Lemma limit_kept (limit : F) (v : list b64) : modest limit -> few (length v) -> finite_pos v -> euclid_norm (reals v) <= B2 limit * (1 - 2 * slack (length v)) -> limit_move (S := F) limit v = v.
Proof.
  intros (Fl & L1 & L2) Fk Fv H. rewrite limit_unfold. assert (L0 : 0 < B2 limit). { apply Rlt_le_trans with (2 := L1). apply Rinv_0_lt_compat, pow_lt. lra. }
  destruct (slack_u _ Fk) as (S1 & S2). pose proof u64_pos as U0. pose proof (euclid_norm_nonneg (reals v)) as n0. destruct one_value as (F1 & V1).
  assert (Hn : euclid_norm (reals v) <= 2 ^ 410). { apply Rle_trans with (2 ^ 298); [|apply pow_up; lia]. apply Rle_trans with (2 := L2). apply Rle_trans with (1 := H). rewrite <- (Rmult_1_r (B2 limit)) at 2. apply Rmult_le_compat_l; lra. }
  destruct (norm_near v Fk Fv Hn) as (Fn & N0 & Big & Small). set (k := length v) in *. set (m := euclid_norm (reals v)) in *.
  assert (A : 0 <= al k /\ al k <= slack k). { rewrite slack_al. assert (0 <= al k) by (unfold al; apply Rmult_le_pos; [pose proof (pos_INR k); lra|lra]). lra. }
  assert (NL : B2 (n64 v) <= B2 limit).
  { destruct (Rle_or_lt T410 m) as [C|C].
    - apply Rle_trans with (1 := proj2 (Big C)). apply Rle_trans with (B2 limit * (1 - 2 * slack k) * (1 + al k)); [apply Rmult_le_compat_r; lra|]. rewrite Rmult_assoc. rewrite <- (Rmult_1_r (B2 limit)) at 2. apply Rmult_le_compat_l; [lra|]. nra.
    - apply Rle_trans with (1 := Small (Rlt_le _ _ C)). apply Rle_trans with (2 := L1). rewrite T400. pose proof T410_pos. change 10%nat with (1 + 9)%nat. rewrite pow_add. assert (1 <= 2 ^ 9) by (apply pow_R1_Rle; lra). nra. }
  destruct (div_val (n64 v) limit Fn Fl ltac:(lra)) as (Nd & Vd). set (q := B2 (n64 v) / B2 limit) in *.
  assert (q0 : 0 <= q <= 1). { unfold q, Rdiv. split; [apply Rmult_le_pos; [lra|apply Rlt_le, Rinv_0_lt_compat; lra]|]. apply Rmult_le_reg_r with (B2 limit); [exact L0|]. rewrite Rmult_assoc, Rinv_l by lra. lra. }
  destruct (op_bound _ q 0 Nd Vd) as (Fd & _); [rewrite Rabs_pos_eq; cbn; lra|lia|]. assert (Ed : B2 (Bdiv mode_NE (n64 v) limit) = rnd64 q) by (apply fin_div_eq; auto; lra).
  destruct (Bltb (b64_of_Z 1) (Bdiv mode_NE (n64 v) limit)) eqn:Lt; [|reflexivity]. exfalso. apply (ltb64 _ _ F1 Fd) in Lt. rewrite V1, Ed in Lt. pose proof (rnd_gt_one q Lt). lra.
Qed.
(** The move is the planned one, or that times one factor. *)
Lemma limit_factor (limit : F) (v : list b64) : limit_move (S := F) limit v = v \/ exists t : b64, limit_move (S := F) limit v = map (fun x : b64 => Bmult mode_NE x t) v.
Proof. rewrite limit_unfold. destruct (Bltb _ _); [right; eexists; reflexivity|now left]. Qed.
End Kept.
