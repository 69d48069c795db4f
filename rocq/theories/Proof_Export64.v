(** The number of bins covers the range with a margin that rounding cannot use up. *)
From Coq Require Import Reals ZArith List Lra Lia Bool Arith.
From Flocq Require Import Core.
From Flocq.IEEE754 Require Import BinarySingleNaN.
From Verif Require Import Base Scalar Float64 Model_Position Spec_Position Proof_Position Proof_Norm64 Proof_Sum64 Proof_Rel64
  Model_Analysis Spec_Analysis Proof_Analysis Proof_Analysis4 Proof_Analysis8 Proof_System4 Spec_Accuracy Proof_Accuracy3 Spec_Hist64 Proof_Hist64 Proof_Hist64c Proof_Hist64e Spec_Export64.
Import ListNotations.
Local Open Scope R_scope.

Lemma u_is : u64 = / 2 ^ 53. Proof. reflexivity. Qed.
Lemma u_40 : u64 <= / 2 ^ 40 * / 2 ^ 13. Proof. rewrite u_is. rewrite <- Rinv_mult, <- pow_add. apply Rle_refl. Qed.
Lemma eta_tiny : eta64 <= u64.
Proof. rewrite u64_bpow, eta64_bpow. apply bpow_le. lia. Qed.

(** ** [ceil as usize] of a quotient plus a half *)
Lemma num_near lm (Q : b64) : fin Q = true -> 0 <= B2 Q <= 2 ^ 32 ->
  exists N : nat, ceil_usize (S := F64 lm) (Bplus mode_NE Q (Bdiv mode_NE (b64_of_Z 1) (b64_of_Z 2))) = Z.of_nat N /\ B2 Q + 1 / 2 - 1 / 100 <= INR N <= B2 Q + 3 / 2 + 1 / 100.
Proof.
  intros FQ (P0 & P1). destruct half_val as [Fh Eh]. set (h := Bdiv mode_NE _ _) in *.
  destruct (plus_val Q h FQ Fh) as [Nn V]. set (Q' := Bplus mode_NE Q h) in *.
  assert (G : fin Q' = true).
  { apply (rnd64_lt_fin Q' (B2 Q + B2 h) Nn V). rewrite Eh. apply Rle_lt_trans with (bpow radix2 40); [|apply bpow_lt; lia].
    apply abs_round_le_generic; auto with typeclass_instances. { apply generic_format_bpow. unfold SpecFloat.fexp, SpecFloat.emin; lia. }
    rewrite Rabs_pos_eq by lra. change (bpow radix2 40) with (bpow radix2 (Z.of_nat 40)). rewrite bpow_pow. clear - P1. assert (2 ^ 32 + 1 <= 2 ^ 40) by (rewrite !pow_IZR, <- plus_IZR; apply IZR_le; vm_compute; discriminate). lra. }
  pose proof (fin_plus_eq Q h G) as E. fold Q' in E. rewrite Eh in E. pose proof (rnd64_near (B2 Q + 1 / 2) ltac:(lra)) as R. rewrite <- E in R.
  assert (U : (B2 Q + 1 / 2) * u64 <= 1 / 100).
  { assert (B2 Q + 1 / 2 <= 2 ^ 33) by (clear - P1; simpl in *; lra). apply Rle_trans with (2 ^ 33 * u64); [apply Rmult_le_compat_r; [pose proof u64_pos; lra|exact H]|]. unfold u64. simpl. lra. }
  set (x := B2 Q') in *. assert (X : B2 Q + 1 / 2 - 1 / 100 <= x <= B2 Q + 1 / 2 + 1 / 100) by lra. clear R U E.
  assert (X0 : 0 <= x) by lra. set (z := Zfloor x). pose proof (Zfloor_lb x) as L1. pose proof (Zfloor_ub x) as L2. fold z in L1, L2.
  assert (Z0 : (0 <= z)%Z) by (apply Zfloor_lub; exact X0).
  assert (Z1 : (z <= 2 ^ 33)%Z). { apply le_IZR. apply Rle_trans with (1 := L1). clear - X P1. apply Rle_trans with (2 ^ 32 + 1); [lra|]. rewrite pow_IZR, <- plus_IZR. apply IZR_le. vm_compute. discriminate. }
  unfold ceil_usize. change (@as_usize (F64 lm)) with b64_as_usize. change (@of_Z (F64 lm)) with b64_of_Z. change (@ltb (F64 lm)) with (@Bltb 53 1024). cbv zeta.
  change (add (s := F64 lm) Q h) with Q'. rewrite (usize_fin Q' G). fold x. rewrite Ztrunc_floor by exact X0. fold z.
  replace (sat_usize z) with z by (unfold sat_usize, usize_max; lia).
  destruct (of_Z_exact z ltac:(lia)) as (Fz & Bz). destruct (ltb64 (b64_of_Z z) Q' Fz G) as (T1 & T2). rewrite Bz in T1, T2. fold x in T1, T2.
  destruct (Bltb (b64_of_Z z) Q') eqn:D.
  - exists (Z.to_nat (z + 1)). assert (I : INR (Z.to_nat (z + 1)) = IZR z + 1) by (rewrite INR_IZR_INZ, Z2Nat.id by lia; now rewrite plus_IZR).
    split; [rewrite Z2Nat.id by lia; unfold usize_max; lia|]. rewrite I. lra.
  - exists (Z.to_nat z). assert (I : INR (Z.to_nat z) = IZR z) by (rewrite INR_IZR_INZ, Z2Nat.id by lia; reflexivity).
    split; [rewrite Z2Nat.id by lia; reflexivity|]. rewrite I. pose proof (proj1 T2 eq_refl). lra.
Qed.

(** ** Rounding of a quotient of moderate size *)
Lemma div_near (x y : b64) : fin x = true -> fin y = true -> 0 <= B2 x -> 0 < B2 y -> B2 x / B2 y <= 2 ^ 31 ->
  fin (Bdiv mode_NE x y) = true /\ 0 <= B2 (Bdiv mode_NE x y) /\ Rabs (B2 (Bdiv mode_NE x y) - B2 x / B2 y) <= 1 / 100.
Proof.
  intros Fx Fy Px Py L. assert (Q0 : 0 <= B2 x / B2 y) by (apply Rmult_le_pos; [lra|apply Rlt_le, Rinv_0_lt_compat; lra]).
  destruct (div_val x y Fx Fy ltac:(lra)) as (Nn & V).
  assert (G : fin (Bdiv mode_NE x y) = true).
  { apply (rnd64_lt_fin _ _ Nn V). apply Rle_lt_trans with (bpow radix2 31); [|apply bpow_lt; lia].
    apply abs_round_le_generic; auto with typeclass_instances. { apply generic_format_bpow. unfold SpecFloat.fexp, SpecFloat.emin; lia. }
    rewrite Rabs_pos_eq by exact Q0. change (bpow radix2 31) with (bpow radix2 (Z.of_nat 31)). rewrite bpow_pow. exact L. }
  split; [exact G|]. rewrite (fin_div_eq x y Fx Fy ltac:(lra) G). split; [apply rnd64_pos; exact Q0|].
  pose proof (rnd64_err (B2 x / B2 y)) as E. rewrite (Rabs_pos_eq (B2 x / B2 y)) in E by exact Q0. apply Rle_trans with (1 := E).
  pose proof eta_tiny. pose proof u64_pos. assert (u64 * (B2 x / B2 y) <= u64 * 2 ^ 31) by (apply Rmult_le_compat_l; lra).
  assert (u64 * 2 ^ 31 <= 1 / 1000 /\ u64 <= 1 / 1000) by (unfold u64; simpl; lra). lra.
Qed.

(** ** The low end *)
Lemma tiny64 lm : fin (lit (s := F64 lm) 1 (10 ^ 15) : b64) = true /\ / 2 ^ 50 <= B2 (lit (s := F64 lm) 1 (10 ^ 15) : b64).
Proof.
  destruct (of_Z_exact 1 ltac:(lia)) as [F1 E1], (of_Z_exact (10 ^ 15) ltac:(lia)) as [F2 E2].
  change (lit (s := F64 lm) 1 (10 ^ 15) : b64) with (Bdiv mode_NE (b64_of_Z 1) (b64_of_Z (10 ^ 15))).
  destruct (div_val _ _ F1 F2) as [N V]; [rewrite E2; apply not_eq_sym, Rlt_not_eq, IZR_lt; lia|]. rewrite E1, E2 in V.
  assert (A : 0 <= 1 / IZR (10 ^ 15) <= 1). { split; [apply Rmult_le_pos; [lra|left; apply Rinv_0_lt_compat, IZR_lt; lia]|]. unfold Rdiv. rewrite Rmult_1_l, <- Rinv_1. apply Rinv_le_contravar; [lra|]. apply (IZR_le 1); lia. }
  assert (F : fin (Bdiv mode_NE (b64_of_Z 1) (b64_of_Z (10 ^ 15))) = true).
  { apply (rnd64_lt_fin _ _ N V). apply Rle_lt_trans with (bpow radix2 0); [|apply bpow_lt; lia].
    apply abs_round_le_generic; auto with typeclass_instances. { apply generic_format_bpow. unfold SpecFloat.fexp, SpecFloat.emin; lia. }
    rewrite Rabs_pos_eq by apply A. apply A. }
  split; [exact F|]. rewrite (fin_div_eq _ _ F1 F2) by (try exact F; rewrite E2; apply not_eq_sym, Rlt_not_eq, IZR_lt; lia). rewrite E1, E2.
  assert (G : rnd64 (/ 2 ^ 50) = / 2 ^ 50). { apply round_generic; auto with typeclass_instances. rewrite <- (bpow_inv_pow 50). apply generic_format_bpow. unfold SpecFloat.fexp, SpecFloat.emin; lia. }
  rewrite <- G. apply round_le; auto with typeclass_instances. unfold Rdiv. rewrite Rmult_1_l. apply Rinv_le_contravar; [apply IZR_lt; lia|]. rewrite pow_IZR. apply IZR_le. vm_compute. discriminate.
Qed.
Lemma raised64 lm (mn : b64) : fin mn = true -> fin (raised (S := F64 lm) mn : b64) = true /\ / 2 ^ 50 <= B2 (raised (S := F64 lm) mn : b64).
Proof.
  intros F. destruct (tiny64 lm) as (A & B). unfold raised. change (@ltb (F64 lm)) with (@Bltb 53 1024). destruct (ltb64 mn (lit (s := F64 lm) 1 (10 ^ 15)) F A) as (_ & T).
  destruct (Bltb mn _); [split; assumption|]. split; [exact F|]. apply Rle_trans with (1 := B). now apply T.
Qed.

(** ** Linear bins *)
Lemma lin_count_bins lm (mn mx w : b64) : ample_lin lm mn mx w -> let m : b64 := raised (S := F64 lm) mn in
  fin ((mx .- m) ./ w) = true /\ B2 ((mx .- m) ./ w) < IZR (2 ^ 52) /\
  exists N : nat, ceil_usize (S := F64 lm) (Bplus mode_NE ((mx .- m) ./ w) (Bdiv mode_NE (b64_of_Z 1) (b64_of_Z 2))) = Z.of_nat N /\
  INR N <= 2 ^ 24 + 2 /\
  (B2 mx - B2 m) / B2 w + 1 / 4 <= INR N <= (B2 mx - B2 m) / B2 w + 2.
Proof.
  intros (F1 & F2 & F3 & P1 & (P2 & P3) & (P4 & P5) & P6) m. fold m in P2. destruct (raised64 lm mn F1) as (Fm & Lm). fold m in Fm, Lm.
  assert (M0 : 0 < B2 m). { apply Rlt_le_trans with (2 := Lm). apply Rinv_0_lt_compat, pow_lt. lra. }
  destruct (minus_near mx m F2 Fm ltac:(lra)) as (A1 & A2 & A3 & A4). pose proof u_small as U. assert (iw : 0 < / B2 w) by now apply Rinv_0_lt_compat.
  set (Q := (B2 mx - B2 m) / B2 w). assert (Q0 : 0 <= Q) by (apply Rmult_le_pos; lra).
  assert (Q1 : Q <= 2 ^ 24). { unfold Q. apply Rmult_le_reg_r with (B2 w); [exact P4|]. unfold Rdiv. rewrite Rmult_assoc, Rinv_l by lra. lra. }
  assert (D1 : Q * (1 - u64) <= B2 (mx .- m) / B2 w <= Q * (1 + u64)).
  { unfold Q, Rdiv. split; [replace ((B2 mx - B2 m) * / B2 w * (1 - u64)) with ((B2 mx - B2 m) * (1 - u64) * / B2 w) by ring|replace ((B2 mx - B2 m) * / B2 w * (1 + u64)) with ((B2 mx - B2 m) * (1 + u64) * / B2 w) by ring]; apply Rmult_le_compat_r; lra. }
  assert (Qu : Q * u64 <= 1 / 1000). { apply Rle_trans with (2 ^ 24 * u64); [apply Rmult_le_compat_r; lra|]. unfold u64. simpl. lra. }
  assert (T24 : 1 <= 2 ^ 24) by (simpl; lra).
  destruct (div_near (mx .- m) w A1 F3 A2 P4) as (G1 & G2 & G3). { apply Rle_trans with (2 ^ 24 + 1); [lra|]. simpl. lra. }
  apply Rabs_le_inv in G3. set (q := (mx .- m) ./ w) in *. split; [exact G1|]. split.
  { apply Rle_lt_trans with (2 ^ 24 + 2); [lra|]. rewrite pow_IZR, <- plus_IZR. apply IZR_lt. vm_compute. reflexivity. }
  destruct (num_near lm q G1) as (N & E & NL & NH). { split; [exact G2|]. apply Rle_trans with (2 ^ 24 + 2); [lra|]. rewrite !pow_IZR, <- plus_IZR. apply IZR_le. vm_compute. discriminate. }
  exists N. split; [exact E|]. split; lra.
Qed.
Lemma lin_past lm (mn mx w : b64) N : ample_lin lm mn mx w -> let m : b64 := raised (S := F64 lm) mn in
  INR N <= 2 ^ 24 + 2 -> (B2 mx - B2 m) / B2 w + 1 / 4 <= INR N <= (B2 mx - B2 m) / B2 w + 2 ->
  leb (s := F64 lm) (Nat.iter N (fun t => add (s := F64 lm) t w) (Bplus mode_NE m (Bdiv mode_NE w (b64_of_Z 2)))) mx = false.
Proof.
  intros (F1 & F2 & F3 & P1 & (P2 & P3) & (P4 & P5) & P6) m N24 (NL & NH). fold m in P2. destruct (raised64 lm mn F1) as (Fm & Lm). fold m in Fm, Lm.
  assert (M0 : 0 < B2 m). { apply Rlt_le_trans with (2 := Lm). apply Rinv_0_lt_compat, pow_lt. lra. }
  set (W := B2 w) in *. set (X := B2 mx) in *. set (L := B2 m) in *.
  assert (E : (X - L) / W * W = X - L) by (field; lra).
  assert (C1 : X - L + W / 4 <= INR N * W). { replace (X - L + W / 4) with (((X - L) / W + 1 / 4) * W) by (rewrite Rmult_plus_distr_r, E; lra). apply Rmult_le_compat_r; lra. }
  assert (C2 : INR N * W <= X - L + 2 * W). { replace (X - L + 2 * W) with (((X - L) / W + 2) * W) by (rewrite Rmult_plus_distr_r, E; lra). apply Rmult_le_compat_r; lra. }
  assert (B900 : 2 ^ 700 + 3 * 2 ^ 800 <= Q900). { unfold Q900. replace 900%nat with (100 + 800)%nat by reflexivity. rewrite pow_add. assert (2 ^ 700 <= 2 ^ 800) by (apply Rle_pow; [lra|lia]). assert (0 < 2 ^ 800) by (apply pow_lt; lra).
    assert (4 <= 2 ^ 100) by (apply Rle_trans with (2 ^ 2); [simpl; lra|apply Rle_pow; [lra|lia]]). apply Rle_trans with (4 * 2 ^ 800); [lra|]. apply Rmult_le_compat_r; lra. }
  assert (WL : / Q900 <= W).
  { apply Rle_trans with (/ 2 ^ 74).
    - apply Rinv_le_contravar; [apply pow_lt; lra|]. unfold Q900. apply Rle_pow; [lra|lia].
    - replace 74%nat with (50 + 24)%nat by reflexivity. rewrite pow_add, Rinv_mult. apply Rmult_le_reg_r with (2 ^ 24); [apply pow_lt; lra|].
      rewrite Rmult_assoc, Rinv_l by (apply pow_nonzero; lra). lra. }
  destruct (centre_after lm m w N Fm F3) as (Ft & Et).
  - split; [exact M0|]. fold L. assert (0 < 2 ^ 800) by (apply pow_lt; lra). lra.
  - fold W. split; [exact WL|]. assert (0 < 2 ^ 700) by (apply pow_lt; lra). assert (0 < 2 ^ 800) by (apply pow_lt; lra). lra.
  - unfold Q50. apply Rle_trans with (1 := N24). rewrite !pow_IZR, <- plus_IZR. apply IZR_le. vm_compute. discriminate.
  - fold L W. lra.
  - set (t := Nat.iter N _ _) in *. fold L W in Et. set (c := L + INR N * W + W / 2) in *.
    assert (Hc : X + 3 / 4 * W <= c <= X + 5 / 2 * W) by (unfold c; lra). rewrite (Rabs_pos_eq c) in Et by lra.
    assert (K : 2 * (4 * (INR N + 2)) * u64 * c <= W / 2 + W / 8).
    { assert (c <= (2 ^ 24 + 4) * W) by (rewrite Rmult_plus_distr_r; lra). pose proof (pos_INR N). pose proof u64_pos.
      apply Rle_trans with (2 * (4 * (2 ^ 24 + 4)) * u64 * ((2 ^ 24 + 4) * W)).
      - apply Rmult_le_compat; [repeat apply Rmult_le_pos; lra|lra| |exact H]. apply Rmult_le_compat_r; lra.
      - replace (2 * (4 * (2 ^ 24 + 4)) * u64 * ((2 ^ 24 + 4) * W)) with (8 * (2 ^ 24 + 4) * (2 ^ 24 + 4) * u64 * W) by ring.
        replace (W / 2 + W / 8) with ((1 / 2 + 1 / 8) * W) by lra. apply Rmult_le_compat_r; [lra|]. unfold u64. simpl. lra. }
    apply Rabs_le_inv in Et. assert (T : X < B2 t) by lra.
    change (leb (s := F64 lm) t mx) with (Bleb t mx). rewrite Bleb_correct by assumption. apply Rle_bool_false. exact T.
Qed.

(** ** Logarithmic bins *)
Section LogReal.
Variables (m X l : R).
Hypotheses (Hm : / 2 ^ 50 <= m) (HX : m <= X <= 2 ^ 700) (Hl : 1 + / 2 ^ 19 <= l <= 2 ^ 50).
Lemma i19 : 0 < / 2 ^ 19. Proof. apply Rinv_0_lt_compat, pow_lt. lra. Qed.
Lemma m_pos : 0 < m. Proof. apply Rlt_le_trans with (2 := Hm). apply Rinv_0_lt_compat, pow_lt. lra. Qed.
Lemma ln_l_big : / 2 ^ 20 <= ln l.
Proof.
  pose proof i19. apply Rle_trans with (2 := ln_above l ltac:(lra)). assert (E : (1 - / l) * l = l - 1) by (field; lra).
  assert (E20 : / 2 ^ 20 = / 2 ^ 19 * / 2) by (rewrite <- Rinv_mult; f_equal; simpl; lra).
  assert (S19 : / 2 ^ 19 <= 1) by (simpl; lra).
  destruct (Rle_lt_dec l 2) as [K|K].
  - assert (P : 0 <= 1 - / l). { assert (/ l <= / 1) by (apply Rinv_le_contravar; lra). lra. } rewrite E20. nra.
  - assert (/ l <= / 2) by (apply Rinv_le_contravar; lra). rewrite E20. lra.
Qed.
Lemma ln_l_pos : 0 < ln l. Proof. apply Rlt_le_trans with (2 := ln_l_big). apply Rinv_0_lt_compat, pow_lt. lra. Qed.
Lemma inv_ln : / ln l <= 2 ^ 20.
Proof. rewrite <- (Rinv_inv (2 ^ 20)). apply Rinv_le_contravar; [apply Rinv_0_lt_compat, pow_lt; lra|]. exact ln_l_big. Qed.
Lemma ratio_ge : 1 <= X / m.
Proof. pose proof m_pos. apply Rmult_le_reg_r with m; [lra|]. unfold Rdiv. rewrite Rmult_assoc, Rinv_l by lra. lra. Qed.
Lemma ratio_le : X / m <= 2 ^ 750.
Proof.
  pose proof m_pos. apply Rmult_le_reg_r with m; [lra|]. unfold Rdiv. rewrite Rmult_assoc, Rinv_l, Rmult_1_r by lra.
  apply Rle_trans with (2 ^ 700); [lra|]. replace 750%nat with (700 + 50)%nat by reflexivity. rewrite pow_add.
  assert (1 <= 2 ^ 50 * m). { apply Rmult_le_reg_l with (/ 2 ^ 50); [apply Rinv_0_lt_compat, pow_lt; lra|]. rewrite <- Rmult_assoc, Rinv_l by (apply pow_nonzero; lra). lra. }
  assert (0 < 2 ^ 700) by (apply pow_lt; lra). rewrite Rmult_assoc. apply Rle_trans with (2 ^ 700 * 1); [lra|]. apply Rmult_le_compat_l; lra.
Qed.
Lemma ln_ratio : 0 <= ln (X / m) <= 750.
Proof.
  pose proof ratio_ge as A. pose proof ratio_le as B. split.
  - rewrite <- ln_1. destruct A as [A|<-]; [left; apply ln_increasing; lra|lra].
  - apply Rle_trans with (ln (2 ^ 750)).
    + destruct B as [B| ->]; [left; apply ln_increasing; lra|lra].
    + rewrite <- Rpower_pow by lra. unfold Rpower. rewrite ln_exp. pose proof ln2_le1. rewrite INR_IZR_INZ. change (IZR (Z.of_nat 750)) with 750. lra.
Qed.
Definition lratio := ln (X / m) / ln l.
Lemma T_range : 0 <= lratio <= 2 ^ 30.
Proof.
  pose proof ln_ratio as (A & B). pose proof ln_l_pos. pose proof inv_ln. assert (0 < / ln l) by now apply Rinv_0_lt_compat. unfold lratio, Rdiv. split; [apply Rmult_le_pos; lra|].
  apply Rle_trans with (750 * 2 ^ 20); [apply Rmult_le_compat; lra|]. simpl. lra.
Qed.
Lemma t_near r : X / m * (1 - u64) <= r <= X / m * (1 + u64) -> Rabs (ln r / ln l - lratio) <= 1 / 1000.
Proof.
  intros (A & B). pose proof ratio_ge as G. pose proof u_small as U. pose proof ln_l_pos. pose proof inv_ln. assert (I : 0 < / ln l) by now apply Rinv_0_lt_compat.
  set (q := X / m) in *. assert (R0 : 0 < r) by nra. assert (D : Rabs (ln r - ln q) <= 2 * u64).
  { replace r with (q * (r / q)) by (field; lra). assert (P : 0 < r / q) by (apply Rdiv_lt_0_compat; lra). rewrite ln_mult by lra. replace (ln q + ln (r / q) - ln q) with (ln (r / q)) by ring.
    assert (L1 : 1 - u64 <= r / q <= 1 + u64). { split; (apply Rmult_le_reg_r with q; [lra|]); unfold Rdiv; rewrite Rmult_assoc, Rinv_l by lra; lra. }
    pose proof (ln_below (r / q) P) as K1. pose proof (ln_above (r / q) P) as K2. apply Rabs_le. split; [|lra].
    apply Rle_trans with (2 := K2). assert (/ (r / q) <= / (1 - u64)) by (apply Rinv_le_contravar; lra). assert (/ (1 - u64) <= 1 + 2 * u64); [|lra].
    apply Rmult_le_reg_r with (1 - u64); [lra|]. rewrite Rinv_l by lra. nra. }
  unfold lratio. fold q. replace (ln r / ln l - ln q / ln l) with ((ln r - ln q) * / ln l) by (unfold Rdiv; ring). rewrite Rabs_mult, (Rabs_pos_eq (/ ln l)) by lra.
  apply Rle_trans with (2 * u64 * 2 ^ 20); [apply Rmult_le_compat; [apply Rabs_pos|lra|exact D|lra]|]. unfold u64. simpl. lra.
Qed.
Lemma power_T : m * Rpower l lratio = X.
Proof. pose proof m_pos. pose proof ln_l_pos. pose proof ratio_ge. unfold Rpower, lratio. replace (ln (X / m) / ln l * ln l) with (ln (X / m)) by (field; lra). rewrite exp_ln by lra. field. lra. Qed.
Lemma lcentre N : m * l ^ N * sqrt l = m * Rpower l (INR N + 1 / 2).
Proof. pose proof i19. rewrite Rpower_plus, Rpower_pow by lra. replace (1 / 2) with (/ 2) by lra. rewrite Rpower_sqrt by lra. ring. Qed.
Lemma lcentre_big N : lratio + 1 / 4 <= INR N -> X * (1 + 3 / 4 * / 2 ^ 20) <= m * l ^ N * sqrt l.
Proof.
  intros H. pose proof i19. pose proof m_pos. pose proof ln_l_big as B. rewrite lcentre. apply Rle_trans with (m * Rpower l (lratio + 3 / 4)).
  - rewrite Rpower_plus, <- Rmult_assoc, power_T. apply Rmult_le_compat_l; [lra|]. unfold Rpower. apply Rle_trans with (2 := exp_ineq1_le _). lra.
  - apply Rmult_le_compat_l; [lra|]. apply rpower_mono; lra.
Qed.
Lemma lcentre_small N : INR N <= lratio + 2 -> m * l ^ N * sqrt l <= 2 ^ 850.
Proof.
  intros H. pose proof i19. pose proof m_pos. rewrite lcentre. apply Rle_trans with (m * Rpower l (lratio + 3)).
  - apply Rmult_le_compat_l; [lra|]. apply rpower_mono; lra.
  - rewrite Rpower_plus, <- Rmult_assoc, power_T. replace 3 with (INR 3) by (simpl; lra). rewrite Rpower_pow by lra.
    replace 850%nat with (700 + 50 * 3)%nat by reflexivity. rewrite pow_add, pow_mult. apply Rmult_le_compat; [lra|apply pow_le; lra|lra|]. apply pow_incr. lra.
Qed.
End LogReal.

Lemma small_pow_le a b : (Z.of_nat a <= Z.of_nat b)%Z -> 2 ^ a <= 2 ^ b. Proof. intros H. apply Rle_pow; [lra|lia]. Qed.
Lemma log_count_bins lm (mn mx w l : b64) : ample_lin lm mn mx w -> ample_log l -> fine_log2 lm -> let m : b64 := raised (S := F64 lm) mn in
  fin (mx ./ m) = true /\ fin (m_log2 lm l) = true /\ 0 < B2 (m_log2 lm l) /\
  fin (m_log2 lm (mx ./ m) ./ m_log2 lm l) = true /\ B2 (m_log2 lm (mx ./ m) ./ m_log2 lm l) < IZR (2 ^ 52) /\
  exists N : nat, ceil_usize (S := F64 lm) (Bplus mode_NE (m_log2 lm (mx ./ m) ./ m_log2 lm l) (Bdiv mode_NE (b64_of_Z 1) (b64_of_Z 2))) = Z.of_nat N /\
  lratio (B2 m) (B2 mx) (B2 l) + 1 / 4 <= INR N <= lratio (B2 m) (B2 mx) (B2 l) + 2.
Proof.
  intros (F1 & F2 & F3 & P1 & P2 & _) (Fl & Hl) (_ & e & He & Ac) m. fold m in P2. destruct (raised64 lm mn F1) as (Fm & Lm). fold m in Fm, Lm.
  pose proof (m_pos _ Lm) as M0. pose proof i19 as I19.
  assert (FR : fin (mx ./ m) = true).
  { destruct (div_val mx m F2 Fm ltac:(lra)) as (Nn & V). apply (rnd64_lt_fin _ _ Nn V). apply Rle_lt_trans with (bpow radix2 750); [|apply bpow_lt; lia].
    apply abs_round_le_generic; auto with typeclass_instances. { apply generic_format_bpow. unfold SpecFloat.fexp, SpecFloat.emin; lia. }
    pose proof (ratio_ge _ _ Lm P2). rewrite Rabs_pos_eq by lra. change (bpow radix2 750) with (bpow radix2 (Z.of_nat 750)). rewrite bpow_pow. exact (ratio_le _ _ Lm P2). }
  destruct (ratio_near mx m F2 Fm ltac:(lra) FR) as (R1 & R2).
  assert (E8 : 0 <= e <= 1 / 8). { split; [lra|]. apply Rle_trans with (/ 2 ^ 40); [lra|]. simpl. lra. }
  destruct (logs_near lm e Ac E8 (mx ./ m) l FR Fl R1 ltac:(lra)) as (L1 & L2 & L3 & L4 & L5 & L6 & L7).
  pose proof (t_near _ _ _ Lm P2 Hl _ R2) as TN. pose proof (T_range _ _ _ Lm P2 Hl) as TR. apply Rabs_le_inv in TN.
  set (TT := lratio (B2 m) (B2 mx) (B2 l)) in *. set (t := ln (B2 (mx ./ m)) / ln (B2 l)) in *.
  assert (T31 : t <= 2 ^ 31). { apply Rle_trans with (2 ^ 30 + 1); [lra|]. simpl. lra. }
  assert (Te : t * e <= 1 / 300). { apply Rle_trans with (2 ^ 31 * / 2 ^ 40); [apply Rmult_le_compat; lra|]. simpl. lra. }
  destruct (div_near (m_log2 lm (mx ./ m)) (m_log2 lm l) L1 L2 L3 L4) as (G1 & G2 & G3). { apply Rle_trans with (2 ^ 30 + 1); [lra|]. simpl. lra. }
  apply Rabs_le_inv in G3. split; [exact FR|]. split; [exact L2|]. split; [exact L4|]. split; [exact G1|]. split.
  { apply Rle_lt_trans with (2 ^ 30 + 1); [lra|]. rewrite pow_IZR, <- plus_IZR. apply IZR_lt. vm_compute. reflexivity. }
  destruct (num_near lm _ G1) as (N & E & NL & NH). { split; [exact G2|]. apply Rle_trans with (2 ^ 30 + 1); [lra|]. rewrite !pow_IZR, <- plus_IZR. apply IZR_le. vm_compute. discriminate. }
  exists N. split; [exact E|]. lra.
Qed.
Lemma log_past lm (mn mx w l : b64) N : ample_lin lm mn mx w -> ample_log l -> let m : b64 := raised (S := F64 lm) mn in
  lratio (B2 m) (B2 mx) (B2 l) + 1 / 4 <= INR N <= lratio (B2 m) (B2 mx) (B2 l) + 2 ->
  leb (s := F64 lm) (Nat.iter N (fun t => mul (s := F64 lm) t l) (Bmult mode_NE m (Bsqrt mode_NE l))) mx = false.
Proof.
  intros (F1 & F2 & F3 & P1 & P2 & _) (Fl & Hl) m (NL & NH). fold m in P2. destruct (raised64 lm mn F1) as (Fm & Lm). fold m in Fm, Lm.
  pose proof (m_pos _ Lm) as M0. pose proof i19 as I19. pose proof (T_range _ _ _ Lm P2 Hl) as TR. pose proof (lcentre_big _ _ _ Lm P2 Hl N NL) as CB. pose proof (lcentre_small _ _ _ Lm P2 Hl N NH) as CS.
  destruct (lcentre_after lm m l N Fm Fl) as (Ft & Et).
  - split; [apply Rle_trans with (2 := Lm); apply Rinv_le_contravar; [apply pow_lt; lra|]|apply Rle_trans with (2 ^ 700); [lra|]]; unfold Q900; apply small_pow_le; lia.
  - unfold Q50. lra.
  - unfold Q50. apply Rle_trans with (2 ^ 30 + 2); [lra|]. rewrite !pow_IZR, <- plus_IZR. apply IZR_le. vm_compute. discriminate.
  - apply Rle_trans with (1 := CS). unfold Q900. apply small_pow_le. lia.
  - set (t := Nat.iter N _ _) in *. set (c := B2 m * B2 l ^ N * sqrt (B2 l)) in *. set (X := B2 mx) in *.
    assert (X0 : 0 < X) by lra. assert (C0 : X <= c). { apply Rle_trans with (2 := CB). assert (0 <= X * (3 / 4 * / 2 ^ 20)); [|lra]. apply Rmult_le_pos; [lra|]. apply Rmult_le_pos; [lra|]. left. apply Rinv_0_lt_compat, pow_lt. lra. }
    rewrite (Rabs_pos_eq c) in Et by lra. assert (K : 2 * (INR N + 2) * u64 <= / 2 ^ 20 / 3).
    { apply Rle_trans with (2 * (2 ^ 30 + 4) * u64); [apply Rmult_le_compat_r; [pose proof u64_pos; lra|lra]|]. unfold u64. simpl. lra. }
    set (k := / 2 ^ 20) in *. assert (k0 : 0 < k <= 1 / 100). { unfold k. split; [apply Rinv_0_lt_compat, pow_lt; lra|]. simpl. lra. }
    assert (K2 : 2 * (INR N + 2) * u64 * c <= k / 3 * c) by (apply Rmult_le_compat_r; lra). apply Rabs_le_inv in Et.
    assert (D : c * (1 - k / 3) <= B2 t) by lra. assert (Tt : X < B2 t).
    { apply Rlt_le_trans with (2 := D). apply Rlt_le_trans with (X * (1 + 3 / 4 * k) * (1 - k / 3)); [|apply Rmult_le_compat_r; lra].
      rewrite Rmult_assoc. rewrite <- (Rmult_1_r X) at 1. apply Rmult_lt_compat_l; [exact X0|]. assert (0 < k * (5 / 12 - 1 / 4 * k)); [apply Rmult_lt_0_compat; lra|]. lra. }
    change (leb (s := F64 lm) t mx) with (Bleb t mx). rewrite Bleb_correct by assumption. apply Rle_bool_false. exact Tt.
Qed.
