(** A libm whose log2 is correctly rounded: what is asked of the platform in C62 can be met. *)
From Coq Require Import Reals ZArith List Lra Lia Bool Arith.
From Flocq Require Import Core.
From Flocq.IEEE754 Require Import BinarySingleNaN.
From Verif Require Import Base Scalar Float64 Model_Position Spec_Position Proof_Norm64 Proof_Sum64 Model_Analysis Spec_Analysis Proof_Analysis4 Proof_System4 Spec_Hist64 Proof_Hist64.
Import ListNotations.
Local Open Scope R_scope.

Definition of_R (r : R) : b64 := binary_normalize 53 1024 eq_refl eq_refl mode_NE (Ztrunc (scaled_mantissa radix2 fexp64 (rnd64 r))) (cexp radix2 fexp64 (rnd64 r)) false.
Lemma of_R_val r : Rabs (rnd64 r) < top -> fin (of_R r) = true /\ B2 (of_R r) = rnd64 r.
Proof.
  intros H. unfold of_R. assert (G : generic_format radix2 fexp64 (rnd64 r)) by (apply generic_format_round; auto with typeclass_instances).
  pose proof (binary_normalize_correct 53 1024 eq_refl eq_refl mode_NE (Ztrunc (scaled_mantissa radix2 fexp64 (rnd64 r))) (cexp radix2 fexp64 (rnd64 r)) false) as C. cbv zeta in C.
  replace (F2R (Float radix2 (Ztrunc (scaled_mantissa radix2 fexp64 (rnd64 r))) (cexp radix2 fexp64 (rnd64 r)))) with (rnd64 r) in C by exact G.
  rewrite (round_generic radix2 fexp64 (round_mode mode_NE) (rnd64 r) G) in C. rewrite Rlt_bool_true in C by exact H. destruct C as (A & B & _). split; [exact B|exact A].
Qed.
Definition exact_log2 (x : b64) : b64 :=
  if nan x then x else if Beqb x (b64_of_Z 1) then b64_of_Z 0 else if Beqb x (b64_of_Z 2) then b64_of_Z 1 else if Beqb x (b64_of_Z 4) then b64_of_Z 2 else of_R (ln (B2 x) / ln 2).
Definition good : libm := Libm (fun x => x) exact_log2 (fun x _ => x).

Lemma ln2_le1 : ln 2 <= 1.
Proof. pose proof (exp_ineq1_le 1) as H. rewrite <- (ln_exp 1). destruct (Req_dec 2 (exp 1)) as [E|E]; [rewrite <- E; lra|]. left. apply ln_increasing; lra. Qed.
Lemma ln_above x : 0 < x -> 1 - / x <= ln x.
Proof. intros P. pose proof (exp_ineq1_le (- ln x)) as H. rewrite exp_Ropp, exp_ln in H by exact P. lra. Qed.
Lemma ln_below x : 0 < x -> ln x <= x - 1.
Proof. intros P. pose proof (exp_ineq1_le (ln x)) as H. rewrite exp_ln in H by exact P. lra. Qed.
Lemma next_one (x : b64) : 1 < B2 x -> 1 + bpow radix2 (-52) <= B2 x.
Proof.
  intros H. assert (G1 : generic_format radix2 fexp64 1). { change 1 with (bpow radix2 0). apply generic_format_bpow. unfold SpecFloat.fexp, SpecFloat.emin; lia. }
  assert (Gx : generic_format radix2 fexp64 (B2 x)) by apply generic_format_B2R.
  pose proof (succ_le_lt radix2 fexp64 1 (B2 x) G1 Gx H) as L. rewrite succ_eq_pos in L by lra.
  assert (U : ulp radix2 fexp64 1 = bpow radix2 (-52)). { change 1 with (bpow radix2 0). rewrite ulp_bpow. reflexivity. }
  rewrite U in L. exact L.
Qed.
Lemma log_size (x : b64) : fin x = true -> 1 < B2 x -> bpow radix2 (-60) <= ln (B2 x) / ln 2 <= 1024.
Proof.
  intros F H. pose proof (next_one x H) as N. pose proof ln2_pos as L2. pose proof ln2_le1 as L1. set (r := B2 x) in *.
  assert (B0 : 0 < bpow radix2 (-52)) by apply bpow_gt_0.
  assert (B60 : bpow radix2 (-60) = bpow radix2 (-52) * / 256). { change (-60)%Z with (-52 + -8)%Z. rewrite bpow_plus. reflexivity. }
  assert (B52 : bpow radix2 (-52) <= 1) by (change 1 with (bpow radix2 0); apply bpow_le; lia).
  assert (A : bpow radix2 (-60) <= ln r).
  { apply Rle_trans with (2 := ln_above r ltac:(lra)). rewrite B60. assert (E : (1 - / r) * r = r - 1) by (field; lra).
    destruct (Rle_lt_dec r 2) as [K|K].
    - assert (P : 0 <= 1 - / r). { assert (/ r <= / 1) by (apply Rinv_le_contravar; lra). lra. } nra.
    - assert (/ r <= / 2) by (apply Rinv_le_contravar; lra). lra. }
  assert (P60 : 0 < bpow radix2 (-60)) by apply bpow_gt_0. split.
  - apply Rle_trans with (1 := A). apply Rmult_le_reg_r with (ln 2); [exact L2|]. unfold Rdiv. rewrite Rmult_assoc, Rinv_l, Rmult_1_r by lra. nra.
  - assert (T : r < top) by apply B2_bound. change top with (bpow radix2 (1023 + 1)) in T. rewrite bpow_plus in T. change (bpow radix2 1) with 2 in T.
    assert (LN : ln r <= 1024 * ln 2).
    { replace (1024 * ln 2) with (ln (2 ^ 1024)). 2:{ rewrite <- Rpower_pow by lra. unfold Rpower. rewrite ln_exp. rewrite INR_IZR_INZ. reflexivity. }
      left. apply ln_increasing; [lra|]. rewrite <- (bpow_pow 1024). change (Z.of_nat 1024) with (1023 + 1)%Z. rewrite bpow_plus. exact T. }
    apply Rmult_le_reg_r with (ln 2); [exact L2|]. unfold Rdiv. rewrite Rmult_assoc, Rinv_l, Rmult_1_r by lra.
    exact LN.
Qed.
Lemma log_fits (x : b64) : fin x = true -> 1 < B2 x -> Rabs (rnd64 (ln (B2 x) / ln 2)) < top.
Proof.
  intros F H. destruct (log_size x F H) as (A & B). assert (0 < bpow radix2 (-60)) by apply bpow_gt_0. apply Rle_lt_trans with (bpow radix2 10); [|apply bpow_lt; lia].
  apply abs_round_le_generic; auto with typeclass_instances. { apply generic_format_bpow. unfold SpecFloat.fexp, SpecFloat.emin; lia. }
  rewrite Rabs_pos_eq by lra. exact B.
Qed.
Lemma beq_val (x : b64) z : fin x = true -> (Z.abs z <= 2 ^ 53)%Z -> Beqb x (b64_of_Z z) = true -> B2 x = IZR z.
Proof. intros F Z E. destruct (of_Z_exact z Z) as (A & B). rewrite Beqb_correct in E by auto. rewrite B in E. destruct (Req_bool_spec (B2 x) (IZR z)); congruence. Qed.
Lemma beq_not (x : b64) z : fin x = true -> (Z.abs z <= 2 ^ 53)%Z -> Beqb x (b64_of_Z z) = false -> B2 x <> IZR z.
Proof. intros F Z E. destruct (of_Z_exact z Z) as (A & B). rewrite Beqb_correct in E by auto. rewrite B in E. destruct (Req_bool_spec (B2 x) (IZR z)); congruence. Qed.
Lemma rnd_of_Z z : (Z.abs z <= 2 ^ 53)%Z -> rnd64 (IZR z) = IZR z.
Proof. intros Z. destruct (of_Z_exact z Z) as (_ & B). rewrite <- B. apply round_generic; auto with typeclass_instances. apply generic_format_B2R. Qed.
Lemma exact_is_rounded (x : b64) : fin x = true -> 1 <= B2 x -> fin (exact_log2 x) = true /\ B2 (exact_log2 x) = rnd64 (ln (B2 x) / ln 2).
Proof.
  intros F H. pose proof ln2_pos as L2. unfold exact_log2. replace (nan x) with false by (destruct x; try discriminate; reflexivity).
  destruct (Beqb x (b64_of_Z 1)) eqn:E1; [apply beq_val in E1; [|exact F|lia]; rewrite E1; destruct (of_Z_exact 0 ltac:(lia)) as (A & B); split; [exact A|]; rewrite B, ln_1; unfold Rdiv; rewrite Rmult_0_l; symmetry; exact (rnd_of_Z 0 ltac:(lia))|].
  destruct (Beqb x (b64_of_Z 2)) eqn:E2; [apply beq_val in E2; [|exact F|lia]; rewrite E2; destruct (of_Z_exact 1 ltac:(lia)) as (A & B); split; [exact A|]; rewrite B; unfold Rdiv; rewrite Rinv_r by lra; symmetry; exact (rnd_of_Z 1 ltac:(lia))|].
  destruct (Beqb x (b64_of_Z 4)) eqn:E4.
  { apply beq_val in E4; [|exact F|lia]; rewrite E4; destruct (of_Z_exact 2 ltac:(lia)) as (A & B); split; [exact A|]; rewrite B. replace (ln 4 / ln 2) with 2; [symmetry; exact (rnd_of_Z 2 ltac:(lia))|].
    replace 4 with (2 * 2) by lra. rewrite ln_mult by lra. field. lra. }
  apply beq_not in E1; [|exact F|lia]. apply of_R_val, log_fits; [exact F|]. lra.
Qed.
Lemma good_accurate : accurate_log2 good u64.
Proof.
  intros x F H. cbn [good m_log2]. destruct (exact_is_rounded x F H) as (A & B). split; [exact A|]. rewrite B. destruct (Req_dec (B2 x) 1) as [E|E].
  - rewrite E, ln_1. unfold Rdiv. rewrite Rmult_0_l. rewrite round_0 by auto with typeclass_instances. rewrite Rminus_0_r, Rabs_R0. lra.
  - destruct (log_size x F ltac:(lra)) as (P & Q). assert (0 < bpow radix2 (-60)) by apply bpow_gt_0. eapply Rle_trans; [apply rnd64_rel|].
    + rewrite Rabs_pos_eq by lra. apply Rle_trans with (2 := P). apply bpow_le. lia.
    + rewrite Rabs_pos_eq by lra. lra.
Qed.

(** When no sample lies between the moved edges, the count is the exact one. *)
Lemma squeeze (m M lo lo' lo'' hi hi' hi'' : R) (xs : list b64) n : lo' <= lo <= lo'' -> hi'' <= hi <= hi' ->
  (counted m M lo'' hi'' xs <= n <= counted m M lo' hi' xs)%nat ->
  Forall (fun x => ~ lo' <= B2 x < lo'' /\ ~ hi'' <= B2 x < hi') xs -> n = number_of (fun x => between (S := RR) m M x && cell lo hi x)%bool (map B2 xs).
Proof.
  intros L H (C1 & C2) Fa. assert (E : forall a b, (forall x, In x xs -> cell a b (B2 x) = cell lo hi (B2 x)) -> counted m M a b xs = number_of (fun x => between (S := RR) m M x && cell lo hi x)%bool (map B2 xs)).
  { intros a b. unfold counted, number_of. clear C1 C2 Fa. induction xs as [|x r IH]; intros E; [reflexivity|]. cbn [filter map]. rewrite (E x (or_introl eq_refl)).
    specialize (IH (fun y Hy => E y (or_intror Hy))). destruct (between (S := RR) m M (B2 x) && cell lo hi (B2 x))%bool; cbn [length]; [now rewrite IH|exact IH]. }
  rewrite Forall_forall in Fa. rewrite E in C1, C2; [lia| |]; intros x Hx; destruct (Fa x Hx) as (N1 & N2); apply bool_iff; rewrite !cell_R; split; intros (P & Q); split; try lra;
    apply Rnot_lt_le || apply Rnot_le_lt; intros X; try (apply N1; lra); apply N2; lra.
Qed.
Lemma lin_exact (m M w : R) i xs n : 0 < w -> lin_count m M w i xs n ->
  Forall (fun x => ~ bin_lo m w (- (4 * u64)) i <= B2 x < bin_lo m w (4 * u64) i /\ ~ bin_hi m w (4 * u64) i <= B2 x < bin_hi m w (- (4 * u64)) i) xs ->
  n = hits m M w (map B2 xs) i.
Proof.
  intros W C Fa. pose proof u_small as U. pose proof (pos_INR i) as I0. unfold lin_count in C. unfold hits.
  assert (IW : 0 <= INR i * w) by (apply Rmult_le_pos; lra). assert (IW1 : 0 <= (INR i + 1) * w) by (apply Rmult_le_pos; lra).
  apply (squeeze m M _ (bin_lo m w (- (4 * u64)) i) (bin_lo m w (4 * u64) i) _ (bin_hi m w (- (4 * u64)) i) (bin_hi m w (4 * u64) i)); auto.
  - unfold bin_lo, edge. assert (0 <= INR i * w * (4 * u64)) by (apply Rmult_le_pos; lra). lra.
  - unfold bin_hi, edge. rewrite S_INR. assert (0 <= (INR i + 1) * w * (4 * u64)) by (apply Rmult_le_pos; lra). lra.
Qed.
Lemma rpower_mono l a b : 1 < l -> a <= b -> Rpower l a <= Rpower l b.
Proof. intros L [H| ->]; [left; now apply Rpower_lt|lra]. Qed.
Lemma log_exact (e m M l : R) i xs n : 0 <= e <= 1 / 8 -> 0 < m -> 1 < l -> log_count e m M l i xs n -> let d := 2 * u64 + 4 * e in let v := 2 * u64 in
  Forall (fun x => ~ lbin_lo m l (- d) (- v) i <= B2 x < lbin_lo m l d v i /\ ~ lbin_hi m l d v i <= B2 x < lbin_hi m l (- d) (- v) i) xs ->
  n = lhits m M l (map B2 xs) i.
Proof.
  intros He Pm Pl C d v Fa. pose proof u_small as U. pose proof (pos_INR i) as I0. unfold log_count in C. cbv zeta in C. fold d v in C. unfold lhits.
  assert (D0 : 0 <= d) by (unfold d; lra). assert (V0 : 0 <= v <= 1) by (unfold v; lra).
  assert (P : forall k, ledge m l k = m * Rpower l (INR k)) by (intros k; unfold ledge; rewrite Rpower_pow by lra; reflexivity).
  assert (ID : 0 <= INR i * d) by (apply Rmult_le_pos; lra). assert (ID1 : 0 <= (INR i + 1) * d) by (apply Rmult_le_pos; lra).
  assert (M1 : forall a b s t, a <= b -> 0 <= s <= t -> m * Rpower l a * s <= m * Rpower l b * t).
  { intros a b s t Hab Hst. assert (PP : forall z, 0 < Rpower l z) by (intros z; unfold Rpower; apply exp_pos). pose proof (rpower_mono l a b Pl Hab). pose proof (PP a). pose proof (PP b).
    apply Rmult_le_compat; [apply Rmult_le_pos; lra|lra| |lra]. apply Rmult_le_compat_l; lra. }
  apply (squeeze m M _ (lbin_lo m l (- d) (- v) i) (lbin_lo m l d v i) _ (lbin_hi m l (- d) (- v) i) (lbin_hi m l d v i)); auto.
  - rewrite P. unfold lbin_lo. rewrite <- (Rmult_1_r (m * Rpower l (INR i))). split; apply M1; lra.
  - rewrite P, S_INR. unfold lbin_hi. rewrite <- (Rmult_1_r (m * Rpower l (INR i + 1))). split; apply M1; lra.
Qed.
