(** The default analyses in double precision with a fine log2 (C65). *)
From Coq Require Import Reals ZArith List Lra Lia.
From Flocq Require Import Core IEEE754.BinarySingleNaN.
From Verif Require Import Base Scalar Float64 Model_Analysis Spec_Analysis Proof_Time Proof_Analysis4 Proof_Analysis8 Proof_Analysis10 Model_Default Proof_Default Proof_Norm64 Spec_Position Spec_Hist64 Proof_Hist64 Spec_Export64 Proof_Export64 Proof_Export64c.
Import ListNotations.
Local Open Scope R_scope.

Lemma sf_value (x : b64) m e : B2SF x = SpecFloat.S754_finite false m e -> fin x = true /\ B2 x = IZR (Zpos m) * bpow radix2 e.
Proof.
  intros H. split.
  - rewrite <- is_finite_SF_B2SF, H. reflexivity.
  - change (B2R x = IZR (Zpos m) * bpow radix2 e). rewrite <- (SF2R_B2SF _ _ x), H. reflexivity.
Qed.
Definition qf : b64 := Bdiv mode_NE (b64_of_Z 12) (b64_of_Z 10).
Definition qr : b64 := Bdiv mode_NE (b64_of_Z (10 ^ 13)) (Bdiv mode_NE (b64_of_Z 1) (b64_of_Z (10 ^ 15))).
Lemma qf_value : fin qf = true /\ 11999 / 10000 <= B2 qf <= 12 / 10.
Proof.
  destruct (B2SF qf) as [| | |s m e] eqn:E; try (vm_compute in E; discriminate). vm_compute in E. injection E as <- <- <-.
  destruct (sf_value qf _ _ ltac:(vm_compute; reflexivity)) as (A & B). split; [exact A|]. rewrite B. change (bpow radix2 (-52)) with (/ IZR (2 ^ 52)). change (2 ^ 52)%Z with 4503599627370496%Z. lra.
Qed.
Lemma qr_value : fin qr = true /\ 9999 * IZR (10 ^ 24) <= B2 qr <= 10001 * IZR (10 ^ 24).
Proof.
  destruct (B2SF qr) as [| | |s m e] eqn:E; try (vm_compute in E; discriminate). vm_compute in E. injection E as <- <- <-.
  destruct (sf_value qr _ _ ltac:(vm_compute; reflexivity)) as (A & B). split; [exact A|]. rewrite B. rewrite <- IZR_Zpower by lia. rewrite <- !mult_IZR. split; apply IZR_le; vm_compute; discriminate.
Qed.
Lemma qlog : 6365 / 18 < ln (B2 qr) / ln (B2 qf) < 354.
Proof.
  destruct qf_value as (_ & L1 & L2), qr_value as (_ & R1 & R2). set (l := B2 qf) in *. set (r := B2 qr) in *. clearbody l r.
  assert (K : forall z : Z, (0 < z)%Z -> 0 < IZR z) by (intros; now apply IZR_lt). pose proof (K (10 ^ 24)%Z eq_refl) as P24.
  assert (Pl : 0 < ln l) by (rewrite <- ln_1; apply ln_increasing; lra).
  assert (A : INR 6365 * ln l < INR 18 * ln r).
  { rewrite <- (ln_pow r) by lra. apply ln_pow_lt; [lra|apply pow_lt; lra|].
    apply Rle_lt_trans with ((12 / 10) ^ 6365); [apply pow_incr; lra|].
    apply Rlt_le_trans with ((9999 * IZR (10 ^ 24)) ^ 18); [|apply pow_incr; lra].
    replace (12 / 10) with (IZR 6 / IZR 5) by lra. unfold Rdiv. rewrite <- mult_IZR, Rpow_mult_distr, pow_inv, !pow_IZR.
    apply Rmult_lt_reg_r with (IZR (5 ^ Z.of_nat 6365)); [apply K; reflexivity|]. rewrite Rmult_assoc, Rinv_l by (apply Rgt_not_eq, K; reflexivity). rewrite Rmult_1_r, <- mult_IZR.
    apply IZR_lt. vm_compute. reflexivity. }
  assert (B : ln r < INR 354 * ln l).
  { apply ln_pow_gt; [lra|lra|]. apply Rle_lt_trans with (1 := R2). apply Rlt_le_trans with ((IZR 11999 / IZR 10000) ^ 354); [|apply pow_incr; lra].
    unfold Rdiv. rewrite <- mult_IZR, Rpow_mult_distr, pow_inv, !pow_IZR.
    apply Rmult_lt_reg_r with (IZR (10000 ^ Z.of_nat 354)); [apply K; reflexivity|]. rewrite Rmult_assoc, Rinv_l by (apply Rgt_not_eq, K; reflexivity). rewrite Rmult_1_r, <- mult_IZR.
    apply IZR_lt. vm_compute. reflexivity. }
  assert (I1 : INR 6365 = 6365) by (rewrite INR_IZR_INZ; reflexivity). assert (I2 : INR 18 = 18) by (rewrite INR_IZR_INZ; reflexivity). assert (I3 : INR 354 = 354) by (rewrite INR_IZR_INZ; reflexivity).
  rewrite I1, I2 in A. rewrite I3 in B.
  assert (E : ln r / ln l * ln l = ln r) by (field; lra). split; apply Rmult_lt_reg_r with (ln l); auto; rewrite E; lra.
Qed.
Lemma d_log_is lm : d_log lm = Bdiv mode_NE (m_log2 lm qr) (m_log2 lm qf). Proof. reflexivity. Qed.
Lemma d_factor_is lm : d_factor lm = qf. Proof. reflexivity. Qed.
Global Opaque qf qr.
Section Fine.
Variable lm : libm.
Hypothesis HP : fine_log2 lm.
Local Notation F := (F64 lm).
Lemma quotient_fine : fin (d_log lm) = true /\ 353 + 6 / 10 <= B2 (d_log lm) <= 354 + 4 / 10.
Proof.
  destruct HP as (_ & e & He & Ac). destruct qf_value as (Ff & Lf), qr_value as (Fr & Rr). pose proof qlog as Q.
  assert (P24 : 1 <= IZR (10 ^ 24)) by (apply (IZR_le 1); vm_compute; discriminate).
  assert (E8 : 0 <= e <= / 2 ^ 40 /\ / 2 ^ 40 <= / 1000000) by (split; [exact He|]; simpl; lra). destruct E8 as (E8 & E9).
  destruct (logs_near lm e Ac ltac:(lra) qr qf Fr Ff ltac:(lra) ltac:(lra)) as (L1 & L2 & L3 & L4 & L5 & L6 & L7).
  set (t := ln (B2 qr) / ln (B2 qf)) in *. assert (Te : 0 <= t * e <= 354 * / 1000000). { split; [apply Rmult_le_pos; lra|]. apply Rmult_le_compat; lra. }
  destruct (div_near (m_log2 lm qr) (m_log2 lm qf) L1 L2 L3 L4) as (G1 & G2 & G3). { apply Rle_trans with 355; [lra|]. simpl. lra. }
  apply Rabs_le_inv in G3. rewrite d_log_is. split; [exact G1|]. lra.
Qed.
Lemma ample_d : ample_lin lm (d_min lm) d_max d_size.
Proof.
  destruct (of_Z_exact (10 ^ 13) ltac:(lia)) as [A13 B13]. destruct (of_Z_exact (10 ^ 10) ltac:(lia)) as [A10 B10]. fold d_max in A13, B13. fold d_size in A10, B10.
  assert (Er : raised (S := F) (d_min lm) = d_min lm) by (exact (clip_64 lm (d_min lm) (or_introl eq_refl))). unfold ample_lin. rewrite Er.
  pose proof (min_pos lm) as M. change (B2R d_max) with (B2 d_max). change (B2R d_size) with (B2 d_size). change (B2R (d_min lm)) with (B2 (d_min lm)).
  split; [vm_compute; reflexivity|]. split; [exact A13|]. split; [exact A10|]. split; [lra|]. rewrite B13 in *. rewrite B10.
  assert (P : forall n z, (z <= 2 ^ Z.of_nat 53)%Z -> (53 <= n)%nat -> IZR z <= 2 ^ n). { intros n z Hz Hn. apply Rle_trans with (2 ^ 53); [rewrite pow_IZR; apply IZR_le; exact Hz|]. apply Rle_pow; [lra|exact Hn]. }
  split; [split; [apply M|apply P; [vm_compute; discriminate|lia]]|]. split; [split; [now apply IZR_lt|apply P; [vm_compute; discriminate|lia]]|].
  rewrite pow_IZR, <- mult_IZR. apply IZR_le. vm_compute. discriminate.
Qed.
Lemma ample_f : ample_log (d_factor lm).
Proof.
  destruct qf_value as (Ff & Lf). rewrite d_factor_is. split; [exact Ff|]. change (B2R qf) with (B2 qf). split.
  - assert (/ 2 ^ 19 <= 1 / 10) by (simpl; lra). lra.
  - apply Rle_trans with (2 ^ 1); [lra|]. apply Rle_pow; [lra|lia].
Qed.
Lemma fine_set_up (mn : b64) : mn = d_min lm \/ mn = b64_of_Z 0 ->
  ta_fresh (S := F) mn d_max d_size (d_factor lm) = Ok ta_default /\ tv_fresh (S := F) mn d_max d_size (d_factor lm) 10 = Ok tv_default /\ pa_fresh (S := F) mn d_max d_size (d_factor lm) = Ok pa_default.
Proof. intros H. destruct quotient_fine as (A & B). exact (from_default (S := F) mn (default_64 lm mn H A B)). Qed.
Lemma fine_vec : (forall rows : list (list b64), Forall (fun row => length row = 10%nat) rows -> exists a, tv_adds (tv_default (S := F)) rows = Ok a) /\
  exists N, forall rows a d, tv_adds (tv_default (S := F)) rows = Ok a -> tv_draw a = Ok d -> exists l1 l2, forall fuel, (N < fuel)%nat -> tv_export_lin fuel d = Ok l1 /\ tv_export_log fuel d = Ok l2.
Proof.
  destruct (fine_set_up _ (or_introl eq_refl)) as (_ & E & _). destruct (vec64 lm (d_min lm) d_max d_size (d_factor lm) ample_d ample_f HP 10 ltac:(discriminate)) as (a0 & E0 & X & Y).
  assert (a0 = tv_default) as -> by (pose proof (eq_trans (eq_sym E0) E) as Q; exact (f_equal (fun o => match o with Ok x => x | _ => a0 end) Q)). exact (conj X Y).
Qed.
Lemma fine_proc : (forall ls : list (list (b64 * b64)), exists a, add_lines (pa_line (S := F)) pa_default ls = Ok a) /\
  exists N, forall ls a d, add_lines (pa_line (S := F)) pa_default ls = Ok a -> pa_draw a = Ok d -> exists l1 l2, forall fuel, (N < fuel)%nat -> pa_export_lin fuel d = Ok l1 /\ pa_export_log fuel d = Ok l2.
Proof.
  destruct (fine_set_up _ (or_introl eq_refl)) as (_ & _ & E). destruct (proc64 lm (d_min lm) d_max d_size (d_factor lm) ample_d ample_f HP) as (a0 & E0 & X & Y).
  assert (a0 = pa_default) as -> by (pose proof (eq_trans (eq_sym E0) E) as Q; exact (f_equal (fun o => match o with Ok x => x | _ => a0 end) Q)). exact (conj X Y).
Qed.
Lemma fine_time : forall xs : list b64, exists a, ta_adds (ta_default (S := F)) xs = Ok a.
Proof.
  destruct quotient_fine as (A & B). destruct HP as (Sn & e & He & Ac). destruct qf_value as (Ff & Lf).
  assert (E8 : e <= 1 / 8) by (apply Rle_trans with (1 := proj2 He); simpl; lra).
  destruct qr_value as (Fr & Rr). assert (P24 : 1 <= IZR (10 ^ 24)) by (apply (IZR_le 1); vm_compute; discriminate). pose proof qlog.
  destruct (logs_near lm e Ac ltac:(lra) qr qf Fr Ff ltac:(lra)) as (L1 & L2 & L3 & L4 & _).
  { destruct (Rle_lt_dec (B2 qf) 1); [lra|assumption]. }
  rewrite <- (d_factor_is lm) in L2, L4. exact (default_safe lm Sn A B L2 L4).
Qed.
End Fine.
