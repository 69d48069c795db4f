(** Property C65: the default analyses.  [default()] gives the analysis that [update_from_bin_size] would set up for times from 0 (or 1e-15) to 1e13, bins of 1e10 and a factor of 1.2
    between logarithmic bins (ten columns for the analysis of vectors), so everything proved about those analyses holds for it. *)
From Coq Require Import Reals ZArith List Lra Lia.
From Flocq Require Import Core IEEE754.BinarySingleNaN.
From Verif Require Import Base Scalar Float64 Model_Analysis Spec_Analysis Proof_Analysis4 Proof_Analysis7 Proof_Analysis8 Proof_Analysis10 Proof_Analysis9 Model_Default Proof_Default Proof_Time.
Import ListNotations.
Local Open Scope R_scope.

(** C65: exact reals, all three kinds of analysis, any lower limit from 0 to 1e-15. *)
Theorem C65_default_is_set_up : forall mn : R, 0 <= mn <= / 10 ^ 15 ->
  ta_fresh (S := RR) mn (10 ^ 13) (10 ^ 10) (12 / 10) = Ok ta_default /\
  tv_fresh (S := RR) mn (10 ^ 13) (10 ^ 10) (12 / 10) 10 = Ok tv_default /\
  pa_fresh (S := RR) mn (10 ^ 13) (10 ^ 10) (12 / 10) = Ok pa_default.
Proof.
  intros mn H. assert (E15 : 10 ^ 15 = IZR (10 ^ 15)) by exact (pow_IZR 10 15). assert (E13 : 10 ^ 13 = IZR (10 ^ 13)) by exact (pow_IZR 10 13). assert (E10 : 10 ^ 10 = IZR (10 ^ 10)) by exact (pow_IZR 10 10).
  rewrite E15 in H. rewrite E13, E10. exact (from_default (S := RR) mn (default_R mn H)).
Qed.
Print Assumptions C65_default_is_set_up.

(** C65: a new default analysis is empty and knows its bins: as many counters and densities as bins, all 0, no samples. *)
Theorem C65_default_is_empty : forall S : scalar, let d := ta_default (S := S) in
  ta_ens d = 0%nat /\ ta_mean d = s0 /\ ta_sq d = s0 /\
  Z.of_nat (length (ta_count d)) = b_num (ta_bins d) /\ Z.of_nat (length (ta_hist d)) = b_num (ta_bins d) /\ Forall (eq 0%nat) (ta_count d) /\ Forall (eq s0) (ta_hist d) /\
  Z.of_nat (length (ta_lcount d)) = b_lnum (ta_bins d) /\ Z.of_nat (length (ta_lhist d)) = b_lnum (ta_bins d) /\ Forall (eq 0%nat) (ta_lcount d) /\ Forall (eq s0) (ta_lhist d).
Proof.
  intros S d. assert (R : forall X (x : X) n, Forall (eq x) (repeat x n)) by (intros; apply Forall_forall; intros y Hy; symmetry; exact (repeat_spec _ _ _ Hy)).
  unfold d, ta_default. cbn [ta_ens ta_mean ta_sq ta_count ta_lcount ta_hist ta_lhist ta_bins default_bins b_num b_lnum]. rewrite !repeat_length. repeat (split; [try reflexivity; try apply R|]). apply R.
Qed.
Print Assumptions C65_default_is_empty.

(** C65: exact reals: a default analysis takes every sample, and counts each in the bin (of width 1e10 from 1e-15 on, or with ends that grow by 1.2) where it lies. *)
Theorem C65_default_counts : forall xs : list R, exists a, ta_adds (S := RR) ta_default xs = Ok a /\
  (forall i, nth i (ta_count a) 0%nat = hits (low_end 0) (10 ^ 13) (10 ^ 10) xs i) /\ (forall i, nth i (ta_lcount a) 0%nat = lhits (low_end 0) (10 ^ 13) (12 / 10) xs i).
Proof.
  intros xs. assert (P15 : 0 < 10 ^ 15) by (apply pow_lt; lra). assert (P10 : 0 < 10 ^ 10) by (apply pow_lt; lra).
  destruct (C65_default_is_set_up 0) as [E _]; [split; [lra|left; now apply Rinv_0_lt_compat]|].
  destruct (exact_histogram _ _ _ _ _ E P10 ltac:(lra) xs) as (a & H & _ & _ & _ & H1 & H2). eauto.
Qed.
Print Assumptions C65_default_counts.
Theorem C65_default_vector_never_fails : forall rows : list (list R), Forall (fun r => length r = 10%nat) rows ->
  exists a r, tv_adds (S := RR) tv_default rows = Ok a /\ tv_draw a = Ok r.
Proof.
  intros rows. assert (P15 : 0 < 10 ^ 15) by (apply pow_lt; lra). assert (P10 : 0 < 10 ^ 10) by (apply pow_lt; lra).
  destruct (C65_default_is_set_up 0) as (_ & E & _); [split; [lra|left; now apply Rinv_0_lt_compat]|].
  assert (L : 1 < 12 / 10) by lra. exact (vec_total _ _ _ _ _ _ E P10 L ltac:(discriminate) rows).
Qed.
Print Assumptions C65_default_vector_never_fails.

(** C65: doubles, for every mathematical library whose log2(1e28)/log2(1.2) is within 0.02 of 353.62 (here 353.6 to 354.4 is enough); the lower limit is 1e-15 or 0. *)
Theorem C65_f64_default_is_set_up : forall lm (mn : b64), let lo : b64 := lit (s := F64 lm) 1 (10 ^ 15) in let factor : b64 := lit (s := F64 lm) 12 10 in
  let lq := Bdiv mode_NE (m_log2 lm (Bdiv mode_NE (b64_of_Z (10 ^ 13)) lo)) (m_log2 lm factor) in
  mn = lo \/ mn = b64_of_Z 0 -> is_finite lq = true -> 353 + 6 / 10 <= B2R lq <= 354 + 4 / 10 ->
  ta_fresh (S := F64 lm) mn (b64_of_Z (10 ^ 13)) (b64_of_Z (10 ^ 10)) factor = Ok ta_default /\
  tv_fresh (S := F64 lm) mn (b64_of_Z (10 ^ 13)) (b64_of_Z (10 ^ 10)) factor 10 = Ok tv_default /\
  pa_fresh (S := F64 lm) mn (b64_of_Z (10 ^ 13)) (b64_of_Z (10 ^ 10)) factor = Ok pa_default.
Proof. intros lm mn lo factor lq H1 H2 H3. exact (from_default (S := F64 lm) mn (default_64 lm mn H1 H2 H3)). Qed.
Print Assumptions C65_f64_default_is_set_up.
(** C65: doubles: with a monotone log2 no sample of any kind makes a default analysis fail. *)
Theorem C65_f64_default_never_fails : forall lm, let lo : b64 := lit (s := F64 lm) 1 (10 ^ 15) in let factor : b64 := lit (s := F64 lm) 12 10 in
  let lq := Bdiv mode_NE (m_log2 lm (Bdiv mode_NE (b64_of_Z (10 ^ 13)) lo)) (m_log2 lm factor) in
  sane_log2 lm -> is_finite lq = true -> 353 + 6 / 10 <= B2R lq <= 354 + 4 / 10 -> is_finite (m_log2 lm factor) = true -> 0 < B2R (m_log2 lm factor) ->
  forall xs, exists a, ta_adds (ta_default (S := F64 lm)) xs = Ok a.
Proof. intros lm lo factor lq H1 H2 H3 H4 H5. exact (default_safe lm H1 H2 H3 H4 H5). Qed.
Print Assumptions C65_f64_default_never_fails.

(** * The hypotheses are met *)
(** A library with a monotone log2 and the wanted quotient: 1 up to the double 1.2, 354 above. *)
Definition step_log (x : b64) : b64 := if is_nan x then x else if Bltb (Bdiv mode_NE (b64_of_Z 12) (b64_of_Z 10)) x then b64_of_Z 354 else b64_of_Z 1.
Definition step_lm : libm := Libm (fun x => x) step_log (fun x _ => x).
Example step_values : B2R (m_log2 step_lm (lit (s := F64 step_lm) 12 10)) = 1 /\ is_finite (m_log2 step_lm (lit (s := F64 step_lm) 12 10)) = true.
Proof.
  assert (E : B2SF (m_log2 step_lm (lit (s := F64 step_lm) 12 10)) = B2SF (b64_of_Z 1)) by (vm_compute; reflexivity). apply B2SF_inj in E. rewrite E. destruct (of_Z_exact 1 ltac:(lia)) as [A B]. split; [exact B|exact A].
Qed.
Example step_quotient : let lq := Bdiv mode_NE (m_log2 step_lm (Bdiv mode_NE (b64_of_Z (10 ^ 13)) (lit (s := F64 step_lm) 1 (10 ^ 15)))) (m_log2 step_lm (lit (s := F64 step_lm) 12 10)) in
  is_finite lq = true /\ 353 + 6 / 10 <= B2R lq <= 354 + 4 / 10.
Proof.
  intros lq. assert (E : B2SF lq = B2SF (b64_of_Z 354)) by (vm_compute; reflexivity). apply B2SF_inj in E. rewrite E. destruct (of_Z_exact 354 ltac:(lia)) as [A B]. split; [exact A|].
  change (B2R (b64_of_Z 354)) with (B2 (b64_of_Z 354)). rewrite B. lra.
Qed.
Example step_sane : sane_log2 step_lm.
Proof.
  split.
  - intros x H. cbn [step_lm m_log2]. unfold step_log. now rewrite H.
  - intros x y Fx Fy L1 L2. cbn [step_lm m_log2]. unfold step_log.
    replace (is_nan x) with false by (destruct x; try discriminate; reflexivity). replace (is_nan y) with false by (destruct y; try discriminate; reflexivity).
    set (t := Bdiv mode_NE (b64_of_Z 12) (b64_of_Z 10)). assert (Nt : nan t = false) by (vm_compute; reflexivity).
    destruct (of_Z_exact 354 ltac:(lia)) as [A B]. destruct (of_Z_exact 1 ltac:(lia)) as [A1 B1].
    destruct (Bltb t x) eqn:E.
    + assert (E' : Bltb t y = true).
      { apply ltb_val in E; [|exact Nt|destruct x; easy]. apply ltb_val; [exact Nt|destruct y; easy|]. rewrite (val_fin x) in E by exact Fx. rewrite (val_fin y) by exact Fy.
        apply Rlt_le_trans with (B2 x); [exact E|exact L2]. }
      rewrite E'. split; [exact A|]. split; [exact A|]. change (B2R (b64_of_Z 354)) with (B2 (b64_of_Z 354)). rewrite B. lra.
    + split; [exact A1|]. change (B2R (b64_of_Z 1)) with (B2 (b64_of_Z 1)). rewrite B1. destruct (Bltb t y).
      * split; [exact A|]. change (B2R (b64_of_Z 354)) with (B2 (b64_of_Z 354)). rewrite B. lra.
      * split; [exact A1|]. change (B2R (b64_of_Z 1)) with (B2 (b64_of_Z 1)). rewrite B1. lra.
Qed.
