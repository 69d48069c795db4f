(** The densities of the histograms on doubles, the times of the constant clock, the mean of an ensemble. *)
From Coq Require Import Reals ZArith List Lra Lia.
From Flocq Require Import Core.
From Flocq.IEEE754 Require Import BinarySingleNaN.
From Verif Require Import Base Scalar Float64 Model_Position Spec_Position Proof_Position Proof_Norm64 Proof_Sum64 Proof_Rel64 Proof_Moments64
  Model_Analysis Spec_Analysis Proof_Analysis Proof_Analysis2 Proof_Analysis3 Proof_Analysis5 Proof_Analysis7 Proof_Analysis9 Spec_Accuracy
  Model_Time Spec_Time Proof_Time Proof_Accuracy Proof_Accuracy2.
Import ListNotations.
Open Scope R_scope.

Section Fill.
Context {S : scalar}.
Fixpoint times_by (w g : S) (k : nat) : S := match k with O => w | Datatypes.S j => times_by (w * g)%S g j end.
Lemma fill_lin_nth c w : forall (h h' : list S), fill_lin c w h = Ok h' -> length h = length c -> length h' = length c /\
  forall i y n, nth_error h' i = Some y -> nth_error c i = Some n -> y = (of_Z (Z.of_nat n) / w)%S.
Proof.
  induction c as [|x c IH]; intros h h' H L.
  - destruct h; [|discriminate]. cbn [fill_lin] in H. assert (E : h' = []) by congruence. subst. split; [reflexivity|]. intros [|i] y n; discriminate.
  - destruct h as [|z h]; [discriminate|]. cbn [fill_lin] in H. destruct (fill_lin c w h) as [k| | |] eqn:E; cbn [bind] in H; try discriminate.
    assert (X : h' = (of_Z (Z.of_nat x) / w)%S :: k) by congruence. subst. destruct (IH h k E ltac:(cbn [length] in L; lia)) as (L' & Q). split; [cbn [length]; lia|].
    intros [|i] y n A B; cbn [nth_error] in *; [congruence|]. eapply Q; eauto.
Qed.
Lemma fill_nth g c : forall w (h h' : list S), fill c w g h = Ok h' -> length h = length c -> length h' = length c /\
  forall i y n, nth_error h' i = Some y -> nth_error c i = Some n -> y = (of_Z (Z.of_nat n) / times_by w g i)%S.
Proof.
  induction c as [|x c IH]; intros w h h' H L.
  - destruct h; [|discriminate]. cbn [fill] in H. assert (E : h' = []) by congruence. subst. split; [reflexivity|]. intros [|i] y n; discriminate.
  - destruct h as [|z h]; [discriminate|]. cbn [fill] in H. destruct (fill c (w * g)%S g h) as [k| | |] eqn:E; cbn [bind] in H; try discriminate.
    assert (X : h' = (of_Z (Z.of_nat x) / w)%S :: k) by congruence. subst. destruct (IH _ h k E ltac:(cbn [length] in L; lia)) as (L' & Q). split; [cbn [length]; lia|].
    intros [|i] y n A B; cbn [nth_error] in *; [cbn [times_by]; congruence|]. cbn [times_by]. eapply Q; eauto.
Qed.
Lemma nth_error_le_sum c : forall i n, nth_error c i = Some n -> (n <= list_sum c)%nat.
Proof. induction c as [|x c IH]; intros [|i] n; cbn [nth_error]; try discriminate; change (list_sum (x :: c)) with (x + list_sum c)%nat.
  - intros H. injection H as ->. lia. - intros H. apply IH in H. lia. Qed.
Lemma number_of_le {A} (p : A -> bool) l : (number_of p l <= length l)%nat.
Proof. unfold number_of. induction l; cbn [filter length]; [lia|]. destruct p; cbn [length]; lia. Qed.

(** What [draw] puts into the histograms. *)
Lemma drawn (mn mx size lsize : S) (a0 a r : tana S) xs : ta_fresh mn mx size lsize = Ok a0 -> ta_adds a0 xs = Ok a -> ta_draw a = Ok r ->
  let N : S := of_Z (Z.of_nat (length xs)) in
  length (ta_hist r) = length (ta_count r) /\ length (ta_lhist r) = length (ta_lcount r) /\
  (forall i h c, nth_error (ta_hist r) i = Some h -> nth_error (ta_count r) i = Some c -> (c <= length xs)%nat /\ h = (of_Z (Z.of_nat c) / (N * size))%S) /\
  (forall i h c, nth_error (ta_lhist r) i = Some h -> nth_error (ta_lcount r) i = Some c -> (c <= length xs)%nat /\
     h = (of_Z (Z.of_nat c) / times_by (clip_min mn * N * (lsize - s1)) lsize i)%S).
Proof.
  intros H0 Ha Hd N. destruct (ta_fresh_inv _ _ _ _ _ H0) as (b & Hb & Eb & E0 & _).
  destruct (bookkeeping _ _ _ _ _ _ _ H0 Ha) as (En & S1 & S2 & _).
  destruct (ta_adds_inv _ _ _ Ha) as (Bb & Hh & Hl & _ & L1 & L2 & _).
  assert (Pb : b_min b = clip_min mn /\ b_size b = size /\ b_lsize b = lsize).
  { unfold from_bin_size in Hb. destruct (_ || _)%bool; [discriminate|]. assert (Q : forall x y : bins S, Ok x = Ok y -> x = y) by congruence. apply Q in Hb. subst b. auto. }
  destruct Pb as (P1 & P2 & P3). subst a0. cbn [ta_bins ta_hist ta_lhist ta_count ta_lcount] in *. rewrite !repeat_length in *.
  unfold ta_draw in Hd. cbv zeta in Hd. rewrite Bb, P1, P2, P3, En in Hd. fold N in Hd.
  destruct (fill_lin (ta_count a) (N * size)%S (ta_hist a)) as [h| | |] eqn:F1; cbn [bind] in Hd; try discriminate.
  destruct (fill (ta_lcount a) (clip_min mn * N * (lsize - s1))%S lsize (ta_lhist a)) as [lh| | |] eqn:F2; cbn [bind] in Hd; try discriminate.
  assert (Q : forall x y : tana S, Ok x = Ok y -> x = y) by congruence. apply Q in Hd. subst r. cbn [ta_hist ta_lhist ta_count ta_lcount].
  destruct (fill_lin_nth _ _ _ _ F1 ltac:(rewrite Hh, repeat_length; auto)) as (M1 & V1).
  destruct (fill_nth _ _ _ _ _ F2 ltac:(rewrite Hl, repeat_length; auto)) as (M2 & V2).
  split; [exact M1|]. split; [exact M2|]. split; intros i y c A B.
  - split; [|eapply V1; eauto]. apply nth_error_le_sum in B. rewrite S1 in B. pose proof (number_of_le (between (clip_min mn) mx) xs). lia.
  - split; [|eapply V2; eauto]. apply nth_error_le_sum in B. rewrite S2 in B. pose proof (number_of_le (between (clip_min mn) mx) xs). lia.
Qed.
End Fill.

(** ** Ranges *)
Lemma bpow_pow (n : nat) : bpow radix2 (Z.of_nat n) = 2 ^ n.
Proof. rewrite <- (Rinv_inv (2 ^ n)), <- bpow_inv_pow, bpow_opp, Rinv_inv. reflexivity. Qed.
Definition Q900 : R := 2 ^ 900.
Definition Q50 : R := 2 ^ 50.
Lemma q900_pos : 0 < Q900. Proof. unfold Q900. apply pow_lt. lra. Qed.
Lemma q50_ge : 1 <= Q50. Proof. unfold Q50. apply pow_R1_Rle. lra. Qed.
Lemma q900_ge : 1 <= Q900. Proof. unfold Q900. apply pow_R1_Rle. lra. Qed.
Lemma hi_ge : Q50 * Q900 <= HI.
Proof. unfold HI, Q50, Q900. rewrite <- pow_add. rewrite <- bpow_pow. apply bpow_le. lia. Qed.
Lemma lo_le : LO <= / (Q50 * Q900).
Proof. unfold LO, Q50, Q900. rewrite <- pow_add, <- bpow_inv_pow. apply bpow_le. lia. Qed.
Lemma small_rel n : INR n <= Q50 + 10 -> INR n * u64 <= 1 / 2.
Proof.
  intros H. pose proof u64_pos as U. assert (E : Q50 * u64 = / 8).
  { unfold Q50, u64. replace 53%nat with (50 + 3)%nat by lia. rewrite pow_add, Rinv_mult, <- Rmult_assoc, Rinv_r by (apply pow_nonzero; lra). simpl. lra. }
  assert (u64 <= / 64). { unfold u64. apply Rinv_le_contravar; [lra|]. replace 64 with (2 ^ 6) by (simpl; lra). apply Rle_pow; [lra|lia]. }
  assert (INR n * u64 <= (Q50 + 10) * u64) by (apply Rmult_le_compat_r; lra). lra.
Qed.
Lemma range_up r : / Q900 <= r <= Q50 * Q900 -> LO <= Rabs r <= HI.
Proof.
  intros (A & B). pose proof q900_pos as P. assert (0 < / Q900) by (apply Rinv_0_lt_compat; lra). rewrite Rabs_pos_eq by lra.
  pose proof q50_ge. pose proof hi_ge. pose proof lo_le as L. split; [|lra]. apply Rle_trans with (1 := L). apply Rle_trans with (2 := A).
  apply Rinv_le_contravar; [lra|]. rewrite <- (Rmult_1_l Q900) at 1. apply Rmult_le_compat_r; lra.
Qed.
Lemma range_dn r : / (Q50 * Q900) <= r <= Q900 -> LO <= Rabs r <= HI.
Proof.
  intros (A & B). pose proof q900_pos as P. pose proof q50_ge. assert (0 < / (Q50 * Q900)) by (apply Rinv_0_lt_compat, Rmult_lt_0_compat; lra). rewrite Rabs_pos_eq by lra.
  pose proof hi_ge. pose proof lo_le as L. split; [lra|]. apply Rle_trans with (1 := B). apply Rle_trans with (2 := hi_ge).
  rewrite <- (Rmult_1_l Q900) at 1. apply Rmult_le_compat_r; lra.
Qed.

(** A count divided by a total weight. *)
Lemma density64 n c N (w : b64) (W : R) : rel n w (INR N * W) -> (c <= N)%nat -> (1 <= N)%nat -> INR N <= Q50 -> / Q900 <= W <= Q900 -> INR n <= Q50 + 9 ->
  close (INR n + 1) (Bdiv mode_NE (b64_of_Z (Z.of_nat c)) w) (INR c / (INR N * W)).
Proof.
  intros H Hc HN HQ (W1 & W2) Hn. pose proof q900_pos as QP. pose proof q50_ge as QG. assert (WP : 0 < W) by (apply Rlt_le_trans with (2 := W1); apply Rinv_0_lt_compat; lra).
  assert (N1 : 1 <= INR N) by (apply (le_INR 1); lia). assert (C1 : INR c <= INR N) by now apply le_INR.
  assert (NW : 0 < INR N * W) by (apply Rmult_lt_0_compat; lra).
  assert (K53 : Q50 <= 2 ^ 53) by (unfold Q50; apply Rle_pow; [lra|lia]).
  destruct (count64 c ltac:(lra)) as (Fc & Ec).
  destruct c as [|c].
  - destruct H as (Fw & t & Et & T1 & T2). pose proof (vn_pos n). assert (Z : B2 w <> 0) by (rewrite Et; apply Rmult_integral_contrapositive; lra).
    destruct (div_val _ w Fc Fw Z) as (Nn & V). simpl (INR 0) in *. rewrite Ec in V. replace (0 / B2 w) with 0 in V by (field; auto).
    assert (R0 : rnd64 0 = 0) by (apply round_0; auto with typeclass_instances).
    assert (F : fin (Bdiv mode_NE (b64_of_Z (Z.of_nat 0)) w) = true) by (apply (rnd64_lt_fin _ _ Nn V); rewrite R0, Rabs_R0; apply bpow_gt_0).
    split; auto. rewrite (fin_div_eq _ _ Fc Fw Z F), Ec. replace (0 / B2 w) with 0 by (field; auto). rewrite R0.
    replace (0 / (INR N * W)) with 0 by (field; lra). rewrite Rminus_0_r, Rabs_R0. lra.
  - assert (c1 : 1 <= INR (S c)) by (apply (le_INR 1); lia).
    assert (Rg : LO <= Rabs (INR (S c) / (INR N * W)) <= HI).
    { apply range_dn. split.
      - apply Rle_trans with (1 * / (INR N * W)); [rewrite Rmult_1_l; apply Rinv_le_contravar; [lra|apply Rmult_le_compat; lra]|].
        apply Rmult_le_compat_r; [apply Rlt_le, Rinv_0_lt_compat; lra|lra].
      - apply Rle_trans with (INR N / (INR N * W)); [apply Rmult_le_compat_r; [apply Rlt_le, Rinv_0_lt_compat; lra|lra]|].
        replace (INR N / (INR N * W)) with (/ W) by (field; lra). rewrite <- (Rinv_inv Q900). apply Rinv_le_contravar; [apply Rinv_0_lt_compat; lra|lra]. }
    pose proof (rel_exact _ Fc) as R0. rewrite Ec in R0.
    pose proof (rel_div 0 n _ w _ _ R0 H ltac:(lra) Rg ltac:(apply small_rel; simpl; lra)) as R1.
    assert (E : INR (0 + n + 1) = INR n + 1) by (rewrite !plus_INR; simpl; ring).
    pose proof (rel_bound _ _ _ R1 ltac:(apply small_rel; rewrite E; lra)) as R2. rewrite E in R2. exact R2.
Qed.

Lemma density_accuracy lm (mn mx size lsize : b64) (a0 a r : tana (F64 lm)) (xs : list b64) :
  ta_fresh (S := F64 lm) mn mx size lsize = Ok a0 -> ta_adds a0 xs = Ok a -> ta_draw a = Ok r ->
  xs <> [] -> INR (length xs) <= 2 ^ 50 ->
  length (ta_hist r) = length (ta_count r) /\
  (fin size = true -> / 2 ^ 900 <= B2 size <= 2 ^ 900 ->
   forall i h c, nth_error (ta_hist r) i = Some h -> nth_error (ta_count r) i = Some c -> close 2 h (INR c / (INR (length xs) * B2 size))).
Proof.
  intros H0 Ha Hd Nx NL. destruct (drawn (S := F64 lm) _ _ _ _ _ _ _ _ H0 Ha Hd) as (L1 & _ & D & _). split; [exact L1|].
  intros Fs Rs i h c Hh Hc. destruct (D i h c Hh Hc) as (Lc & ->). fold Q900 in Rs. fold Q50 in NL.
  assert (HN : (1 <= length xs)%nat) by (destruct xs; [congruence|cbn [length]; lia]).
  assert (N1 : 1 <= INR (length xs)) by (apply (le_INR 1); lia).
  pose proof q900_pos. pose proof q50_ge. assert (P0 : 0 < / Q900) by (apply Rinv_0_lt_compat; lra).
  assert (K53 : Q50 <= 2 ^ 53) by (unfold Q50; apply Rle_pow; [lra|lia]).
  destruct (count64 (length xs) ltac:(lra)) as (FN & EN). pose proof (rel_exact _ FN) as RN. rewrite EN in RN.
  assert (Rw : rel 1 (Bmult mode_NE (b64_of_Z (Z.of_nat (length xs))) size) (INR (length xs) * B2 size)).
  { apply (rel_mul 0 0); [exact RN|now apply rel_exact| |apply small_rel; simpl; lra].
    apply range_up. split; [|apply Rmult_le_compat; lra]. apply Rle_trans with (1 * B2 size); [lra|apply Rmult_le_compat_r; lra]. }
  pose proof (density64 1 c (length xs) _ (B2 size) Rw Lc HN NL Rs ltac:(simpl; lra)) as Q. replace (INR 1 + 1) with 2 in Q by (simpl; ring). exact Q.
Qed.

Lemma rel_times lm (g : b64) : fin g = true -> forall k n (w : b64) a, rel n w a -> (forall j, (1 <= j <= k)%nat -> LO <= Rabs (a * B2 g ^ j) <= HI) ->
  INR (n + k) <= Q50 + 10 -> rel (n + k) (times_by (S := F64 lm) w g k) (a * B2 g ^ k).
Proof.
  intros Fg. induction k as [|k IH]; intros n w a Hw Hr Hn.
  - cbn [times_by pow]. rewrite Rmult_1_r. replace (n + 0)%nat with n by lia. exact Hw.
  - cbn [times_by pow]. replace (a * (B2 g * B2 g ^ k)) with (a * B2 g * B2 g ^ k) by ring. replace (n + S k)%nat with (n + 0 + 1 + k)%nat by lia.
    refine (IH (n + 0 + 1)%nat (Bmult mode_NE w g) (a * B2 g) _ _ _).
    + apply rel_mul; [exact Hw|now apply rel_exact| |].
      * specialize (Hr 1%nat ltac:(lia)). rewrite pow_1 in Hr. exact Hr.
      * apply small_rel. apply Rle_trans with (2 := Hn). apply le_INR. lia.
    + intros j Hj. specialize (Hr (S j) ltac:(lia)). cbn [pow] in Hr. rewrite Rmult_assoc. exact Hr.
    + replace (n + 0 + 1 + k)%nat with (n + S k)%nat by lia. exact Hn.
Qed.

Lemma ldensity_accuracy lm (mn mx size lsize : b64) (a0 a r : tana (F64 lm)) (xs : list b64) :
  ta_fresh (S := F64 lm) mn mx size lsize = Ok a0 -> ta_adds a0 xs = Ok a -> ta_draw a = Ok r ->
  xs <> [] -> INR (length xs) <= 2 ^ 50 -> let m := B2 (b_min (ta_bins a0)) in let l := B2 lsize in
  length (ta_lhist r) = length (ta_lcount r) /\
  forall i h c, nth_error (ta_lhist r) i = Some h -> nth_error (ta_lcount r) i = Some c ->
   fin (b_min (ta_bins a0)) = true -> fin lsize = true -> INR i <= 2 ^ 50 -> / 2 ^ 900 <= m <= 2 ^ 900 -> 1 < l <= 2 ^ 900 ->
   / 2 ^ 900 <= ledge m l 1 - ledge m l 0 -> ledge m l (S i) - ledge m l i <= 2 ^ 900 ->
   close (INR i + 4) h (INR c / (INR (length xs) * (ledge m l (S i) - ledge m l i))).
Proof.
  intros H0 Ha Hd Nx NL. destruct (drawn (S := F64 lm) _ _ _ _ _ _ _ _ H0 Ha Hd) as (_ & L2 & _ & D). 
  assert (Em : b_min (ta_bins a0) = clip_min (S := F64 lm) mn).
  { destruct (ta_fresh_inv _ _ _ _ _ H0) as (b & Hb & Eb & _). rewrite Eb. unfold from_bin_size in Hb. destruct (_ || _)%bool; [discriminate|].
    assert (Q : forall x y : bins (F64 lm), Ok x = Ok y -> x = y) by congruence. apply Q in Hb. subst b. reflexivity. }
  rewrite <- Em in D. set (mb := b_min (ta_bins a0) : b64) in *. cbv zeta. split; [exact L2|].
  intros i h c Hh Hc Fm Fl Hi Rm Rl Rlo Rhi. destruct (D i h c Hh Hc) as (Lc & ->). clear D Hh Hc Hd Ha H0 Em. fold Q900 in *. fold Q50 in *.
  set (m := B2 mb) in *. set (l := B2 lsize) in *.
  assert (HN : (1 <= length xs)%nat) by (destruct xs; [congruence|cbn [length]; lia]).
  assert (N1 : 1 <= INR (length xs)) by (apply (le_INR 1); lia).
  pose proof q900_pos as QP. pose proof q50_ge as QG. pose proof q900_ge as Q9G. assert (P0 : 0 < / Q900) by (apply Rinv_0_lt_compat; lra).
  assert (K53 : Q50 <= 2 ^ 53) by (unfold Q50; apply Rle_pow; [lra|lia]).
  destruct (count64 (length xs) ltac:(lra)) as (FN & EN). pose proof (rel_exact _ FN) as RN. rewrite EN in RN. set (N := INR (length xs)) in *.
  assert (W0 : ledge m l 1 - ledge m l 0 = m * (l - 1)) by (unfold ledge; simpl; ring). rewrite W0 in Rlo.
  assert (Wi : forall j, ledge m l (S j) - ledge m l j = m * (l - 1) * l ^ j) by (intros; unfold ledge; simpl; ring). rewrite Wi in *.
  assert (Pj : forall j, (j <= i)%nat -> m * (l - 1) <= m * (l - 1) * l ^ j <= Q900).
  { intros j Hj. assert (G1 : 1 <= l ^ j) by (apply pow_R1_Rle; lra). assert (G2 : l ^ j <= l ^ i) by (apply Rle_pow; [lra|lia]). split.
    - rewrite <- (Rmult_1_r (m * (l - 1))) at 1. apply Rmult_le_compat_l; lra.
    - apply Rle_trans with (2 := Rhi). apply Rmult_le_compat_l; lra. }
  assert (NP : forall x, / Q900 <= x <= Q900 -> LO <= Rabs (N * x) <= HI).
  { intros x (X1 & X2). apply range_up. split; [|apply Rmult_le_compat; lra]. apply Rle_trans with (1 * x); [lra|apply Rmult_le_compat_r; lra]. }
  destruct (of_Z_exact 1 ltac:(lia)) as (F1 & E1).
  assert (Rs : rel 1 (Bminus mode_NE lsize (b64_of_Z 1)) (l - 1)).
  { pose proof (rel_minus lsize (b64_of_Z 1) Fl F1) as X. rewrite E1 in X. fold l in X. apply X; [lra|]. rewrite Rabs_pos_eq by lra. pose proof hi_ge.
    assert (Q900 <= Q50 * Q900) by (rewrite <- (Rmult_1_l Q900) at 1; apply Rmult_le_compat_r; lra). lra. }
  assert (Rmn : rel 1 (Bmult mode_NE mb (b64_of_Z (Z.of_nat (length xs)))) (m * N)).
  { apply (rel_mul 0 0); [now apply rel_exact|exact RN| |apply small_rel; simpl; lra]. rewrite Rmult_comm. apply NP. lra. }
  assert (Rw : rel 3 (Bmult mode_NE (Bmult mode_NE mb (b64_of_Z (Z.of_nat (length xs)))) (Bminus mode_NE lsize (b64_of_Z 1))) (N * (m * (l - 1)))).
  { replace (N * (m * (l - 1))) with (m * N * (l - 1)) by ring. apply (rel_mul 1 1); [exact Rmn|exact Rs| |apply small_rel; simpl; lra].
    replace (m * N * (l - 1)) with (N * (m * (l - 1))) by ring. apply NP. pose proof (Pj 0%nat ltac:(lia)) as X. rewrite pow_O in X. lra. }
  assert (I3 : INR (3 + i) = INR i + 3) by (rewrite plus_INR; simpl; ring).
  pose proof (rel_times lm lsize Fl i 3 _ _ Rw) as Rt. fold l in Rt.
  assert (Rt' : rel (3 + i) (times_by (S := F64 lm) (Bmult mode_NE (Bmult mode_NE mb (b64_of_Z (Z.of_nat (length xs)))) (Bminus mode_NE lsize (b64_of_Z 1))) lsize i) (N * (m * (l - 1) * l ^ i))).
  { replace (N * (m * (l - 1) * l ^ i)) with (N * (m * (l - 1)) * l ^ i) by ring. apply Rt; [|rewrite I3; lra].
    intros j Hj. replace (N * (m * (l - 1)) * l ^ j) with (N * (m * (l - 1) * l ^ j)) by ring. apply NP. pose proof (Pj j ltac:(lia)). lra. }
  pose proof (density64 (3 + i) c (length xs) _ _ Rt' Lc HN NL ltac:(pose proof (Pj i ltac:(lia)); lra) ltac:(rewrite I3; lra)) as Q.
  rewrite I3 in Q. replace (INR i + 3 + 1) with (INR i + 4) in Q by ring. exact Q.
Qed.
