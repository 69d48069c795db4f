(** Bins asked for by their number (C55); seeds from extreme parameters (C56). *)
From Coq Require Import Reals NArith ZArith List Bool String Lra Lia.
From Flocq Require Import Core.
From Flocq.IEEE754 Require Import BinarySingleNaN.
From Verif Require Import Base Scalar Float64 Proof_Time4 Proof_Analysis8 Model_Analysis Spec_Analysis Proof_Analysis6 Model_Args Model_Text Model_Run Model_Program Model_Program2 Model_Program3 Proof_Program5.
Local Open Scope R_scope.

(** * C55: asking for n bins is asking for bins of an n-th of the range *)
Lemma sizes_R (mn mx : R) (n : nat) : 0 <= mn -> low_end mn < mx -> (10 <= Z.of_nat n <= 2 ^ 59)%Z ->
  bin_sizes (S := RR) (ByNumber (mn : RR) (mx : RR) n) = bin_sizes (S := RR) (BySize (mn : RR) (mx : RR) ((mx - low_end mn) / INR n : RR) (Rpower (mx / low_end mn) (1 / INR n) : RR)).
Proof. intros H0 H1 H2. unfold bin_sizes. rewrite (convert_R mn mx (Z.of_nat n)) by assumption. rewrite INR_IZR_INZ. reflexivity. Qed.
(** Every analysis (numbers, vectors, processes; the program of the tests) with "number of bins" n gives the result with linear bins of width
    (max - min) / n and logarithmic bins of ratio (max / min)^(1 / n), min raised to 1e-15. *)
Theorem C55_bins_by_number : forall (mn mx : R) (n : nat), 0 <= mn -> low_end mn < mx -> (10 <= Z.of_nat n <= 2 ^ 59)%Z ->
  let by_size : bin_request RR := BySize (mn : RR) (mx : RR) ((mx - low_end mn) / INR n : RR) (Rpower (mx / low_end mn) (1 / INR n) : RR) in
  let by_number : bin_request RR := ByNumber (mn : RR) (mx : RR) n in
  (forall nt show_e sip dir texts, exp_analyze (S := RR) nt show_e sip dir by_number texts = exp_analyze nt show_e sip dir by_size texts) /\
  (forall nt show_e fuel sip dir nvar texts, vec_analyze (S := RR) nt show_e fuel sip dir nvar by_number texts = vec_analyze nt show_e fuel sip dir nvar by_size texts) /\
  (forall nt show_e fuel sip dir texts, proc_analyze (S := RR) nt show_e fuel sip dir by_number texts = proc_analyze nt show_e fuel sip dir by_size texts) /\
  (forall nt show_e sip prefix dir texts, ind_analyze (S := RR) nt show_e sip prefix dir by_number texts = ind_analyze nt show_e sip prefix dir by_size texts).
Proof.
  intros mn mx n H0 H1 H2 by_size by_number. pose proof (sizes_R mn mx n H0 H1 H2) as E. fold by_size by_number in E. clearbody by_size by_number.
  repeat split; intros; unfold exp_analyze, vec_analyze, proc_analyze, ind_analyze, exp_groups, vec_groups, proc_groups, ind_groups; rewrite E; reflexivity.
Qed.
Print Assumptions C55_bins_by_number.
(** Doubles: the same with the rounded width and ratio. *)
Lemma sizes_S {S : scalar} (mn mx : S) (n : nat) : (mn <? s0)%S = false -> (mx <? mn)%S = false -> (10 <= n)%nat ->
  bin_sizes (ByNumber mn mx n) = bin_sizes (BySize mn mx (div (sub mx (raised mn)) (of_Z (Z.of_nat n))) (fpow (div mx (raised mn)) (div s1 (of_Z (Z.of_nat n))))).
Proof. intros H0 H1 H2. unfold bin_sizes, convert_num_bin. rewrite H0, H1. replace (Z.of_nat n <? 10)%Z with false by (symmetry; apply Z.ltb_ge; lia). reflexivity. Qed.
Theorem C55_f64_bins_by_number : forall (lm : libm) (mn mx : b64) (n : nat), is_finite mn = true -> is_finite mx = true -> 0 <= B2R mn <= B2R mx -> (10 <= n)%nat ->
  let low : b64 := raised (S := F64 lm) mn in let num := b64_of_Z (Z.of_nat n) in
  let by_size : bin_request (F64 lm) := BySize (mn : F64 lm) (mx : F64 lm) (Bdiv mode_NE (Bminus mode_NE mx low) num : F64 lm) (m_pow lm (Bdiv mode_NE mx low) (Bdiv mode_NE (b64_of_Z 1) num) : F64 lm) in
  let by_number : bin_request (F64 lm) := ByNumber (mn : F64 lm) (mx : F64 lm) n in
  (forall nt show_e sip dir texts, exp_analyze (S := F64 lm) nt show_e sip dir by_number texts = exp_analyze nt show_e sip dir by_size texts) /\
  (forall nt show_e fuel sip dir nvar texts, vec_analyze (S := F64 lm) nt show_e fuel sip dir nvar by_number texts = vec_analyze nt show_e fuel sip dir nvar by_size texts) /\
  (forall nt show_e fuel sip dir texts, proc_analyze (S := F64 lm) nt show_e fuel sip dir by_number texts = proc_analyze nt show_e fuel sip dir by_size texts) /\
  (forall nt show_e sip prefix dir texts, ind_analyze (S := F64 lm) nt show_e sip prefix dir by_number texts = ind_analyze nt show_e sip prefix dir by_size texts).
Proof.
  intros lm mn mx n F0 F1 H0 H2 low num by_size by_number.
  assert (A : Scalar.ltb (s := F64 lm) mn s0 = false).
  { destruct (of_Z_exact 0 ltac:(lia)) as [Z1 Z2]. change (Bltb mn (b64_of_Z 0) = false). rewrite Bltb_correct by assumption. fold (B2 (b64_of_Z 0)). rewrite Z2. apply Rlt_bool_false. lra. }
  assert (B : Scalar.ltb (s := F64 lm) mx mn = false) by (change (Bltb mx mn = false); rewrite Bltb_correct by assumption; apply Rlt_bool_false; lra).
  assert (E : bin_sizes by_number = bin_sizes by_size) by exact (sizes_S (S := F64 lm) mn mx n A B H2). clearbody by_size by_number.
  repeat split; intros; unfold exp_analyze, vec_analyze, proc_analyze, ind_analyze, exp_groups, vec_groups, proc_groups, ind_groups; rewrite E; reflexivity.
Qed.
Print Assumptions C55_f64_bins_by_number.
Example C55_bins_by_number_met : 0 <= 1 /\ low_end 1 < 101 /\ (10 <= Z.of_nat 50 <= 2 ^ 59)%Z /\ (101 - low_end 1) / INR 50 = 2.
Proof.
  assert (E : low_end 1 = 1) by (unfold low_end; destruct (Rlt_dec _ _) as [H|H]; [exfalso|reflexivity]; revert H; apply Rle_not_lt; apply Rmult_le_reg_r with (10 ^ 15); [apply pow_lt; lra|]; unfold Rdiv; rewrite Rmult_assoc, Rinv_l by (apply pow_nonzero; lra); pose proof (pow_R1_Rle 10 15 ltac:(lra)); lra).
  rewrite E. simpl INR. repeat split; try lra; lia.
Qed.
(** Fewer than ten bins, or a negative or empty range: the analysis stops with InvalidArgumentInput before a file is read. *)
Theorem C55_too_few_bins_counterexample : forall (S : scalar) (mn mx : S) (n : nat), (n < 10)%nat \/ (mn <? s0)%S = true \/ (mx <? mn)%S = true ->
  (forall nt show_e sip dir texts, exp_analyze (S := S) nt show_e sip dir (ByNumber mn mx n) texts = Err InvalidArgumentInput) /\
  (forall nt show_e fuel sip dir nvar texts, vec_analyze (S := S) nt show_e fuel sip dir nvar (ByNumber mn mx n) texts = Err InvalidArgumentInput) /\
  (forall nt show_e fuel sip dir texts, proc_analyze (S := S) nt show_e fuel sip dir (ByNumber mn mx n) texts = Err InvalidArgumentInput) /\
  (forall nt show_e sip prefix dir texts, ind_analyze (S := S) nt show_e sip prefix dir (ByNumber mn mx n) texts = Err InvalidArgumentInput).
Proof.
  intros S mn mx n H. assert (E : bin_sizes (ByNumber mn mx n) = Err InvalidArgumentInput).
  { unfold bin_sizes, convert_num_bin. assert (Q : ((mn <? s0)%S || (mx <? mn)%S || (Z.of_nat n <? 10)%Z)%bool = true); [|rewrite Q; reflexivity].
    destruct H as [H|[H|H]]; [replace (Z.of_nat n <? 10)%Z with true by (symmetry; apply Z.ltb_lt; lia); apply orb_true_r|rewrite H; reflexivity|rewrite H, orb_true_r; reflexivity]. }
  repeat split; intros; unfold exp_analyze, vec_analyze, proc_analyze, ind_analyze, exp_groups, vec_groups, proc_groups, ind_groups; rewrite E; reflexivity.
Qed.
Print Assumptions C55_too_few_bins_counterexample.

(** * C56: the seed for any value of the hash *)
(** Not-a-number and negative values add nothing; values below 2^128 add their whole part, as long as the sum fits; larger ones and infinity count as 2^128 - 1, so every seed but 0 panics. *)
Theorem C56_f64_seed_of_any_hash : forall (lm : libm) (seed : N) (h : b64), (seed < 2 ^ 128)%N ->
  let run := run_seed (S := F64 lm) b64_as_u128 seed (h : F64 lm) in
  (is_nan h = true \/ Bsign h = true -> run = Ok seed) /\
  (is_finite h = true -> 0 <= B2R h < IZR (2 ^ 128) ->
     ((Z.of_N seed + Zfloor (B2R h) < 2 ^ 128)%Z -> run = Ok (seed + Z.to_N (Zfloor (B2R h)))%N) /\ ((2 ^ 128 <= Z.of_N seed + Zfloor (B2R h))%Z -> run = Panic)) /\
  (h = B754_infinity false \/ (is_finite h = true /\ IZR (2 ^ 128) <= B2R h) -> run = if (seed =? 0)%N then Ok (2 ^ 128 - 1)%N else Panic).
Proof.
  intros lm seed h Hs run.
  assert (R : run = if (seed + b64_as_u128 h <=? u128_maxN)%N then Ok (seed + b64_as_u128 h)%N else Panic) by reflexivity. clearbody run. subst run.
  assert (M : u128_maxN = (2 ^ 128 - 1)%N) by reflexivity.
  assert (F : is_finite h = true -> b64_as_u128 h = Z.to_N (Z.max 0 (Z.min (Ztrunc (B2R h)) (2 ^ 128 - 1)))).
  { intros F. rewrite <- (trunc_val h). destruct h as [|[|]| |]; try discriminate F; reflexivity. }
  split; [|split].
  - intros H. assert (E : b64_as_u128 h = 0%N).
    { destruct (is_finite h) eqn:Fh; [|destruct h as [|[|]| |]; try discriminate Fh; try reflexivity; destruct H; discriminate].
      rewrite (F eq_refl). destruct H as [H|H]; [destruct h; discriminate|].
      assert (B2R h <= 0). { destruct h as [ |[|]| |[|] m e Hb]; try discriminate; cbn; try lra. apply Rlt_le. apply F2R_lt_0. reflexivity. }
      rewrite Ztrunc_ceil by assumption. assert (Zceil (B2R h) <= 0)%Z by (apply Zceil_glb; assumption). replace (Z.max 0 _) with 0%Z by lia. reflexivity. }
    rewrite E, N.add_0_r. replace (seed <=? u128_maxN)%N with true; [reflexivity|]. symmetry. apply N.leb_le. rewrite M. lia.
  - intros Fh H. assert (Fl : (0 <= Zfloor (B2R h) < 2 ^ 128)%Z).
    { split; [apply Zfloor_lub; simpl; lra|]. apply lt_IZR. pose proof (Zfloor_lb (B2R h)). lra. }
    rewrite (F Fh), (Ztrunc_floor (B2R h)) by lra. replace (Z.max 0 _) with (Zfloor (B2R h)) by lia. split; intros Q.
    + replace (_ <=? u128_maxN)%N with true; [reflexivity|]. symmetry. apply N.leb_le. rewrite M. lia.
    + replace (_ <=? u128_maxN)%N with false; [reflexivity|]. symmetry. apply N.leb_gt. rewrite M. lia.
  - intros H. assert (E : b64_as_u128 h = u128_maxN).
    { destruct H as [->|[Fh H]]; [reflexivity|]. rewrite (F Fh), Ztrunc_floor by (apply Rle_trans with (2 := H); apply (IZR_le 0); lia).
      assert (2 ^ 128 <= Zfloor (B2R h))%Z by (apply Zfloor_lub; exact H). replace (Z.max 0 _) with (2 ^ 128 - 1)%Z by lia. reflexivity. }
    rewrite E, M. destruct (N.eqb_spec seed 0) as [->|N]; [reflexivity|]. replace (_ <=? _)%N with false; [reflexivity|]. symmetry. apply N.leb_gt. lia.
Qed.
Print Assumptions C56_f64_seed_of_any_hash.
