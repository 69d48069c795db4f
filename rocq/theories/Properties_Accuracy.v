(** Property C59: how far the numbers computed in double precision are from the exact ones.
    Statements use the vocabulary of [Spec_Accuracy] - [moderate], [near_average], [near_deviation], [close] - in which [u64] = 2^-53 is
    the relative error of one operation. *)
From Coq Require Import Reals ZArith List Lra Lia.
From Flocq Require Import Core.
From Flocq.IEEE754 Require Import BinarySingleNaN.
From Verif Require Import Base Scalar Float64 Model_Position Spec_Position Model_Analysis Spec_Analysis Proof_Analysis Proof_Analysis9 Spec_Accuracy
  Model_Time Spec_Time Model_Search Spec_Search Proof_Accuracy Proof_Accuracy2 Proof_Accuracy3 Proof_Accuracy4 Properties_Analysis.
Import ListNotations.
Open Scope R_scope.

(** The mean and the deviation drawn from any samples [xs] of moderate size and number. *)
Theorem C59_mean_and_deviation : forall lm (mn mx size lsize : b64) (a0 a r : tana (F64 lm)) (xs : list b64),
  ta_fresh (S := F64 lm) mn mx size lsize = Ok a0 -> ta_adds a0 xs = Ok a -> ta_draw a = Ok r -> moderate xs ->
  near_average (ta_mean r) xs /\ near_deviation (ta_sq r) xs.
Proof. exact time_accuracy. Qed.
Print Assumptions C59_mean_and_deviation.
(** The same for every column of the multi-column analysis. *)
Theorem C59_vector_columns : forall lm (mn mx size lsize : b64) n (a0 a r : tvec (F64 lm)) (rows : list (list b64)),
  n <> 0%nat -> tv_fresh (S := F64 lm) mn mx size lsize n = Ok a0 -> tv_adds a0 rows = Ok a -> tv_draw a = Ok r ->
  (forall row, In row rows -> length row = n) /\
  forall k, (k < n)%nat -> let xs := map (fun row => nth k row (b64_of_Z 0)) rows in moderate xs ->
  exists m d, nth_error (tv_means r) k = Some m /\ nth_error (tv_sqs r) k = Some d /\ near_average m xs /\ near_deviation d xs.
Proof. exact column_accuracy. Qed.
Print Assumptions C59_vector_columns.
(** The same for the process analysis: over all values, and over the values whose time falls into one linear or logarithmic bin. *)
Theorem C59_process : forall lm (mn mx size lsize : b64) (a0 a r : pana (F64 lm)) (ls : list (list (b64 * b64))),
  pa_fresh (S := F64 lm) mn mx size lsize = Ok a0 -> add_lines (pa_line (S := F64 lm)) a0 ls = Ok a -> pa_draw a = Ok r ->
  (moderate (map snd (concat ls)) -> near_average (pa_mean r) (map snd (concat ls)) /\ near_deviation (pa_sq r) (map snd (concat ls))) /\
  (forall i, (i < length (pa_count a))%nat -> let xs := values_at (S := F64 lm) (bin_pos (pa_bins a0)) i (concat ls) in moderate xs ->
     near_average (nth i (pa_bmean r) (b64_of_Z 0)) xs /\ near_deviation (nth i (pa_bsq r) (b64_of_Z 0)) xs) /\
  (forall i, (i < length (pa_lcount a))%nat -> let xs := values_at (S := F64 lm) (lbin_pos (pa_bins a0)) i (concat ls) in moderate xs ->
     near_average (nth i (pa_lmean r) (b64_of_Z 0)) xs /\ near_deviation (nth i (pa_lsq r) (b64_of_Z 0)) xs).
Proof. exact process_accuracy. Qed.
Print Assumptions C59_process.
(** Every linear density is count / (samples * bin width) up to two roundings. *)
Theorem C59_density : forall lm (mn mx size lsize : b64) (a0 a r : tana (F64 lm)) (xs : list b64),
  ta_fresh (S := F64 lm) mn mx size lsize = Ok a0 -> ta_adds a0 xs = Ok a -> ta_draw a = Ok r ->
  xs <> [] -> INR (length xs) <= 2 ^ 50 ->
  length (ta_hist r) = length (ta_count r) /\
  (is_finite size = true -> / 2 ^ 900 <= B2R size <= 2 ^ 900 ->
   forall i h c, nth_error (ta_hist r) i = Some h -> nth_error (ta_count r) i = Some c -> close 2 h (INR c / (INR (length xs) * B2R size))).
Proof. exact density_accuracy. Qed.
Print Assumptions C59_density.
(** Every logarithmic density of bin [i] is count / (samples * (upper edge - lower edge)) up to i + 4 roundings: the width is multiplied up from bin to bin. *)
Theorem C59_log_density : forall lm (mn mx size lsize : b64) (a0 a r : tana (F64 lm)) (xs : list b64),
  ta_fresh (S := F64 lm) mn mx size lsize = Ok a0 -> ta_adds a0 xs = Ok a -> ta_draw a = Ok r ->
  xs <> [] -> INR (length xs) <= 2 ^ 50 -> let m := B2R (b_min (ta_bins a0)) in let l := B2R lsize in
  length (ta_lhist r) = length (ta_lcount r) /\
  forall i h c, nth_error (ta_lhist r) i = Some h -> nth_error (ta_lcount r) i = Some c ->
   is_finite (b_min (ta_bins a0)) = true -> is_finite lsize = true -> INR i <= 2 ^ 50 -> / 2 ^ 900 <= m <= 2 ^ 900 -> 1 < l <= 2 ^ 900 ->
   / 2 ^ 900 <= ledge m l 1 - ledge m l 0 -> ledge m l (S i) - ledge m l i <= 2 ^ 900 ->
   close (INR i + 4) h (INR c / (INR (length xs) * (ledge m l (S i) - ledge m l i))).
Proof. exact ldensity_accuracy. Qed.
Print Assumptions C59_log_density.
(** The k-th time of the constant clock is k * dt up to k roundings, however many ticks the clock yields. *)
Theorem C59_clock_times : forall lm n (s s' : conststep (F64 lm)) (vs : list b64),
  cs_current s = b64_of_Z 0 -> is_finite (cs_dt s : b64) = true -> 0 <= B2R (cs_dt s : b64) -> is_finite (cs_tmax s : b64) = true ->
  collect cs_next n s = Ok (vs, s') -> forall k v, nth_error vs k = Some v -> INR k <= 2 ^ 52 -> close (INR k) v (INR k * B2R (cs_dt s : b64)).
Proof.
  intros lm n s s' vs C Fd Pd Ft H k v Hv Hk. destruct (clock_times lm n s s' vs C Fd Pd Ft H k v Hv Hk) as (F & E). split; [exact F|].
  rewrite (Rabs_pos_eq (INR k * B2R (cs_dt s : b64))); [exact E|]. apply Rmult_le_pos; [apply pos_INR|exact Pd].
Qed.
Print Assumptions C59_clock_times.
(** The clock that ends after [n] ticks has n - 1 <= tmax / dt < n up to that error: it never loses or adds a tick for any other reason. *)
Theorem C59_tick_count : forall lm (s : conststep (F64 lm)) (vs : list b64),
  cs_current s = b64_of_Z 0 -> is_finite (cs_dt s : b64) = true -> 0 <= B2R (cs_dt s : b64) -> is_finite (cs_tmax s : b64) = true ->
  0 <= B2R (cs_tmax s : b64) -> yields_all cs_next s vs -> INR (length vs) <= 2 ^ 52 -> let n := INR (length vs) in
  (n - 1) * B2R (cs_dt s : b64) * (1 - 2 * n * u64) <= B2R (cs_tmax s : b64) < n * B2R (cs_dt s : b64) * (1 + 2 * n * u64).
Proof. exact tick_count. Qed.
Print Assumptions C59_tick_count.
(** The mean printed by the documented search example is near the average of the sampled times. *)
Theorem C59_ensemble_mean : forall lm (G : rng (F64 lm)) (sample : rstate G -> rstate G * outcome (F64 lm)) num g g' (m : b64),
  ensemble_mean (S := F64 lm) sample num g = (g', Ok m) ->
  exists ts : list b64, sampled (X := F64 lm) sample g ts g' /\ length ts = num /\ (moderate ts -> near_average m ts).
Proof. exact ensemble_accuracy. Qed.
Print Assumptions C59_ensemble_mean.
(** Limit of C59: the deviation of three samples 1/10 is NaN, although the true one is zero - within the bound of [near_deviation], which allows this. *)
Theorem C59_deviation_nan_counterexample : forall lm (mn mx size lsize : b64) (a0 a r : tana (F64 lm)), let x : F64 lm := lit 1 10 in
  ta_fresh (S := F64 lm) mn mx size lsize = Ok a0 -> ta_adds a0 [x; x; x] = Ok a -> ta_draw a = Ok r -> is_nan (ta_sq r : b64) = true.
Proof. exact equal_samples_nan. Qed.
Print Assumptions C59_deviation_nan_counterexample.

(** * The hypotheses are met *)
Example demo_moderate : moderate [b64_of_Z 1; b64_of_Z 2; b64_of_Z 4].
Proof.
  split; [discriminate|]. split. { replace (INR (length [b64_of_Z 1; b64_of_Z 2; b64_of_Z 4])) with 3 by (simpl; lra). apply Rle_trans with (2 ^ 2); [simpl; lra|]. apply Rle_pow; [lra|lia]. }
  assert (B : forall z, (0 <= z <= 4)%Z -> is_finite (b64_of_Z z) = true /\ Rabs (B2R (b64_of_Z z)) <= 2 ^ 480).
  { intros z Hz. destruct (of_Z_exact z) as (F & E); [lia|]. split; [exact F|]. rewrite E. rewrite Rabs_pos_eq by (apply IZR_le; lia).
    apply Rle_trans with 4; [apply IZR_le; lia|]. apply Rle_trans with (2 ^ 2); [simpl; lra|]. apply Rle_pow; [lra|lia]. }
  apply Forall_cons; [apply B; lia|]. apply Forall_cons; [apply B; lia|]. apply Forall_cons; [apply B; lia|]. apply Forall_nil.
Qed.
(** Range [1, 4], bins of 1, factor 2: the samples 1, 2, 4 are added and drawn. *)
Lemma run_some {S : scalar} (mn mx size lsize : S) xs (f : S -> bool) p q s :
  match ta_fresh mn mx size lsize with
  | Ok x => match ta_adds x xs with Ok y => match ta_draw y with Ok z => Some (f (b_min (ta_bins x)), ta_count z, ta_lcount z) | _ => None end | _ => None end
  | _ => None end = Some (p, q, s) ->
  exists a0 a r, ta_fresh mn mx size lsize = Ok a0 /\ ta_adds a0 xs = Ok a /\ ta_draw a = Ok r /\ f (b_min (ta_bins a0)) = p /\ ta_count r = q /\ ta_lcount r = s.
Proof.
  destruct (ta_fresh mn mx size lsize) as [a0| | |] eqn:E0; try discriminate. destruct (ta_adds a0 xs) as [a| | |] eqn:Ea; try discriminate.
  destruct (ta_draw a) as [r| | |] eqn:Er; try discriminate. intros H. exists a0, a, r. repeat split; auto; congruence.
Qed.
Example demo_run : exists a0 a r, ta_fresh (S := F64 toy) (b64_of_Z 1) (b64_of_Z 4) (b64_of_Z 1) (b64_of_Z 2) = Ok a0 /\
  ta_adds a0 [b64_of_Z 1; b64_of_Z 2; b64_of_Z 4] = Ok a /\ ta_draw a = Ok r /\ is_finite (b_min (ta_bins a0) : b64) = true /\ ta_count r = [1; 1; 0; 1]%nat /\ ta_lcount r = [1; 1; 1]%nat.
Proof. apply (run_some (S := F64 toy) (b64_of_Z 1) (b64_of_Z 4) (b64_of_Z 1) (b64_of_Z 2) [b64_of_Z 1; b64_of_Z 2; b64_of_Z 4] (fun x : b64 => is_finite x)). vm_compute. reflexivity. Qed.
(** dt = 1/2, tmax = 2: five ticks. *)
Lemma half_val : B2R (Bdiv mode_NE (b64_of_Z 1) (b64_of_Z 2)) = 1 / 2.
Proof.
  assert (E : B2SF (Bdiv mode_NE (b64_of_Z 1) (b64_of_Z 2)) = SpecFloat.S754_finite false 4503599627370496 (-53)) by (vm_compute; reflexivity).
  rewrite <- SF2R_B2SF, E. unfold SF2R, F2R. cbn [Fnum Fexp cond_Zopp]. replace (bpow radix2 (-53)) with (/ IZR (2 ^ 53)) by reflexivity.
  change (2 ^ 53)%Z with 9007199254740992%Z. lra.
Qed.
Lemma ticks_some {S : scalar} (s : conststep S) n :
  match collect cs_next n s with Ok (vs, s1) => match cs_next s1 with Ok (_, None) => Some (length vs) | _ => None end | _ => None end = Some n ->
  exists vs, yields_all cs_next s vs /\ length vs = n.
Proof.
  destruct (collect cs_next n s) as [(vs, s1)| | |] eqn:E; try discriminate. destruct (cs_next s1) as [(s2, [v|])| | |] eqn:E2; try discriminate. intros V.
  assert (L : length vs = n) by congruence. exists vs. split; [|exact L]. exists s1, s2. rewrite L. split; [exact E|exact E2].
Qed.
Example demo_ticks : forall lm, let s := ConstStep (S := F64 lm) (Model_Time.Constant (lit 1 2 : F64 lm)) (b64_of_Z 0) (lit 1 2 : F64 lm) (b64_of_Z 2) in
  is_finite (cs_dt s : b64) = true /\ 0 <= B2R (cs_dt s : b64) /\ is_finite (cs_tmax s : b64) = true /\ 0 <= B2R (cs_tmax s : b64) /\
  exists vs, yields_all cs_next s vs /\ length vs = 5%nat.
Proof.
  intros lm s. assert (H2 : is_finite (lit (s := F64 lm) 1 2 : b64) = true /\ 0 <= B2R (lit (s := F64 lm) 1 2 : b64)).
  { split; [vm_compute; reflexivity|]. replace (lit (s := F64 lm) 1 2 : b64) with (Bdiv mode_NE (b64_of_Z 1) (b64_of_Z 2)) by (apply B2SF_inj; vm_compute; reflexivity).
    pose proof (half_val) as Hv. lra. }
  split; [apply H2|]. split; [apply H2|]. split; [vm_compute; reflexivity|]. split; [change (0 <= B2R (b64_of_Z 2)); destruct (of_Z_exact 2 ltac:(lia)) as (_ & ->); lra|].
  apply ticks_some. vm_compute. reflexivity.
Qed.
