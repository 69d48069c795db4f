(** Properties C36-C41 and the first part of C44: the analyses of src/analysis.rs.
    Statements use [Model_Analysis] (the code) and [Spec_Analysis] (counting by real intervals, averages, deviations). *)
From Coq Require Import Reals ZArith List Lra Lia Permutation.
From Flocq.IEEE754 Require Import BinarySingleNaN.
From Verif Require Import Base Scalar Float64 Model_Analysis Spec_Analysis Proof_Analysis Proof_Analysis2 Proof_Analysis3 Proof_Analysis4
  Proof_Analysis5 Proof_Analysis6 Proof_Analysis7 Proof_Analysis8 Proof_Analysis9 Proof_Analysis10 Proof_Analysis11.
Import ListNotations.
Local Open Scope R_scope.

(** * C36: bookkeeping *)
(** Any number type: whenever adding the samples succeeds, the ensemble is the number of samples and the counts of either histogram
    add up to the number of samples that are neither below the minimum (raised to 1e-15) nor above the maximum. *)
Theorem C36_counts_add_up : forall (S : scalar) (mn mx size lsize : S) a0 xs a,
  ta_fresh mn mx size lsize = Ok a0 -> ta_adds a0 xs = Ok a ->
  ta_ens a = length xs /\
  list_sum (ta_count a) = number_of (between (raised mn) mx) xs /\
  list_sum (ta_lcount a) = number_of (between (raised mn) mx) xs.
Proof. intros S mn mx size lsize a0 xs a H0 Ha. destruct (bookkeeping _ _ _ _ _ _ _ H0 Ha) as (A & B & C & _). auto. Qed.
Print Assumptions C36_counts_add_up.

(** Reals and binary64: the order of the samples does not matter to ensemble, bins, counts, nor to whether it succeeds. *)
Theorem C36_order_of_samples : forall (a : tana RR) xs ys, Permutation xs ys -> tally (ta_adds a xs) = tally (ta_adds a ys).
Proof. intros a xs ys. exact (tally_perm xs ys a rr_usize_ok). Qed.
Print Assumptions C36_order_of_samples.
Theorem C36_f64_order_of_samples : forall lm (a : tana (F64 lm)) xs ys, Permutation xs ys -> tally (ta_adds a xs) = tally (ta_adds a ys).
Proof. intros lm a xs ys. exact (tally_perm xs ys a (f64_usize_ok lm)). Qed.
Print Assumptions C36_f64_order_of_samples.
(** Exact reals: the whole state, sums included, is independent of the order. *)
Theorem C36_exact_order_of_samples : forall (a : tana RR) xs ys, Permutation xs ys -> ta_adds a xs = ta_adds a ys.
Proof. intros. now apply adds_perm_R. Qed.
Print Assumptions C36_exact_order_of_samples.

(** The process analysis: one ensemble per line, one point per pair, counts by the times of the pairs. *)
Theorem C36_process_counts : forall (S : scalar) (mn mx size lsize : S) a0 ls a,
  pa_fresh mn mx size lsize = Ok a0 -> add_lines pa_line a0 ls = Ok a ->
  pa_ens a = length ls /\ pa_points a = length (concat ls) /\
  list_sum (pa_count a) = number_of (fun tv => between (raised mn) mx (fst tv)) (concat ls) /\
  list_sum (pa_lcount a) = number_of (fun tv => between (raised mn) mx (fst tv)) (concat ls).
Proof. intros S. exact pa_bookkeeping. Qed.
Print Assumptions C36_process_counts.

(** The multi-column analysis is, column by column, the single-variable analysis, for every sequence of additions, draws and
    clears; rows of the wrong width never get through. *)
Theorem C36_columns_are_independent : forall (S : scalar) (mn mx size lsize : S) n a0 os a,
  n <> 0%nat -> tv_fresh mn mx size lsize n = Ok a0 -> vhistory a0 os = Ok a ->
  (forall xs, In (VAdd xs) os -> length xs = n) /\
  forall k, (k < n)%nat -> exists t0 t, ta_fresh mn mx size lsize = Ok t0 /\ history t0 (map (op_column k) os) = Ok t /\ column_of k a = Some t.
Proof. intros S. exact columns_refine. Qed.
Print Assumptions C36_columns_are_independent.
(** Configured with zero columns, the first row decides the number of columns. *)
Theorem C36_first_row_sets_columns : forall (S : scalar) (mn mx size lsize : S) a0 r rows,
  tv_fresh mn mx size lsize 0 = Ok a0 -> r <> [] ->
  exists a1, tv_fresh mn mx size lsize (length r) = Ok a1 /\ tv_adds a0 (r :: rows) = tv_adds a1 (r :: rows).
Proof. intros S. exact zero_columns. Qed.
Print Assumptions C36_first_row_sets_columns.

(** A NaN sample is not inside any range, yet it is counted, in bin 0. *)
Theorem C36_nan_sample_is_counted_counterexample : forall lm (mn mx size lsize x : b64) (a0 a : tana (F64 lm)),
  ta_fresh (S := F64 lm) mn mx size lsize = Ok a0 -> is_nan x = true -> ta_add a0 (x : F64 lm) = Ok a ->
  nth 0 (ta_count a) 0%nat = 1%nat /\ list_sum (ta_count a) = 1%nat.
Proof. exact nan_counted. Qed.
Print Assumptions C36_nan_sample_is_counted_counterexample.

(** Configurations exist: range [1, 100], bins of 2, factor 2; range [0, 10]. *)
Example C36_configured : exists a0 a, ta_fresh (S := RR) 1 100 2 2 = Ok a0 /\ ta_adds (S := RR) a0 [3; 500; 100] = Ok a.
Proof. destruct (fresh_ok 1 100 2 2) as [a0 E]; try lra.
  - unfold low_end. destruct (Rlt_dec 1 (1 / 10 ^ 15)); [exfalso|]; lra.
  - unfold low_end. destruct (Rlt_dec 1 (1 / 10 ^ 15)); [exfalso|]; lra.
  - replace (low_end 1) with 1 by (unfold low_end; destruct (Rlt_dec 1 (1 / 10 ^ 15)); [exfalso|]; lra).
    apply Rle_trans with (INR 7); [apply (ln_le_pow (100 / 1) 7); simpl; lra|]. simpl. lra.
  - destruct (exact_histogram _ _ _ _ _ E ltac:(lra) ltac:(lra) [3; 500; 100]) as (a & Ha & _). eauto. Qed.

(** * C37: samples fall into the bin that contains them *)
(** Exact reals, bins given by their size: every sequence of samples is accepted, and each bin counts exactly the samples within
    the range that lie in its interval. *)
Theorem C37_exact_bins : forall (mn mx b l : R) (a0 : tana RR), ta_fresh (S := RR) mn mx b l = Ok a0 -> 0 < b -> 1 < l -> forall xs : list R,
  exists a, ta_adds (S := RR) a0 xs = Ok a /\
    (forall i, nth i (ta_count a) 0%nat = hits (low_end mn) mx b xs i) /\ (forall i, nth i (ta_lcount a) 0%nat = lhits (low_end mn) mx l xs i).
Proof. intros mn mx b l a0 H0 Hb Hl xs. destruct (exact_histogram _ _ _ _ _ H0 Hb Hl xs) as (a & H & _ & _ & _ & H1 & H2). eauto. Qed.
Print Assumptions C37_exact_bins.
(** ... and every value in the range lies in an existing bin of each histogram. *)
Theorem C37_every_value_has_a_bin : forall (mn mx b l : R) (a0 : tana RR), ta_fresh (S := RR) mn mx b l = Ok a0 -> 0 < b -> 1 < l ->
  forall x, low_end mn <= x <= mx ->
  (exists i, (i < length (ta_count a0))%nat /\ edge (low_end mn) b i <= x < edge (low_end mn) b (S i)) /\
  (exists i, (i < length (ta_lcount a0))%nat /\ ledge (low_end mn) l i <= x < ledge (low_end mn) l (S i)).
Proof. intros mn mx b l a0 H0 Hb Hl x Hx. destruct (in_some_bin _ _ _ _ _ H0 Hb Hl x Hx) as [(i & I1 & I2) (j & J1 & J2)].
  destruct (ta_fresh_inv _ _ _ _ _ H0) as (B & _ & EB & E & _ & _). rewrite EB in *. rewrite E. cbn [ta_count ta_lcount]. rewrite !repeat_length. split; [exists i|exists j]; auto. Qed.
Print Assumptions C37_every_value_has_a_bin.

(** Which sizes are accepted, and that the command line's "number of bins" gives such sizes. *)
Theorem C37_accepted_sizes : forall mn mx b l : R, 0 <= mn -> low_end mn <= mx -> 0 < b -> 1 < l ->
  (mx - low_end mn) / b <= 2 ^ 59 -> ln (mx / low_end mn) / ln l <= 2 ^ 59 -> exists a0, ta_fresh (S := RR) mn mx b l = Ok a0.
Proof. exact fresh_ok. Qed.
Print Assumptions C37_accepted_sizes.
Theorem C37_number_of_bins_converted : forall (mn mx : R) (n : Z), 0 <= mn -> low_end mn < mx -> (10 <= n <= 2 ^ 59)%Z ->
  exists b l, convert_num_bin (S := RR) mn mx n = Ok (b, l) /\ b = (mx - low_end mn) / IZR n /\ l = Rpower (mx / low_end mn) (1 / IZR n) /\
  0 < b /\ 1 < l /\ exists a0, ta_fresh (S := RR) mn mx b l = Ok a0.
Proof. intros mn mx n H0 H1 H2. do 2 eexists. split; [apply convert_R; assumption|]. do 2 (split; [reflexivity|]). now apply converted. Qed.
Print Assumptions C37_number_of_bins_converted.

(** Binary64, bins given by their size: no sample of any kind (NaN, infinite, out of range) makes the analysis fail, as long as both
    numbers of bins are below 2^52 and log2 is monotone. *)
Theorem C37_f64_never_out_of_bounds : forall lm (mn mx size lsize : b64) (a0 : tana (F64 lm)),
  ta_fresh (S := F64 lm) mn mx size lsize = Ok a0 -> sane_log2 lm ->
  let m : b64 := raised (S := F64 lm) mn in
  let q := Bdiv mode_NE (Bminus mode_NE mx m) size in
  let lq := Bdiv mode_NE (m_log2 lm (Bdiv mode_NE mx m)) (m_log2 lm lsize) in
  is_finite m = true -> is_finite mx = true -> is_finite size = true -> 0 < B2R m <= B2R mx -> 0 < B2R size -> is_finite q = true -> B2R q < IZR (2 ^ 52) ->
  is_finite (Bdiv mode_NE mx m) = true -> is_finite (m_log2 lm lsize) = true -> 0 < B2R (m_log2 lm lsize) -> is_finite lq = true -> B2R lq < IZR (2 ^ 52) ->
  forall xs, exists a, ta_adds a0 xs = Ok a.
Proof. exact f64_safe. Qed.
Print Assumptions C37_f64_never_out_of_bounds.

(** Bins given by their number ([update_from_num_bin]): the maximum itself is in range but makes the analysis panic - for every
    range and every number of bins in exact arithmetic, and for [1, 11] with 10 bins in binary64. *)
Theorem C37_maximum_panics_counterexample : forall (mn mx : R) (n : Z), 0 <= mn -> low_end mn < mx -> (10 <= n <= 2 ^ 59)%Z ->
  exists a0, ta_fresh_num (S := RR) mn mx n = Ok a0 /\ ta_add a0 mx = Panic /\
    forall xs, Forall (fun x => x <> mx) xs -> exists a, ta_adds (S := RR) a0 xs = Ok a.
Proof. intros mn mx n H0 H1 H2. destruct (num_fresh mn mx n H0 H1 H2) as (a0 & E & _). exists a0. split; [exact E|].
  split; [eapply num_bin_max_panics; eauto|]. intros xs. eapply num_bin_below_max; eauto. Qed.
Print Assumptions C37_maximum_panics_counterexample.
Theorem C37_f64_maximum_panics_counterexample : forall lm, exists a0, ta_fresh_num (S := F64 lm) (b64_of_Z 1) (b64_of_Z 11) 10 = Ok a0 /\ ta_add a0 (b64_of_Z 11 : F64 lm) = Panic.
Proof. intros lm. destruct (num_bin_accepts lm) as [a0 E]. exists a0. split; [exact E|]. now apply num_bin_panic. Qed.
Print Assumptions C37_f64_maximum_panics_counterexample.
(** Binary64: a sample can land one bin too high (minimum 1, bins of the double nearest 0.1: 1.5 lies in bin 4 and is counted in bin 5). *)
Theorem C37_f64_wrong_bin_counterexample : forall lm (mx lsize : b64) num lnum,
  let b : b64 := lit (s := F64 lm) 1 10 in let x : b64 := lit (s := F64 lm) 3 2 in
  Bltb mx x = false -> bin_pos (S := F64 lm) (Bins (S := F64 lm) (b64_of_Z 1) mx b lsize num lnum) x = Some 5%Z /\ edge 1 (B2R b) 4 <= B2R x < edge 1 (B2R b) 5.
Proof. exact wrong_bin. Qed.
Print Assumptions C37_f64_wrong_bin_counterexample.
(** Degenerate sizes are accepted and then panic: bin size 0 and factor 1 when allocating, factor 1/2 at the first sample in range. *)
Theorem C37_f64_zero_bin_size_panics_counterexample : forall lm lsize, Bltb lsize (b64_of_Z 0) = false ->
  (exists b, from_bin_size (S := F64 lm) (b64_of_Z 1) (b64_of_Z 2) (b64_of_Z 0) lsize = Ok b) /\
  ta_fresh (S := F64 lm) (b64_of_Z 1) (b64_of_Z 2) (b64_of_Z 0) lsize = Panic.
Proof. exact zero_bin_panics. Qed.
Print Assumptions C37_f64_zero_bin_size_panics_counterexample.
Theorem C37_f64_factor_one_panics_counterexample : forall lm, m_log2 lm (b64_of_Z 1) = b64_of_Z 0 -> m_log2 lm (b64_of_Z 2) = b64_of_Z 1 ->
  (exists b, from_bin_size (S := F64 lm) (b64_of_Z 1) (b64_of_Z 2) (b64_of_Z 1) (b64_of_Z 1) = Ok b) /\
  ta_fresh (S := F64 lm) (b64_of_Z 1) (b64_of_Z 2) (b64_of_Z 1) (b64_of_Z 1) = Panic.
Proof. exact unit_lbin_panics. Qed.
Print Assumptions C37_f64_factor_one_panics_counterexample.
Theorem C37_f64_factor_half_panics_counterexample : forall lm, m_log2 lm (lit (s := F64 lm) 1 2) = b64_of_Z (-1) -> m_log2 lm (b64_of_Z 2) = b64_of_Z 1 ->
  exists a0, ta_fresh (S := F64 lm) (b64_of_Z 1) (b64_of_Z 2) (b64_of_Z 1) (lit 1 2) = Ok a0 /\ ta_add a0 (lit 3 2 : F64 lm) = Panic.
Proof. exact half_lbin_panics. Qed.
Print Assumptions C37_f64_factor_half_panics_counterexample.

(** A log2 as asked for exists (the binary exponent), and with it [C37_f64_never_out_of_bounds] applies to range [1, 4], bins of 1, factor 2. *)
Example C37_sane_log2 : sane_log2 toy.
Proof. exact toy_sane. Qed.
Example C37_f64_hypotheses : let lm := toy in let mn := b64_of_Z 1 in let mx := b64_of_Z 4 in let size := b64_of_Z 1 in let lsize := b64_of_Z 2 in
  (exists a0, ta_fresh (S := F64 lm) mn mx size lsize = Ok a0) /\
  let m : b64 := raised (S := F64 lm) mn in
  let q := Bdiv mode_NE (Bminus mode_NE mx m) size in let lq := Bdiv mode_NE (m_log2 lm (Bdiv mode_NE mx m)) (m_log2 lm lsize) in
  is_finite m = true /\ is_finite mx = true /\ is_finite size = true /\ 0 < B2R m <= B2R mx /\ 0 < B2R size /\ is_finite q = true /\ B2R q < IZR (2 ^ 52) /\
  is_finite (Bdiv mode_NE mx m) = true /\ is_finite (m_log2 lm lsize) = true /\ 0 < B2R (m_log2 lm lsize) /\ is_finite lq = true /\ B2R lq < IZR (2 ^ 52).
Proof. cbv zeta. split.
  - unfold ta_fresh. assert (E : exists B, from_bin_size (S := F64 toy) (b64_of_Z 1) (b64_of_Z 4) (b64_of_Z 1) (b64_of_Z 2) = Ok B /\ (b_num B = 4 /\ b_lnum B = 3)%Z).
    { unfold from_bin_size. change (@ltb (F64 toy)) with (@Bltb 53 1024). change (@s0 (F64 toy)) with (b64_of_Z 0).
      replace (Bltb (b64_of_Z 1) (b64_of_Z 0) || Bltb (b64_of_Z 4) (b64_of_Z 1) || Bltb (b64_of_Z 1) (b64_of_Z 0) || Bltb (b64_of_Z 2) (b64_of_Z 0))%bool with false by (vm_compute; reflexivity).
      eexists. split; [reflexivity|]. cbn [b_num b_lnum]. split; vm_compute; reflexivity. }
    destruct E as (B & E & E1 & E2). rewrite E. cbn [bind]. apply alloc_fresh; [rewrite E1; lia|rewrite E2; lia].
  - set (q := Bdiv mode_NE (Bminus mode_NE (b64_of_Z 4) (raised (S := F64 toy) (b64_of_Z 1))) (b64_of_Z 1)).
    set (lq := Bdiv mode_NE (m_log2 toy (Bdiv mode_NE (b64_of_Z 4) (raised (S := F64 toy) (b64_of_Z 1)))) (m_log2 toy (b64_of_Z 2))).
    assert (E1 : B2R (raised (S := F64 toy) (b64_of_Z 1) : b64) = 1).
    { replace (raised (S := F64 toy) (b64_of_Z 1)) with (b64_of_Z 1) by (apply B2SF_inj; vm_compute; reflexivity). apply (of_Z_exact 1). lia. }
    assert (E2 : B2R (b64_of_Z 4) = 4) by (apply (of_Z_exact 4); lia). assert (E3 : B2R (b64_of_Z 1) = 1) by (apply (of_Z_exact 1); lia).
    assert (E4 : B2R q = 3) by (replace q with (b64_of_Z 3) by (apply B2SF_inj; vm_compute; reflexivity); apply (of_Z_exact 3); lia).
    assert (E5 : B2R lq = 2) by (replace lq with (b64_of_Z 2) by (apply B2SF_inj; vm_compute; reflexivity); apply (of_Z_exact 2); lia).
    assert (E6 : B2R (m_log2 toy (b64_of_Z 2)) = 1) by (replace (m_log2 toy (b64_of_Z 2)) with (b64_of_Z 1) by (apply B2SF_inj; vm_compute; reflexivity); exact E3).
    rewrite E1, E2, E3, E4, E5, E6. assert (P : 3 < IZR (2 ^ 52)) by (apply IZR_lt; reflexivity).
    repeat (split; [first [vm_compute; reflexivity|lra]|]); lra. Qed.
Example C37_range : exists mn mx n, 0 <= mn /\ low_end mn < mx /\ (10 <= n <= 2 ^ 59)%Z.
Proof. exists 1, 2, 10%Z. split; [lra|]. split; [|lia]. unfold low_end. destruct Rlt_dec; lra. Qed.

(** * C38: the exported densities *)
(** Exact reals: every row is (centre of the bin, number of samples in it, number / (samples * width)); rows whose density is below
    1e-15 are left out. *)
Theorem C38_exported_rows : forall (mn mx b l : R) (a0 a r : tana RR) (xs : list R), ta_fresh (S := RR) mn mx b l = Ok a0 -> 0 < b -> 1 < l ->
  ta_adds (S := RR) a0 xs = Ok a -> ta_draw a = Ok r -> xs <> [] -> let m := low_end mn in let N := INR (length xs) in
  ta_export_lin r = Ok (filter big_enough (map (fun i => (edge m b i + b / 2, hits m mx b xs i, INR (hits m mx b xs i) / (N * b)))
                                               (seq 0 (length (ta_count a0))))) /\
  ta_export_log r = Ok (filter big_enough (map (fun i => (ledge m l i * sqrt l, lhits m mx l xs i, INR (lhits m mx l xs i) / (N * (ledge m l (S i) - ledge m l i))))
                                               (seq 0 (length (ta_lcount a0))))).
Proof. cbv zeta. intros mn mx b l a0 a r xs H0 Hb Hl Ha Hr Hx. pose proof (exported _ _ _ _ _ _ _ _ H0 Hb Hl Ha Hr Hx) as H.
  destruct (ta_fresh_inv _ _ _ _ _ H0) as (B & _ & EB & E & _ & _). rewrite EB in H.
  assert (L1 : length (ta_count a0) = Z.to_nat (b_num B)) by (rewrite E; apply repeat_length).
  assert (L2 : length (ta_lcount a0) = Z.to_nat (b_lnum B)) by (rewrite E; apply repeat_length). rewrite L1, L2. exact H. Qed.
Print Assumptions C38_exported_rows.
(** Exact reals: before the small rows are left out, density times width adds up to the fraction of the samples that are in range. *)
Theorem C38_normalised : forall (mn mx b l : R) (a0 a r : tana RR) (xs : list R), ta_fresh (S := RR) mn mx b l = Ok a0 -> 0 < b -> 1 < l ->
  ta_adds (S := RR) a0 xs = Ok a -> ta_draw a = Ok r -> xs <> [] ->
  rsum (map (fun h => h * b) (ta_hist r)) = INR (number_of (between (S := RR) (low_end mn) mx) xs) / INR (length xs) /\
  rsum (map (fun i => nth i (ta_lhist r) 0 * (ledge (low_end mn) l (S i) - ledge (low_end mn) l i)) (seq 0 (length (ta_lhist r)))) =
    INR (number_of (between (S := RR) (low_end mn) mx) xs) / INR (length xs).
Proof. exact normalised. Qed.
Print Assumptions C38_normalised.
(** Multi-column analysis, exact reals: the bins whose centre is at most the maximum, same rows per column. *)
Theorem C38_columns_exported : forall (mn mx b l : R) n (a0 a r : tvec RR) (rows : list (list R)), tv_fresh (S := RR) mn mx b l n = Ok a0 -> 0 < b -> 1 < l -> n <> 0%nat ->
  tv_adds (S := RR) a0 rows = Ok a -> tv_draw a = Ok r -> rows <> [] -> let m := low_end mn in let N := INR (length rows) in
  exists K L, shown (fun i => edge m b i + b / 2) mx K /\ shown (fun i => ledge m l i * sqrt l) mx L /\
  (forall fuel, (K < fuel)%nat -> tv_export_lin fuel r = Ok (filter visible (map (fun i => (edge m b i + b / 2,
     map (fun j => (hits m mx b (column j rows) i, INR (hits m mx b (column j rows) i) / (N * b))) (seq 0 n))) (seq 0 K)))) /\
  (forall fuel, (L < fuel)%nat -> tv_export_log fuel r = Ok (filter visible (map (fun i => (ledge m l i * sqrt l,
     map (fun j => (lhits m mx l (column j rows) i, INR (lhits m mx l (column j rows) i) / (N * (ledge m l (S i) - ledge m l i)))) (seq 0 n))) (seq 0 L)))).
Proof. exact vec_exported. Qed.
Print Assumptions C38_columns_exported.
Theorem C38_columns_never_fail : forall (mn mx b l : R) n (a0 : tvec RR), tv_fresh (S := RR) mn mx b l n = Ok a0 -> 0 < b -> 1 < l -> n <> 0%nat ->
  forall rows : list (list R), Forall (fun r => length r = n) rows -> exists a r, tv_adds (S := RR) a0 rows = Ok a /\ tv_draw a = Ok r.
Proof. exact vec_total. Qed.
Print Assumptions C38_columns_never_fail.
(** Process analysis, exact reals: per bin of time the number, average and deviation of the values; rows with average at most 1e-15 are left out. *)
Theorem C38_process_exported : forall (mn mx b l : R) (a0 : pana RR), pa_fresh (S := RR) mn mx b l = Ok a0 -> 0 < b -> 1 < l ->
  forall (a r : pana RR) (ls : list (list (R * R))), add_lines (pa_line (S := RR)) a0 ls = Ok a -> pa_draw a = Ok r ->
  let m := low_end mn in let ps := concat ls in
  exists K L, shown (fun i => edge m b i + b / 2) mx K /\ shown (fun i => ledge m l i * sqrt l) mx L /\
  (forall fuel, (K < fuel)%nat -> pa_export_lin fuel r = Ok (filter (fun row => Rltb (1 / 10 ^ 15) (snd (fst row)))
     (map (fun i => (edge m b i + b / 2, length (values_in m mx b ps i), average (values_in m mx b ps i), deviation (values_in m mx b ps i))) (seq 0 K)))) /\
  (forall fuel, (L < fuel)%nat -> pa_export_log fuel r = Ok (filter (fun row => Rltb (1 / 10 ^ 15) (snd (fst row)))
     (map (fun i => (ledge m l i * sqrt l, length (lvalues_in m mx l ps i), average (lvalues_in m mx l ps i), deviation (lvalues_in m mx l ps i))) (seq 0 L)))).
Proof. exact pa_exported. Qed.
Print Assumptions C38_process_exported.

(** What the export loses.  A process whose values are never positive exports nothing. *)
Theorem C38_nonpositive_process_lost_counterexample : forall mn mx b l (a0 a r : pana RR) ls, pa_fresh (S := RR) mn mx b l = Ok a0 -> 0 < b -> 1 < l ->
  add_lines (pa_line (S := RR)) a0 ls = Ok a -> pa_draw a = Ok r -> Forall (fun tv => snd tv <= 0) (concat ls) ->
  exists n, forall fuel, (n < fuel)%nat -> pa_export_lin fuel r = Ok [] /\ pa_export_log fuel r = Ok [].
Proof. exact nonpos_never_exported. Qed.
Print Assumptions C38_nonpositive_process_lost_counterexample.
(** The multi-column export drops the last bin when its centre is above the maximum, with the samples in it ... *)
Theorem C38_last_bin_lost_counterexample : exists a0 a r, tv_fresh (S := RR) 1 (11 / 5) 1 2 1 = Ok a0 /\ tv_adds (S := RR) a0 [[21 / 10]] = Ok a /\ tv_draw a = Ok r /\
  exists n, forall fuel, (n < fuel)%nat -> tv_export_lin fuel r = Ok [].
Proof. exact last_bin_lost. Qed.
Print Assumptions C38_last_bin_lost_counterexample.
(** ... the single-variable export drops samples when the bins are very wide ... *)
Theorem C38_small_density_lost_counterexample : exists a0 a r, ta_fresh (S := RR) 1 (10 ^ 16) (10 ^ 16) 2 = Ok a0 /\ ta_adds (S := RR) a0 [5] = Ok a /\ ta_draw a = Ok r /\ ta_export_lin r = Ok [].
Proof. exact small_density_lost. Qed.
Print Assumptions C38_small_density_lost_counterexample.
(** ... and in binary64 the multi-column export panics when the bin is smaller than the spacing of the numbers. *)
Theorem C38_f64_narrow_bin_panics_counterexample : (do a0 <- tv_fresh (S := F64 toy) (b64_of_Z (2 ^ 60)) (b64_of_Z (2 ^ 60)) (b64_of_Z 1) (b64_of_Z 2) 1;
  do a <- tv_add a0 [b64_of_Z (2 ^ 60) : F64 toy]; do r <- tv_draw a; tv_export_lin 3 r) = Panic.
Proof. exact narrow_bin_panics. Qed.
Print Assumptions C38_f64_narrow_bin_panics_counterexample.

Example C38_hypotheses : exists a0 a r, ta_fresh (S := RR) 1 100 2 2 = Ok a0 /\ ta_adds (S := RR) a0 [3; 500; 100] = Ok a /\ ta_draw a = Ok r.
Proof. destruct C36_configured as (a0 & a & E & Ha). exists a0, a. destruct (draw_ok (ta_bins a0) a) as [r Er]; [|eauto].
  apply (history_shape (S := RR) (ta_bins a0) (map (OAdd (S := RR)) [3; 500; 100]) a0); [eapply fresh_shape; eauto|]. rewrite <- adds_history. exact Ha. Qed.
Example C38_process_hypotheses : exists a0 a, pa_fresh (S := RR) 1 100 2 2 = Ok a0 /\ add_lines (pa_line (S := RR)) a0 [[(3, -1); (5, -2)]; [(500, 0)]] = Ok a /\
  Forall (fun tv => snd tv <= 0) (concat [[(3, -1); (5, -2)]; [(500, 0)]]).
Proof. destruct C36_configured as (t0 & _ & E & _). destruct (pa_fresh_ok _ _ _ _ _ E) as [a0 E0]. exists a0.
  destruct (pa_lines_total _ _ _ _ _ E0 ltac:(lra) ltac:(lra) [[(3, -1); (5, -2)]; [(500, 0)]]) as [a Ha]. exists a. split; [exact E0|]. split; [exact Ha|].
  cbn [concat app]. repeat constructor; cbn [snd]; lra. Qed.

(** * C39: mean and standard deviation *)
(** Exact reals: what [draw] stores is the average and the (population) standard deviation of the samples. *)
Theorem C39_moments : forall (mn mx b l : R) (a0 a r : tana RR) (xs : list R), ta_fresh (S := RR) mn mx b l = Ok a0 -> 0 < b -> 1 < l ->
  ta_adds (S := RR) a0 xs = Ok a -> ta_draw a = Ok r -> xs <> [] -> ta_mean r = average xs /\ ta_sq r = deviation xs /\ ta_ens r = length xs.
Proof. exact moments. Qed.
Print Assumptions C39_moments.
Theorem C39_process_moments : forall (mn mx b l : R) (a0 : pana RR), pa_fresh (S := RR) mn mx b l = Ok a0 -> 0 < b -> 1 < l ->
  forall (a r : pana RR) (ls : list (list (R * R))), add_lines (pa_line (S := RR)) a0 ls = Ok a -> pa_draw a = Ok r ->
  pa_mean r = average (map snd (concat ls)) /\ pa_sq r = deviation (map snd (concat ls)) /\ pa_ens r = length ls.
Proof. intros mn mx b l a0 H0 Hb Hl a r ls Ha Hr. destruct (pa_drawn _ _ _ _ _ H0 Hb Hl a r ls Ha Hr) as (A & B & C & _). auto. Qed.
Print Assumptions C39_process_moments.
(** Binary64: three equal samples of 0.1 have standard deviation NaN; no sample gives NaN for both; an empty data file is reported so. *)
Theorem C39_f64_equal_samples_counterexample : forall lm (mn mx size lsize : b64) (a0 a r : tana (F64 lm)), let x : F64 lm := lit 1 10 in
  ta_fresh (S := F64 lm) mn mx size lsize = Ok a0 -> ta_adds a0 [x; x; x] = Ok a -> ta_draw a = Ok r -> is_nan (ta_sq r : b64) = true.
Proof. exact equal_samples_nan. Qed.
Print Assumptions C39_f64_equal_samples_counterexample.
Theorem C39_f64_no_sample_counterexample : forall lm (mn mx size lsize : b64) (a0 r : tana (F64 lm)),
  ta_fresh (S := F64 lm) mn mx size lsize = Ok a0 -> ta_draw a0 = Ok r -> is_nan (ta_mean r : b64) = true /\ is_nan (ta_sq r : b64) = true.
Proof. exact empty_nan. Qed.
Print Assumptions C39_f64_no_sample_counterexample.
Theorem C39_f64_empty_file_counterexample : forall lm sip (mn mx size lsize : b64) ds r, ta_analyze (S := F64 lm) sip mn mx size lsize [Some (ds, [])] = Ok r ->
  exists a, r = [(ds, a)] /\ is_nan (ta_mean a : b64) = true.
Proof. exact empty_file_nan. Qed.
Print Assumptions C39_f64_empty_file_counterexample.
(** The summary file: the titles say ensemble, mean, deviation; single-variable and process rows are written mean, deviation, ensemble. *)
Theorem C39_titles_do_not_match_counterexample : forall S : scalar,
  (forall a : tana S, map kind (ta_export_row a) <> ta_export_form) /\ (forall a : pana S, map kind (pa_export_row a) <> pa_export_form).
Proof. intros S. split; intros a; discriminate. Qed.
Print Assumptions C39_titles_do_not_match_counterexample.
(** The multi-column row matches its titles when there is one column. *)
Theorem C39_one_column_matches : forall (S : scalar) (a : tvec S), length (tv_means a) = 1%nat -> length (tv_sqs a) = 1%nat -> map kind (tv_export_row a) = tv_export_form.
Proof. intros S a. unfold tv_export_row. destruct (tv_means a) as [|x [|]], (tv_sqs a) as [|y [|]]; try discriminate. reflexivity. Qed.
Print Assumptions C39_one_column_matches.

(** * C40: clear *)
(** Any number type: after any history, clearing succeeds, and adding samples and drawing then gives exactly what a fresh analysis with the same bins gives. *)
Theorem C40_clear_is_fresh : forall (S : scalar) (mn mx size lsize : S) a0 os a, ta_fresh mn mx size lsize = Ok a0 -> history a0 os = Ok a ->
  exists c, ta_clear a = Ok c /\ forall xs, (do r <- ta_adds c xs; ta_draw r) = (do r <- ta_adds a0 xs; ta_draw r).
Proof. intros S mn mx size lsize a0 os a H0 H. destruct (clear_ok _ _ _ _ _ _ _ H0 H) as [c Hc]. exists c. split; [exact Hc|]. intros xs. eapply clear_is_fresh; eauto. Qed.
Print Assumptions C40_clear_is_fresh.
Theorem C40_vector_clear_is_fresh : forall (S : scalar) (mn mx size lsize : S) n a0 os a c rows, n <> 0%nat ->
  tv_fresh mn mx size lsize n = Ok a0 -> vhistory a0 os = Ok a -> tv_clear a = Ok c ->
  (do x <- tv_adds c rows; tv_draw x) = (do x <- tv_adds a0 rows; tv_draw x).
Proof. intros S mn mx size lsize n a0 os a c rows. apply vec_clear. Qed.
Print Assumptions C40_vector_clear_is_fresh.
(** The process analysis forgets to reset its number of points: per bin all is as fresh, but the long-term mean is divided by the
    points from before the clear as well. *)
Theorem C40_process_clear_keeps_points_counterexample : forall (S : scalar) (mn mx size lsize : S) a0 ls a c ls' x r,
  pa_fresh mn mx size lsize = Ok a0 -> add_lines pa_line a0 ls = Ok a -> pa_clear a = Ok c -> add_lines pa_line a0 ls' = Ok x -> pa_draw x = Ok r ->
  exists x' r', add_lines pa_line c ls' = Ok x' /\ pa_draw x' = Ok r' /\
    pa_ens r' = pa_ens r /\ pa_count r' = pa_count r /\ pa_lcount r' = pa_lcount r /\
    pa_bmean r' = pa_bmean r /\ pa_bsq r' = pa_bsq r /\ pa_lmean r' = pa_lmean r /\ pa_lsq r' = pa_lsq r /\ pa_bins r' = pa_bins r /\
    pa_mean r' = (pa_mean x / of_Z (Z.of_nat (length (concat ls) + length (concat ls'))))%S.
Proof. intros S. exact process_clear. Qed.
Print Assumptions C40_process_clear_keeps_points_counterexample.
Theorem C40_process_mean_after_clear_counterexample : forall mn mx b l (a0 a c x' r' : pana RR) (ls ls' : list (list (R * R))), 0 < b -> 1 < l ->
  pa_fresh (S := RR) mn mx b l = Ok a0 -> add_lines (pa_line (S := RR)) a0 ls = Ok a -> pa_clear a = Ok c ->
  add_lines (pa_line (S := RR)) c ls' = Ok x' -> pa_draw x' = Ok r' ->
  pa_mean r' = rsum (map snd (concat ls')) / INR (length (concat ls) + length (concat ls')).
Proof. intros mn mx b l a0 a c x' r' ls ls' Hb Hl H0 Ha Hc Hx' Hr'.
  destruct (pa_lines_total _ _ _ _ _ H0 Hb Hl ls') as [x Hx]. pose proof (pa_clear_is _ _ _ _ _ _ _ _ H0 Ha Hc) as E. rewrite E, lines_with_points, Hx in Hx'.
  cbn [bind] in Hx'. injection Hx' as <-. destruct (pa_sums _ _ _ _ _ H0 Hb Hl x ls' Hx) as (_ & Pt & Sm & _).
  unfold pa_draw in Hr'. destruct (means_loop _ _ _); try discriminate. cbn [bind] in Hr'. destruct (means_loop _ _ _); try discriminate. cbn [bind] in Hr'.
  injection Hr' as <-. cbn [pa_mean]. change (@of_Z RR) with IZR. unfold with_points. cbn [pa_mean pa_points]. rewrite Pt, <- INR_IZR_INZ.
  exact (f_equal (fun y => y / INR (length (concat ls) + length (concat ls'))) Sm). Qed.
Print Assumptions C40_process_mean_after_clear_counterexample.
Example C40_hypotheses : exists a0 a a1 a2, ta_fresh (S := RR) 1 100 2 2 = Ok a0 /\ ta_adds (S := RR) a0 [3; 500; 100] = Ok a /\
  ta_draw a = Ok a1 /\ history (S := RR) a0 (map (OAdd (S := RR)) [3; 500; 100] ++ [ODraw]) = Ok a2.
Proof. destruct C38_hypotheses as (a0 & a & r & E & Ha & Hr). exists a0, a, r, r. do 3 (split; [assumption|]).
  assert (G : forall os a0 a (H : history (S := RR) a0 os = Ok a) o r, apply a o = Ok r -> history a0 (os ++ [o]) = Ok r).
  { induction os as [|o os IH]; intros b0 b1 H o' r' Hr'; cbn [app history] in *; [injection H as ->; rewrite Hr'; reflexivity|].
    destruct (apply b0 o) as [b2| | |]; try discriminate. cbn [bind] in *. eapply IH; eauto. }
  apply (G (map (OAdd (S := RR)) [3; 500; 100]) a0 a); [rewrite <- adds_history; exact Ha|exact Hr]. Qed.

(** * C41: which files are merged *)
(** Any number type and any of the three analyses: every reported group is the analysis, from scratch, of all lines of exactly the
    files whose parameters count as the same as the group's; every readable file is in a group (or its group is empty and skipped);
    no two groups count as the same. *)
Theorem C41_groups : forall (S : scalar) (A L : Type) sip (fresh : outcome A) (add_line : A -> L -> outcome A) draw empty
    (files : list (option (list S * list L))) r, analyze sip fresh add_line draw empty files = Ok r ->
  (forall d a', In (d, a') r -> (exists xs, In (Some (d, xs)) files) /\
     exists f a, fresh = Ok f /\ add_lines add_line f (lines_of (same_dataset sip d) files) = Ok a /\ empty a = false /\ draw a = Ok a') /\
  (forall ds xs, In (Some (ds, xs)) files -> (exists d a', In (d, a') r /\ same_dataset sip d ds = true) \/
     (exists f a, fresh = Ok f /\ add_lines add_line f (lines_of (same_dataset sip ds) files) = Ok a /\ empty a = true)) /\
  ForallOrdPairs (fun e e' => same_dataset sip (fst e) (fst e') = false) r.
Proof. exact @analyze_groups. Qed.
Print Assumptions C41_groups.
(** The order in which the directory lists the files does not matter to the histograms. *)
Theorem C41_order_of_files : forall lm sip (mn mx size lsize : b64) files files' r r', Permutation files files' ->
  ta_analyze (S := F64 lm) sip mn mx size lsize files = Ok r -> ta_analyze (S := F64 lm) sip mn mx size lsize files' = Ok r' ->
  forall d a, In (d, a) r -> exists d' a', In (d', a') r' /\ same_dataset sip d d' = true /\
    ta_ens a = ta_ens a' /\ ta_count a = ta_count a' /\ ta_lcount a = ta_lcount a' /\ ta_hist a = ta_hist a' /\ ta_lhist a = ta_lhist a'.
Proof. intros lm sip mn mx size lsize files files' r r'. exact (order_of_files sip _ _ _ _ _ _ _ _ (f64_usize_ok lm)). Qed.
Print Assumptions C41_order_of_files.
(** Equal parameters are always merged. *)
Theorem C41_equal_parameters_merge : forall (S : scalar) sip (v w : list S), v = w -> same_dataset sip v w = true.
Proof. intros S. exact merge_equal. Qed.
Print Assumptions C41_equal_parameters_merge.
(** Exact reals, no hash collision: parameters that are non-negative multiples of 1e-10 (up to 2^64 - 1 of them) merge only when equal. *)
Theorem C41_grid_parameters_separated : forall sip (ks ls : list Z), (forall k k', sip k = sip k' -> k = k') ->
  Forall (fun k => (0 <= k <= usize_max)%Z) ks -> Forall (fun k => (0 <= k <= usize_max)%Z) ls ->
  same_dataset (S := RR) sip (map (fun k => IZR k / 10 ^ 10) ks) (map (fun k => IZR k / 10 ^ 10) ls) = true <-> ks = ls.
Proof. exact grid_separated. Qed.
Print Assumptions C41_grid_parameters_separated.
(** Exact reals: unless the 64-bit digests of the two sequences collide, two parameter sets are merged exactly when they agree, parameter by parameter, in the number
    the hash keeps of each ([hash_cell]: multiples of 1e-10, sign lost, at most 2^64 - 1). *)
Theorem C41_merged_exactly : forall sip (us vs : list R),
  (forall ks ls, Forall2 hash_cell us ks -> Forall2 hash_cell vs ls -> sip ks = sip ls -> ks = ls) ->
  same_dataset (S := RR) sip us vs = true <-> Forall2 (fun u v => exists k, hash_cell u k /\ hash_cell v k) us vs.
Proof. exact merged_exactly. Qed.
Print Assumptions C41_merged_exactly.
(** Doubles from 0 to 900000, no collision of the two digests: merged parameter sets differ by less than 2e-10 in every parameter (so whole-number parameters are equal). *)
Theorem C41_f64_merged_are_close : forall lm sip (us vs : list b64), (sip (keys (S := F64 lm) us) = sip (keys (S := F64 lm) vs) -> keys (S := F64 lm) us = keys (S := F64 lm) vs) ->
  Forall (fun u => is_finite u = true /\ 0 <= B2R u <= 900000) us -> Forall (fun u => is_finite u = true /\ 0 <= B2R u <= 900000) vs ->
  same_dataset (S := F64 lm) sip us vs = true -> Forall2 (fun u v => Rabs (B2R u - B2R v) < 2 / 10 ^ 10) us vs.
Proof. exact f64_merged_close. Qed.
Print Assumptions C41_f64_merged_are_close.
(** The digests of [1; 5] and [1; 7] do not collide for a digest that keeps the last key; these sets are not merged, and so on the doubles. *)
Example C41_merged_hypotheses : forall lm, let sip := fun l : list Z => last l 0%Z in
  same_dataset (S := F64 lm) sip [b64_of_Z 1; b64_of_Z 5] [b64_of_Z 1; b64_of_Z 7] = false /\
  (sip (keys (S := F64 lm) [b64_of_Z 1; b64_of_Z 5]) = sip (keys (S := F64 lm) [b64_of_Z 1; b64_of_Z 7]) -> keys (S := F64 lm) [b64_of_Z 1; b64_of_Z 5] = keys (S := F64 lm) [b64_of_Z 1; b64_of_Z 7]) /\
  same_dataset (S := F64 lm) sip [b64_of_Z 1; lit (s := F64 lm) 42 (10 ^ 10)] [b64_of_Z 1; lit (s := F64 lm) 43 (10 ^ 10)] = true /\
  keys (S := F64 lm) [b64_of_Z 1; lit (s := F64 lm) 42 (10 ^ 10)] = keys (S := F64 lm) [b64_of_Z 1; lit (s := F64 lm) 43 (10 ^ 10)].
Proof.
  intros lm sip. split; [vm_compute; reflexivity|]. split; [|split; vm_compute; reflexivity].
  intros E. exfalso. vm_compute in E. discriminate E.
Qed.
(** Different parameters that are merged, whatever the hash: closer than 1e-10; -k e-10 and (k+1) e-10; all above about 1.8e9;
    in binary64 even 4.2e-9 and 4.3e-9. *)
Theorem C41_close_parameters_merge_counterexample : forall sip (k : Z) (u v : R), (0 <= k < usize_max)%Z ->
  IZR k <= u * 10 ^ 10 < IZR (k + 1) -> IZR k <= v * 10 ^ 10 < IZR (k + 1) -> same_dataset (S := RR) sip [u] [v] = true.
Proof. exact near_merge. Qed.
Print Assumptions C41_close_parameters_merge_counterexample.
Theorem C41_negative_merges_with_positive_counterexample : forall sip (k : Z), (0 < k < usize_max)%Z -> same_dataset (S := RR) sip [- IZR k / 10 ^ 10] [IZR (k + 1) / 10 ^ 10] = true.
Proof. exact negative_merges. Qed.
Print Assumptions C41_negative_merges_with_positive_counterexample.
Theorem C41_large_parameters_merge_counterexample : forall sip (u v : R), IZR usize_max <= u * 10 ^ 10 -> IZR usize_max <= v * 10 ^ 10 -> same_dataset (S := RR) sip [u] [v] = true.
Proof. exact big_merge. Qed.
Print Assumptions C41_large_parameters_merge_counterexample.
Theorem C41_f64_decimal_collision_counterexample : forall lm sip, let u : F64 lm := lit 43 (10 ^ 10) in let v : F64 lm := lit 42 (10 ^ 10) in
  same_dataset (S := F64 lm) sip [u] [v] = true /\ Bltb (v : b64) (u : b64) = true.
Proof. exact decimal_collision. Qed.
Print Assumptions C41_f64_decimal_collision_counterexample.
(** A run that groups: two files with parameter 1, one with parameter 2, one unreadable. *)
Example C41_run : exists r, ta_analyze (S := RR) (fun l => hd 0%Z l) 1 100 2 2 [Some ([1], [3; 4]); None; Some ([2], [5]); Some ([1], [6])] = Ok r.
Proof. destruct C36_configured as (a0 & _ & E & _).
  assert (Dr : forall xs a, ta_adds (S := RR) a0 xs = Ok a -> exists d, ta_draw a = Ok d).
  { intros xs a Ha. apply (draw_ok (ta_bins a0)). apply (history_shape (S := RR) (ta_bins a0) (map (OAdd (S := RR)) xs) a0); [eapply fresh_shape; eauto|]. now rewrite <- adds_history. }
  assert (K1 : field_key (S := RR) 1 = (10 ^ 10)%Z). { replace 1 with (IZR (10 ^ 10) / 10 ^ 10) by (change (10 ^ 10)%Z with 10000000000%Z; field). apply key_grid. unfold usize_max. lia. }
  assert (K2 : field_key (S := RR) 2 = (2 * 10 ^ 10)%Z). { replace 2 with (IZR (2 * 10 ^ 10) / 10 ^ 10) by (change (2 * 10 ^ 10)%Z with 20000000000%Z; field). apply key_grid. unfold usize_max. lia. }
  assert (S11 : same_dataset (S := RR) (fun l => hd 0%Z l) [1] [1] = true) by (apply merge_equal; reflexivity).
  assert (S12 : same_dataset (S := RR) (fun l => hd 0%Z l) [1] [2] = false) by (unfold same_dataset, keys; cbn [map hd]; rewrite K1, K2; reflexivity).
  destruct (exact_histogram _ _ _ _ _ E ltac:(lra) ltac:(lra) [3; 4]) as (a1 & H1 & _).
  destruct (exact_histogram _ _ _ _ _ E ltac:(lra) ltac:(lra) [5]) as (a2 & H2 & _).
  destruct (exact_histogram _ _ _ _ _ E ltac:(lra) ltac:(lra) [3; 4; 6]) as (a3 & H3 & _).
  assert (AL : forall xs a, add_lines (ta_add (S := RR)) a xs = ta_adds a xs).
  { induction xs as [|x xs IH]; intros a; cbn [add_lines ta_adds]; [reflexivity|]. destruct (ta_add a x); cbn [bind]; auto. }
  assert (H4 : ta_adds (S := RR) a1 [6] = Ok a3).
  { exact (eq_sym (eq_trans (eq_sym H3) (eq_trans (ta_adds_app (S := RR) [3; 4] [6] a0) (f_equal (fun o => do a' <- o; ta_adds (S := RR) a' [6]) H1)))). }
  destruct (Dr _ _ H3) as [d3 E3], (Dr _ _ H2) as [d2 E2].
  unfold ta_analyze, analyze. cbn [read_files insert_file]. rewrite E. cbn [bind]. rewrite AL, H1. cbn [bind read_files insert_file].
  rewrite S12, AL, H2. cbn [bind read_files insert_file]. rewrite S11, AL, H4. cbn [bind read_files draw_all].
  rewrite E3. cbn [bind]. rewrite E2. cbn [bind]. eauto. Qed.

(** * C44 (first part): the directory for the results did not exist before *)
Theorem C44_directory_is_new : forall exists_dir fuel r, summary_dir fuel exists_dir = Ok r -> exists_dir r = false /\
  match r with None => True | Some i => (2 <= i)%nat /\ exists_dir None = true /\ forall j, (2 <= j < i)%nat -> exists_dir (Some j) = true end.
Proof. exact summary_dir_spec. Qed.
Print Assumptions C44_directory_is_new.
Theorem C44_directory_is_found : forall exists_dir j, (2 <= j)%nat -> exists_dir (Some j) = false -> exists fuel r, summary_dir fuel exists_dir = Ok r.
Proof. exact summary_dir_ends. Qed.
Print Assumptions C44_directory_is_found.
Example C44_third_run : summary_dir 9 (fun d => match d with None => true | Some i => (i <? 4)%nat end) = Ok (Some 4%nat).
Proof. reflexivity. Qed.
