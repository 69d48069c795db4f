From Coq Require Import Reals ZArith List Lra Lia.
From Flocq Require Import Core.
From Flocq.IEEE754 Require Import BinarySingleNaN.
From Verif Require Import Base Scalar Float64 Model_Position Spec_Position Proof_Position Proof_Norm64 Proof_Sum64 Proof_Moments64
  Model_Analysis Spec_Analysis Proof_Analysis Proof_Analysis2 Proof_Analysis3 Proof_Analysis5 Proof_Analysis7 Proof_Analysis9 Spec_Accuracy
  Model_Time Spec_Time Proof_Time.
Import ListNotations.
Open Scope R_scope.

Lemma mean64_near xs : moderate xs -> near_average (mean64 xs) xs.
Proof.
  intros (N & L & F). destruct (mean_ok xs N L F) as (A & B). split; [exact A|].
  unfold average. rewrite !map_length. exact B.
Qed.
Lemma dev64_near xs : moderate xs -> near_deviation (dev64 xs) xs.
Proof.
  intros (N & L & F). pose proof (dev_ok xs N L F) as D. cbv zeta in D. unfold near_deviation. cbv zeta.
  assert (V : deviation (map B2R xs) ^ 2 = rss xs / INR (length xs) - (vsum xs / INR (length xs)) ^ 2).
  { rewrite deviation_eq0. unfold average. rewrite map_length, map_map.
    rewrite <- Rsqr_pow2, Rsqr_sqrt.
    - change (rss xs / INR (length xs) - vsum xs / INR (length xs) * (vsum xs / INR (length xs)) = rss xs / INR (length xs) - (vsum xs / INR (length xs)) ^ 2). ring.
    - change (0 <= rss xs / INR (length xs) - vsum xs / INR (length xs) * (vsum xs / INR (length xs))).
      pose proof (jensen (map B2R xs)) as J. rewrite map_map, map_length in J.
      assert (K : map B2R xs <> []) by (intros E; apply N; now apply map_eq_nil in E). specialize (J K).
      change ((vsum xs / INR (length xs)) ^ 2 <= rss xs / INR (length xs)) in J. simpl in J. rewrite Rmult_1_r in J. lra. }
  rewrite V. unfold average. rewrite map_length. exact D.
Qed.

Lemma folds64 lm (xs : list b64) : fold_left (@add (F64 lm)) xs s0 = sum64 (b64_of_Z 0) xs /\
  fold_left (fun s x => @add (F64 lm) s (@mul (F64 lm) x x)) xs s0 = ss (b64_of_Z 0) xs.
Proof. split; reflexivity. Qed.

Lemma draw_near lm (a r : tana (F64 lm)) (xs : list b64) : ta_draw a = Ok r ->
  ta_mean a = fold_left (@add (F64 lm)) xs s0 -> ta_sq a = fold_left (fun s x => @add (F64 lm) s (@mul (F64 lm) x x)) xs s0 -> ta_ens a = length xs ->
  moderate xs -> near_average (ta_mean r) xs /\ near_deviation (ta_sq r) xs.
Proof.
  intros Hd E1 E2 E3 M. destruct (draw_moments _ _ Hd) as (D1 & D2). rewrite D1, D2, E1, E2, E3.
  split; [exact (mean64_near xs M)|exact (dev64_near xs M)].
Qed.

Lemma time_accuracy lm (mn mx size lsize : b64) (a0 a r : tana (F64 lm)) (xs : list b64) :
  ta_fresh (S := F64 lm) mn mx size lsize = Ok a0 -> ta_adds a0 xs = Ok a -> ta_draw a = Ok r -> moderate xs ->
  near_average (ta_mean r) xs /\ near_deviation (ta_sq r) xs.
Proof. intros H0 Ha Hd M. destruct (summed _ _ _ _ _ _ _ H0 Ha) as (E1 & E2 & E3). exact (draw_near lm a r xs Hd E1 E2 E3 M). Qed.

Lemma history_app {S : scalar} os os' : forall a : tana S, history a (os ++ os') = do b <- history a os; history b os'.
Proof. induction os as [|o os IH]; intros a; [reflexivity|]. cbn [app history]. destruct (apply a o); cbn [bind]; auto. Qed.
Lemma vhistory_app {S : scalar} os os' : forall a : tvec S, vhistory a (os ++ os') = do b <- vhistory a os; vhistory b os'.
Proof. induction os as [|o os IH]; intros a; [reflexivity|]. cbn [app vhistory]. destruct (vapply a o); cbn [bind]; auto. Qed.

Lemma column_drawn {S : scalar} (mn mx size lsize : S) n (a0 a r : tvec S) (rows : list (list S)) :
  n <> 0%nat -> tv_fresh mn mx size lsize n = Ok a0 -> tv_adds a0 rows = Ok a -> tv_draw a = Ok r ->
  (forall row, In row rows -> length row = n) /\
  forall k, (k < n)%nat -> exists t0 t1 t, ta_fresh mn mx size lsize = Ok t0 /\ ta_adds t0 (map (fun row => nth k row s0) rows) = Ok t1 /\ ta_draw t1 = Ok t /\
    nth_error (tv_means r) k = Some (ta_mean t) /\ nth_error (tv_sqs r) k = Some (ta_sq t) /\ nth_error (tv_hist r) k = Some (ta_hist t).
Proof.
  intros N H0 Ha Hd. rewrite tv_adds_vhistory in Ha.
  assert (H : vhistory a0 (map VAdd rows ++ [VDraw]) = Ok r).
  { rewrite vhistory_app, Ha. cbn [bind vhistory vapply]. rewrite Hd. reflexivity. }
  destruct (columns_refine _ _ _ _ _ _ _ _ N H0 H) as (L & C). split.
  { intros row Hr. apply L. apply in_or_app. left. now apply in_map. }
  intros k Hk. destruct (C k Hk) as (t0 & t & T0 & T & Ct). rewrite map_app, history_app in T.
  rewrite op_col_adds in T.
  destruct (ta_adds t0 (map (fun row => nth k row s0) rows)) as [t1| | |] eqn:E1; cbn [bind] in T; try discriminate.
  cbn [map op_column history apply] in T. destruct (ta_draw t1) as [t2| | |] eqn:E2; cbn [bind] in T; try discriminate.
  assert (X : t2 = t) by congruence. subst t2.
  apply column_inv in Ct. destruct Ct as (C1 & C2 & C3 & _). exists t0, t1, t. auto 10.
Qed.

Lemma column_accuracy lm (mn mx size lsize : b64) n (a0 a r : tvec (F64 lm)) (rows : list (list b64)) :
  n <> 0%nat -> tv_fresh (S := F64 lm) mn mx size lsize n = Ok a0 -> tv_adds a0 rows = Ok a -> tv_draw a = Ok r ->
  (forall row, In row rows -> length row = n) /\
  forall k, (k < n)%nat -> let xs := map (fun row => nth k row (b64_of_Z 0)) rows in moderate xs ->
  exists m d, nth_error (tv_means r) k = Some m /\ nth_error (tv_sqs r) k = Some d /\ near_average m xs /\ near_deviation d xs.
Proof.
  intros N H0 Ha Hd. destruct (column_drawn (S := F64 lm) _ _ _ _ _ _ _ _ _ N H0 Ha Hd) as (L & C). split; [exact L|].
  intros k Hk xs M. destruct (C k Hk) as (t0 & t1 & t & T0 & E1 & E2 & C1 & C2 & _).
  destruct (time_accuracy lm _ _ _ _ _ _ _ xs T0 E1 E2 M) as (A & B). exists (ta_mean t), (ta_sq t). auto.
Qed.

Lemma means_loop_nth {S : scalar} c : forall (m q : list S) m' q', means_loop c m q = Ok (m', q') -> forall i, (i < length c)%nat ->
  length m = length c -> length q = length c -> forall d,
  nth i m' d = (nth i m d / of_Z (Z.of_nat (nth i c 0%nat)))%S /\
  nth i q' d = fsqrt (nth i q d / of_Z (Z.of_nat (nth i c 0%nat)) - (nth i m d / of_Z (Z.of_nat (nth i c 0%nat))) * (nth i m d / of_Z (Z.of_nat (nth i c 0%nat))))%S.
Proof.
  induction c as [|x c IH]; intros [|y m] [|z q] m' q' H i Hi L1 L2 d; cbn [length] in *; try discriminate; try lia.
  cbn [means_loop] in H. destruct (means_loop c m q) as [[ms qs]| | |] eqn:E; cbn [bind fst snd] in H; try discriminate.
  assert (X : forall (a b : list S * list S), Ok a = Ok b -> a = b) by congruence. apply X in H.
  assert (Em : m' = (y / of_Z (Z.of_nat x))%S :: ms) by congruence. assert (Eq : q' = fsqrt (z / of_Z (Z.of_nat x) - y / of_Z (Z.of_nat x) * (y / of_Z (Z.of_nat x)))%S :: qs) by congruence.
  subst. destruct i as [|i]; [split; reflexivity|]. cbn [nth]. apply (IH m q ms qs E); lia.
Qed.

Lemma nth_repeat_s {S : scalar} n i : nth i (repeat (@s0 S) n) s0 = s0.
Proof. revert i; induction n; destruct i; cbn; auto. Qed.

Lemma process_accuracy lm (mn mx size lsize : b64) (a0 a r : pana (F64 lm)) (ls : list (list (b64 * b64))) :
  pa_fresh (S := F64 lm) mn mx size lsize = Ok a0 -> add_lines (pa_line (S := F64 lm)) a0 ls = Ok a -> pa_draw a = Ok r ->
  (moderate (map snd (concat ls)) -> near_average (pa_mean r) (map snd (concat ls)) /\ near_deviation (pa_sq r) (map snd (concat ls))) /\
  (forall i, (i < length (pa_count a))%nat -> let xs := values_at (S := F64 lm) (bin_pos (pa_bins a0)) i (concat ls) in moderate xs ->
     near_average (nth i (pa_bmean r) (b64_of_Z 0)) xs /\ near_deviation (nth i (pa_bsq r) (b64_of_Z 0)) xs) /\
  (forall i, (i < length (pa_lcount a))%nat -> let xs := values_at (S := F64 lm) (lbin_pos (pa_bins a0)) i (concat ls) in moderate xs ->
     near_average (nth i (pa_lmean r) (b64_of_Z 0)) xs /\ near_deviation (nth i (pa_lsq r) (b64_of_Z 0)) xs).
Proof.
  intros H0 Ha Hd. destruct (pa_fresh_inv _ _ _ _ _ H0) as (B & _ & E0 & _). cbv zeta in E0.
  destruct (pa_lines_inv _ _ _ Ha) as (a1 & Hp & Ea).
  destruct (pa_pairs_inv _ _ _ Hp) as (Eb & _ & Pt & L1 & L2 & L3 & L4 & L5 & L6 & Mn & Sq & N1 & N2 & N3 & N4 & N5 & N6 & _).
  assert (Z : pa_mean a0 = s0 /\ pa_sq a0 = s0 /\ pa_points a0 = 0%nat /\
    (forall i, nth i (pa_count a0) 0%nat = 0%nat) /\ (forall i, nth i (pa_lcount a0) 0%nat = 0%nat) /\
    (forall i, nth i (pa_bmean a0) s0 = s0) /\ (forall i, nth i (pa_lmean a0) s0 = s0) /\ (forall i, nth i (pa_bsq a0) s0 = s0) /\ (forall i, nth i (pa_lsq a0) s0 = s0) /\
    length (pa_bmean a0) = length (pa_count a0) /\ length (pa_bsq a0) = length (pa_count a0) /\
    length (pa_lmean a0) = length (pa_lcount a0) /\ length (pa_lsq a0) = length (pa_lcount a0)).
  { rewrite E0. cbn [pa_mean pa_sq pa_points pa_count pa_lcount pa_bmean pa_lmean pa_bsq pa_lsq].
    rewrite !repeat_length. repeat split; auto using nth_repeat_s; intros i; apply nth_repeat0. }
  destruct Z as (Z1 & Z2 & Z3 & Z4 & Z5 & Z6 & Z7 & Z8 & Z9 & Z10 & Z11 & Z12 & Z13).
  assert (EA : pa_mean a = pa_mean a1 /\ pa_sq a = pa_sq a1 /\ pa_points a = pa_points a1 /\ pa_count a = pa_count a1 /\ pa_lcount a = pa_lcount a1 /\
    pa_bmean a = pa_bmean a1 /\ pa_lmean a = pa_lmean a1 /\ pa_bsq a = pa_bsq a1 /\ pa_lsq a = pa_lsq a1) by (rewrite Ea; cbn; auto 12).
  destruct EA as (A1 & A2 & A3 & A4 & A5 & A6 & A7 & A8 & A9).
  unfold pa_draw in Hd. cbv zeta in Hd.
  destruct (means_loop (pa_count a) (pa_bmean a) (pa_bsq a)) as [[m q]| | |] eqn:El; cbn [bind] in Hd; try discriminate.
  destruct (means_loop (pa_lcount a) (pa_lmean a) (pa_lsq a)) as [[lm' lq]| | |] eqn:Ell; cbn [bind fst snd] in Hd; try discriminate.
  assert (X : forall (a b : pana (F64 lm)), Ok a = Ok b -> a = b) by congruence. apply X in Hd. subst r.
  cbn [pa_mean pa_sq pa_bmean pa_bsq pa_lmean pa_lsq].
  split; [|split].
  - intros M. assert (PT : pa_points a1 = length (map (@snd b64 b64) (concat ls))) by (rewrite Pt, Z3, map_length; reflexivity).
    rewrite A1, A2, A3, PT, Mn, Sq, Z1, Z2. split; [exact (mean64_near _ M)|exact (dev64_near _ M)].
  - intros i Hi M. set (xs := values_at (S := F64 lm) (bin_pos (pa_bins a0)) i (concat ls)) in *.
    assert (V : vals (S := F64 lm) i (bin_pos (pa_bins a0)) (concat ls) = xs) by reflexivity.
    destruct (means_loop_nth _ _ _ _ _ El i Hi ltac:(rewrite A6, A4; congruence) ltac:(rewrite A8, A4; congruence) s0) as (R1 & R2).
    assert (K1 : nth i (pa_count a1) 0%nat = length xs) by (rewrite N1, Z4; reflexivity).
    assert (K2 : nth i (pa_bmean a1) s0 = fold_left (@add (F64 lm)) xs s0) by (rewrite N3, Z6; reflexivity).
    assert (K3 : nth i (pa_bsq a1) s0 = fold_left (fun s x => @add (F64 lm) s (@mul (F64 lm) x x)) xs s0) by (rewrite N5, Z8; reflexivity).
    change (b64_of_Z 0) with (@s0 (F64 lm)). rewrite R1, R2, A4, A6, A8, K1, K2, K3.
    split; [exact (mean64_near _ M)|exact (dev64_near _ M)].
  - intros i Hi M. set (xs := values_at (S := F64 lm) (lbin_pos (pa_bins a0)) i (concat ls)) in *.
    assert (V : vals (S := F64 lm) i (lbin_pos (pa_bins a0)) (concat ls) = xs) by reflexivity.
    destruct (means_loop_nth _ _ _ _ _ Ell i Hi ltac:(rewrite A7, A5; congruence) ltac:(rewrite A9, A5; congruence) s0) as (R1 & R2).
    assert (K1 : nth i (pa_lcount a1) 0%nat = length xs) by (rewrite N2, Z5; reflexivity).
    assert (K2 : nth i (pa_lmean a1) s0 = fold_left (@add (F64 lm)) xs s0) by (rewrite N4, Z7; reflexivity).
    assert (K3 : nth i (pa_lsq a1) s0 = fold_left (fun s x => @add (F64 lm) s (@mul (F64 lm) x x)) xs s0) by (rewrite N6, Z9; reflexivity).
    change (b64_of_Z 0) with (@s0 (F64 lm)). rewrite R1, R2, A5, A7, A9, K1, K2, K3.
    split; [exact (mean64_near _ M)|exact (dev64_near _ M)].
Qed.
