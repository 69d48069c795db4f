(** Exact reals: densities, centres, normalisation, means and deviations; configuration by number of bins. *)
From Coq Require Import Reals ZArith List Bool Lia Lra Psatz Permutation.
From Flocq Require Import Core.
From Verif Require Import Base Scalar Model_Analysis Spec_Analysis Proof_Analysis Proof_Analysis4 Proof_Time.
Import ListNotations.
Local Open Scope R_scope.

Lemma ofnat_R n : @of_Z RR (Z.of_nat n) = INR n.
Proof. symmetry. apply INR_IZR_INZ. Qed.

Lemma fill_lin_R (w : R) c : forall h : list R, length h = length c -> fill_lin (S := RR) c w h = Ok (map (fun n => INR n / w) c).
Proof. induction c as [|n c IH]; intros [|y h] L; try discriminate; [reflexivity|]. cbn [length] in L.
  cbn [fill_lin]. rewrite IH by lia. cbn [bind map]. rewrite ofnat_R. reflexivity. Qed.
Lemma fill_R (g : R) c : forall (w : R) (h : list R), length h = length c ->
  fill (S := RR) c w g h = Ok (map (fun i => INR (nth i c 0%nat) / (w * g ^ i)) (seq 0 (length c))).
Proof. induction c as [|n c IH]; intros w [|y h] L; try discriminate; [reflexivity|]. cbn [length] in L.
  cbn [fill]. change (@mul RR w g) with (w * g). rewrite IH by lia. cbn [bind length seq map]. rewrite ofnat_R. f_equal. f_equal.
  - cbn [pow nth]. now rewrite Rmult_1_r.
  - rewrite <- seq_shift, map_map. apply map_ext. intros i. cbn [nth pow]. f_equal. ring. Qed.

Lemma filter_big c n x T : filter big_enough ((c, n, x) :: T) = if Rltb (Rabs x) (1 / 10 ^ 15) then filter big_enough T else (c, n, x) :: filter big_enough T.
Proof. cbn [filter]. unfold big_enough at 1. cbn [snd]. destruct (Rltb _ _); reflexivity. Qed.
Lemma rows_lin_R (s : R) (cnt : list nat) (h : list R) : forall (t : R) i, (i + length h <= length cnt)%nat ->
  rows_lin (S := RR) t s h i cnt =
  Ok (filter big_enough (map (fun k => (t + INR (S k) * s, nth (i + k) cnt 0%nat, nth k h 0)) (seq 0 (length h)))).
Proof. induction h as [|x h IH]; intros t i L; [reflexivity|]. cbn [length] in L. cbn [rows_lin]. change (@add RR t s) with (t + s).
  rewrite (IH (t + s) (S i)) by lia. cbn [length seq map].
  assert (Tl : map (fun k => (t + s + INR (S k) * s, nth (S i + k) cnt 0%nat, nth k h 0)) (seq 0 (length h)) =
    map (fun k => (t + INR (S k) * s, nth (i + k) cnt 0%nat, nth k (x :: h) 0)) (seq 1 (length h))).
  { rewrite <- seq_shift, map_map. apply map_ext. intros k. rewrite (S_INR (S k)). f_equal. f_equal.
    - lra. - f_equal. lia. }
  rewrite Tl, filter_big. rewrite tiny_R. change (@fabs RR) with Rabs. change (@ltb RR) with Rltb. cbn [nth].
  destruct (Rltb (Rabs x) (1 / 10 ^ 15)); [reflexivity|].
  assert (Ei : idx cnt i = Ok (nth i cnt 0%nat)). { unfold idx. rewrite (nth_error_nth' cnt 0%nat) by lia. reflexivity. }
  rewrite Ei. cbn [bind]. rewrite Nat.add_0_r. change (INR 1) with 1. rewrite Rmult_1_l. reflexivity. Qed.
Lemma rows_log_R (s : R) (cnt : list nat) (h : list R) : forall (t : R) i, (i + length h <= length cnt)%nat ->
  rows_log (S := RR) t s h i cnt =
  Ok (filter big_enough (map (fun k => (t * s ^ S k, nth (i + k) cnt 0%nat, nth k h 0)) (seq 0 (length h)))).
Proof. induction h as [|x h IH]; intros t i L; [reflexivity|]. cbn [length] in L. cbn [rows_log]. change (@mul RR t s) with (t * s).
  rewrite (IH (t * s) (S i)) by lia. cbn [length seq map].
  assert (Tl : map (fun k => (t * s * s ^ S k, nth (S i + k) cnt 0%nat, nth k h 0)) (seq 0 (length h)) =
    map (fun k => (t * s ^ S k, nth (i + k) cnt 0%nat, nth k (x :: h) 0)) (seq 1 (length h))).
  { rewrite <- seq_shift, map_map. apply map_ext. intros k. f_equal. f_equal.
    - cbn [pow]. ring. - f_equal. lia. }
  rewrite Tl, filter_big. rewrite tiny_R. change (@fabs RR) with Rabs. change (@ltb RR) with Rltb. cbn [nth].
  destruct (Rltb (Rabs x) (1 / 10 ^ 15)); [reflexivity|].
  assert (Ei : idx cnt i = Ok (nth i cnt 0%nat)). { unfold idx. rewrite (nth_error_nth' cnt 0%nat) by lia. reflexivity. }
  rewrite Ei. cbn [bind]. rewrite Nat.add_0_r. replace (t * s ^ 1) with (t * s) by (cbn; ring). reflexivity. Qed.

Lemma fold_add xs : forall s : R, fold_left (@add RR) xs s = s + rsum xs.
Proof. induction xs as [|x xs IH]; intros s; cbn [fold_left rsum fold_right]; [lra|]. rewrite IH. change (@add RR s x) with (s + x). unfold rsum. lra. Qed.
Lemma fold_sq xs : forall s : R, fold_left (fun s x => @add RR s (@mul RR x x)) xs s = s + rsum (map (fun x => x ^ 2) xs).
Proof. induction xs as [|x xs IH]; intros s; cbn [fold_left rsum fold_right map]; [lra|]. rewrite IH.
  change (@add RR s (@mul RR x x)) with (s + x * x). unfold rsum. cbn [pow]. lra. Qed.

Lemma deviation_eq xs : xs <> [] -> deviation xs = sqrt (rsum (map (fun x => x ^ 2) xs) / INR (length xs) - average xs * average xs).
Proof. intros H. unfold deviation. f_equal. set (mu := average xs).
  assert (N : INR (length xs) <> 0) by (destruct xs; [congruence|]; apply not_0_INR; discriminate).
  assert (E : forall l, rsum (map (fun x => (x - mu) ^ 2) l) = rsum (map (fun x => x ^ 2) l) - 2 * mu * rsum l + INR (length l) * mu ^ 2).
  { induction l as [|x l IH]; [unfold rsum; cbn; lra|]. cbn [map length]. rewrite S_INR. unfold rsum in *. cbn [fold_right]. rewrite IH. ring. }
  unfold average at 1. rewrite map_length, E. assert (R : rsum xs = mu * INR (length xs)) by (unfold mu, average; field; exact N).
  rewrite R. field. exact N. Qed.

Lemma rsum_scale (k : R) (c : list nat) : rsum (map (fun n => INR n * k) c) = INR (list_sum c) * k.
Proof. induction c as [|n c IH]; unfold rsum in *; [cbn; lra|]. cbn [map fold_right]. rewrite IH. change (list_sum (n :: c)) with (n + list_sum c)%nat. rewrite plus_INR. ring. Qed.
Lemma map_nth_seq {A} (f : nat -> A) (l : list nat) : map f l = map (fun i => f (nth i l 0%nat)) (seq 0 (length l)).
Proof. induction l as [|x l IH]; [reflexivity|]. cbn [length seq map]. f_equal. rewrite IH, <- seq_shift, map_map. reflexivity. Qed.
Lemma nth_map_seq {A} (f : nat -> A) n i d : (i < n)%nat -> nth i (map f (seq 0 n)) d = f i.
Proof. intros H. rewrite nth_indep with (d' := f 0%nat) by (rewrite map_length, seq_length; exact H). rewrite map_nth, seq_nth by exact H. reflexivity. Qed.
Lemma rsum_ext {A} (f g : A -> R) l : (forall x, In x l -> f x = g x) -> rsum (map f l) = rsum (map g l).
Proof. intros H. f_equal. now apply map_ext_in. Qed.

Section Drawn.
Variables (mn mx b l : R) (a0 a r : tana RR) (xs : list R).
Hypothesis (HF : ta_fresh (S := RR) mn mx b l = Ok a0) (Hb : 0 < b) (Hl : 1 < l).
Hypothesis (Ha : ta_adds a0 xs = Ok a) (Hd : ta_draw a = Ok r) (Hx : xs <> []).
Let m := low_end mn.
Let N := INR (length xs).

Lemma N_pos : 0 < N. Proof. unfold N. destruct xs; [congruence|]. apply lt_0_INR. cbn. lia. Qed.

Lemma facts : ta_ens a = length xs /\ (forall i, nth i (ta_count a) 0%nat = hits m mx b xs i) /\ (forall i, nth i (ta_lcount a) 0%nat = lhits m mx l xs i) /\
  length (ta_hist a) = length (ta_count a) /\ length (ta_lhist a) = length (ta_lcount a) /\ b_min (ta_bins a) = m /\ b_size (ta_bins a) = b /\ b_lsize (ta_bins a) = l /\
  ta_mean a = rsum xs /\ ta_sq a = rsum (map (fun x => x ^ 2) xs).
Proof. destruct (exact_histogram _ _ _ _ _ HF Hb Hl xs) as (a' & E & H1 & L1 & L2 & H2 & H3). rewrite Ha in E. injection E as <-.
  pose proof (ta_adds_inv _ _ _ Ha) as (B & Hh & Hlh & _ & _ & _ & Mn & Sq & _).
  destruct (conf_bins _ _ _ _ _ HF) as (B0 & EB & E1 & E2 & E3 & E4 & _ & _ & _ & _ & E).
  assert (Z : ta_hist a0 = repeat 0 (Z.to_nat (b_num B0)) /\ ta_lhist a0 = repeat 0 (Z.to_nat (b_lnum B0)) /\ ta_mean a0 = 0 /\ ta_sq a0 = 0) by (rewrite E; auto).
  destruct Z as (Z1 & Z2 & Z3 & Z4). clear E. rewrite EB in *.
  split; [exact H1|]. split; [exact H2|]. split; [exact H3|]. rewrite Hh, Hlh, Z1, Z2, !repeat_length, L1, L2, B.
  do 5 (split; [auto|]). split.
  - rewrite Mn, Z3. exact (eq_trans (fold_add xs 0) (Rplus_0_l _)).
  - rewrite Sq, Z4. exact (eq_trans (fold_sq xs 0) (Rplus_0_l _)). Qed.

Lemma draw_R : ta_count r = ta_count a /\ ta_lcount r = ta_lcount a /\ ta_ens r = length xs /\ ta_bins r = ta_bins a /\
  ta_hist r = map (fun n => INR n / (N * b)) (ta_count a) /\
  ta_lhist r = map (fun i => INR (nth i (ta_lcount a) 0%nat) / (N * (ledge m l (S i) - ledge m l i))) (seq 0 (length (ta_lcount a))) /\
  ta_mean r = average xs /\ ta_sq r = deviation xs.
Proof. destruct facts as (En & _ & _ & L1 & L2 & B1 & B2 & B3 & Mn & Sq). revert Hd. unfold ta_draw. cbv zeta. rewrite B1, B2, B3, Mn, Sq, En, ofnat_R.
  intros H. change (@mul RR (INR (length xs)) b) with (N * b) in H. rewrite (fill_lin_R (N * b) (ta_count a) (ta_hist a) L1) in H. cbn [bind] in H.
  change (@mul RR (@mul RR m (INR (length xs))) (@sub RR l s1)) with (m * N * (l - 1)) in H.
  rewrite (fill_R l (ta_lcount a) (m * N * (l - 1)) (ta_lhist a) L2) in H. cbn [bind] in H. injection H as <-.
  cbn [ta_count ta_lcount ta_ens ta_bins ta_hist ta_lhist ta_mean ta_sq]. do 5 (split; [auto|]). split; [|split; [reflexivity|]].
  - apply map_ext. intros i. f_equal. unfold ledge. cbn [pow]. ring.
  - rewrite deviation_eq by exact Hx. reflexivity. Qed.

Lemma len_R : length (ta_count a) = Z.to_nat (b_num (ta_bins a0)) /\ length (ta_lcount a) = Z.to_nat (b_lnum (ta_bins a0)).
Proof. destruct (exact_histogram _ _ _ _ _ HF Hb Hl xs) as (a' & E & _ & L1 & L2 & _). rewrite Ha in E. injection E as <-. auto. Qed.

Lemma densities :
  ta_hist r = map (fun i => INR (hits m mx b xs i) / (N * b)) (seq 0 (Z.to_nat (b_num (ta_bins a0)))) /\
  ta_lhist r = map (fun i => INR (lhits m mx l xs i) / (N * (ledge m l (S i) - ledge m l i))) (seq 0 (Z.to_nat (b_lnum (ta_bins a0)))).
Proof. destruct facts as (_ & C1 & C2 & _). destruct draw_R as (_ & _ & _ & _ & -> & -> & _). destruct len_R as [<- <-]. split.
  - rewrite map_nth_seq. apply map_ext. intros i. now rewrite C1.
  - apply map_ext. intros i. now rewrite C2. Qed.

Lemma normalised :
  rsum (map (fun h => h * b) (ta_hist r)) = INR (number_of (between (S := RR) m mx) xs) / N /\
  rsum (map (fun i => nth i (ta_lhist r) 0 * (ledge m l (S i) - ledge m l i)) (seq 0 (length (ta_lhist r)))) = INR (number_of (between (S := RR) m mx) xs) / N.
Proof. pose proof N_pos as HN. destruct (bookkeeping _ _ _ _ _ _ _ HF Ha) as (_ & S1 & S2 & _). rewrite clip_R in S1, S2. fold m in S1, S2.
  destruct draw_R as (_ & _ & _ & _ & -> & -> & _). split.
  - rewrite map_map. rewrite <- S1. rewrite (rsum_ext _ (fun n => INR n * / N)).
    + now rewrite rsum_scale.
    + intros n _. field. lra.
  - rewrite map_length, seq_length. rewrite <- S2. unfold Rdiv at 2. rewrite <- (rsum_scale (/ N) (ta_lcount a)).
    rewrite (map_nth_seq (fun n => INR n * / N)). apply rsum_ext. intros i Hi. apply in_seq in Hi.
    rewrite nth_map_seq by lia. field.
    assert (0 < ledge m l (S i) - ledge m l i).
    { unfold ledge. cbn [pow]. pose proof (low_end_pos mn) as Hm. fold m in Hm. assert (0 < l ^ i) by (apply pow_lt; lra).
      replace (m * (l * l ^ i) - m * l ^ i) with (m * l ^ i * (l - 1)) by ring. apply Rmult_lt_0_compat; [nra|lra]. }
    lra. Qed.

Lemma exported :
  ta_export_lin r = Ok (filter big_enough (map (fun i => (edge m b i + b / 2, hits m mx b xs i, INR (hits m mx b xs i) / (N * b))) (seq 0 (Z.to_nat (b_num (ta_bins a0)))))) /\
  ta_export_log r = Ok (filter big_enough (map (fun i => (ledge m l i * sqrt l, lhits m mx l xs i, INR (lhits m mx l xs i) / (N * (ledge m l (S i) - ledge m l i)))) (seq 0 (Z.to_nat (b_lnum (ta_bins a0)))))).
Proof. destruct facts as (_ & C1 & C2 & _ & _ & B1 & B2 & B3 & _). destruct draw_R as (K1 & K2 & _ & KB & _). destruct len_R as [L1 L2]. destruct densities as [D1 D2].
  assert (LH1 : length (ta_hist r : list R) = Z.to_nat (b_num (ta_bins a0))) by (rewrite D1, map_length, seq_length; reflexivity).
  assert (LH2 : length (ta_lhist r : list R) = Z.to_nat (b_lnum (ta_bins a0))) by (rewrite D2, map_length, seq_length; reflexivity).
  unfold ta_export_lin, ta_export_log. rewrite KB, B1, B2, B3, K1, K2. split.
  - change (@sub RR m (@div RR b s2)) with (m - b / 2).
    rewrite (rows_lin_R b (ta_count a) (ta_hist r) (m - b / 2) 0) by (rewrite L1; apply Nat.eq_le_incl; exact LH1). f_equal. f_equal. rewrite LH1. apply map_ext_in. intros i Hi. apply in_seq in Hi.
    cbn [Nat.add]. rewrite C1. f_equal; [f_equal|].
    + unfold edge. rewrite S_INR. lra.
    + rewrite D1, nth_map_seq by lia. reflexivity.
  - change (@div RR m (@fsqrt RR l)) with (m / sqrt l).
    rewrite (rows_log_R l (ta_lcount a) (ta_lhist r) (m / sqrt l) 0) by (rewrite L2; apply Nat.eq_le_incl; exact LH2). f_equal. f_equal. rewrite LH2. apply map_ext_in. intros i Hi. apply in_seq in Hi.
    cbn [Nat.add]. rewrite C2. f_equal; [f_equal|].
    + unfold ledge. cbn [pow]. assert (S0 : 0 < sqrt l) by (apply sqrt_lt_R0; lra). replace l with (sqrt l * sqrt l) at 2 by (apply sqrt_sqrt; lra). field. lra.
    + rewrite D2, nth_map_seq by lia. reflexivity. Qed.

Lemma moments : ta_mean r = average xs /\ ta_sq r = deviation xs /\ ta_ens r = length xs.
Proof. destruct draw_R as (_ & _ & En & _ & _ & _ & M & D). auto. Qed.
End Drawn.

(** Order of the samples, exact reals: the whole analysis is the same. *)
Lemma rsum_perm l l' : Permutation l l' -> rsum l = rsum l'.
Proof. unfold rsum. induction 1; cbn [fold_right]; lra. Qed.
Lemma adds_perm_R (xs ys : list R) (a : tana RR) : Permutation xs ys -> ta_adds a xs = ta_adds a ys.
Proof. intros P. pose proof (tally_perm (S := RR) xs ys a rr_usize_ok P) as T.
  pose proof (ta_adds_cases (S := RR) xs rr_usize_ok a) as Cx. pose proof (ta_adds_cases (S := RR) ys rr_usize_ok a) as Cy.
  rewrite (existsb_perm (offends a) _ _ P) in Cx. destruct (existsb (offends a) ys); [rewrite Cx, Cy; reflexivity|].
  destruct Cx as [a1 E1], Cy as [a2 E2]. rewrite E1, E2 in T |- *. cbn in T. injection T as T1 T2 T3 T4.
  apply ta_adds_inv in E1, E2. destruct E1 as (_ & H1 & L1 & _ & _ & _ & M1 & Q1 & _), E2 as (_ & H2 & L2 & _ & _ & _ & M2 & Q2 & _).
  f_equal. destruct a1, a2. cbn in *. f_equal; try congruence.
  - rewrite M1, M2. rewrite (fold_add xs), (fold_add ys). f_equal. now apply rsum_perm.
  - rewrite Q1, Q2. refine (eq_trans (fold_sq xs _) (eq_trans _ (eq_sym (fold_sq ys _)))). f_equal. apply rsum_perm. now apply Permutation_map. Qed.
