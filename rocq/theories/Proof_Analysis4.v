(** Exact reals: which bin a sample goes to, densities, centres, means and deviations. *)
From Coq Require Import Reals ZArith List Bool Lia Lra Psatz Permutation.
From Flocq Require Import Core.
From Verif Require Import Base Scalar Model_Analysis Spec_Analysis Proof_Analysis Proof_Time.
Import ListNotations.
Local Open Scope R_scope.

Lemma Rdiv_le_0_compat a b : 0 <= a -> 0 < b -> 0 <= a / b.
Proof. intros. apply Rmult_le_pos; [assumption|]. left. now apply Rinv_0_lt_compat. Qed.
Lemma rr_usize_ok : @usize_ok RR.
Proof. intros x. cbn [as_usize RR]. unfold sat_usize, usize_max. lia. Qed.

Lemma tiny_R : @tiny RR = 1 / 10 ^ 15.
Proof. change (IZR 1 / IZR (10 ^ 15) = 1 / 10 ^ 15). now rewrite (pow_IZR 10 15). Qed.
Lemma clip_R mn : clip_min (S := RR) mn = low_end mn.
Proof. unfold clip_min, low_end. rewrite tiny_R. change (@ltb RR) with Rltb. unfold Rltb. destruct Rlt_dec; reflexivity. Qed.
Lemma low_end_pos mn : 0 < low_end mn.
Proof. unfold low_end. assert (0 < 1 / 10 ^ 15) by (apply Rdiv_lt_0_compat; [lra|apply pow_lt; lra]). destruct Rlt_dec; lra. Qed.

Lemma as_usize_floor (x : R) : 0 <= x -> (Zfloor x <= usize_max)%Z -> as_usize (s := RR) x = Zfloor x.
Proof. intros H L. change (sat_usize (Ztrunc x) = Zfloor x). rewrite Ztrunc_floor by exact H. unfold sat_usize.
  assert (0 <= Zfloor x)%Z by (apply Zfloor_lub; exact H). lia. Qed.
Lemma ceil_bound (x y : R) : 0 <= y -> y < x -> (8 * ceil_usize (S := RR) x <= 2 ^ 63 - 1)%Z ->
  as_usize (s := RR) y = Zfloor y /\ (0 <= Zfloor y < ceil_usize (S := RR) x)%Z.
Proof. intros H0 H. unfold ceil_usize. set (z := as_usize (s := RR) x).
  assert (F0 : (0 <= Zfloor y)%Z) by (apply Zfloor_lub; exact H0).
  assert (Fxy : (Zfloor y <= Zfloor x)%Z) by (apply Zfloor_le; lra).
  destruct (Z_lt_le_dec usize_max (Zfloor x)) as [B|B].
  - assert (Ez : z = usize_max). { unfold z. change (as_usize (s := RR) x) with (sat_usize (Ztrunc x)). rewrite Ztrunc_floor by lra. unfold sat_usize, usize_max in *. lia. }
    rewrite Ez. change (@ltb RR) with Rltb. destruct (Rltb _ _); unfold usize_max; lia.
  - assert (Ez : z = Zfloor x) by (apply as_usize_floor; [lra|exact B]). rewrite Ez.
    change (@ltb RR) with Rltb. change (@of_Z RR) with IZR. destruct (Rltb (IZR (Zfloor x)) x) eqn:E; intros K.
    + assert (Zfloor x + 1 <= usize_max)%Z by (unfold usize_max in *; lia). rewrite Z.min_l in * by lia.
      split; [apply as_usize_floor; [exact H0|lia]|lia].
    + apply Rltb_false in E. assert (Zfloor y < Zfloor x)%Z.
      { apply lt_IZR. pose proof (Zfloor_lb y). lra. }
      split; [apply as_usize_floor; [exact H0|lia]|lia]. Qed.
Lemma ceil_small (x : R) (n : Z) : 0 <= x -> x <= IZR n -> (n <= usize_max)%Z -> (0 <= ceil_usize (S := RR) x <= n)%Z.
Proof. intros H0 H Hn. unfold ceil_usize. assert (F : (0 <= Zfloor x <= n)%Z).
  { split; [apply Zfloor_lub; exact H0|]. apply le_IZR. pose proof (Zfloor_lb x). lra. }
  rewrite as_usize_floor by (auto; lia). change (@ltb RR) with Rltb. change (@of_Z RR) with IZR.
  destruct (Rltb (IZR (Zfloor x)) x) eqn:E; [|lia]. apply Rltb_spec in E.
  assert (Zfloor x < n)%Z by (apply lt_IZR; lra). lia. Qed.

Lemma floor_nat (q : R) (i : nat) : 0 <= q -> (Nat.eqb i (Z.to_nat (Zfloor q)) = true <-> INR i <= q < INR (S i)).
Proof. intros H. assert (F0 : (0 <= Zfloor q)%Z) by (apply Zfloor_lub; exact H). rewrite Nat.eqb_eq, S_INR, INR_IZR_INZ.
  pose proof (Zfloor_lb q). pose proof (Zfloor_ub q). split.
  - intros ->. rewrite Z2Nat.id by exact F0. lra.
  - intros [U1 U2]. assert (Zfloor q = Z.of_nat i); [|lia]. apply Zfloor_imp. rewrite plus_IZR. lra. Qed.

Lemma between_R m M x : between (S := RR) m M x = true <-> m <= x <= M.
Proof. unfold between. change (@ltb RR) with Rltb. rewrite andb_true_iff, !negb_true_iff, !Rltb_false. tauto. Qed.
Lemma cell_R lo hi x : cell lo hi x = true <-> lo <= x < hi.
Proof. unfold cell. rewrite andb_true_iff, Rleb_spec, Rltb_spec. tauto. Qed.
Lemma bool_iff (a b : bool) : (a = true <-> b = true) -> a = b.
Proof. destruct a, b; intuition congruence. Qed.

Section Conf.
Variables (mn mx b l : R) (a0 : tana RR).
Hypothesis (HF : ta_fresh (S := RR) mn mx b l = Ok a0) (Hb : 0 < b) (Hl : 1 < l).
Let m := low_end mn.

Lemma conf_bins : exists B, ta_bins a0 = B /\ b_min B = m /\ b_max B = mx /\ b_size B = b /\ b_lsize B = l /\
  b_num B = ceil_usize (S := RR) ((mx - m) / b + 1 / 2) /\ b_lnum B = ceil_usize (S := RR) (ln (mx / m) / ln 2 / (ln l / ln 2) + 1 / 2) /\
  (8 * b_num B <= 2 ^ 63 - 1)%Z /\ (8 * b_lnum B <= 2 ^ 63 - 1)%Z /\
  a0 = Tana (S := RR) 0 0 0 B (repeat 0 (Z.to_nat (b_num B))) (repeat 0 (Z.to_nat (b_lnum B))) (repeat 0%nat (Z.to_nat (b_num B))) (repeat 0%nat (Z.to_nat (b_lnum B))).
Proof. apply ta_fresh_inv in HF. destruct HF as (B & HB & E & Ea & K1 & K2). exists B. split; [exact E|].
  apply from_bin_size_inv in HB. rewrite clip_R in HB. destruct HB as (E1 & E2 & E3 & E4 & E5 & E6 & _).
  repeat split; assumption. Qed.

Lemma ln_l : 0 < ln l. Proof. rewrite <- ln_1. apply ln_increasing; lra. Qed.
Lemma ln_2 : 0 < ln 2. Proof. rewrite <- ln_1. apply ln_increasing; lra. Qed.
Lemma log_ratio (y : R) : ln y / ln 2 / (ln l / ln 2) = ln y / ln l.
Proof. pose proof ln_l. pose proof ln_2. field. lra. Qed.

Lemma lin_pos x : m <= x <= mx -> bin_pos (ta_bins a0) x = Some (Zfloor ((x - m) / b)) /\ (0 <= Zfloor ((x - m) / b) < b_num (ta_bins a0))%Z /\ 0 <= (x - m) / b.
Proof. intros Hx. destruct conf_bins as (B & -> & E1 & E2 & E3 & E4 & E5 & E6 & K1 & K2 & _).
  assert (Q0 : 0 <= (x - m) / b) by (apply Rdiv_le_0_compat; lra).
  assert (Q1 : (x - m) / b < (mx - m) / b + 1 / 2).
  { assert ((x - m) / b <= (mx - m) / b); [|lra]. unfold Rdiv. apply Rmult_le_compat_r; [left; now apply Rinv_0_lt_compat|lra]. }
  rewrite E5 in K1 |- *. destruct (ceil_bound _ _ Q0 Q1 K1) as [A F].
  split; [|split; [exact F|exact Q0]]. rewrite (proj1 (bin_pos_cases B x)), E1, E2, (proj2 (between_R m mx x) Hx).
  f_equal. rewrite <- A, E3. reflexivity. Qed.
Lemma log_pos x : m <= x <= mx -> lbin_pos (ta_bins a0) x = Some (Zfloor (ln (x / m) / ln l)) /\ (0 <= Zfloor (ln (x / m) / ln l) < b_lnum (ta_bins a0))%Z /\ 0 <= ln (x / m) / ln l.
Proof. intros Hx. destruct conf_bins as (B & -> & E1 & E2 & E3 & E4 & E5 & E6 & K1 & K2 & _).
  pose proof (low_end_pos mn) as Hm. fold m in Hm. pose proof ln_l as Hln.
  assert (R1 : 1 <= x / m). { apply Rmult_le_reg_r with m; [exact Hm|]. unfold Rdiv. rewrite Rmult_assoc, Rinv_l by lra. lra. }
  assert (L0 : 0 <= ln (x / m)). { destruct R1 as [R1|R1]; [|rewrite <- R1, ln_1; lra]. rewrite <- ln_1. left. apply ln_increasing; lra. }
  assert (L1 : ln (x / m) <= ln (mx / m)).
  { destruct (Req_dec x mx) as [->|]; [lra|]. left. apply ln_increasing; [lra|]. unfold Rdiv. apply Rmult_lt_compat_r; [now apply Rinv_0_lt_compat|lra]. }
  assert (Q0 : 0 <= ln (x / m) / ln l) by (apply Rdiv_le_0_compat; lra).
  assert (Q1 : ln (x / m) / ln l < ln (mx / m) / ln l + 1 / 2).
  { assert (ln (x / m) / ln l <= ln (mx / m) / ln l); [|lra]. unfold Rdiv. apply Rmult_le_compat_r; [left; now apply Rinv_0_lt_compat|lra]. }
  rewrite log_ratio in E6. rewrite E6 in K2 |- *. destruct (ceil_bound _ _ Q0 Q1 K2) as [A F].
  split; [|split; [exact F|exact Q0]]. rewrite (proj2 (bin_pos_cases B x)), E1, E2, (proj2 (between_R m mx x) Hx).
  f_equal. rewrite <- A, E4. f_equal. exact (log_ratio (x / m)). Qed.

Lemma out_pos x : ~ (m <= x <= mx) -> bin_pos (ta_bins a0) x = None /\ lbin_pos (ta_bins a0) x = None.
Proof. intros Hx. destruct conf_bins as (B & -> & E1 & E2 & _). rewrite (proj1 (bin_pos_cases B x)), (proj2 (bin_pos_cases B x)), E1, E2.
  destruct (between (S := RR) m mx x) eqn:E; [apply between_R in E; contradiction|auto]. Qed.

Lemma pow_l_pos i : 0 < l ^ i. Proof. apply pow_lt. lra. Qed.
Lemma ln_pow_l i : ln (l ^ i) = INR i * ln l.
Proof. rewrite <- Rpower_pow by lra. unfold Rpower. now rewrite ln_exp. Qed.
Lemma pow_le_ln i y : 0 < y -> (l ^ i <= y <-> INR i * ln l <= ln y).
Proof. intros Hy. rewrite <- ln_pow_l. pose proof (pow_l_pos i). split; intros H0.
  - destruct H0 as [H0| <-]; [left; now apply ln_increasing|lra].
  - destruct (Rle_or_lt (l ^ i) y) as [|C]; [assumption|]. apply ln_increasing in C; [lra|exact Hy]. Qed.

Lemma hit_lin (x : R) i : hit i (bin_pos (ta_bins a0) x) = (between (S := RR) m mx x && cell (edge m b i) (edge m b (S i)) x)%bool.
Proof. destruct (between (S := RR) m mx x) eqn:Hx.
  - apply between_R in Hx. destruct (lin_pos x Hx) as (-> & F & Q0). cbn [hit andb]. apply bool_iff. rewrite (floor_nat _ _ Q0), cell_R. unfold edge.
    set (q := (x - m) / b) in *. assert (Ex : x = m + q * b) by (unfold q; field; lra). rewrite Ex. split; intros [H1 H2]; split; nra.
  - cbn [andb]. destruct (out_pos x) as [-> _]; [|reflexivity]. intros C. apply between_R in C. congruence. Qed.
Lemma hit_log (x : R) i : hit i (lbin_pos (ta_bins a0) x) = (between (S := RR) m mx x && cell (ledge m l i) (ledge m l (S i)) x)%bool.
Proof. pose proof ln_l as Hln. pose proof (low_end_pos mn) as Hm. fold m in Hm. destruct (between (S := RR) m mx x) eqn:Hx.
  - apply between_R in Hx. destruct (log_pos x Hx) as (-> & F & Q0). cbn [hit andb]. apply bool_iff. rewrite (floor_nat _ _ Q0), cell_R. unfold ledge.
    assert (Hy : 0 < x / m) by (apply Rdiv_lt_0_compat; lra).
    assert (C : forall k, m * l ^ k <= x <-> INR k <= ln (x / m) / ln l).
    { intros k. assert (T : m * l ^ k <= x <-> l ^ k <= x / m).
      { assert (Ex : x = m * (x / m)) by (field; lra). split; intros T; [apply (Rmult_le_reg_l m); [exact Hm|]; lra|rewrite Ex; apply Rmult_le_compat_l; lra]. }
      rewrite T, pow_le_ln by exact Hy. split; intros U.
      - apply (Rmult_le_reg_r (ln l)); [exact Hln|]. replace (ln (x / m) / ln l * ln l) with (ln (x / m)) by (field; lra). exact U.
      - apply (Rmult_le_compat_r (ln l)) in U; [|lra]. replace (ln (x / m) / ln l * ln l) with (ln (x / m)) in U by (field; lra). exact U. }
    rewrite C. split; intros [H1 H2]; split; auto.
    + destruct (Rlt_or_le x (m * l ^ S i)) as [|D]; [assumption|]. apply C in D. lra.
    + destruct (Rlt_or_le (ln (x / m) / ln l) (INR (S i))) as [|D]; [assumption|]. apply C in D. lra.
  - cbn [andb]. destruct (out_pos x) as [_ ->]; [|reflexivity]. intros C. apply between_R in C. congruence. Qed.

Lemma lens : length (ta_count a0) = Z.to_nat (b_num (ta_bins a0)) /\ length (ta_lcount a0) = Z.to_nat (b_lnum (ta_bins a0)).
Proof. destruct conf_bins as (B & EB & _ & _ & _ & _ & _ & _ & _ & _ & E). rewrite EB, E. cbn. now rewrite !repeat_length. Qed.
Lemma no_offence (x : R) : offends a0 x = false.
Proof. unfold offends. destruct lens as [-> ->].
  assert (D : m <= x <= mx \/ ~ (m <= x <= mx)) by lra. destruct D as [D|D].
  - destruct (lin_pos x D) as (-> & F & _), (log_pos x D) as (-> & G & _). cbn [bad].
    apply orb_false_iff. rewrite !negb_false_iff, !Z.ltb_lt. split; lia.
  - destruct (out_pos x D) as [-> ->]. reflexivity. Qed.

(** C36/C37: no sample makes the analysis fail, and every count is the number of samples in that bin's interval. *)
Lemma exact_histogram xs : exists a, ta_adds a0 xs = Ok a /\ ta_ens a = length xs /\
  length (ta_count a) = Z.to_nat (b_num (ta_bins a0)) /\ length (ta_lcount a) = Z.to_nat (b_lnum (ta_bins a0)) /\
  (forall i, nth i (ta_count a) 0%nat = hits m mx b xs i) /\ (forall i, nth i (ta_lcount a) 0%nat = lhits m mx l xs i).
Proof. pose proof (ta_adds_cases xs rr_usize_ok a0) as C.
  replace (existsb (offends a0) xs) with false in C.
  2:{ symmetry. induction xs as [|x xs IH]; cbn; [reflexivity|]. rewrite no_offence. exact (IH (ta_adds_cases xs rr_usize_ok a0)). }
  destruct C as [a Ha]. exists a. split; [exact Ha|]. destruct (bookkeeping _ _ _ _ _ _ _ HF Ha) as (H1 & _ & _ & H2 & H3).
  pose proof (ta_adds_inv _ _ _ Ha) as (_ & _ & _ & _ & L1 & L2 & _). destruct lens as [K1 K2].
  split; [exact H1|]. split; [rewrite L1; exact K1|]. split; [rewrite L2; exact K2|].
  split; intros i; [rewrite H2|rewrite H3]; apply number_ext; intros x _; [apply hit_lin|apply hit_log]. Qed.

(** Every sample in the range is in the interval of some allocated bin. *)
Lemma in_some_bin x : m <= x <= mx ->
  (exists i, (i < Z.to_nat (b_num (ta_bins a0)))%nat /\ edge m b i <= x < edge m b (S i)) /\
  (exists i, (i < Z.to_nat (b_lnum (ta_bins a0)))%nat /\ ledge m l i <= x < ledge m l (S i)).
Proof. intros Hx. assert (Bx := Hx). apply between_R in Bx. split.
  - destruct (lin_pos x Hx) as (P & F & _). exists (Z.to_nat (Zfloor ((x - m) / b))). split; [lia|].
    apply cell_R. pose proof (hit_lin x (Z.to_nat (Zfloor ((x - m) / b)))) as H. rewrite P, Bx in H. cbn [hit andb] in H. rewrite <- H. apply Nat.eqb_refl.
  - destruct (log_pos x Hx) as (P & F & _). exists (Z.to_nat (Zfloor (ln (x / m) / ln l))). split; [lia|].
    apply cell_R. pose proof (hit_log x (Z.to_nat (Zfloor (ln (x / m) / ln l)))) as H. rewrite P, Bx in H. cbn [hit andb] in H. rewrite <- H. apply Nat.eqb_refl. Qed.
End Conf.

(** A configuration is accepted when the numbers of bins are not astronomical. *)
Lemma fresh_ok mn mx b l : 0 <= mn -> low_end mn <= mx -> 0 < b -> 1 < l -> (mx - low_end mn) / b <= 2 ^ 59 -> ln (mx / low_end mn) / ln l <= 2 ^ 59 ->
  exists a0, ta_fresh (S := RR) mn mx b l = Ok a0.
Proof. intros H0 H1 Hb Hl B1 B2. pose proof (low_end_pos mn) as Hm.
  assert (Hln : 0 < ln l) by (rewrite <- ln_1; apply ln_increasing; lra). assert (Hln2 : 0 < ln 2) by (rewrite <- ln_1; apply ln_increasing; lra).
  assert (Hmn : mn <= low_end mn) by (unfold low_end; destruct Rlt_dec; lra).
  unfold ta_fresh, from_bin_size. change (@ltb RR) with Rltb. change (@s0 RR) with 0.
  replace (Rltb mn 0 || Rltb mx mn || Rltb b 0 || Rltb l 0)%bool with false
    by (symmetry; rewrite !orb_false_iff, !Rltb_false; lra).
  cbv zeta. rewrite clip_R. set (m := low_end mn) in *.
  assert (P31 : (2 ^ 59 = IZR (2 ^ 59))%R) by exact (pow_IZR 2 59). rewrite P31 in B1, B2.
  assert (N1 : (0 <= ceil_usize (S := RR) ((mx - m) / b + 1 / 2)%R <= 2 ^ 59 + 1)%Z).
  { apply ceil_small; [assert (0 <= (mx - m) / b) by (apply Rdiv_le_0_compat; lra); lra| |unfold usize_max; lia]. rewrite plus_IZR. lra. }
  assert (L0 : 0 <= ln (mx / m)).
  { assert (1 <= mx / m). { apply Rmult_le_reg_r with m; [exact Hm|]. unfold Rdiv. rewrite Rmult_assoc, Rinv_l by lra. lra. }
    destruct H as [H|H]; [|rewrite <- H, ln_1; lra]. rewrite <- ln_1. left. apply ln_increasing; lra. }
  assert (N2 : (0 <= ceil_usize (S := RR) (ln (mx / m) / ln 2 / (ln l / ln 2) + 1 / 2)%R <= 2 ^ 59 + 1)%Z).
  { replace (ln (mx / m) / ln 2 / (ln l / ln 2)) with (ln (mx / m) / ln l) by (field; lra).
    apply ceil_small; [assert (0 <= ln (mx / m) / ln l) by (apply Rdiv_le_0_compat; lra); lra| |unfold usize_max; lia]. rewrite plus_IZR. lra. }
  cbn [bind]. apply alloc_fresh.
  - refine (Z.le_trans _ (8 * (2 ^ 59 + 1)) _ (Zmult_le_compat_l _ _ 8 (proj2 N1) _) _); lia.
  - refine (Z.le_trans _ (8 * (2 ^ 59 + 1)) _ (Zmult_le_compat_l _ _ 8 (proj2 N2) _) _); lia. Qed.
