(** Exact reals: the vector and process analyses, from the samples to the exported rows. *)
From Coq Require Import Reals ZArith List Bool Lia Lra Psatz Permutation.
From Flocq Require Import Core.
From Verif Require Import Base Scalar Model_Analysis Spec_Analysis Proof_Analysis Proof_Analysis2 Proof_Analysis3 Proof_Analysis4 Proof_Analysis5 Proof_Analysis6 Proof_Time.
Import ListNotations.
Local Open Scope R_scope.


Lemma tv_adds_vhistory {S : scalar} rows : forall a : tvec S, tv_adds a rows = vhistory a (map VAdd rows).
Proof. induction rows as [|x rows IH]; intros a; cbn; auto. destruct (tv_add a x); cbn; auto. Qed.
Lemma op_col_adds {S : scalar} (rows : list (list S)) k : forall t : tana S, history t (map (op_column k) (map VAdd rows)) = ta_adds t (map (fun row => nth k row s0) rows).
Proof. induction rows as [|x rows IH]; intros t; cbn; auto. destruct (ta_add t (nth k x s0)) eqn:E; cbn; auto. Qed.

Lemma nth_error_nths {A} (l : list A) k x d : nth_error l k = Some x -> nth k l d = x.
Proof. intros H. now apply nth_error_nth. Qed.

Section VecExport.
Variables (mn mx b l : R) (n : nat) (a0 a r : tvec RR) (rows : list (list R)).
Hypotheses (HF : tv_fresh (S := RR) mn mx b l n = Ok a0) (Hb : 0 < b) (Hl : 1 < l) (Hn : n <> 0%nat).
Hypotheses (Ha : tv_adds a0 rows = Ok a) (Hd : tv_draw a = Ok r) (Hr : rows <> []).
Let m := low_end mn.
Let N := INR (length rows).

Lemma tv_cols : regular n a /\ regular n r /\ tv_bins r = tv_bins a0 /\
  exists t0, ta_fresh (S := RR) mn mx b l = Ok t0 /\ ta_bins t0 = tv_bins a0 /\
  forall k, (k < n)%nat -> exists t u, ta_adds t0 (column k rows) = Ok t /\ ta_draw t = Ok u /\ column_of k r = Some u.
Proof. destruct (tv_fresh_col _ _ _ _ _ _ HF) as (R0 & t0 & E0 & C0).
  assert (Hh := Ha). rewrite (tv_adds_vhistory (S := RR)) in Hh. destruct (vhistory_col _ _ Hn _ _ R0 Hh) as (R1 & _ & C1).
  destruct (tv_draw_col _ _ _ R1 Hd) as (R2 & C2). split; [exact R1|]. split; [exact R2|].
  assert (C3 : forall k, (k < n)%nat -> exists t u, ta_adds t0 (column k rows) = Ok t /\ ta_draw t = Ok u /\ column_of k r = Some u).
  { intros k Hk. destruct (C1 k t0 Hk (C0 k Hk)) as (t & Ht & Ct). rewrite (op_col_adds (S := RR)) in Ht. destruct (C2 k t Hk Ct) as (u & Hu & Cu). eauto. }
  assert (B0 : ta_bins t0 = tv_bins a0).
  { specialize (C0 0%nat). assert (H0 : (0 < n)%nat) by lia. apply C0, column_inv in H0. apply H0. }
  split; [|exists t0; auto].
  destruct (C3 0%nat) as (t & u & Ht & Hu & Cu); [lia|]. apply column_inv in Cu. destruct Cu as (_ & _ & _ & _ & _ & _ & _ & Cu).
  apply ta_adds_inv in Ht. destruct Ht as (Bt & _). rewrite <- B0, <- Bt, <- Cu.
  unfold ta_draw in Hu. destruct (fill_lin _ _ _); try discriminate. cbn [bind] in Hu. destruct (fill _ _ _ _); try discriminate. cbn [bind] in Hu. injection Hu as <-. reflexivity. Qed.

Lemma vec_exported :
  exists K L, shown (fun i => edge m b i + b / 2) mx K /\ shown (fun i => ledge m l i * sqrt l) mx L /\
  (forall fuel, (K < fuel)%nat -> tv_export_lin fuel r = Ok (filter visible (map (fun i => (edge m b i + b / 2,
     map (fun j => (hits m mx b (column j rows) i, INR (hits m mx b (column j rows) i) / (N * b))) (seq 0 n))) (seq 0 K)))) /\
  (forall fuel, (L < fuel)%nat -> tv_export_log fuel r = Ok (filter visible (map (fun i => (ledge m l i * sqrt l,
     map (fun j => (lhits m mx l (column j rows) i, INR (lhits m mx l (column j rows) i) / (N * (ledge m l (S i) - ledge m l i)))) (seq 0 n))) (seq 0 L)))).
Proof. destruct tv_cols as (_ & R2 & Br & t0 & Ht0 & Bt & C). pose proof (low_end_pos mn) as Hm. fold m in Hm.
  destruct (conf_bins _ _ _ _ _ Ht0) as (B & EB & E1 & E2 & E3 & E4 & _ & _ & K1 & K2 & _). fold m in E1.
  assert (HB : from_bin_size (S := RR) mn mx b l = Ok B).
  { pose proof Ht0 as X. apply ta_fresh_inv in X. destruct X as (B' & X & X' & _). congruence. }
  destruct (centres B mn mx b l HB K1 K2 Hb Hl) as [(K & HK & LK) (L & HL & LL)]. fold m in HK, HL.
  assert (Hc0 : forall j, column j rows <> []) by (intros j X; apply Hr; destruct rows; [reflexivity|discriminate]).
  assert (Len : forall j, length (column j rows) = length rows) by (intros j; apply map_length).
  assert (Col : forall j, (j < n)%nat -> exists c h lc lh, nth_error (tv_count r) j = Some c /\ nth_error (tv_hist r) j = Some h /\
     nth_error (tv_lcount r) j = Some lc /\ nth_error (tv_lhist r) j = Some lh /\
     length c = Z.to_nat (b_num B) /\ length h = Z.to_nat (b_num B) /\ length lc = Z.to_nat (b_lnum B) /\ length lh = Z.to_nat (b_lnum B) /\
     (forall i, nth i c 0%nat = hits m mx b (column j rows) i) /\ (forall i, nth i lc 0%nat = lhits m mx l (column j rows) i) /\
     h = map (fun i => INR (hits m mx b (column j rows) i) / (N * b)) (seq 0 (Z.to_nat (b_num B))) /\
     lh = map (fun i => INR (lhits m mx l (column j rows) i) / (N * (ledge m l (S i) - ledge m l i))) (seq 0 (Z.to_nat (b_lnum B)))).
  { intros j Hj. destruct (C j Hj) as (t & u & Hta & Hu & Cu). apply column_inv in Cu. destruct Cu as (_ & _ & N1 & N2 & N3 & N4 & _).
    destruct (facts _ _ _ _ _ _ _ Ht0 Hb Hl Hta) as (_ & F1 & F2 & _).
    destruct (draw_R _ _ _ _ _ _ _ _ Ht0 Hb Hl Hta Hu (Hc0 j)) as (D1 & D2 & _).
    destruct (densities _ _ _ _ _ _ _ _ Ht0 Hb Hl Hta Hu (Hc0 j)) as (D3 & D4).
    destruct (len_R _ _ _ _ _ _ _ Ht0 Hb Hl Hta) as (L1 & L2). rewrite EB in *. rewrite Len in D3, D4.
    exists (ta_count u), (ta_hist u), (ta_lcount u), (ta_lhist u). rewrite D1, D2, D3, D4 in *. rewrite !map_length, !seq_length.
    do 4 (split; [assumption|]). do 2 (split; [auto|]). do 4 (split; [auto|]). auto. }
  exists K, L. split; [exact HK|]. split; [exact HL|].
  rewrite EB in Bt. rewrite <- Bt in Br. split; intros fuel Hf.
  - unfold tv_export_lin. cbv zeta. rewrite Br, E1, E2, E3. destruct R2 as (-> & _).
    change (@add RR m (@div RR b s2)) with (m + b / 2). replace (m + b / 2) with ((fun i => edge m b i + b / 2) 0%nat) by (unfold edge; cbn; lra).
    rewrite (tv_rows_R (fun t => t + b) (fun i => edge m b i + b / 2) mx n (tv_count r) (tv_hist r) (Z.to_nat (b_num B)) K); try assumption; try lia.
    + f_equal. rewrite Nat.sub_0_r. f_equal. apply map_ext_in. intros i Hi. apply in_seq in Hi. f_equal. apply map_ext_in. intros j Hj. apply in_seq in Hj.
      destruct (Col j) as (c & h & lc & lh & N1 & N2 & _ & _ & L1 & L2 & _ & _ & V1 & _ & V2 & _); [lia|].
      rewrite (nth_error_nths _ _ _ [] N1), V1. f_equal. etransitivity; [exact (f_equal (fun h : list R => nth i h 0) (nth_error_nths _ _ _ [] N2))|].
      rewrite V2. apply (nth_map_seq (fun i => INR (hits m mx b (column j rows) i) / (N * b))). lia.
    + intros k. unfold edge. rewrite S_INR. lra.
    + intros k Hk. destruct (Col k Hk) as (c & h & lc & lh & N1 & N2 & _ & _ & L1 & L2 & _). exists c, h. auto.
  - unfold tv_export_log. cbv zeta. rewrite Br, E1, E2, E4. destruct R2 as (-> & _).
    change (@mul RR m (@fsqrt RR l)) with (m * sqrt l). replace (m * sqrt l) with ((fun i => ledge m l i * sqrt l) 0%nat) by (unfold ledge; cbn; lra).
    rewrite (tv_rows_R (fun t => t * l) (fun i => ledge m l i * sqrt l) mx n (tv_lcount r) (tv_lhist r) (Z.to_nat (b_lnum B)) L); try assumption; try lia.
    + f_equal. rewrite Nat.sub_0_r. f_equal. apply map_ext_in. intros i Hi. apply in_seq in Hi. f_equal. apply map_ext_in. intros j Hj. apply in_seq in Hj.
      destruct (Col j) as (c & h & lc & lh & _ & _ & N1 & N2 & _ & _ & L1 & L2 & _ & V1 & _ & V2); [lia|].
      rewrite (nth_error_nths _ _ _ [] N1), V1. f_equal. etransitivity; [exact (f_equal (fun h : list R => nth i h 0) (nth_error_nths _ _ _ [] N2))|].
      rewrite V2. apply (nth_map_seq (fun i => INR (lhits m mx l (column j rows) i) / (N * (ledge m l (S i) - ledge m l i)))). lia.
    + intros k. unfold ledge. cbn [pow]. ring.
    + intros k Hk. destruct (Col k Hk) as (c & h & lc & lh & _ & _ & N1 & N2 & _ & _ & L1 & L2 & _). exists lc, lh. auto. Qed.
End VecExport.

(** ** Processes *)
Lemma deviation_eq0 xs : deviation xs = sqrt (rsum (map (fun x => x ^ 2) xs) / INR (length xs) - average xs * average xs).
Proof. destruct xs as [|x xs]; [|apply deviation_eq; discriminate]. unfold deviation, average. cbn. f_equal. lra. Qed.

Lemma means_loop_R cnt : forall mean sq : list R, length mean = length cnt -> length sq = length cnt ->
  means_loop (S := RR) cnt mean sq = Ok (map (fun i => nth i mean 0 / INR (nth i cnt 0%nat)) (seq 0 (length cnt)),
    map (fun i => sqrt (nth i sq 0 / INR (nth i cnt 0%nat) - nth i mean 0 / INR (nth i cnt 0%nat) * (nth i mean 0 / INR (nth i cnt 0%nat)))) (seq 0 (length cnt))).
Proof. induction cnt as [|n cnt IH]; intros [|x mean] [|y sq] L1 L2; try discriminate; [reflexivity|]. cbn [length] in L1, L2.
  cbn [means_loop]. rewrite IH by lia. cbn [bind fst snd length seq map nth]. rewrite !ofnat_R. rewrite <- seq_shift, !map_map. reflexivity. Qed.

Section Process.
Variables (mn mx b l : R) (a0 : pana RR).
Hypotheses (HF : pa_fresh (S := RR) mn mx b l = Ok a0) (Hb : 0 < b) (Hl : 1 < l).
Let m := low_end mn.

Lemma pa_conf : exists B t0, ta_fresh (S := RR) mn mx b l = Ok t0 /\ ta_bins t0 = B /\ from_bin_size (S := RR) mn mx b l = Ok B /\
  (8 * b_num B <= 2 ^ 63 - 1)%Z /\ (8 * b_lnum B <= 2 ^ 63 - 1)%Z /\
  a0 = Pana (S := RR) 0 0 0 0 B (repeat 0 (Z.to_nat (b_num B))) (repeat 0 (Z.to_nat (b_num B))) (repeat 0%nat (Z.to_nat (b_num B)))
        (repeat 0 (Z.to_nat (b_lnum B))) (repeat 0 (Z.to_nat (b_lnum B))) (repeat 0%nat (Z.to_nat (b_lnum B))).
Proof. apply pa_fresh_inv in HF. destruct HF as (B & HB & -> & K1 & K2). destruct (alloc_fresh B K1 K2) as [t0 E].
  exists B, t0. assert (HT : ta_fresh (S := RR) mn mx b l = Ok t0) by (unfold ta_fresh; rewrite HB; exact E).
  repeat split; auto. apply ta_allocate_inv in E. destruct E as (-> & _). reflexivity. Qed.

(** No pair makes the analysis fail. *)
Lemma pa_pairs_total ps : forall a : pana RR, pa_bins a = pa_bins a0 ->
  length (pa_count a) = Z.to_nat (b_num (pa_bins a0)) -> length (pa_bmean a) = Z.to_nat (b_num (pa_bins a0)) -> length (pa_bsq a) = Z.to_nat (b_num (pa_bins a0)) ->
  length (pa_lcount a) = Z.to_nat (b_lnum (pa_bins a0)) -> length (pa_lmean a) = Z.to_nat (b_lnum (pa_bins a0)) -> length (pa_lsq a) = Z.to_nat (b_lnum (pa_bins a0)) ->
  exists a', pa_pairs a ps = Ok a'.
Proof. destruct pa_conf as (B & t0 & HT & EB & HB & K1 & K2 & E0). assert (EB0 : pa_bins a0 = B) by (rewrite E0; reflexivity).
  induction ps as [|[t v] ps IH]; intros a HBa L1 L2 L3 L4 L5 L6; [cbn; eauto|]. cbn [pa_pairs].
  pose proof (no_offence _ _ _ _ _ HT Hb Hl t) as NO. unfold offends in NO. destruct (lens _ _ _ _ _ HT) as [Q1 Q2]. rewrite Q1, Q2, EB in NO.
  apply orb_false_iff in NO. destruct NO as [N1 N2].
  assert (P1 := bin_nonneg (S := RR) B t rr_usize_ok). assert (P2 := lbin_nonneg (S := RR) B t rr_usize_ok).
  rewrite EB0 in *. unfold pa_pair. rewrite HBa.
  destruct (bump_ok (bin_pos B t) Datatypes.S (pa_count a) P1) as [c Ec]; [rewrite L1; exact N1|].
  destruct (bump_ok (bin_pos B t) (fun y : RR => y + v)%S (pa_bmean a) P1) as [me Em]; [rewrite L2; exact N1|].
  destruct (bump_ok (bin_pos B t) (fun y : RR => y + v * v)%S (pa_bsq a) P1) as [sq Es]; [rewrite L3; exact N1|].
  destruct (bump_ok (lbin_pos B t) Datatypes.S (pa_lcount a) P2) as [lc Elc]; [rewrite L4; exact N2|].
  destruct (bump_ok (lbin_pos B t) (fun y : RR => y + v)%S (pa_lmean a) P2) as [lm Elm]; [rewrite L5; exact N2|].
  destruct (bump_ok (lbin_pos B t) (fun y : RR => y + v * v)%S (pa_lsq a) P2) as [ls Els]; [rewrite L6; exact N2|].
  rewrite Ec. cbn [bind]. rewrite Em. cbn [bind]. rewrite Es. cbn [bind]. rewrite Elc. cbn [bind]. rewrite Elm. cbn [bind]. rewrite Els. cbn [bind].
  apply bump_len in Ec, Em, Es, Elc, Elm, Els.
  apply IH; cbn [pa_bins pa_count pa_bmean pa_bsq pa_lcount pa_lmean pa_lsq];
    [reflexivity|exact (eq_trans Ec L1)|exact (eq_trans Em L2)|exact (eq_trans Es L3)|exact (eq_trans Elc L4)|exact (eq_trans Elm L5)|exact (eq_trans Els L6)]. Qed.
Lemma pa_lines_total ls : exists a, add_lines pa_line a0 ls = Ok a.
Proof. destruct pa_conf as (B & t0 & HT & EB & HB & K1 & K2 & E0).
  assert (G : forall ls (a : pana RR), pa_bins a = pa_bins a0 ->
    length (pa_count a) = Z.to_nat (b_num (pa_bins a0)) -> length (pa_bmean a) = Z.to_nat (b_num (pa_bins a0)) -> length (pa_bsq a) = Z.to_nat (b_num (pa_bins a0)) ->
    length (pa_lcount a) = Z.to_nat (b_lnum (pa_bins a0)) -> length (pa_lmean a) = Z.to_nat (b_lnum (pa_bins a0)) -> length (pa_lsq a) = Z.to_nat (b_lnum (pa_bins a0)) ->
    exists a', add_lines pa_line a ls = Ok a').
  { induction ls0 as [|p ls0 IH]; intros a X L1 L2 L3 L4 L5 L6; [cbn; eauto|]. cbn [add_lines]. unfold pa_line at 1.
    destruct (pa_pairs_total p a X L1 L2 L3 L4 L5 L6) as [a' E]. rewrite E. cbn [bind].
    apply pa_pairs_inv in E. destruct E as (Y & _ & _ & M1 & M4 & M2 & M5 & M3 & M6 & _). apply IH; cbn [pa_add pa_bins pa_count pa_bmean pa_bsq pa_lcount pa_lmean pa_lsq];
    [exact (eq_trans Y X)|exact (eq_trans M1 L1)|exact (eq_trans M2 L2)|exact (eq_trans M3 L3)|exact (eq_trans M4 L4)|exact (eq_trans M5 L5)|exact (eq_trans M6 L6)]. }
  apply G; auto; rewrite E0; cbn; now rewrite repeat_length. Qed.

Variables (a r : pana RR) (ls : list (list (R * R))).
Hypotheses (Ha : add_lines pa_line a0 ls = Ok a) (Hd : pa_draw a = Ok r).
Let ps := concat ls.

Lemma vals_lin i : vals (S := RR) i (bin_pos (pa_bins a0)) ps = values_in m mx b ps i.
Proof. destruct pa_conf as (B & t0 & HT & EB & HB & K1 & K2 & E0). assert (EB0 : pa_bins a0 = B) by (rewrite E0; reflexivity).
  unfold vals, values_in. f_equal. apply filter_ext. intros [t v]. cbn [fst]. rewrite EB0, <- EB. exact (hit_lin _ _ _ _ _ HT Hb t i). Qed.
Lemma vals_log i : vals (S := RR) i (lbin_pos (pa_bins a0)) ps = lvalues_in m mx l ps i.
Proof. destruct pa_conf as (B & t0 & HT & EB & HB & K1 & K2 & E0). assert (EB0 : pa_bins a0 = B) by (rewrite E0; reflexivity).
  unfold vals, lvalues_in. f_equal. apply filter_ext. intros [t v]. cbn [fst]. rewrite EB0, <- EB. exact (hit_log _ _ _ _ _ HT Hl t i). Qed.

Lemma nth_repeat_R n i : nth i (repeat 0 n) 0 = 0. Proof. revert i; induction n; destruct i; cbn; auto. Qed.

Lemma pa_sums : pa_ens a = length ls /\ pa_points a = length ps /\ pa_mean a = rsum (map snd ps) /\ pa_sq a = rsum (map (fun x => x ^ 2) (map snd ps)) /\ pa_bins a = pa_bins a0 /\
  length (pa_count a) = Z.to_nat (b_num (pa_bins a0)) /\ length (pa_bmean a : list R) = Z.to_nat (b_num (pa_bins a0)) /\ length (pa_bsq a : list R) = Z.to_nat (b_num (pa_bins a0)) /\
  length (pa_lcount a) = Z.to_nat (b_lnum (pa_bins a0)) /\ length (pa_lmean a : list R) = Z.to_nat (b_lnum (pa_bins a0)) /\ length (pa_lsq a : list R) = Z.to_nat (b_lnum (pa_bins a0)) /\
  (forall i, nth i (pa_count a) 0%nat = length (values_in m mx b ps i)) /\ (forall i, nth i (pa_lcount a) 0%nat = length (lvalues_in m mx l ps i)) /\
  (forall i, nth i (pa_bmean a : list R) 0 = rsum (values_in m mx b ps i)) /\ (forall i, nth i (pa_lmean a : list R) 0 = rsum (lvalues_in m mx l ps i)) /\
  (forall i, nth i (pa_bsq a : list R) 0 = rsum (map (fun x => x ^ 2) (values_in m mx b ps i))) /\ (forall i, nth i (pa_lsq a : list R) 0 = rsum (map (fun x => x ^ 2) (lvalues_in m mx l ps i))).
Proof. destruct (pa_lines_inv _ _ _ Ha) as (a1 & H1 & Ea).
  pose proof (pa_pairs_inv _ _ _ H1) as (B & _ & Pt & L1 & L2 & L3 & L4 & L5 & L6 & M & Q & N1 & N2 & N3 & N4 & N5 & N6 & _).
  destruct pa_conf as (B0 & t0 & HT & EB & HB & K1 & K2 & E0).
  assert (Z : pa_mean a0 = 0 /\ pa_sq a0 = 0 /\ pa_points a0 = 0%nat /\ pa_ens a0 = 0%nat /\
    pa_count a0 = repeat 0%nat (Z.to_nat (b_num (pa_bins a0))) /\ pa_lcount a0 = repeat 0%nat (Z.to_nat (b_lnum (pa_bins a0))) /\
    pa_bmean a0 = repeat 0 (Z.to_nat (b_num (pa_bins a0))) /\ pa_lmean a0 = repeat 0 (Z.to_nat (b_lnum (pa_bins a0))) /\
    pa_bsq a0 = repeat 0 (Z.to_nat (b_num (pa_bins a0))) /\ pa_lsq a0 = repeat 0 (Z.to_nat (b_lnum (pa_bins a0)))) by (rewrite E0; cbn; auto 12).
  destruct Z as (Z1 & Z2 & Z3 & Z4 & Z5 & Z6 & Z7 & Z8 & Z9 & Z10).
  rewrite Ea. cbn [pa_ens pa_points pa_mean pa_sq pa_bins pa_count pa_lcount pa_bmean pa_lmean pa_bsq pa_lsq].
  rewrite Z4, Pt, Z3. fold ps.
  split; [reflexivity|]. split; [reflexivity|].
  split. { rewrite M, Z1. exact (eq_trans (fold_add (map snd ps) 0) (Rplus_0_l _)). }
  split. { rewrite Q, Z2. exact (eq_trans (fold_sq (map snd ps) 0) (Rplus_0_l _)). }
  split; [exact B|].
  split. { rewrite L1, Z5. apply repeat_length. }
  split. { refine (eq_trans L3 _). rewrite Z7. apply repeat_length. }
  split. { refine (eq_trans L5 _). rewrite Z9. apply repeat_length. }
  split. { rewrite L2, Z6. apply repeat_length. }
  split. { refine (eq_trans L4 _). rewrite Z8. apply repeat_length. }
  split. { refine (eq_trans L6 _). rewrite Z10. apply repeat_length. }
  split. { intros i. rewrite N1, Z5, nth_repeat0. fold ps. now rewrite vals_lin. }
  split. { intros i. rewrite N2, Z6, nth_repeat0. fold ps. now rewrite vals_log. }
  split. { intros i. refine (eq_trans (N3 i 0) _). fold ps. rewrite vals_lin, Z7. refine (eq_trans (fold_add _ _) _). rewrite nth_repeat_R. apply Rplus_0_l. }
  split. { intros i. refine (eq_trans (N4 i 0) _). fold ps. rewrite vals_log, Z8. refine (eq_trans (fold_add _ _) _). rewrite nth_repeat_R. apply Rplus_0_l. }
  split. { intros i. refine (eq_trans (N5 i 0) _). fold ps. rewrite vals_lin, Z9. refine (eq_trans (fold_sq _ _) _). rewrite nth_repeat_R. apply Rplus_0_l. }
  { intros i. refine (eq_trans (N6 i 0) _). fold ps. rewrite vals_log, Z10. refine (eq_trans (fold_sq _ _) _). rewrite nth_repeat_R. apply Rplus_0_l. } Qed.

Lemma pa_drawn : pa_mean r = average (map snd ps) /\ pa_sq r = deviation (map snd ps) /\ pa_ens r = length ls /\ pa_bins r = pa_bins a0 /\
  pa_count r = pa_count a /\ pa_lcount r = pa_lcount a /\
  pa_bmean r = map (fun i => average (values_in m mx b ps i)) (seq 0 (Z.to_nat (b_num (pa_bins a0)))) /\
  pa_bsq r = map (fun i => deviation (values_in m mx b ps i)) (seq 0 (Z.to_nat (b_num (pa_bins a0)))) /\
  pa_lmean r = map (fun i => average (lvalues_in m mx l ps i)) (seq 0 (Z.to_nat (b_lnum (pa_bins a0)))) /\
  pa_lsq r = map (fun i => deviation (lvalues_in m mx l ps i)) (seq 0 (Z.to_nat (b_lnum (pa_bins a0)))).
Proof. destruct pa_sums as (En & Pt & Mn & Sq & B & L1 & L2 & L3 & L4 & L5 & L6 & C1 & C2 & S1 & S2 & Q1 & Q2).
  revert Hd. unfold pa_draw. cbv zeta. rewrite Pt, Mn, Sq, ofnat_R.
  rewrite (means_loop_R (pa_count a) (pa_bmean a) (pa_bsq a)) by (rewrite L1; assumption). cbn [bind].
  rewrite (means_loop_R (pa_lcount a) (pa_lmean a) (pa_lsq a)) by (rewrite L4; assumption). cbn [bind fst snd]. intros H. injection H as <-.
  cbn [pa_mean pa_sq pa_ens pa_bins pa_count pa_lcount pa_bmean pa_bsq pa_lmean pa_lsq]. rewrite L1, L4.
  split. { unfold average. rewrite map_length. reflexivity. }
  split. { rewrite deviation_eq0. unfold average. rewrite map_length. reflexivity. }
  do 4 (split; [assumption || reflexivity|]).
  split. { apply map_ext. intros i. rewrite C1, S1. reflexivity. }
  split. { apply map_ext. intros i. rewrite C1, S1, Q1, deviation_eq0. reflexivity. }
  split. { apply map_ext. intros i. rewrite C2, S2. reflexivity. }
  { apply map_ext. intros i. rewrite C2, S2, Q2, deviation_eq0. reflexivity. } Qed.

Lemma pa_exported : exists K L, shown (fun i => edge m b i + b / 2) mx K /\ shown (fun i => ledge m l i * sqrt l) mx L /\
  (forall fuel, (K < fuel)%nat -> pa_export_lin fuel r = Ok (filter (fun row => Rltb (1 / 10 ^ 15) (snd (fst row)))
     (map (fun i => (edge m b i + b / 2, length (values_in m mx b ps i), average (values_in m mx b ps i), deviation (values_in m mx b ps i))) (seq 0 K)))) /\
  (forall fuel, (L < fuel)%nat -> pa_export_log fuel r = Ok (filter (fun row => Rltb (1 / 10 ^ 15) (snd (fst row)))
     (map (fun i => (ledge m l i * sqrt l, length (lvalues_in m mx l ps i), average (lvalues_in m mx l ps i), deviation (lvalues_in m mx l ps i))) (seq 0 L)))).
Proof. destruct pa_sums as (_ & _ & _ & _ & _ & L1 & _ & _ & L4 & _ & _ & C1 & C2 & _).
  destruct pa_drawn as (_ & _ & _ & B & D1 & D2 & D3 & D4 & D5 & D6).
  destruct pa_conf as (B0 & t0 & HT & EB & HB & K1 & K2 & E0). assert (EB0 : pa_bins a0 = B0) by (rewrite E0; reflexivity). rewrite EB0 in *.
  destruct (conf_bins _ _ _ _ _ HT) as (B1 & EB1 & E1 & E2 & E3 & E4 & _). rewrite EB in EB1. subst B1. fold m in E1.
  destruct (centres B0 mn mx b l HB K1 K2 Hb Hl) as [(K & HK & LK) (L & HL & LL)]. fold m in HK, HL.
  exists K, L. split; [exact HK|]. split; [exact HL|]. split; intros fuel Hf.
  - unfold pa_export_lin. cbv zeta. rewrite B, E1, E2, E3.
    change (@add RR m (@div RR b s2)) with (m + b / 2). replace (m + b / 2) with ((fun i => edge m b i + b / 2) 0%nat) by (unfold edge; cbn; lra).
    rewrite (pa_rows_R (fun t => t + b) (fun i => edge m b i + b / 2) mx (pa_count r) (pa_bmean r) (pa_bsq r) (Z.to_nat (b_num B0)) K); try assumption; try lia.
    + f_equal. rewrite Nat.sub_0_r. f_equal. apply map_ext_in. intros i Hi. apply in_seq in Hi. rewrite D1, D3, D4, C1.
      rewrite (nth_map_seq (fun i => average (values_in m mx b ps i))), (nth_map_seq (fun i => deviation (values_in m mx b ps i))) by lia. reflexivity.
    + intros k. unfold edge. rewrite S_INR. lra.
    + rewrite D1. exact L1.
    + rewrite D3, map_length, seq_length. reflexivity.
    + rewrite D4, map_length, seq_length. reflexivity.
  - unfold pa_export_log. cbv zeta. rewrite B, E1, E2, E4.
    change (@mul RR m (@fsqrt RR l)) with (m * sqrt l). replace (m * sqrt l) with ((fun i => ledge m l i * sqrt l) 0%nat) by (unfold ledge; cbn; lra).
    rewrite (pa_rows_R (fun t => t * l) (fun i => ledge m l i * sqrt l) mx (pa_lcount r) (pa_lmean r) (pa_lsq r) (Z.to_nat (b_lnum B0)) L); try assumption; try lia.
    + f_equal. rewrite Nat.sub_0_r. f_equal. apply map_ext_in. intros i Hi. apply in_seq in Hi. rewrite D2, D5, D6, C2.
      rewrite (nth_map_seq (fun i => average (lvalues_in m mx l ps i))), (nth_map_seq (fun i => deviation (lvalues_in m mx l ps i))) by lia. reflexivity.
    + intros k. unfold ledge. cbn [pow]. ring.
    + rewrite D2. exact L4.
    + rewrite D5, map_length, seq_length. reflexivity.
    + rewrite D6, map_length, seq_length. reflexivity. Qed.
End Process.
