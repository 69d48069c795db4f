(** Concrete failures of the analyses, and facts about the keys that identify data sets. *)
From Coq Require Import ZArith Reals Lra Lia List Bool Permutation.
From Flocq Require Import Core.
From Flocq.IEEE754 Require Import BinarySingleNaN.
From Verif Require Import Base Scalar Float64 Model_Analysis Spec_Analysis Proof_Analysis Proof_Analysis2 Proof_Analysis3 Proof_Analysis4 Proof_Analysis5 Proof_Analysis6 Proof_Analysis7 Proof_Analysis8 Proof_Time.
Import ListNotations.
Open Scope R_scope.

(** ** A libm with a sane log2: the binary exponent *)
Definition exponent (x : b64) : b64 := if nan x then x else b64_of_Z (snd (Bfrexp x) - 1).
Definition toy : libm := Libm (fun x => x) exponent (fun x _ => x).
Lemma exponent_val x : fin x = true -> 1 <= B2 x -> fin (exponent x) = true /\ B2 (exponent x) = IZR (mag radix2 (B2 x) - 1).
Proof. intros F H. unfold exponent. replace (nan x) with false by (destruct x; try discriminate; reflexivity).
  assert (E : snd (Bfrexp x) = mag radix2 (B2 x)).
  { pose proof (Bfrexp_correct 53 1024 _ x) as E. destruct (Bfrexp x) as [z e]. apply E; [|reflexivity]. destruct x; try discriminate; [simpl in H; lra|reflexivity]. }
  rewrite E. apply of_Z_exact.
  assert (L : (1 <= mag radix2 (B2 x))%Z). { apply (mag_ge_bpow radix2 (B2 x) 1). rewrite Rabs_pos_eq by lra. exact H. }
  assert (U : (mag radix2 (B2 x) <= 1024)%Z). { apply mag_le_bpow; [lra|]. rewrite Rabs_pos_eq by lra. apply B2_bound. }
  lia. Qed.
Lemma toy_sane : sane_log2 toy.
Proof. split.
  - intros x H. unfold toy, exponent. cbn [m_log2]. rewrite H. exact H.
  - intros x y Fx Fy L1 L2. cbn [toy m_log2]. destruct (exponent_val x Fx L1) as [A1 A2], (exponent_val y Fy) as [A3 A4]; [lra|].
    split; [exact A1|]. split; [exact A3|]. rewrite A2, A4. split.
    + apply IZR_le. assert ((1 <= mag radix2 (B2 x))%Z); [|lia]. apply (mag_ge_bpow radix2 (B2 x) 1). rewrite Rabs_pos_eq by lra. exact L1.
    + apply IZR_le. assert ((mag radix2 (B2 x) <= mag radix2 (B2 y))%Z) by (apply mag_le; lra). lia. Qed.

(** ** Keys *)
Lemma p10 : 0 < 10 ^ 10. Proof. apply pow_lt. lra. Qed.
Lemma key_R v : field_key (S := RR) v = if Rlt_dec (v * 10 ^ 10) 0 then sat_usize (Ztrunc (- (v * 10 ^ 10) + 1)) else sat_usize (Ztrunc (v * 10 ^ 10)).
Proof. unfold field_key. change (@of_Z RR (10 ^ 10)) with (IZR (10 ^ 10)). replace (IZR (10 ^ 10)) with (10 ^ 10)%R by (exact (pow_IZR 10 10)).
  cbv zeta. change (@ltb RR) with Rltb. change (@mul RR v (10 ^ 10)) with (v * 10 ^ 10). change (@s0 RR) with 0. change (@s1 RR) with 1. unfold Rltb.
  destruct (Rlt_dec _ _); [reflexivity|]. change (@add RR (v * 10 ^ 10) 0) with (v * 10 ^ 10 + 0). rewrite Rplus_0_r. reflexivity. Qed.
Lemma key_grid (k : Z) : (0 <= k <= usize_max)%Z -> field_key (S := RR) (IZR k / 10 ^ 10) = k.
Proof. intros H. rewrite key_R. replace (IZR k / 10 ^ 10 * 10 ^ 10) with (IZR k) by (field; pose proof p10; lra).
  destruct (Rlt_dec _ _) as [L|L]; [exfalso; assert (0 <= IZR k) by (apply IZR_le; lia); lra|].
  rewrite Ztrunc_IZR. unfold sat_usize. lia. Qed.
Lemma key_neg (k : Z) : (0 < k < usize_max)%Z -> field_key (S := RR) (- IZR k / 10 ^ 10) = (k + 1)%Z.
Proof. intros H. rewrite key_R. replace (- IZR k / 10 ^ 10 * 10 ^ 10) with (- IZR k) by (field; pose proof p10; lra).
  assert (0 < IZR k) by (apply IZR_lt; lia). destruct (Rlt_dec _ _) as [L|L]; [|exfalso; lra].
  replace (- - IZR k + 1) with (IZR (k + 1)) by (rewrite plus_IZR; lra). rewrite Ztrunc_IZR. unfold sat_usize. lia. Qed.
Lemma key_big v : IZR usize_max <= v * 10 ^ 10 -> field_key (S := RR) v = usize_max.
Proof. intros H. rewrite key_R. assert (0 <= IZR usize_max) by (apply IZR_le; unfold usize_max; lia). destruct (Rlt_dec _ _) as [L|L]; [lra|].
  assert ((usize_max <= Ztrunc (v * 10 ^ 10))%Z). { rewrite <- (Ztrunc_IZR usize_max). now apply Ztrunc_le. }
  unfold sat_usize, usize_max in *. lia. Qed.
Lemma key_floor v : 0 <= v -> v * 10 ^ 10 < IZR usize_max -> field_key (S := RR) v = Zfloor (v * 10 ^ 10).
Proof. intros H0 H. pose proof p10. rewrite key_R. assert (0 <= v * 10 ^ 10) by nra. destruct (Rlt_dec _ _) as [L|L]; [lra|].
  rewrite Ztrunc_floor by assumption. assert ((0 <= Zfloor (v * 10 ^ 10))%Z) by (apply Zfloor_lub; assumption).
  assert ((Zfloor (v * 10 ^ 10) < usize_max)%Z) by (apply lt_IZR; pose proof (Zfloor_lb (v * 10 ^ 10)); lra). unfold sat_usize. lia. Qed.

(** Parameters on the grid of multiples of 1e-10, non-negative and below 2^64*1e-10, are told apart. *)
Lemma grid_separated sip (ks ls : list Z) : (forall k k', sip k = sip k' -> k = k') ->
  Forall (fun k => (0 <= k <= usize_max)%Z) ks -> Forall (fun k => (0 <= k <= usize_max)%Z) ls ->
  same_dataset (S := RR) sip (map (fun k => IZR k / 10 ^ 10) ks) (map (fun k => IZR k / 10 ^ 10) ls) = true <-> ks = ls.
Proof. intros Inj H1 H2. rewrite (merge_keys sip _ _ Inj). 
  assert (E : forall zs, Forall (fun k => (0 <= k <= usize_max)%Z) zs -> map (field_key (S := RR)) (map (fun k => IZR k / 10 ^ 10) zs) = zs).
  { induction 1 as [|z zs Hz Hzs IH]; [reflexivity|]. cbn [map]. f_equal; [now apply key_grid|exact IH]. }
  split; intros H.
  - rewrite <- (E ks H1), <- (E ls H2). exact H.
  - now rewrite H. Qed.
Lemma negative_merges sip (k : Z) : (0 < k < usize_max)%Z -> same_dataset (S := RR) sip [- IZR k / 10 ^ 10] [IZR (k + 1) / 10 ^ 10] = true.
Proof. intros H. unfold same_dataset, keys. cbn [map]. rewrite (key_neg k H). rewrite (key_grid (k + 1)) by lia. apply Z.eqb_refl. Qed.
Lemma near_merge sip (k : Z) (u v : R) : (0 <= k < usize_max)%Z -> IZR k <= u * 10 ^ 10 < IZR (k + 1) -> IZR k <= v * 10 ^ 10 < IZR (k + 1) -> same_dataset (S := RR) sip [u] [v] = true.
Proof. intros Hk Hu Hv. assert (G : forall w, IZR k <= w * 10 ^ 10 < IZR (k + 1) -> field_key (S := RR) w = k).
  { intros w Hw. pose proof p10. assert (0 <= IZR k) by (apply IZR_le; lia). assert (0 <= w * 10 ^ 10) by lra. assert (0 <= w) by nra.
    assert (IZR (k + 1) <= IZR usize_max) by (apply IZR_le; lia). rewrite key_floor by lra. now apply Zfloor_imp. }
  unfold same_dataset, keys. cbn [map]. rewrite (G u Hu), (G v Hv). apply Z.eqb_refl. Qed.
Lemma big_merge sip (u v : R) : IZR usize_max <= u * 10 ^ 10 -> IZR usize_max <= v * 10 ^ 10 -> same_dataset (S := RR) sip [u] [v] = true.
Proof. intros Hu Hv. unfold same_dataset, keys. cbn [map]. rewrite (key_big u Hu), (key_big v Hv). apply Z.eqb_refl. Qed.

(** ** Export *)
Lemma nonpos_average ps : Forall (fun x => x <= 0) ps -> average ps <= 0.
Proof. intros H. unfold average. assert (S0 : rsum ps <= 0) by (induction H; unfold rsum in *; cbn [fold_right]; lra).
  destruct ps as [|x ps]; [unfold rsum, Rdiv; cbn; lra|]. assert (0 < INR (length (x :: ps))) by (apply lt_0_INR; cbn; lia).
  unfold Rdiv. assert (0 < / INR (length (x :: ps))) by now apply Rinv_0_lt_compat. nra. Qed.
Lemma filter_none {A} (f : A -> bool) l : (forall x, In x l -> f x = false) -> filter f l = [].
Proof. induction l as [|x l IH]; intros H; [reflexivity|]. cbn. rewrite (H x) by now left. apply IH. intros y Hy. apply H. now right. Qed.

(** Processes with non-positive values: nothing is ever exported. *)
Lemma nonpos_never_exported mn mx b l (a0 a r : pana RR) ls : pa_fresh (S := RR) mn mx b l = Ok a0 -> 0 < b -> 1 < l ->
  add_lines pa_line a0 ls = Ok a -> pa_draw a = Ok r -> Forall (fun tv => snd tv <= 0) (concat ls) ->
  exists n, forall fuel, (n < fuel)%nat -> pa_export_lin fuel r = Ok [] /\ pa_export_log fuel r = Ok [].
Proof. intros HF Hb Hl Ha Hd Hv. destruct (pa_exported mn mx b l a0 HF Hb Hl a r ls Ha Hd) as (K & L & _ & _ & E1 & E2).
  assert (G : forall f : R * R -> bool, average (map snd (filter f (concat ls))) <= 0).
  { intros f. apply nonpos_average. rewrite Forall_map. apply Forall_forall. intros x Hx. apply filter_In in Hx. rewrite Forall_forall in Hv. now apply Hv. }
  assert (T : 0 < 1 / 10 ^ 15) by (apply Rdiv_lt_0_compat; [lra|apply pow_lt; lra]).
  exists (Nat.max K L). intros fuel Hf. rewrite (E1 fuel), (E2 fuel) by lia. split; apply (f_equal (@Ok (list (R * nat * R * R)))); apply filter_none; intros row Hr; apply in_map_iff in Hr; destruct Hr as (i & <- & _); cbn [fst snd];
    apply Rltb_false; (eapply Rle_trans; [apply G|lra]). Qed.


(** ** Totality of the multi-column analysis over the reals *)
Lemma tv_fresh_ok {S : scalar} (mn mx b l : S) n t0 : ta_fresh mn mx b l = Ok t0 -> exists a0, tv_fresh mn mx b l n = Ok a0.
Proof. unfold ta_fresh, tv_fresh. destruct (from_bin_size mn mx b l) as [B| | |]; try discriminate. cbn [bind].
  unfold ta_allocate, tv_allocate. cbn [ta_set_bins ta_bins tv_set_bins tv_bins ta_new tv_new].
  destruct (alloc (@s0 S) (b_num B)); try discriminate. cbn [bind]. destruct (alloc (@s0 S) (b_lnum B)); try discriminate. cbn [bind].
  destruct (alloc 0%nat (b_num B)); try discriminate. cbn [bind]. destruct (alloc 0%nat (b_lnum B)); try discriminate. cbn [bind]. eauto. Qed.
Lemma pa_fresh_ok {S : scalar} (mn mx b l : S) t0 : ta_fresh mn mx b l = Ok t0 -> exists a0, pa_fresh mn mx b l = Ok a0.
Proof. unfold ta_fresh, pa_fresh. destruct (from_bin_size mn mx b l) as [B| | |]; try discriminate. cbn [bind].
  unfold ta_allocate, pa_allocate. cbn [ta_set_bins ta_bins pa_set_bins pa_bins ta_new pa_new].
  destruct (alloc (@s0 S) (b_num B)); try discriminate. cbn [bind]. destruct (alloc (@s0 S) (b_lnum B)); try discriminate. cbn [bind].
  destruct (alloc 0%nat (b_num B)); try discriminate. cbn [bind]. destruct (alloc 0%nat (b_lnum B)); try discriminate. cbn [bind]. eauto. Qed.

Lemma ta_adds_app {S : scalar} (xs ys : list S) : forall a, ta_adds a (xs ++ ys) = do a' <- ta_adds a xs; ta_adds a' ys.
Proof. induction xs as [|x xs IH]; intros a; cbn; [reflexivity|]. destruct (ta_add a x); cbn; auto. Qed.
Lemma tv_adds_app {S : scalar} (xs ys : list (list S)) : forall a, tv_adds a (xs ++ ys) = do a' <- tv_adds a xs; tv_adds a' ys.
Proof. induction xs as [|x xs IH]; intros a; cbn; [reflexivity|]. destruct (tv_add a x); cbn; auto. Qed.

Lemma tv_draw_loop_ok {S : scalar} b en (cnt lcnt : list (list nat)) is : forall (m q : list S) (h lh : list (list S)), NoDup is ->
  (forall k, In k is -> (k < length m)%nat /\ (k < length q)%nat /\ exists c hk lc lk, nth_error cnt k = Some c /\ nth_error h k = Some hk /\ nth_error lcnt k = Some lc /\ nth_error lh k = Some lk /\
     length hk = length c /\ length lk = length lc) ->
  exists st, tv_draw_loop is b en cnt lcnt (m, q, h, lh) = Ok st.
Proof. induction is as [|i r IH]; intros m q h lh ND H; [cbn; eauto|]. apply NoDup_cons_iff in ND. destruct ND as [Hi ND]. cbn [tv_draw_loop].
  destruct (H i (or_introl eq_refl)) as (Lm & Lq & c & hk & lc & lk & N1 & N2 & N3 & N4 & F1 & F2).
  unfold idx. rewrite (nth_error_nth' m s0 Lm), (nth_error_nth' q s0 Lq), N1, N2, N3, N4. cbn [bind].
  destruct (upd_ok i (fun _ => (nth i m s0 / en)%S) m Lm) as [m' E1]. rewrite E1. cbn [bind].
  match goal with |- context [upd i ?f q] => destruct (upd_ok i f q Lq) as [q' E2] end. rewrite E2. cbn [bind].
  destruct (fill_lin_ok c (en * b_size b)%S hk F1) as (hk' & E3 & G1). rewrite E3. cbn [bind].
  destruct (upd_ok i (fun _ => hk') h) as [h' E4]; [apply nth_error_Some; congruence|]. rewrite E4. cbn [bind].
  destruct (fill_ok lc (b_lsize b) (b_min b * en * (b_lsize b - s1))%S lk F2) as (lk' & E5 & G2). rewrite E5. cbn [bind].
  destruct (upd_ok i (fun _ => lk') lh) as [lh' E6]; [apply nth_error_Some; congruence|]. rewrite E6. cbn [bind].
  apply IH; [exact ND|]. intros k Hk. assert (k <> i) by congruence.
  destruct (H k (or_intror Hk)) as (Lm' & Lq' & c2 & hk2 & lc2 & lk2 & N1' & N2' & N3' & N4' & F).
  rewrite (upd_len _ _ _ _ E1), (upd_len _ _ _ _ E2). split; [exact Lm'|]. split; [exact Lq'|].
  exists c2, hk2, lc2, lk2. rewrite (proj1 (upd_nth_error _ _ _ _ E4) k H0), (proj1 (upd_nth_error _ _ _ _ E6) k H0). auto. Qed.

Lemma tv_draw_ok {S : scalar} n (a : tvec S) : regular n a -> (forall k, (k < n)%nat -> exists b t, column_of k a = Some t /\ shape b t) -> exists r, tv_draw a = Ok r.
Proof. intros (Hn & R1 & R2 & R3 & R4 & R5 & R6) H. unfold tv_draw. rewrite Hn.
  destruct (tv_draw_loop_ok (tv_bins a) (of_Z (Z.of_nat (tv_ens a))) (tv_count a) (tv_lcount a) (seq 0 n) (tv_means a) (tv_sqs a) (tv_hist a) (tv_lhist a)) as [[[[m q] h] lh] E].
  - apply seq_NoDup.
  - intros k Hk. apply in_seq in Hk. destruct (H k) as (b & t & C & Sh); [lia|]. apply column_inv in C. destruct C as (C1 & C2 & C3 & C4 & C5 & C6 & C7 & C8).
    destruct Sh as (B & L1 & L2 & L3 & L4). split; [lia|]. split; [lia|]. exists (ta_count t), (ta_hist t), (ta_lcount t), (ta_lhist t).
    repeat split; auto; congruence.
  - rewrite E. cbn. eauto. Qed.

Section VecTotal.
Variables (mn mx b l : R) (n : nat) (a0 : tvec RR).
Hypotheses (HF : tv_fresh (S := RR) mn mx b l n = Ok a0) (Hb : 0 < b) (Hl : 1 < l) (Hn : n <> 0%nat).
Lemma vec_total (rows : list (list R)) : Forall (fun r => length r = n) rows -> exists a r, tv_adds a0 rows = Ok a /\ tv_draw a = Ok r.
Proof. destruct (tv_fresh_col _ _ _ _ _ _ HF) as (R0 & t0 & E0 & C0).
  assert (G : Forall (fun r => length r = n) rows -> exists a, tv_adds a0 rows = Ok a /\ regular n a /\
     forall k, (k < n)%nat -> exists t, ta_adds t0 (column k rows) = Ok t /\ column_of k a = Some t).
  { induction rows as [|x rows0 IH] using rev_ind; intros H.
    - exists a0. split; [reflexivity|]. split; [exact R0|]. intros k Hk. exists t0. split; [reflexivity|]. now apply C0.
    - apply Forall_app in H. destruct H as [H Hx]. apply Forall_inv in Hx. destruct (IH H) as (a & E & R1 & C).
      destruct (tv_add_total n a x R1 Hn Hx) as [a' Ea].
      { intros k t Hk Ct. destruct (C k Hk) as (t' & Et & Ct'). rewrite Ct in Ct'. injection Ct' as <-.
        destruct (exact_histogram _ _ _ _ _ E0 Hb Hl (column k (rows0 ++ [x]))) as (u & Eu & _).
        unfold column in Eu. rewrite map_app in Eu. change (map (fun row : list R => nth k row 0) rows0) with (column k rows0) in Eu.
        rewrite (ta_adds_app (S := RR)), Et in Eu. cbn [bind map ta_adds] in Eu. change (@s0 RR) with 0.
        destruct (ta_add t (nth k x 0)) as [t'| | |] eqn:Q; try discriminate. exists t'. exact Q. }
      exists a'. rewrite (tv_adds_app (S := RR)), E. cbn [bind tv_adds]. rewrite Ea. split; [reflexivity|].
      destruct (tv_add_col _ _ _ _ R1 Hn Ea) as (R2 & _ & C2). split; [exact R2|]. intros k Hk. destruct (C k Hk) as (t & Et & Ct).
      destruct (C2 k t Hk Ct) as (t' & Et' & Ct'). exists t'. split; [|exact Ct'].
      unfold column. rewrite map_app. rewrite (ta_adds_app (S := RR)). change (map (fun row : list R => nth k row 0) rows0) with (column k rows0). rewrite Et. cbn [bind map ta_adds].
      refine (eq_trans (f_equal (fun o => bind o (fun a' => Ok a')) Et') _). reflexivity. }
  intros H. destruct (G H) as (a & E & R1 & C). destruct (tv_draw_ok n a R1) as [r Er]; [|eauto].
  intros k Hk. destruct (C k Hk) as (t & Et & Ct). exists (ta_bins t0), t. split; [exact Ct|]. rewrite (adds_history (S := RR)) in Et.
  eapply history_shape; [|exact Et]. eapply fresh_shape. exact E0. Qed.
End VecTotal.

Lemma one_low : low_end 1 = 1.
Proof. unfold low_end. destruct Rlt_dec as [H|H]; [|reflexivity]. exfalso. assert (1 < 10 ^ 15) by (simpl; lra).
  apply (Rmult_lt_compat_r (10 ^ 15)) in H; [|lra]. replace (1 / 10 ^ 15 * 10 ^ 15) with 1 in H by (field; lra). lra. Qed.
Lemma ln_le_pow (x : R) k : 0 < x -> x <= 2 ^ k -> ln x / ln 2 <= INR k.
Proof. intros H0 H. assert (Hl : 0 < ln 2) by (rewrite <- ln_1; apply ln_increasing; lra).
  apply (Rmult_le_reg_r (ln 2)); [exact Hl|]. replace (ln x / ln 2 * ln 2) with (ln x) by (field; lra).
  apply Rle_trans with (ln (2 ^ k)); [destruct H as [H| ->]; [left; apply ln_increasing; lra|lra]|]. rewrite <- Rpower_pow by lra. unfold Rpower. rewrite ln_exp. lra. Qed.

(** The last, partial bin of a multi-column analysis is not exported: range [1, 2.2], bin 1, one sample 2.1. *)
Lemma last_bin_lost : exists a0 a r, tv_fresh (S := RR) 1 (11 / 5) 1 2 1 = Ok a0 /\ tv_adds a0 [[21 / 10]] = Ok a /\ tv_draw a = Ok r /\
  (exists n, forall fuel, (n < fuel)%nat -> tv_export_lin fuel r = Ok []).
Proof. destruct (fresh_ok 1 (11 / 5) 1 2) as [t0 E]; rewrite ?one_low; try lra.
  { apply Rle_trans with (INR 2); [apply ln_le_pow; simpl; lra|simpl; lra]. }
  destruct (tv_fresh_ok (S := RR) _ _ _ _ 1 t0 E) as [a0 E0].
  destruct (vec_total _ _ _ _ _ _ E0 ltac:(lra) ltac:(lra) ltac:(discriminate) [[21 / 10]]) as (a & r & Ea & Er); [repeat constructor|].
  exists a0, a, r. do 3 (split; [assumption|]).
  destruct (vec_exported _ _ _ _ _ _ _ _ _ E0 ltac:(lra) ltac:(lra) ltac:(discriminate) Ea Er ltac:(discriminate)) as (K & L & HK & _ & X & _).
  exists K. intros fuel Hf. rewrite (X fuel Hf). apply (f_equal (@Ok (list (R * list (nat * R))))).
  apply filter_none. intros row Hr. apply in_map_iff in Hr. destruct Hr as (i & <- & Hi). apply in_seq in Hi.
  assert (Hi2 : edge (low_end 1) 1 i + 1 / 2 <= 11 / 5) by (apply HK; lia). rewrite one_low in *. unfold edge in Hi2.
  assert (i = 0%nat). { destruct i; [reflexivity|]. rewrite S_INR in Hi2. destruct i; [simpl in Hi2; lra|]. rewrite S_INR in Hi2. pose proof (pos_INR i). lra. }
  subst i. unfold visible. cbn [map seq snd existsb column nth]. rewrite orb_false_r. apply Rltb_false.
  replace (hits 1 (11 / 5) 1 [21 / 10] 0) with 0%nat.
  - assert (0 < 1 / 10 ^ 15) by (apply Rdiv_lt_0_compat; [lra|apply pow_lt; lra]). change (INR 0) with 0. apply Rle_trans with 0; [right; unfold Rdiv; apply Rmult_0_l|lra].
  - unfold hits, number_of. cbn [filter]. replace (cell (edge 1 1 0) (edge 1 1 1) (21 / 10)) with false; [rewrite andb_false_r; reflexivity|].
    symmetry. unfold cell. apply andb_false_iff. right. apply Rltb_false. unfold edge. simpl. lra. Qed.

(** A density below 1e-15 is dropped: one sample in a bin of width 1e16. *)
Lemma small_density_lost : exists a0 a r, ta_fresh (S := RR) 1 (10 ^ 16) (10 ^ 16) 2 = Ok a0 /\ ta_adds a0 [5] = Ok a /\ ta_draw a = Ok r /\ ta_export_lin r = Ok [].
Proof. assert (P : 1 < 10 ^ 16) by (simpl; lra).
  destruct (fresh_ok 1 (10 ^ 16) (10 ^ 16) 2) as [a0 E]; rewrite ?one_low; try lra.
  { apply Rle_trans with (INR 54); [apply ln_le_pow; simpl; lra|simpl; lra]. }
  destruct (exact_histogram _ _ _ _ _ E ltac:(lra) ltac:(lra) [5]) as (a & Ea & _).
  destruct (draw_ok (ta_bins a0) a) as [r Er].
  { pose proof Ea as Ea'. rewrite (adds_history (S := RR)) in Ea'. eapply history_shape; [|exact Ea']. eapply fresh_shape. exact E. }
  exists a0, a, r. do 3 (split; [assumption|]).
  destruct (exported _ _ _ _ _ _ _ _ E ltac:(lra) ltac:(lra) Ea Er ltac:(discriminate)) as [X _]. rewrite X.
  apply (f_equal (@Ok (list (R * nat * R)))). apply filter_none. intros row Hr. apply in_map_iff in Hr. destruct Hr as (i & <- & _).
  unfold big_enough. cbn [snd length]. apply negb_false_iff, Rltb_spec.
  assert (H1 : (hits (low_end 1) (10 ^ 16) (10 ^ 16) [5%R] i <= 1)%nat). { unfold hits, number_of. cbn [filter]. destruct (_ && _)%bool; cbn; lia. }
  assert (H2 : 0 <= INR (hits (low_end 1) (10 ^ 16) (10 ^ 16) [5] i) <= 1). { split; [apply pos_INR|]. apply le_INR in H1. exact H1. }
  set (c := INR _) in *. simpl (INR 1). rewrite Rmult_1_l. rewrite Rabs_pos_eq by (apply Rdiv_le_0_compat; lra).
  apply (Rmult_lt_reg_r (10 ^ 16)); [lra|]. replace (c / 10 ^ 16 * 10 ^ 16) with c by (field; lra). replace (1 / 10 ^ 15 * 10 ^ 16) with 10 by (field; simpl; lra). lra. Qed.

(** ** binary64 *)
Notation F := (F64 _) (only parsing).
Lemma draw_moments {S : scalar} (a r : tana S) : ta_draw a = Ok r -> ta_mean r = (ta_mean a / of_Z (Z.of_nat (ta_ens a)))%S /\
  ta_sq r = fsqrt (ta_sq a / of_Z (Z.of_nat (ta_ens a)) - (ta_mean a / of_Z (Z.of_nat (ta_ens a))) * (ta_mean a / of_Z (Z.of_nat (ta_ens a))))%S.
Proof. unfold ta_draw. cbv zeta. destruct (fill_lin _ _ _); try discriminate. cbn [bind]. destruct (fill _ _ _ _); try discriminate. cbn [bind]. intros H. injection H as <-. auto. Qed.
Lemma summed {S : scalar} (mn mx size lsize : S) a0 a xs : ta_fresh mn mx size lsize = Ok a0 -> ta_adds a0 xs = Ok a ->
  ta_mean a = fold_left add xs s0 /\ ta_sq a = fold_left (fun s x => s + x * x)%S xs s0 /\ ta_ens a = length xs.
Proof. intros HF Ha. apply ta_fresh_inv in HF. destruct HF as (B & _ & _ & -> & _). apply ta_adds_inv in Ha.
  destruct Ha as (_ & _ & _ & En & _ & _ & Mn & Sq & _). cbn [ta_mean ta_sq ta_ens] in *. auto. Qed.
(** Three equal samples 0.1: the variance is negative, the standard deviation NaN, whatever the bins. *)
Lemma equal_samples_nan lm (mn mx size lsize : b64) (a0 a r : tana (F64 lm)) : let x : F64 lm := lit 1 10 in
  ta_fresh (S := F64 lm) mn mx size lsize = Ok a0 -> ta_adds a0 [x; x; x] = Ok a -> ta_draw a = Ok r -> nan (ta_sq r : b64) = true.
Proof. cbv zeta. intros HF Ha Hd. destruct (summed _ _ _ _ _ _ _ HF Ha) as (E1 & E2 & E3). destruct (draw_moments _ _ Hd) as [_ ->]. rewrite E1, E2, E3. vm_compute. reflexivity. Qed.
(** No sample at all: the mean is NaN. *)
Lemma empty_nan lm (mn mx size lsize : b64) (a0 r : tana (F64 lm)) :
  ta_fresh (S := F64 lm) mn mx size lsize = Ok a0 -> ta_draw a0 = Ok r -> nan (ta_mean r : b64) = true /\ nan (ta_sq r : b64) = true.
Proof. intros HF Hd. destruct (summed _ _ _ _ _ a0 [] HF eq_refl) as (E1 & E2 & E3). destruct (draw_moments _ _ Hd) as [-> ->]. rewrite E1, E2, E3. split; vm_compute; reflexivity. Qed.
(** A data file without samples is not skipped by TimeAnalysis. *)
Lemma empty_file_nan lm sip (mn mx size lsize : b64) ds r : ta_analyze (S := F64 lm) sip mn mx size lsize [Some (ds, [])] = Ok r ->
  exists a, r = [(ds, a)] /\ nan (ta_mean a : b64) = true.
Proof. unfold ta_analyze, analyze. cbn [read_files insert_file]. destruct (ta_fresh (S := F64 lm) mn mx size lsize) as [a0| | |] eqn:E; try discriminate.
  cbn [bind add_lines read_files draw_all]. destruct (ta_draw a0) as [a| | |] eqn:D; try discriminate. cbn [bind]. intros H. injection H as <-.
  exists a. split; [reflexivity|]. now apply (empty_nan lm _ _ _ _ _ _ E D). Qed.
(** Bin 5 of [1, ...) with bins of 0.1 receives 1.5, which lies in bin 4. *)
Lemma wrong_bin lm (mx lsize : b64) num lnum : let b : b64 := lit (s := F64 lm) 1 10 in let x : b64 := lit (s := F64 lm) 3 2 in
  Bltb mx x = false -> bin_pos (S := F64 lm) (Bins (S := F64 lm) (b64_of_Z 1) mx b lsize num lnum) x = Some 5%Z /\
  edge 1 (B2 b) 4 <= B2 x < edge 1 (B2 b) 5.
Proof. cbv zeta. intros H. split.
  - rewrite (proj1 (bin_pos_cases (S := F64 lm) _ _)). cbn [b_min b_max b_size].
    replace (between (S := F64 lm) (b64_of_Z 1) mx (lit (s := F64 lm) 3 2)) with true; [vm_compute; reflexivity|].
    symmetry. unfold between. change (@ltb (F64 lm)) with (@Bltb 53 1024). rewrite H, andb_true_r. vm_compute. reflexivity.
  - assert (E1 : B2SF (lit (s := F64 lm) 1 10 : b64) = SpecFloat.S754_finite false 7205759403792794 (-56)) by (vm_compute; reflexivity).
    assert (E2 : B2SF (lit (s := F64 lm) 3 2 : b64) = SpecFloat.S754_finite false 6755399441055744 (-52)) by (vm_compute; reflexivity).
    rewrite <- !SF2R_B2SF, E1, E2. unfold SF2R, F2R, edge. cbn [Fnum Fexp cond_Zopp INR].
    change (bpow radix2 (-56)) with (/ IZR (2 ^ 56)). change (bpow radix2 (-52)) with (/ IZR (2 ^ 52)). simpl. lra. Qed.
(** update_from_num_bin: range [1, 11], 10 bins, sample 11. *)
Lemma num_bin_panic lm (a0 : tana (F64 lm)) : ta_fresh_num (S := F64 lm) (b64_of_Z 1) (b64_of_Z 11) 10 = Ok a0 -> ta_add a0 (b64_of_Z 11 : F64 lm) = Panic.
Proof. intros H. unfold ta_fresh_num in H. assert (E : from_num_bin (S := F64 lm) (b64_of_Z 1) (b64_of_Z 11) 10 = Ok (Bins (S := F64 lm) (b64_of_Z 1) (b64_of_Z 11)
      (div (s := F64 lm) (sub (s := F64 lm) (b64_of_Z 11) (b64_of_Z 1)) (of_Z 10)) (fpow (s := F64 lm) (div (s := F64 lm) (b64_of_Z 11) (b64_of_Z 1)) (div (s := F64 lm) s1 (of_Z 10))) 10 10)).
  { reflexivity. }
  rewrite E in H. cbn [bind] in H. apply ta_allocate_inv in H. destruct H as (-> & _). reflexivity. Qed.
Lemma num_bin_accepts lm : exists a0, ta_fresh_num (S := F64 lm) (b64_of_Z 1) (b64_of_Z 11) 10 = Ok a0.
Proof. unfold ta_fresh_num. assert (E : from_num_bin (S := F64 lm) (b64_of_Z 1) (b64_of_Z 11) 10 = Ok (Bins (S := F64 lm) (b64_of_Z 1) (b64_of_Z 11)
      (div (s := F64 lm) (sub (s := F64 lm) (b64_of_Z 11) (b64_of_Z 1)) (of_Z 10)) (fpow (s := F64 lm) (div (s := F64 lm) (b64_of_Z 11) (b64_of_Z 1)) (div (s := F64 lm) s1 (of_Z 10))) 10 10)) by reflexivity.
  rewrite E. cbn [bind]. apply alloc_fresh; cbn [b_num b_lnum]; lia. Qed.
(** Bin size 0 is accepted, and the allocation panics. *)
Lemma zero_bin_panics lm lsize : Bltb lsize (b64_of_Z 0) = false -> (exists b, from_bin_size (S := F64 lm) (b64_of_Z 1) (b64_of_Z 2) (b64_of_Z 0) lsize = Ok b) /\ ta_fresh (S := F64 lm) (b64_of_Z 1) (b64_of_Z 2) (b64_of_Z 0) lsize = Panic.
Proof. intros H. unfold ta_fresh, from_bin_size. change (@ltb (F64 lm)) with (@Bltb 53 1024). change (@s0 (F64 lm)) with (b64_of_Z 0). rewrite H.
  replace (Bltb (b64_of_Z 1) (b64_of_Z 0) || Bltb (b64_of_Z 2) (b64_of_Z 1) || Bltb (b64_of_Z 0) (b64_of_Z 0) || false)%bool with false by (vm_compute; reflexivity).
  split; [eexists; reflexivity|]. cbn [bind]. unfold ta_allocate. cbn [ta_set_bins ta_bins b_num ta_new].
  match goal with |- context [alloc _ ?n] => replace n with usize_max by (vm_compute; reflexivity) end. reflexivity. Qed.
