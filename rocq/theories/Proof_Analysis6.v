(** Exact reals: configuration by number of bins; exports of the vector and process analyses. *)
From Coq Require Import Reals ZArith List Bool Lia Lra Psatz Permutation.
From Flocq Require Import Core.
From Verif Require Import Base Scalar Model_Analysis Spec_Analysis Proof_Analysis Proof_Analysis2 Proof_Analysis3 Proof_Analysis4 Proof_Analysis5 Proof_Time.
Import ListNotations.
Local Open Scope R_scope.

Lemma ge10 (n : Z) : (10 <= n)%Z -> 10 <= IZR n. Proof. apply IZR_le. Qed.
Lemma low_end_ge mn : mn <= low_end mn. Proof. unfold low_end. destruct Rlt_dec; lra. Qed.
Lemma low_low mn : low_end (low_end mn) = low_end mn.
Proof. unfold low_end at 1. destruct Rlt_dec as [H|H]; [|reflexivity]. exfalso. revert H. unfold low_end. destruct Rlt_dec; lra. Qed.

Section NumBin.
Variables (mn mx : R) (n : Z).
Hypotheses (H0 : 0 <= mn) (H1 : low_end mn < mx) (Hn : (10 <= n <= 2 ^ 59)%Z).
Let m := low_end mn.
Let b := (mx - m) / IZR n.
Let l := Rpower (mx / m) (1 / IZR n).

Lemma nb_n : 0 < IZR n. Proof. pose proof (ge10 n (proj1 Hn)). lra. Qed.
Lemma nb_m : 0 < m. Proof. apply low_end_pos. Qed.
Lemma nb_b : 0 < b. Proof. apply Rdiv_lt_0_compat; [unfold m; lra|apply nb_n]. Qed.
Lemma nb_lnpos : 0 < ln (mx / m).
Proof. rewrite <- ln_1. apply ln_increasing; [lra|]. pose proof nb_m. apply Rmult_lt_reg_r with m; [assumption|].
  unfold Rdiv. rewrite Rmult_assoc, Rinv_l by lra. unfold m in *. lra. Qed.
Lemma nb_ln : ln l = ln (mx / m) / IZR n.
Proof. unfold l, Rpower. rewrite ln_exp. pose proof nb_n. field. lra. Qed.
Lemma nb_l : 1 < l.
Proof. pose proof nb_lnpos as P. pose proof nb_n as Q. apply Rle_lt_trans with (exp 0); [rewrite exp_0; lra|]. unfold l, Rpower. apply exp_increasing.
  apply Rmult_lt_0_compat; [|exact P]. apply Rdiv_lt_0_compat; lra. Qed.
Lemma nb_lin : (mx - m) / b = IZR n.
Proof. unfold b. pose proof nb_n. field. split; [lra|]. unfold m. lra. Qed.
Lemma nb_log : ln (mx / m) / ln l = IZR n.
Proof. rewrite nb_ln. pose proof nb_n. pose proof nb_lnpos. field. lra. Qed.

Lemma guard : (ltb (s := RR) mn s0 || ltb (s := RR) mx mn || (n <? 10)%Z)%bool = false.
Proof. pose proof (low_end_ge mn). change (@ltb RR) with Rltb. change (@s0 RR) with 0. rewrite !orb_false_iff, !Rltb_false. repeat split; [lra|lra|]. apply Z.ltb_ge. lia. Qed.
Lemma convert_R : convert_num_bin (S := RR) mn mx n = Ok (b, l).
Proof. unfold convert_num_bin. rewrite guard, clip_R. reflexivity. Qed.
Lemma guard2 : (ltb (s := RR) m s0 || ltb (s := RR) mx m || (n <? 10)%Z)%bool = false.
Proof. pose proof nb_m. change (@ltb RR) with Rltb. change (@s0 RR) with 0. rewrite !orb_false_iff, !Rltb_false. repeat split; [lra|unfold m; lra|]. apply Z.ltb_ge. lia. Qed.
Lemma from_num_R : from_num_bin (S := RR) mn mx n = Ok (Bins (S := RR) m mx b l n n).
Proof. unfold from_num_bin. rewrite guard, clip_R. fold m. unfold convert_num_bin. rewrite guard2, clip_R. replace (low_end m) with m by (symmetry; apply low_low). reflexivity. Qed.

(** The path of [analyze]: number of bins, converted to sizes, used as sizes.  Safe. *)
Lemma converted : 0 < b /\ 1 < l /\ exists a0, ta_fresh (S := RR) mn mx b l = Ok a0.
Proof. split; [apply nb_b|]. split; [apply nb_l|]. apply fresh_ok; [exact H0|lra|apply nb_b|apply nb_l| |].
  - fold m. rewrite nb_lin. replace (2 ^ 59) with (IZR (2 ^ 59)) by (symmetry; exact (pow_IZR 2 59)). apply IZR_le. lia.
  - fold m. rewrite nb_log. replace (2 ^ 59) with (IZR (2 ^ 59)) by (symmetry; exact (pow_IZR 2 59)). apply IZR_le. lia. Qed.

(** [update_from_num_bin]: the sample at the upper end has no bin. *)
Lemma num_fresh : exists a0, ta_fresh_num (S := RR) mn mx n = Ok a0 /\ ta_bins a0 = Bins (S := RR) m mx b l n n /\ length (ta_count a0) = Z.to_nat n /\ length (ta_lcount a0) = Z.to_nat n.
Proof. unfold ta_fresh_num. rewrite from_num_R. cbn [bind]. destruct (alloc_fresh (Bins (S := RR) m mx b l n n)) as [a0 E]; cbn [b_num b_lnum]; [lia|lia|].
  exists a0. split; [exact E|]. apply ta_allocate_inv in E. destruct E as (-> & _). cbn. rewrite !repeat_length. auto. Qed.

Lemma num_lin_index x : m <= x <= mx -> bin_pos (S := RR) (Bins (S := RR) m mx b l n n) x = Some (Zfloor ((x - m) / b)) /\ (0 <= Zfloor ((x - m) / b) <= n)%Z /\ (x < mx -> (Zfloor ((x - m) / b) < n)%Z) /\ 0 <= (x - m) / b.
Proof. intros Hx. pose proof nb_b. assert (Q0 : 0 <= (x - m) / b) by (apply Rdiv_le_0_compat; lra).
  assert (Q1 : (x - m) / b <= IZR n). { rewrite <- nb_lin. unfold Rdiv. apply Rmult_le_compat_r; [left; now apply Rinv_0_lt_compat|lra]. }
  assert (F : (0 <= Zfloor ((x - m) / b) <= n)%Z). { split; [now apply Zfloor_lub|]. apply le_IZR. pose proof (Zfloor_lb ((x - m) / b)). lra. }
  split; [|split; [exact F|split; [|exact Q0]]].
  - rewrite (proj1 (bin_pos_cases (S := RR) _ _)). cbn [b_min b_max b_size]. rewrite (proj2 (between_R m mx x) Hx). f_equal. apply (as_usize_floor ((x - m) / b)); [exact Q0|]. unfold usize_max. lia.
  - intros L. apply lt_IZR. pose proof (Zfloor_lb ((x - m) / b)). assert ((x - m) / b < IZR n); [|lra].
    rewrite <- nb_lin. unfold Rdiv. apply Rmult_lt_compat_r; [now apply Rinv_0_lt_compat|lra]. Qed.
Lemma num_log_index x : m <= x <= mx -> lbin_pos (S := RR) (Bins (S := RR) m mx b l n n) x = Some (Zfloor (ln (x / m) / ln l)) /\ (0 <= Zfloor (ln (x / m) / ln l) <= n)%Z /\ (x < mx -> (Zfloor (ln (x / m) / ln l) < n)%Z) /\ 0 <= ln (x / m) / ln l.
Proof. intros Hx. pose proof nb_m as Hm. pose proof (ln_l l nb_l) as Hln.
  assert (R1 : 1 <= x / m). { apply Rmult_le_reg_r with m; [exact Hm|]. unfold Rdiv. rewrite Rmult_assoc, Rinv_l by lra. lra. }
  assert (L0 : 0 <= ln (x / m)). { destruct R1 as [R1|R1]; [|rewrite <- R1, ln_1; lra]. rewrite <- ln_1. left. apply ln_increasing; lra. }
  assert (L1 : x < mx -> ln (x / m) < ln (mx / m)).
  { intros Lx. apply ln_increasing; [lra|]. unfold Rdiv. apply Rmult_lt_compat_r; [now apply Rinv_0_lt_compat|lra]. }
  assert (L1' : ln (x / m) <= ln (mx / m)) by (destruct (Req_dec x mx) as [->|]; [lra|left; apply L1; lra]).
  assert (Q0 : 0 <= ln (x / m) / ln l) by (apply Rdiv_le_0_compat; lra).
  assert (Q1 : ln (x / m) / ln l <= IZR n). { rewrite <- nb_log. unfold Rdiv. apply Rmult_le_compat_r; [left; now apply Rinv_0_lt_compat|lra]. }
  assert (F : (0 <= Zfloor (ln (x / m) / ln l) <= n)%Z). { split; [now apply Zfloor_lub|]. apply le_IZR. pose proof (Zfloor_lb (ln (x / m) / ln l)). lra. }
  split; [|split; [exact F|split; [|exact Q0]]].
  - rewrite (proj2 (bin_pos_cases (S := RR) _ _)). cbn [b_min b_max b_lsize]. rewrite (proj2 (between_R m mx x) Hx). f_equal.
    change (as_usize (s := RR) (ln (x / m) / ln 2 / (ln l / ln 2)) = Zfloor (ln (x / m) / ln l)). rewrite (log_ratio l nb_l).
    apply as_usize_floor; [exact Q0|]. unfold usize_max. lia.
  - intros Lx. apply lt_IZR. pose proof (Zfloor_lb (ln (x / m) / ln l)). assert (ln (x / m) / ln l < IZR n); [|lra].
    rewrite <- nb_log. unfold Rdiv. apply Rmult_lt_compat_r; [now apply Rinv_0_lt_compat|]. now apply L1. Qed.

Lemma num_bin_max_panics a0 : ta_fresh_num (S := RR) mn mx n = Ok a0 -> ta_add a0 mx = Panic.
Proof. intros E. destruct num_fresh as (a1 & E1 & B & L1 & L2). rewrite E in E1. injection E1 as <-.
  pose proof (ta_add_cases a0 mx rr_usize_ok) as C. replace (offends a0 mx) with true in C; [exact C|].
  symmetry. unfold offends. rewrite B. destruct (num_lin_index mx) as (-> & _); [unfold m; lra|].
  cbn [bad]. rewrite L1. apply orb_true_iff. left. rewrite nb_lin, Zfloor_IZR. apply negb_true_iff, Z.ltb_ge. lia. Qed.
Lemma num_bin_below_max a0 xs : ta_fresh_num (S := RR) mn mx n = Ok a0 -> Forall (fun x => x <> mx) xs -> exists a, ta_adds a0 xs = Ok a.
Proof. intros E Hx. destruct num_fresh as (a1 & E1 & B & L1 & L2). rewrite E in E1. injection E1 as <-.
  pose proof (ta_adds_cases (S := RR) xs rr_usize_ok a0) as C. replace (existsb (offends a0) xs) with false in C; [exact C|].
  symmetry. clear C. induction Hx as [|x xs Hx Hxs IH]; [reflexivity|]. cbn [existsb]. rewrite IH, orb_false_r.
  unfold offends. rewrite B, L1, L2.
  destruct (between (S := RR) m mx x) eqn:D.
  - apply between_R in D. assert (Lx : x < mx) by lra. destruct (num_lin_index x D) as (-> & F & G & _), (num_log_index x D) as (-> & F' & G' & _).
    cbn [bad]. rewrite orb_false_iff, !negb_false_iff, !Z.ltb_lt. specialize (G Lx). specialize (G' Lx). lia.
  - rewrite (proj1 (bin_pos_cases (S := RR) _ _)), (proj2 (bin_pos_cases (S := RR) _ _)). cbn [b_min b_max]. rewrite D. reflexivity. Qed.
End NumBin.

(** ** while time <= max_time *)
Lemma shown_ex (f : nat -> R) (M : R) n : (forall k, f k <= f (S k)) -> (forall k, f k <= M -> (k < n)%nat) -> exists K, shown f M K /\ (K <= n)%nat.
Proof. intros Mono. revert f Mono. induction n as [|n IH]; intros f Mono H.
  - exists 0%nat. split; [|lia]. intros k. split; [lia|]. intros Hk. apply H in Hk. lia.
  - destruct (Rle_or_lt (f 0%nat) M) as [L|L].
    + destruct (IH (fun k => f (S k))) as (K & HK & LK); [intros k; apply Mono|intros k Hk; apply H in Hk; lia|].
      exists (S K). split; [|lia]. intros [|k]; [split; [auto|lia]|]. specialize (HK k). cbn in HK. rewrite <- HK. lia.
    + exists 0%nat. split; [|lia]. intros k. split; [lia|]. intros Hk. exfalso.
      assert (f 0%nat <= f k) by (clear - Mono; induction k; [lra|]; specialize (Mono k); lra). lra. Qed.

Lemma tv_cells_ok {S : scalar} (cols : list (list nat)) (hists : list (list S)) is i :
  (forall k, In k is -> exists c h, nth_error cols k = Some c /\ nth_error hists k = Some h /\ (i < length c)%nat /\ (i < length h)%nat) ->
  tv_cells cols hists is i = Ok (map (fun k => (nth i (nth k cols []) 0%nat, nth i (nth k hists []) s0)) is).
Proof. induction is as [|k is IH]; intros H; [reflexivity|]. cbn [tv_cells map].
  destruct (H k (or_introl eq_refl)) as (c & h & Hc & Hh & Lc & Lh). rewrite IH by (intros j Hj; apply H; now right).
  unfold idx. rewrite Hc, Hh. cbn [bind]. rewrite (nth_error_nth' c 0%nat Lc), (nth_error_nth' h s0 Lh). cbn [bind].
  rewrite (nth_error_nth _ _ [] Hc), (nth_error_nth _ _ [] Hh). reflexivity. Qed.

Lemma tv_rows_R (next : R -> R) (f : nat -> R) mx nvar (cols : list (list nat)) (hists : list (list R)) num K :
  (forall k, next (f k) = f (S k)) -> shown f mx K -> (K <= num)%nat ->
  (forall k, (k < nvar)%nat -> exists c h, nth_error cols k = Some c /\ nth_error hists k = Some h /\ length c = num /\ length h = num) ->
  forall fuel i, (i <= K)%nat -> (K < fuel + i)%nat ->
  tv_rows (S := RR) fuel next mx (f i) i nvar cols hists =
  Ok (filter visible (map (fun k => (f k, map (fun j => (nth k (nth j cols []) 0%nat, nth k (nth j hists []) 0)) (seq 0 nvar))) (seq i (K - i)))).
Proof. intros Hn HK LK HC. induction fuel as [|fuel IH]; intros i Hi Hf; [lia|]. cbn [tv_rows].
  change (@leb RR) with Rleb. destruct (Nat.eq_dec i K) as [->|Ne].
  - replace (Rleb (f K) mx) with false.
    + rewrite Nat.sub_diag. reflexivity.
    + symmetry. apply Rleb_false. apply Rnot_le_lt. intros C. apply HK in C. lia.
  - assert (Li : (i < K)%nat) by lia. replace (Rleb (f i) mx) with true by (symmetry; apply Rleb_spec; now apply HK).
    rewrite (tv_cells_ok (S := RR)).
    2:{ intros k Hk. apply in_seq in Hk. destruct (HC k) as (c & h & Hc & Hh & Lc & Lh); [lia|]. exists c, h. repeat split; auto; [lia|].
        refine (Nat.lt_le_trans _ _ _ _ (Nat.eq_le_incl _ _ (eq_sym Lh))). lia. }
    cbn [bind]. rewrite Hn, (IH (S i)) by lia. cbn [bind]. f_equal.
    replace (K - i)%nat with (S (K - S i)) by lia. cbn [seq map filter]. unfold visible at 2. cbn [snd].
    rewrite tiny_R. change (@ltb RR) with Rltb. change (@s0 RR) with 0. reflexivity. Qed.

Lemma pa_rows_R (next : R -> R) (f : nat -> R) mx (cnt : list nat) (mean sq : list R) num K :
  (forall k, next (f k) = f (S k)) -> shown f mx K -> (K <= num)%nat -> length cnt = num -> length mean = num -> length sq = num ->
  forall fuel i, (i <= K)%nat -> (K < fuel + i)%nat ->
  pa_rows (S := RR) fuel next mx (f i) i cnt mean sq =
  Ok (filter (fun row => Rltb (1 / 10 ^ 15) (snd (fst row))) (map (fun k => (f k, nth k cnt 0%nat, nth k mean 0, nth k sq 0)) (seq i (K - i)))).
Proof. intros Hn HK LK L1 L2 L3. induction fuel as [|fuel IH]; intros i Hi Hf; [lia|]. cbn [pa_rows].
  change (@leb RR) with Rleb. destruct (Nat.eq_dec i K) as [->|Ne].
  - replace (Rleb (f K) mx) with false.
    + rewrite Nat.sub_diag. reflexivity.
    + symmetry. apply Rleb_false. apply Rnot_le_lt. intros C. apply HK in C. lia.
  - assert (Li : (i < K)%nat) by lia. replace (Rleb (f i) mx) with true by (symmetry; apply Rleb_spec; now apply HK).
    assert (I1 : idx cnt i = Ok (nth i cnt 0%nat)) by (unfold idx; rewrite (nth_error_nth' cnt 0%nat) by lia; reflexivity).
    assert (I2 : @idx (car RR) mean i = Ok (nth i mean 0)) by (unfold idx; rewrite (nth_error_nth' mean 0) by lia; reflexivity).
    assert (I3 : @idx (car RR) sq i = Ok (nth i sq 0)) by (unfold idx; rewrite (nth_error_nth' sq 0) by lia; reflexivity).
    rewrite I1. cbn [bind]. rewrite I2. cbn [bind]. rewrite I3. cbn [bind]. rewrite Hn, (IH (S i)) by lia. cbn [bind]. f_equal.
    replace (K - i)%nat with (S (K - S i)) by lia. cbn [seq map filter fst snd].
    rewrite tiny_R. change (@ltb RR) with Rltb. reflexivity. Qed.

(** The centres of the bins of a configured analysis. *)
Lemma centres (B : bins RR) mn mx b l : from_bin_size (S := RR) mn mx b l = Ok B -> (8 * b_num B <= 2 ^ 63 - 1)%Z -> (8 * b_lnum B <= 2 ^ 63 - 1)%Z -> 0 < b -> 1 < l ->
  (exists K, shown (fun i => edge (low_end mn) b i + b / 2) mx K /\ (K <= Z.to_nat (b_num B))%nat) /\
  (exists K, shown (fun i => ledge (low_end mn) l i * sqrt l) mx K /\ (K <= Z.to_nat (b_lnum B))%nat).
Proof. intros HB K1 K2 Hb Hl. pose proof (low_end_pos mn) as Hm. set (m := low_end mn) in *. destruct (alloc_fresh B K1 K2) as [a0 E].
  assert (HF : ta_fresh (S := RR) mn mx b l = Ok a0) by (unfold ta_fresh; rewrite HB; exact E).
  assert (EB : ta_bins a0 = B) by (apply ta_allocate_inv in E; destruct E as (-> & _); reflexivity).
  assert (Sq : 1 <= sqrt l) by (rewrite <- sqrt_1; apply sqrt_le_1; lra).
  assert (Sq2 : sqrt l < l). { assert (1 < sqrt l) by (rewrite <- sqrt_1; apply sqrt_lt_1; lra). rewrite <- (sqrt_sqrt l) at 2 by lra. nra. }
  split; apply shown_ex.
  - intros k. unfold edge. rewrite S_INR. nra.
  - intros k Hk. assert (R : m <= edge m b k + b / 2 <= mx). { split; [|exact Hk]. unfold edge. pose proof (pos_INR k). nra. }
    destruct (in_some_bin _ _ _ _ _ HF Hb Hl _ R) as [(i & Hi & C1 & C2) _]. rewrite EB in Hi. fold m in C1, C2.
    assert (i = k); [|lia]. unfold edge in *. rewrite !S_INR in C2.
    assert (INR i < INR k + 1) by nra. assert (INR k < INR i + 1) by nra.
    rewrite <- S_INR in *. apply INR_lt in H, H0. lia.
  - intros k. unfold ledge. cbn [pow]. assert (0 < l ^ k) by (apply pow_lt; lra).
    apply Rmult_le_compat_r; [lra|]. apply Rmult_le_compat_l; [lra|]. nra.
  - intros k Hk. assert (P : 1 <= l ^ k) by (apply pow_R1_Rle; lra).
    assert (R : m <= ledge m l k * sqrt l <= mx). { split; [|exact Hk]. unfold ledge. assert (m <= m * l ^ k) by nra. nra. }
    destruct (in_some_bin _ _ _ _ _ HF Hb Hl _ R) as [_ (i & Hi & C1 & C2)]. rewrite EB in Hi. fold m in C1, C2.
    assert (i = k); [|lia]. unfold ledge in *.
    assert (A1 : l ^ i < l ^ S k). { apply (Rmult_lt_reg_l m); [exact Hm|]. cbn [pow]. assert (0 < m * l ^ k) by nra. nra. }
    assert (A2 : l ^ k < l ^ S i). { apply (Rmult_lt_reg_l m); [exact Hm|]. assert (m * l ^ k <= m * l ^ k * sqrt l) by nra. lra. }
    assert (In1 : forall p q, l ^ p < l ^ q -> (p < q)%nat).
    { intros p q Lt. destruct (Nat.lt_ge_cases p q) as [|Ge]; [assumption|]. exfalso. assert (l ^ q <= l ^ p) by (apply Rle_pow; [lra|lia]). lra. }
    apply In1 in A1, A2. lia. Qed.
