From Coq Require Import Reals ZArith List Bool Lra Lia.
From Verif Require Import Base Scalar Model_Analysis Spec_Analysis Model_Rebin Proof_Analysis Proof_Analysis2 Proof_Analysis4 Proof_Analysis5 Proof_Analysis7 Proof_Analysis9 Proof_Analysis10.
Import ListNotations.

Section Any.
Context {S : scalar}.
Lemma assign_cases {A : Type} (set : A -> bins S -> A) a nb a' r : assign_bins set a nb = (a', r) ->
  (exists b, nb = Ok b /\ a' = set a b /\ r = Ok tt) \/ (a' = a /\ r <> Ok tt).
Proof. destruct nb as [b| | |]; cbn; intros H; injection H as <- <-; [left; now exists b|right; now split ..]. Qed.
Lemma size_cases (mn mx size lsize : S) :
  (from_bin_size mn mx size lsize = Err InvalidArgumentInput /\ (ltb mn s0 || ltb mx mn || ltb size s0 || ltb lsize s0 = true)%bool) \/
  (exists b, from_bin_size mn mx size lsize = Ok b /\ (ltb mn s0 || ltb mx mn || ltb size s0 || ltb lsize s0 = false)%bool /\
     b_min b = (if ltb mn (lit 1 (10 ^ 15)) then lit 1 (10 ^ 15) else mn) /\ b_max b = mx /\ b_size b = size /\ b_lsize b = lsize).
Proof.
  unfold from_bin_size. destruct (ltb mn s0 || ltb mx mn || ltb size s0 || ltb lsize s0)%bool; [left; auto|right]. eexists. split; [reflexivity|]. split; [reflexivity|]. cbn. auto.
Qed.
Lemma clear_rebin_time (a c c' : tana S) mn mx size lsize : ta_clear a = Ok c -> ta_update_size c mn mx size lsize = (c', Ok tt) -> ta_allocate c' = ta_fresh mn mx size lsize.
Proof.
  intros Hc H. apply assign_cases in H. destruct H as [(b & E & -> & _)|(_ & H)]; [|contradiction]. unfold ta_clear in Hc. destruct (alloc _ _); try discriminate. destruct (alloc _ _); try discriminate.
  cbn [bind] in Hc. injection Hc as <-. unfold ta_fresh. rewrite E. reflexivity.
Qed.
Lemma clear_rebin_vec (a c c' : tvec S) mn mx size lsize : tv_clear a = Ok c -> tv_update_size c mn mx size lsize = (c', Ok tt) -> tv_allocate c' = tv_fresh mn mx size lsize (tv_nvar a).
Proof.
  intros Hc H. apply assign_cases in H. destruct H as [(b & E & -> & _)|(_ & H)]; [|contradiction]. unfold tv_clear in Hc. destruct (alloc _ _); try discriminate. destruct (alloc _ _); try discriminate.
  cbn [bind] in Hc. injection Hc as <-. unfold tv_fresh. rewrite E. reflexivity.
Qed.
Lemma clear_rebin_num (a c c' : tana S) mn mx n : ta_clear a = Ok c -> ta_update_num c mn mx n = (c', Ok tt) -> ta_allocate c' = ta_fresh_num mn mx n.
Proof.
  intros Hc H. apply assign_cases in H. destruct H as [(b & E & -> & _)|(_ & H)]; [|contradiction]. unfold ta_clear in Hc. destruct (alloc _ _); try discriminate. destruct (alloc _ _); try discriminate.
  cbn [bind] in Hc. injection Hc as <-. unfold ta_fresh_num. rewrite E. reflexivity.
Qed.
Lemma clear_rebin_process (a c c' d : pana S) mn mx size lsize : pa_clear a = Ok c -> pa_update_size c mn mx size lsize = (c', Ok tt) -> pa_allocate c' = Ok d ->
  exists f, pa_fresh mn mx size lsize = Ok f /\ d = with_points (pa_points a) f.
Proof.
  intros Hc H Hd. apply assign_cases in H. destruct H as [(b & E & -> & _)|(_ & H)]; [|contradiction]. unfold pa_clear in Hc.
  do 4 (destruct (alloc _ _) in Hc; try discriminate). cbn [bind] in Hc. injection Hc as <-. unfold pa_fresh. rewrite E. cbn [bind].
  unfold pa_allocate in *. cbn [pa_set_bins pa_bins pa_new pa_mean pa_sq pa_points pa_ens] in *. do 4 (destruct (alloc _ _) in Hd |- *; try discriminate). cbn [bind] in *. injection Hd as <-.
  eexists. split; [reflexivity|]. unfold with_points. cbn. now rewrite Nat.add_0_r.
Qed.
(** New bins and new vectors in an analysis used before. *)
Lemma rebin_time (a a1 a2 : tana S) mn mx size lsize : ta_update_size a mn mx size lsize = (a1, Ok tt) -> ta_allocate a1 = Ok a2 ->
  exists f, ta_fresh mn mx size lsize = Ok f /\ a2 = Tana (ta_mean a) (ta_sq a) (ta_ens a) (ta_bins f) (ta_hist f) (ta_lhist f) (ta_count f) (ta_lcount f).
Proof.
  intros H Hd. apply assign_cases in H. destruct H as [(b & E & -> & _)|(_ & H)]; [|contradiction]. unfold ta_fresh. rewrite E. cbn [bind].
  unfold ta_allocate in *. cbn [ta_set_bins ta_bins ta_new ta_mean ta_sq ta_ens] in *. do 4 (destruct (alloc _ _) in Hd |- *; try discriminate). cbn [bind] in *. injection Hd as <-.
  eexists. split; [reflexivity|]. reflexivity.
Qed.
Definition more_ens (e : nat) (a : tvec S) : tvec S := Tvec (tv_means a) (tv_sqs a) (e + tv_ens a) (tv_bins a) (tv_nvar a) (tv_hist a) (tv_lhist a) (tv_count a) (tv_lcount a).
Lemma rebin_vec (a a1 a2 : tvec S) mn mx size lsize : tv_update_size a mn mx size lsize = (a1, Ok tt) -> tv_allocate a1 = Ok a2 ->
  exists f, tv_fresh mn mx size lsize (tv_nvar a) = Ok f /\ a2 = more_ens (tv_ens a) f.
Proof.
  intros H Hd. apply assign_cases in H. destruct H as [(b & E & -> & _)|(_ & H)]; [|contradiction]. unfold tv_fresh. rewrite E. cbn [bind].
  unfold tv_allocate in *. cbn [tv_set_bins tv_bins tv_new tv_nvar tv_ens] in *. do 4 (destruct (alloc _ _) in Hd |- *; try discriminate). cbn [bind] in *. injection Hd as <-.
  eexists. split; [reflexivity|]. unfold more_ens. cbn. now rewrite Nat.add_0_r.
Qed.
End Any.

Local Open Scope R_scope.
Section Times.
Variables (mn mx b l : R) (f : tana RR).
Hypotheses (HF : ta_fresh (S := RR) mn mx b l = Ok f) (Hb : 0 < b) (Hl : 1 < l).
Lemma rebinned_times (p0 p a1 a2 : tana RR) (mn0 mx0 b0 l0 : R) (xs ys : list R) : ta_fresh (S := RR) mn0 mx0 b0 l0 = Ok p0 -> ta_adds p0 xs = Ok p ->
  ta_update_size (S := RR) p mn mx b l = (a1, Ok tt) -> ta_allocate a1 = Ok a2 ->
  exists a3 r, ta_adds a2 ys = Ok a3 /\ ta_draw a3 = Ok r /\ (xs ++ ys <> [] -> ta_mean r = average (xs ++ ys) /\ ta_sq r = deviation (xs ++ ys)) /\ ta_ens r = (length xs + length ys)%nat /\
    (forall i, nth i (ta_count r) 0%nat = hits (low_end mn) mx b ys i) /\ (forall i, nth i (ta_lcount r) 0%nat = lhits (low_end mn) mx l ys i).
Proof.
  intros H0 Hx Hu Hal. destruct (rebin_time _ _ _ _ _ _ _ Hu Hal) as (f' & Ef & Ea). assert (f' = f) by congruence. subst f'. clear Ef.
  destruct (summed _ _ _ _ _ _ _ H0 Hx) as (Mp & Qp & Np).
  destruct (exact_histogram _ _ _ _ _ HF Hb Hl ys) as (g & Hg & _ & _ & _ & C1 & C2). pose proof (ta_adds_inv _ _ _ Hg) as (_ & _ & _ & _ & _ & _ & _ & _ & G1 & G2 & _).
  pose proof (ta_adds_cases (S := RR) ys rr_usize_ok a2) as Cs.
  assert (Off : existsb (offends a2) ys = false).
  { rewrite Ea. change (existsb (offends f) ys = false). clear -HF Hb Hl. induction ys as [|y q IH]; [reflexivity|]. cbn [existsb]. rewrite IH, orb_false_r. exact (no_offence _ _ _ _ _ HF Hb Hl y). }
  rewrite Off in Cs. destruct Cs as (a3 & H3). pose proof (ta_adds_inv _ _ _ H3) as (B3 & Hh & Hlh & En & L1 & L2 & M & Q & N1 & N2 & _).
  assert (Sh : shape (ta_bins f) a3).
  { destruct (fresh_shape _ _ _ _ _ HF) as (_ & S1 & S2 & S3 & S4). unfold shape. rewrite Ea in B3, Hh, Hlh, L1, L2. cbn [ta_bins ta_hist ta_lhist ta_count ta_lcount] in B3, Hh, Hlh, L1, L2.
    repeat split; [exact B3|rewrite L1; exact S1|rewrite L2; exact S2| |].
    - exact (eq_trans (f_equal (@length R) Hh) S3).
    - exact (eq_trans (f_equal (@length R) Hlh) S4). }
  destruct (draw_ok _ _ Sh) as (r & Hr). exists a3, r. split; [exact H3|]. split; [exact Hr|].
  destruct (draw_moments _ _ Hr) as (Dm & Dq).
  assert (K : ta_ens r = ta_ens a3 /\ ta_count r = ta_count a3 /\ ta_lcount r = ta_lcount a3).
  { clear -Hr. revert Hr. unfold ta_draw. cbv zeta. destruct (fill_lin _ _ _); try discriminate. cbn [bind]. destruct (fill _ _ _ _); try discriminate. cbn [bind]. intros H. injection H as <-. auto. }
  destruct K as (K1 & K2 & K3). rewrite Ea in En, M, Q, N1, N2. cbn [ta_ens ta_mean ta_sq ta_bins ta_count ta_lcount] in En, M, Q, N1, N2. rewrite Np in En.
  split; [|split; [rewrite K1; exact En|split]].
  - intros Ne. assert (Len : ta_ens a3 = length (xs ++ ys)) by (rewrite app_length; exact En).
    assert (M' : ta_mean a3 = rsum (xs ++ ys)).
    { rewrite M, Mp. change (fold_left (@add RR) ys (fold_left (@add RR) xs 0) = rsum (xs ++ ys)). rewrite <- fold_left_app. exact (eq_trans (fold_add (xs ++ ys) 0) (Rplus_0_l _)). }
    assert (Q' : ta_sq a3 = rsum (map (fun x => x ^ 2) (xs ++ ys))).
    { rewrite Q, Qp. change (fold_left (fun s x => @add RR s (@mul RR x x)) ys (fold_left (fun s x => @add RR s (@mul RR x x)) xs 0) = rsum (map (fun x => x ^ 2) (xs ++ ys))).
      rewrite <- fold_left_app. exact (eq_trans (fold_sq (xs ++ ys) 0) (Rplus_0_l _)). }
    assert (Z : @of_Z RR (Z.of_nat (ta_ens a3)) = INR (length (xs ++ ys))) by (rewrite Len, INR_IZR_INZ; reflexivity).
    rewrite Z, M' in Dm. rewrite Z, M', Q' in Dq. split; [exact Dm|]. rewrite (deviation_eq _ Ne). exact Dq.
  - intros i. rewrite K2, N1, <- C1, G1. reflexivity.
  - intros i. rewrite K3, N2, <- C2, G2. reflexivity.
Qed.
End Times.

Section Vectors.
Lemma rebinned_vectors (n : nat) (mn mx b l : R) (p a1 a2 a3 r : tvec RR) (ys : list (list R)) : n <> 0%nat -> tv_nvar p = n ->
  tv_update_size (S := RR) p mn mx b l = (a1, Ok tt) -> tv_allocate a1 = Ok a2 -> tv_adds a2 ys = Ok a3 -> tv_draw a3 = Ok r ->
  tv_ens r = (tv_ens p + length ys)%nat /\ forall k, (k < n)%nat -> nth_error (tv_means r) k = Some (rsum (column k ys) / INR (tv_ens p + length ys)).
Proof.
  intros Hn Np Hu Hal Hy Hd. destruct (rebin_vec _ _ _ _ _ _ _ Hu Hal) as (f & Ef & Ea). rewrite Np in Ef. destruct (tv_fresh_col _ _ _ _ _ _ Ef) as (R0 & t0 & E0 & C0).
  assert (R2 : regular n a2) by (rewrite Ea; exact R0).
  assert (Hh := Hy). rewrite (tv_adds_vhistory (S := RR)) in Hh. destruct (vhistory_col _ _ Hn _ _ R2 Hh) as (R3 & _ & C3). destruct (tv_draw_col _ _ _ R3 Hd) as (R4 & C4).
  set (t1 := Tana (S := RR) (ta_mean t0) (ta_sq t0) (tv_ens p + ta_ens t0) (ta_bins t0) (ta_hist t0) (ta_lhist t0) (ta_count t0) (ta_lcount t0)).
  assert (C1 : forall k, (k < n)%nat -> column_of k a2 = Some t1).
  { intros k Hk. specialize (C0 k Hk). apply column_inv in C0. destruct C0 as (D1 & D2 & D3 & D4 & D5 & D6 & D7 & D8). rewrite Ea. unfold column_of, more_ens. cbn [tv_means tv_sqs tv_hist tv_lhist tv_count tv_lcount tv_ens tv_bins].
    rewrite D1, D2, D3, D4, D5, D6, <- D7, <- D8. reflexivity. }
  assert (K : forall k, (k < n)%nat -> tv_ens r = (tv_ens p + length ys)%nat /\ nth_error (tv_means r) k = Some (rsum (column k ys) / INR (tv_ens p + length ys))).
  { intros k Hk. destruct (C3 k t1 Hk (C1 k Hk)) as (t & Ht & Ct). rewrite (op_col_adds (S := RR)) in Ht. destruct (C4 k t Hk Ct) as (u & Hu' & Cu).
    apply column_inv in Cu. destruct Cu as (U1 & _ & _ & _ & _ & _ & U7 & _). destruct (draw_moments _ _ Hu') as (Dm & _).
    pose proof (ta_adds_inv _ _ _ Ht) as (_ & _ & _ & En & _ & _ & M & _). apply ta_fresh_inv in E0. destruct E0 as (b0 & _ & _ & E0 & _).
    assert (Z0 : ta_mean t1 = 0 /\ ta_ens t1 = tv_ens p) by (unfold t1; rewrite E0; cbn [ta_mean ta_ens]; split; [reflexivity|lia]). destruct Z0 as (Z1 & Z2).
    rewrite Z2, map_length in En. rewrite Z1 in M. change (ta_mean t = fold_left (@add RR) (column k ys) 0) in M. rewrite fold_add in M.
    assert (Eu : ta_ens u = ta_ens t) by (clear -Hu'; revert Hu'; unfold ta_draw; cbv zeta; destruct (fill_lin _ _ _); try discriminate; cbn [bind]; destruct (fill _ _ _ _); try discriminate; cbn [bind]; intros H; injection H as <-; reflexivity).
    split; [exact (eq_trans (eq_sym U7) (eq_trans Eu En))|]. rewrite U1. f_equal. rewrite Dm, En, M. change (@of_Z RR) with IZR. rewrite <- INR_IZR_INZ. rewrite Rplus_0_l. reflexivity. }
  split; [exact (proj1 (K 0%nat ltac:(lia)))|]. intros k Hk. exact (proj2 (K k Hk)).
Qed.
End Vectors.

Section Process.
Definition shifted (m q : R) (n e : nat) (a : pana RR) : pana RR :=
  Pana (S := RR) (m + pa_mean a) (q + pa_sq a) (n + pa_points a) (e + pa_ens a) (pa_bins a) (pa_bmean a) (pa_bsq a) (pa_count a) (pa_lmean a) (pa_lsq a) (pa_lcount a).
Lemma pair_shifted m q n e (a : pana RR) (t v : R) : pa_pair (S := RR) (shifted m q n e a) t v = do r <- pa_pair (S := RR) a t v; Ok (shifted m q n e r).
Proof.
  unfold pa_pair, shifted. cbn [pa_mean pa_sq pa_points pa_ens pa_bins pa_bmean pa_bsq pa_count pa_lmean pa_lsq pa_lcount].
  do 6 (destruct (bump _ _ _); cbn [bind]; try reflexivity). cbn [pa_mean pa_sq pa_points pa_ens pa_bins pa_bmean pa_bsq pa_count pa_lmean pa_lsq pa_lcount].
  rewrite Nat.add_succ_r. change (@add RR) with Rplus. rewrite !Rplus_assoc. reflexivity.
Qed.
Lemma pairs_shifted m q n e ps : forall a : pana RR, pa_pairs (S := RR) (shifted m q n e a) ps = do r <- pa_pairs (S := RR) a ps; Ok (shifted m q n e r).
Proof. induction ps as [|(t, v) ps IH]; intros a; cbn [pa_pairs]; [reflexivity|]. rewrite pair_shifted. destruct (pa_pair a t v); cbn [bind]; try reflexivity. apply IH. Qed.
Lemma add_shifted m q n e (a : pana RR) : pa_add (shifted m q n e a) = shifted m q n e (pa_add a).
Proof. unfold pa_add, shifted. cbn. now rewrite Nat.add_succ_r. Qed.
Lemma lines_shifted m q n e ls : forall a : pana RR, add_lines (pa_line (S := RR)) (shifted m q n e a) ls = do r <- add_lines (pa_line (S := RR)) a ls; Ok (shifted m q n e r).
Proof.
  induction ls as [|l ls IH]; intros a; cbn [add_lines]; [reflexivity|]. unfold pa_line at 1 3. rewrite pairs_shifted. destruct (pa_pairs a l) as [a0| | |]; cbn [bind]; try reflexivity.
  rewrite add_shifted. apply IH.
Qed.
Lemma rebin_process (a a1 a2 : pana RR) (mn mx b l : R) : pa_update_size (S := RR) a mn mx b l = (a1, Ok tt) -> pa_allocate a1 = Ok a2 ->
  exists f, pa_fresh (S := RR) mn mx b l = Ok f /\ a2 = shifted (pa_mean a) (pa_sq a) (pa_points a) (pa_ens a) f.
Proof.
  intros H Hd. apply assign_cases in H. destruct H as [(bs & E & -> & _)|(_ & H)]; [|contradiction]. unfold pa_fresh. rewrite E. cbn [bind].
  unfold pa_allocate in *. cbn [pa_set_bins pa_bins pa_new pa_mean pa_sq pa_points pa_ens] in *. do 4 (destruct (alloc _ _) in Hd |- *; try discriminate). cbn [bind] in *. injection Hd as <-.
  eexists. split; [reflexivity|]. unfold shifted. cbn [pa_mean pa_sq pa_points pa_ens pa_bins pa_bmean pa_bsq pa_count pa_lmean pa_lsq pa_lcount]. rewrite !Nat.add_0_r. change (@s0 RR) with 0. rewrite !Rplus_0_r. reflexivity.
Qed.
Lemma draw_shifted m q n e (a r : pana RR) : pa_draw a = Ok r -> exists r', pa_draw (shifted m q n e a) = Ok r' /\ pa_ens r' = (e + pa_ens r)%nat /\ pa_bins r' = pa_bins r /\ pa_count r' = pa_count r /\ pa_lcount r' = pa_lcount r /\
  pa_bmean r' = pa_bmean r /\ pa_bsq r' = pa_bsq r /\ pa_lmean r' = pa_lmean r /\ pa_lsq r' = pa_lsq r /\
  let N := INR (n + pa_points a) in pa_mean r' = (m + pa_mean a) / N /\ pa_sq r' = sqrt ((q + pa_sq a) / N - (m + pa_mean a) / N * ((m + pa_mean a) / N)).
Proof.
  unfold pa_draw, shifted. cbn [pa_mean pa_sq pa_points pa_ens pa_bins pa_bmean pa_bsq pa_count pa_lmean pa_lsq pa_lcount].
  destruct (means_loop (pa_count a) _ _); cbn [bind]; try discriminate. destruct (means_loop (pa_lcount a) _ _); cbn [bind]; try discriminate. intros H. injection H as <-.
  eexists. split; [reflexivity|]. cbn [pa_mean pa_sq pa_points pa_ens pa_bins pa_bmean pa_bsq pa_count pa_lmean pa_lsq pa_lcount]. do 8 (split; [reflexivity|]).
  cbv zeta. change (@of_Z RR) with IZR. rewrite INR_IZR_INZ. split; reflexivity.
Qed.
Lemma draw_unshift m q n e (a r' : pana RR) : pa_draw (shifted m q n e a) = Ok r' -> exists r, pa_draw a = Ok r.
Proof.
  unfold pa_draw, shifted. cbn [pa_mean pa_sq pa_points pa_ens pa_bins pa_bmean pa_bsq pa_count pa_lmean pa_lsq pa_lcount].
  destruct (means_loop (pa_count a) _ _); cbn [bind]; try discriminate. destruct (means_loop (pa_lcount a) _ _); cbn [bind]; try discriminate. eauto.
Qed.
Lemma rsum_app_R (xs ys : list R) : rsum (xs ++ ys) = rsum xs + rsum ys.
Proof. unfold rsum. rewrite fold_right_app. induction xs as [|x xs IH]; cbn [app fold_right]; [lra|]. rewrite IH. lra. Qed.
Lemma rebinned_process (mn0 mx0 b0 l0 mn mx b l : R) (p0 p a1 a2 a3 r : pana RR) (xs ys : list (list (R * R))) :
  pa_fresh (S := RR) mn0 mx0 b0 l0 = Ok p0 -> 0 < b0 -> 1 < l0 -> 0 < b -> 1 < l -> add_lines (pa_line (S := RR)) p0 xs = Ok p ->
  pa_update_size (S := RR) p mn mx b l = (a1, Ok tt) -> pa_allocate a1 = Ok a2 -> add_lines (pa_line (S := RR)) a2 ys = Ok a3 -> pa_draw a3 = Ok r ->
  let all := map snd (concat (xs ++ ys)) in pa_mean r = average all /\ pa_sq r = deviation all /\ pa_ens r = length (xs ++ ys) /\
  exists f, pa_fresh (S := RR) mn mx b l = Ok f /\
  pa_bmean r = map (fun i => average (values_in (low_end mn) mx b (concat ys) i)) (seq 0 (Z.to_nat (b_num (pa_bins f)))) /\
  pa_bsq r = map (fun i => deviation (values_in (low_end mn) mx b (concat ys) i)) (seq 0 (Z.to_nat (b_num (pa_bins f)))) /\
  pa_lmean r = map (fun i => average (lvalues_in (low_end mn) mx l (concat ys) i)) (seq 0 (Z.to_nat (b_lnum (pa_bins f)))) /\
  pa_lsq r = map (fun i => deviation (lvalues_in (low_end mn) mx l (concat ys) i)) (seq 0 (Z.to_nat (b_lnum (pa_bins f)))).
Proof.
  intros H0 Hb0 Hl0 Hb Hl Hx Hu Hal Hy Hd. destruct (rebin_process _ _ _ _ _ _ _ Hu Hal) as (f & Ef & Ea).
  rewrite Ea, lines_shifted in Hy. destruct (add_lines pa_line f ys) as [g| | |] eqn:Eg; try discriminate. cbn [bind] in Hy. injection Hy as <-.
  destruct (draw_unshift _ _ _ _ _ _ Hd) as (r0 & Hr0). destruct (draw_shifted (pa_mean p) (pa_sq p) (pa_points p) (pa_ens p) _ _ Hr0) as (r' & Er & E1 & _ & _ & _ & E2 & E3 & E4 & E5 & E6 & E7).
  assert (r' = r) by congruence. subst r'.
  destruct (pa_sums _ _ _ _ _ H0 Hb0 Hl0 p xs Hx) as (En & Pt & Mn & Sq & _). destruct (pa_sums _ _ _ _ _ Ef Hb Hl g ys Eg) as (En' & Pt' & Mn' & Sq' & _).
  destruct (pa_drawn _ _ _ _ _ Ef Hb Hl g r0 ys Eg Hr0) as (_ & _ & D3 & _ & _ & _ & D4 & D5 & D6 & D7).
  cbv zeta. rewrite concat_app, map_app. rewrite Pt, Pt', Mn, Mn' in E6, E7. rewrite Sq, Sq' in E7.
  assert (La : (length (concat xs) + length (concat ys))%nat = length (map snd (concat xs) ++ map snd (concat ys))) by (rewrite app_length, !map_length; reflexivity).
  assert (Sa : rsum (map snd (concat xs)) + rsum (map snd (concat ys)) = rsum (map snd (concat xs) ++ map snd (concat ys))) by (symmetry; apply rsum_app_R).
  assert (Qa : rsum (map (fun x => x ^ 2) (map snd (concat xs))) + rsum (map (fun x => x ^ 2) (map snd (concat ys))) = rsum (map (fun x => x ^ 2) (map snd (concat xs) ++ map snd (concat ys)))).
  { rewrite map_app. symmetry. apply rsum_app_R. }
  split; [|split; [|split]].
  - rewrite E6, La, Sa. reflexivity.
  - rewrite E7, deviation_eq0, La, Sa, Qa. reflexivity.
  - rewrite E1, En, D3, app_length. reflexivity.
  - exists f. split; [exact Ef|]. rewrite E2, E3, E4, E5. auto.
Qed.
End Process.
