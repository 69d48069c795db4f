(** Last facts about the analyses: binary64 runs never fail on any sample, clear of the other two analyses, export failures. *)
From Coq Require Import ZArith Reals Lra Lia List Bool.
From Flocq Require Import Core.
From Flocq.IEEE754 Require Import BinarySingleNaN.
From Verif Require Import Base Scalar Float64 Model_Analysis Spec_Analysis Proof_Analysis Proof_Analysis2 Proof_Analysis3 Proof_Analysis4 Proof_Analysis5 Proof_Analysis6 Proof_Analysis7 Proof_Analysis8 Proof_Analysis9.
Import ListNotations.

(** ** Any scalar: clear *)
Section Clear.
Context {S : scalar}.
Local Open Scope nat_scope.

Definition with_points (n : nat) (a : pana S) : pana S :=
  Pana (pa_mean a) (pa_sq a) (n + pa_points a) (pa_ens a) (pa_bins a) (pa_bmean a) (pa_bsq a) (pa_count a) (pa_lmean a) (pa_lsq a) (pa_lcount a).
Lemma pair_with_points n a t v : pa_pair (with_points n a) t v = do r <- pa_pair a t v; Ok (with_points n r).
Proof. unfold pa_pair, with_points. cbn [pa_mean pa_sq pa_points pa_ens pa_bins pa_bmean pa_bsq pa_count pa_lmean pa_lsq pa_lcount].
  do 6 (destruct (bump _ _ _); cbn [bind]; try reflexivity).
  cbn [pa_mean pa_sq pa_points pa_ens pa_bins pa_bmean pa_bsq pa_count pa_lmean pa_lsq pa_lcount].
  rewrite Nat.add_succ_r. reflexivity. Qed.
Lemma pairs_with_points n ps : forall a, pa_pairs (with_points n a) ps = do r <- pa_pairs a ps; Ok (with_points n r).
Proof. induction ps as [|(t, v) ps IH]; intros a; cbn [pa_pairs]; [reflexivity|]. rewrite pair_with_points.
  destruct (pa_pair a t v); cbn [bind]; try reflexivity. apply IH. Qed.
Lemma lines_with_points n ls : forall a, add_lines pa_line (with_points n a) ls = do r <- add_lines pa_line a ls; Ok (with_points n r).
Proof. induction ls as [|l ls IH]; intros a; cbn [add_lines]; [reflexivity|]. unfold pa_line at 1 3. rewrite pairs_with_points.
  destruct (pa_pairs a l); cbn [bind]; try reflexivity. exact (IH (pa_add a0)). Qed.

(** Clearing a process analysis gives the fresh one, except for the number of points. *)
Lemma pa_clear_is (mn mx size lsize : S) a0 ls a c : pa_fresh mn mx size lsize = Ok a0 -> add_lines pa_line a0 ls = Ok a -> pa_clear a = Ok c ->
  c = with_points (length (concat ls)) a0.
Proof. intros H0 Ha Hc. pose proof (pa_bookkeeping _ _ _ _ _ _ _ H0 Ha) as (_ & Pt & _).
  apply pa_fresh_inv in H0. destruct H0 as (B & _ & E0 & _). apply pa_lines_inv in Ha. destruct Ha as (a1 & Hp & Ea).
  apply pa_pairs_inv in Hp. destruct Hp as (Eb & _). rewrite E0 in Eb. cbn [pa_bins] in Eb.
  assert (Ebins : pa_bins a = B) by (rewrite Ea; cbn [pa_bins]; exact Eb).
  unfold pa_clear in Hc. rewrite Ebins, Pt in Hc.
  destruct (alloc s0 (b_num B)) as [h| | |] eqn:A1; try discriminate. cbn [bind] in Hc.
  destruct (alloc 0 (b_num B)) as [k| | |] eqn:A2; try discriminate. cbn [bind] in Hc.
  destruct (alloc s0 (b_lnum B)) as [lh| | |] eqn:A3; try discriminate. cbn [bind] in Hc.
  destruct (alloc 0 (b_lnum B)) as [lk| | |] eqn:A4; try discriminate. cbn [bind] in Hc. injection Hc as <-.
  apply alloc_inv in A1, A2, A3, A4. destruct A1 as [-> _], A2 as [-> _], A3 as [-> _], A4 as [-> _].
  rewrite E0. unfold with_points. cbn [pa_mean pa_sq pa_points pa_ens pa_bins pa_bmean pa_bsq pa_count pa_lmean pa_lsq pa_lcount].
  rewrite Nat.add_0_r. reflexivity. Qed.

Lemma pa_draw_points n a r : pa_draw a = Ok r -> exists r', pa_draw (with_points n a) = Ok r' /\
  pa_ens r' = pa_ens r /\ pa_count r' = pa_count r /\ pa_lcount r' = pa_lcount r /\ pa_bmean r' = pa_bmean r /\ pa_bsq r' = pa_bsq r /\ pa_lmean r' = pa_lmean r /\ pa_lsq r' = pa_lsq r /\ pa_bins r' = pa_bins r /\
  pa_mean r' = (pa_mean a / of_Z (Z.of_nat (n + pa_points a)))%S.
Proof. unfold pa_draw, with_points. cbn [pa_mean pa_sq pa_points pa_ens pa_bins pa_bmean pa_bsq pa_count pa_lmean pa_lsq pa_lcount].
  destruct (means_loop (pa_count a) _ _); cbn [bind]; try discriminate. destruct (means_loop (pa_lcount a) _ _); cbn [bind]; try discriminate.
  intros H. injection H as <-. eexists. split; [reflexivity|]. cbn. repeat split. Qed.

(** After clear, everything drawn per bin is what a fresh analysis gives, and the long-term mean is divided by the old number of points as well. *)
Lemma process_clear (mn mx size lsize : S) a0 ls a c ls' x r : pa_fresh mn mx size lsize = Ok a0 -> add_lines pa_line a0 ls = Ok a -> pa_clear a = Ok c ->
  add_lines pa_line a0 ls' = Ok x -> pa_draw x = Ok r ->
  exists x' r', add_lines pa_line c ls' = Ok x' /\ pa_draw x' = Ok r' /\
    pa_ens r' = pa_ens r /\ pa_count r' = pa_count r /\ pa_lcount r' = pa_lcount r /\ pa_bmean r' = pa_bmean r /\ pa_bsq r' = pa_bsq r /\ pa_lmean r' = pa_lmean r /\ pa_lsq r' = pa_lsq r /\ pa_bins r' = pa_bins r /\
    pa_mean r' = (pa_mean x / of_Z (Z.of_nat (length (concat ls) + length (concat ls'))))%S.
Proof. intros H0 Ha Hc Hx Hr. pose proof (pa_clear_is _ _ _ _ _ _ _ _ H0 Ha Hc) as ->.
  destruct (pa_draw_points (length (concat ls)) x r Hr) as (r' & Er & H).
  exists (with_points (length (concat ls)) x), r'. split; [rewrite lines_with_points, Hx; reflexivity|]. split; [exact Er|].
  pose proof (pa_bookkeeping _ _ _ _ _ _ _ H0 Hx) as (_ & Pt & _). rewrite <- Pt. exact H. Qed.

(** Multi-column analysis. *)
Definition with_hists (h lh : list (list S)) (a : tvec S) : tvec S := Tvec (tv_means a) (tv_sqs a) (tv_ens a) (tv_bins a) (tv_nvar a) h lh (tv_count a) (tv_lcount a).
Lemma tv_add_hists h lh (a : tvec S) xs : tv_nvar a <> 0 -> tv_add (with_hists h lh a) xs = do r <- tv_add a xs; Ok (with_hists h lh r).
Proof. intros N. apply Nat.eqb_neq in N. unfold tv_add, with_hists. cbn [tv_means tv_sqs tv_ens tv_bins tv_nvar tv_hist tv_lhist tv_count tv_lcount].
  rewrite N. destruct (negb _); cbn [bind]; [reflexivity|]. cbn [tv_means tv_sqs tv_ens tv_bins tv_nvar tv_hist tv_lhist tv_count tv_lcount].
  destruct (tv_loop _ _ _ _) as [(((m, q), k), lk)| | |]; reflexivity. Qed.
Lemma tv_add_nvar (a : tvec S) xs a' : tv_nvar a <> 0 -> tv_add a xs = Ok a' -> tv_nvar a' = tv_nvar a.
Proof. intros N. pose proof N as N'. apply Nat.eqb_neq in N'. unfold tv_add. rewrite N'. destruct (negb _); cbn [bind]; [discriminate|].
  destruct (tv_loop _ _ _ _) as [(((m, q), k), lk)| | |]; try discriminate. cbn [bind]. intros H. injection H as <-. reflexivity. Qed.
Lemma tv_adds_hists h lh rows : forall a : tvec S, tv_nvar a <> 0 -> tv_adds (with_hists h lh a) rows = do r <- tv_adds a rows; Ok (with_hists h lh r).
Proof. induction rows as [|r rows IH]; intros a N; cbn [tv_adds]; [reflexivity|]. rewrite (tv_add_hists h lh a r N).
  destruct (tv_add a r) as [a'| | |] eqn:E; cbn [bind]; try reflexivity. apply IH. now rewrite (tv_add_nvar _ _ _ N E). Qed.

Lemma list_ext {A} (l l' : list A) n : length l = n -> length l' = n -> (forall k, k < n -> nth_error l k = nth_error l' k) -> l = l'.
Proof. revert l' n. induction l as [|x l IH]; intros [|y l'] n L1 L2 H; cbn in *; subst; try discriminate; [reflexivity|].
  pose proof (H 0 ltac:(lia)) as H0. cbn in H0. injection H0 as ->. f_equal. apply (IH l' (length l)); [reflexivity|lia|].
  intros k Hk. exact (H (Datatypes.S k) ltac:(lia)). Qed.
Lemma regular_ext n (a a' : tvec S) : n <> 0 -> regular n a -> regular n a' -> (forall k, k < n -> column_of k a = column_of k a') -> a = a'.
Proof. intros N R R' H.
  assert (C : forall k, k < n -> exists t, column_of k a = Some t /\ column_of k a' = Some t).
  { intros k Hk. destruct (column_ex n a k R Hk) as [t E]. exists t. rewrite <- (H k Hk). auto. }
  destruct (C 0 ltac:(lia)) as (t & E1 & E2). apply column_inv in E1, E2. destruct E1 as (_ & _ & _ & _ & _ & _ & En & Eb), E2 as (_ & _ & _ & _ & _ & _ & En' & Eb').
  destruct R as (R0 & R1 & R2 & R3 & R4 & R5 & R6), R' as (S0 & S1 & S2 & S3 & S4 & S5 & S6).
  destruct a as [m q e b v h lh c lc], a' as [m' q' e' b' v' h' lh' c' lc']. cbn in *.
  f_equal; try congruence; apply (list_ext _ _ n); auto; intros k Hk; destruct (C k Hk) as (u & U1 & U2); apply column_inv in U1, U2; cbn in U1, U2;
   destruct U1 as (X1 & X2 & X3 & X4 & X5 & X6 & _), U2 as (Y1 & Y2 & Y3 & Y4 & Y5 & Y6 & _); congruence. Qed.

Lemma with_hists_col h lh k (a : tvec S) t hk lk : column_of k a = Some t -> nth_error h k = Some hk -> nth_error lh k = Some lk ->
  column_of k (with_hists h lh a) = Some (with_hist hk lk t).
Proof. intros E Eh El. apply column_inv in E. destruct E as (E1 & E2 & E3 & E4 & E5 & E6 & E7 & E8).
  unfold column_of, with_hists. cbn [tv_means tv_sqs tv_ens tv_bins tv_nvar tv_hist tv_lhist tv_count tv_lcount].
  rewrite E1, E2, Eh, El, E5, E6. unfold with_hist. rewrite E7, E8. reflexivity. Qed.

Lemma vec_clear (mn mx size lsize : S) n a0 os a c rows : n <> 0 -> tv_fresh mn mx size lsize n = Ok a0 -> vhistory a0 os = Ok a -> tv_clear a = Ok c ->
  (do x <- tv_adds c rows; tv_draw x) = (do x <- tv_adds a0 rows; tv_draw x).
Proof. intros N H0 Ha Hc.
  destruct (tv_fresh_col _ _ _ _ _ _ H0) as (R0 & t0 & Ht0 & C0).
  destruct (vhistory_col n os N a0 a R0 Ha) as (Ra & _ & Ca).
  assert (Sh0 : shape (ta_bins t0) t0) by (eapply fresh_shape; eauto).
  assert (Sha : forall k, k < n -> exists t, column_of k a = Some t /\ shape (ta_bins t0) t).
  { intros k Hk. destruct (Ca k t0 Hk (C0 k Hk)) as (t & Ht & Et). exists t. split; [exact Et|]. eapply history_shape; eauto. }
  assert (Eb : tv_bins a = tv_bins a0).
  { destruct (Sha 0 ltac:(lia)) as (t & Et & Sh). apply column_inv in Et. destruct Sh as [Bt _]. pose proof (column_inv _ _ _ (C0 0 ltac:(lia))) as I. destruct Et as (_ & _ & _ & _ & _ & _ & _ & Et), I as (_ & _ & _ & _ & _ & _ & _ & I). congruence. }
  assert (Ec : c = with_hists (tv_hist a) (tv_lhist a) a0).
  { unfold tv_clear in Hc. rewrite Eb in Hc. destruct Ra as (Ra & _). rewrite Ra in Hc.
    destruct (alloc 0 (b_num (tv_bins a0))) as [k| | |] eqn:A1; try discriminate. cbn [bind] in Hc.
    destruct (alloc 0 (b_lnum (tv_bins a0))) as [lk| | |] eqn:A2; try discriminate. cbn [bind] in Hc. injection Hc as <-.
    unfold tv_fresh in H0. destruct (from_bin_size mn mx size lsize) as [B| | |]; try discriminate. cbn [bind] in H0.
    unfold tv_allocate in H0. cbn [tv_set_bins tv_new tv_nvar tv_bins tv_ens] in H0.
    destruct (alloc s0 (b_num B)) as [h| | |]; try discriminate. cbn [bind] in H0.
    destruct (alloc s0 (b_lnum B)) as [lh| | |]; try discriminate. cbn [bind] in H0.
    destruct (alloc 0 (b_num B)) as [k'| | |] eqn:A3; try discriminate. cbn [bind] in H0.
    destruct (alloc 0 (b_lnum B)) as [lk'| | |] eqn:A4; try discriminate. cbn [bind] in H0. injection H0 as <-.
    cbn [tv_bins] in *. unfold with_hists. cbn [tv_means tv_sqs tv_ens tv_bins tv_nvar tv_hist tv_lhist tv_count tv_lcount].
    rewrite A3 in A1. rewrite A4 in A2. injection A1 as <-. injection A2 as <-. reflexivity. }
  subst c. destruct R0 as (R0 & R0'). rewrite tv_adds_hists by now rewrite R0.
  destruct (tv_adds a0 rows) as [x| | |] eqn:Ex; cbn [bind]; try reflexivity.
  rewrite tv_adds_vhistory in Ex. destruct (vhistory_col n _ N a0 x (conj R0 R0') Ex) as (Rx & _ & Cx).
  assert (Shx : forall k, k < n -> exists t, column_of k x = Some t /\ shape (ta_bins t0) t).
  { intros k Hk. destruct (Cx k t0 Hk (C0 k Hk)) as (t & Ht & Et). exists t. split; [exact Et|]. eapply history_shape; eauto. }
  assert (Cw : forall k, k < n -> exists t hk lk, column_of k x = Some t /\ shape (ta_bins t0) t /\ column_of k (with_hists (tv_hist a) (tv_lhist a) x) = Some (with_hist hk lk t) /\
     length hk = length (ta_hist t) /\ length lk = length (ta_lhist t)).
  { intros k Hk. destruct (Shx k Hk) as (t & Et & Sh), (Sha k Hk) as (u & Eu & Su). apply column_inv in Eu. destruct Eu as (_ & _ & E3 & E4 & _).
    exists t, (ta_hist u), (ta_lhist u). split; [exact Et|]. split; [exact Sh|]. split; [eapply with_hists_col; eauto|]. destruct Sh as (_ & _ & _ & L1 & L2), Su as (_ & _ & _ & L3 & L4). lia. }
  assert (Rw : regular n (with_hists (tv_hist a) (tv_lhist a) x)).
  { destruct Rx as (X0 & X1 & X2 & X3 & X4 & X5 & X6), Ra as (Y0 & Y1 & Y2 & Y3 & Y4 & Y5 & Y6). unfold regular, with_hists. cbn. auto 10. }
  destruct (tv_draw_ok n x Rx) as [r Hr]. { intros k Hk. destruct (Shx k Hk) as (t & Et & Sh). eauto. }
  destruct (tv_draw_ok n _ Rw) as [r' Hr'].
  { intros k Hk. destruct (Cw k Hk) as (t & hk & lk & _ & Sh & Ew & L1 & L2). exists (ta_bins t0), (with_hist hk lk t). split; [exact Ew|].
    destruct Sh as (B & P1 & P2 & P3 & P4). unfold shape, with_hist. cbn. repeat split; congruence. }
  rewrite Hr, Hr'. f_equal.
  destruct (tv_draw_col n _ _ Rx Hr) as (Rr & Cr), (tv_draw_col n _ _ Rw Hr') as (Rr' & Cr').
  apply (regular_ext n); auto. intros k Hk. destruct (Cw k Hk) as (t & hk & lk & Et & Sh & Ew & L1 & L2).
  destruct (Cr k t Hk Et) as (u & Hu & Eu), (Cr' k _ Hk Ew) as (u' & Hu' & Eu').
  rewrite (draw_with_hist hk lk (ta_bins t0) t Sh L1 L2) in Hu'. congruence. Qed.
End Clear.

(** ** binary64 *)
Open Scope R_scope.
Lemma f64_safe lm (mn mx size lsize : b64) (a0 : tana (F64 lm)) : ta_fresh (S := F64 lm) mn mx size lsize = Ok a0 -> sane_log2 lm ->
  let m : b64 := clip_min (S := F64 lm) mn in
  let q := Bdiv mode_NE (Bminus mode_NE mx m) size in
  let lq := Bdiv mode_NE (m_log2 lm (Bdiv mode_NE mx m)) (m_log2 lm lsize) in
  fin m = true -> fin mx = true -> fin size = true -> 0 < B2 m <= B2 mx -> 0 < B2 size -> fin q = true -> B2 q < IZR (2 ^ 52) ->
  fin (Bdiv mode_NE mx m) = true -> fin (m_log2 lm lsize) = true -> 0 < B2 (m_log2 lm lsize) -> fin lq = true -> B2 lq < IZR (2 ^ 52) ->
  forall xs, exists a, ta_adds a0 xs = Ok a.
Proof. cbv zeta. intros HF HL F1 F2 F3 O1 O2 F4 O3 F5 F6 O4 F7 O5 xs. pose proof (ta_adds_cases xs (f64_usize_ok lm) a0) as H.
  replace (existsb (offends a0) xs) with false in H; [exact H|]. symmetry. induction xs as [|x xs IH]; [reflexivity|].
  cbn [existsb]. unfold offends at 1. rewrite (lin_safe lm _ _ _ _ _ HF F1 F2 F3 O1 O2 F4 O3 x), (log_safe lm _ _ _ _ _ HF F1 F2 O1 HL F5 F6 O4 F7 O5 x). cbn [orb].
  apply IH. exact (ta_adds_cases xs (f64_usize_ok lm) a0). Qed.

(** A NaN sample is counted as if it were in range. *)
Lemma nan_counted lm (mn mx size lsize x : b64) (a0 a : tana (F64 lm)) : ta_fresh (S := F64 lm) mn mx size lsize = Ok a0 -> nan x = true -> ta_add a0 (x : F64 lm) = Ok a ->
  nth 0 (ta_count a) 0%nat = 1%nat /\ list_sum (ta_count a) = 1%nat.
Proof. intros H0 Nx Ha. assert (Hs : ta_adds a0 [x : F64 lm] = Ok a) by (cbn [ta_adds]; rewrite Ha; reflexivity).
  destruct (bookkeeping (S := F64 lm) _ _ _ _ _ _ _ H0 Hs) as (_ & S1 & _ & N1 & _).
  assert (B : forall lo hi, between (S := F64 lm) lo hi x = true).
  { intros lo hi. unfold between. change (@ltb (F64 lm)) with (@Bltb 53 1024). destruct x; try discriminate. destruct lo as [| | |], hi; reflexivity. }
  split.
  - rewrite N1. unfold number_of. cbn [filter]. rewrite (proj1 (bin_pos_cases (S := F64 lm) _ _)), B. unfold hit.
    destruct x; try discriminate.
    replace (as_usize (s := F64 lm) (div (s := F64 lm) (sub (s := F64 lm) (B754_nan : b64) (b_min (ta_bins a0))) (b_size (ta_bins a0)))) with 0%Z; [reflexivity|].
    change (0%Z = b64_as_usize (Bdiv mode_NE (Bminus mode_NE B754_nan (b_min (ta_bins a0) : b64)) (b_size (ta_bins a0) : b64))).
    generalize (b_min (ta_bins a0) : b64) (b_size (ta_bins a0) : b64). intros u v. destruct u, v; reflexivity.
  - rewrite S1. unfold number_of. cbn [filter]. now rewrite B. Qed.

(** 4.3e-9 and 4.2e-9 have the same key. *)
Lemma decimal_collision lm sip : let u : F64 lm := lit 43 (10 ^ 10) in let v : F64 lm := lit 42 (10 ^ 10) in
  same_dataset (S := F64 lm) sip [u] [v] = true /\ Bltb (v : b64) (u : b64) = true.
Proof. cbv zeta. split; [|vm_compute; reflexivity]. unfold same_dataset, keys. cbn [map].
  replace (field_key (S := F64 lm) (lit 43 (10 ^ 10))) with (field_key (S := F64 lm) (lit 42 (10 ^ 10))) by (vm_compute; reflexivity). apply Z.eqb_refl. Qed.

(** A bin smaller than the spacing of the numbers: the export runs past the last bin. *)
Lemma narrow_bin_panics : (do a0 <- tv_fresh (S := F64 toy) (b64_of_Z (2 ^ 60)) (b64_of_Z (2 ^ 60)) (b64_of_Z 1) (b64_of_Z 2) 1;
  do a <- tv_add a0 [b64_of_Z (2 ^ 60) : F64 toy]; do r <- tv_draw a; tv_export_lin 3 r) = Panic.
Proof. vm_compute. reflexivity. Qed.

(** Logarithmic bin factor 1: accepted, then the allocation panics; factor 1/2: accepted, then every sample in range panics. *)
Lemma two_over_one {lm} : b64_of_Z 2 = div (s := F64 lm) (b64_of_Z 2) (clip_min (S := F64 lm) (b64_of_Z 1)).
Proof. apply B2SF_inj. vm_compute. reflexivity. Qed.
Lemma unit_lbin_panics lm : m_log2 lm (b64_of_Z 1) = b64_of_Z 0 -> m_log2 lm (b64_of_Z 2) = b64_of_Z 1 ->
  (exists b, from_bin_size (S := F64 lm) (b64_of_Z 1) (b64_of_Z 2) (b64_of_Z 1) (b64_of_Z 1) = Ok b) /\
  ta_fresh (S := F64 lm) (b64_of_Z 1) (b64_of_Z 2) (b64_of_Z 1) (b64_of_Z 1) = Panic.
Proof. intros L1 L2. unfold ta_fresh.
  assert (E : exists B, from_bin_size (S := F64 lm) (b64_of_Z 1) (b64_of_Z 2) (b64_of_Z 1) (b64_of_Z 1) = Ok B /\ b_num B = 2%Z /\ b_lnum B = usize_max).
  { unfold from_bin_size. change (@ltb (F64 lm)) with (@Bltb 53 1024). change (@s0 (F64 lm)) with (b64_of_Z 0).
    replace (Bltb (b64_of_Z 1) (b64_of_Z 0) || Bltb (b64_of_Z 2) (b64_of_Z 1) || Bltb (b64_of_Z 1) (b64_of_Z 0) || Bltb (b64_of_Z 1) (b64_of_Z 0))%bool with false by (vm_compute; reflexivity).
    eexists. split; [reflexivity|]. cbn [b_num b_lnum]. split; [vm_compute; reflexivity|].
    change (@flog2 (F64 lm)) with (m_log2 lm). rewrite L1.
    replace (div (s := F64 lm) (b64_of_Z 2) (clip_min (S := F64 lm) (b64_of_Z 1))) with (b64_of_Z 2) by exact two_over_one. rewrite L2. vm_compute. reflexivity. }
  destruct E as (B & E & E1 & E2). rewrite E. split; [now exists B|]. cbn [bind]. unfold ta_allocate. cbn [ta_set_bins ta_bins ta_new]. rewrite E1, E2. reflexivity. Qed.

Lemma half_lbin_panics lm : m_log2 lm (lit (s := F64 lm) 1 2) = b64_of_Z (-1) -> m_log2 lm (b64_of_Z 2) = b64_of_Z 1 ->
  exists a0, ta_fresh (S := F64 lm) (b64_of_Z 1) (b64_of_Z 2) (b64_of_Z 1) (lit 1 2) = Ok a0 /\
  ta_add a0 (lit 3 2 : F64 lm) = Panic.
Proof. intros L1 L2. unfold ta_fresh.
  assert (E : exists B, from_bin_size (S := F64 lm) (b64_of_Z 1) (b64_of_Z 2) (b64_of_Z 1) (lit (s := F64 lm) 1 2) = Ok B /\ b_num B = 2%Z /\ b_lnum B = 0%Z).
  { unfold from_bin_size. change (@ltb (F64 lm)) with (@Bltb 53 1024). change (@s0 (F64 lm)) with (b64_of_Z 0).
    replace (Bltb (b64_of_Z 1) (b64_of_Z 0) || Bltb (b64_of_Z 2) (b64_of_Z 1) || Bltb (b64_of_Z 1) (b64_of_Z 0) || Bltb (lit (s := F64 lm) 1 2) (b64_of_Z 0))%bool with false by (vm_compute; reflexivity).
    eexists. split; [reflexivity|]. cbn [b_num b_lnum]. split; [vm_compute; reflexivity|].
    change (@flog2 (F64 lm)) with (m_log2 lm). rewrite L1.
    replace (div (s := F64 lm) (b64_of_Z 2) (clip_min (S := F64 lm) (b64_of_Z 1))) with (b64_of_Z 2) by exact two_over_one. rewrite L2. vm_compute. reflexivity. }
  destruct E as (B & E & E1 & E2).
  destruct (alloc_fresh B) as [a0 Ha]; [rewrite E1; lia|rewrite E2; lia|]. rewrite E. cbn [bind]. exists a0. split; [exact Ha|].
  assert (HF : ta_fresh (S := F64 lm) (b64_of_Z 1) (b64_of_Z 2) (b64_of_Z 1) (lit (s := F64 lm) 1 2) = Ok a0) by (unfold ta_fresh; rewrite E; exact Ha).
  pose proof (ta_add_cases a0 (lit (s := F64 lm) 3 2) (f64_usize_ok lm)) as H. replace (offends a0 (lit (s := F64 lm) 3 2)) with true in H; [exact H|].
  symmetry. unfold offends. apply orb_true_iff. right. destruct (ta_fresh_inv _ _ _ _ _ HF) as (B' & HB & EB & Ea & _ & _).
  rewrite E in HB. injection HB as <-. rewrite EB, Ea. cbn [ta_lcount]. rewrite E2.
  apply from_bin_size_inv in E. destruct E as (M1 & M2 & _).
  rewrite (proj2 (bin_pos_cases B _)), M1, M2.
  replace (between (S := F64 lm) (clip_min (S := F64 lm) (b64_of_Z 1)) (b64_of_Z 2) (lit 3 2)) with true by (vm_compute; reflexivity).
  unfold bad. cbn [repeat length Z.to_nat]. match goal with |- context [as_usize ?y] => pose proof (usize_range y) end.
  apply negb_true_iff, Z.ltb_ge. exact (proj1 H0). Qed.
