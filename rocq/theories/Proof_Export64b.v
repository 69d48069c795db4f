(** The analyses of vectors of times and of processes never fail when no sample offends and the last bin's centre is past the maximum; any number type. *)
From Coq Require Import ZArith Lia List Bool Arith.
From Verif Require Import Base Scalar Model_Analysis Spec_Analysis Proof_Analysis Proof_Analysis2 Proof_Analysis3 Proof_Analysis7 Proof_Analysis9.
Import ListNotations.
Local Open Scope nat_scope.
Local Open Scope list_scope.

Section Gen.
Context {S : scalar}.
Implicit Types mn mx size lsize : S.

Lemma fresh_intro mn mx size lsize N L : ltb mn s0 = false -> ltb mx mn = false -> ltb size s0 = false -> ltb lsize s0 = false ->
  ceil_usize ((mx - clip_min mn) / size + lit 1 2)%S = Z.of_nat N -> ceil_usize (flog2 (mx / clip_min mn) / flog2 lsize + lit 1 2)%S = Z.of_nat L ->
  (8 * Z.of_nat N <= 2 ^ 63 - 1)%Z -> (8 * Z.of_nat L <= 2 ^ 63 - 1)%Z -> exists t0, ta_fresh mn mx size lsize = Ok t0.
Proof.
  intros H1 H2 H3 H4 E1 E2 A1 A2. unfold ta_fresh, from_bin_size. rewrite H1, H2, H3, H4. cbn [orb]. cbv zeta. rewrite E1, E2. cbn [bind].
  unfold ta_allocate. cbn [ta_set_bins ta_bins b_num b_lnum]. unfold alloc. apply Z.leb_le in A1, A2. rewrite A1, A2. cbn [bind]. eauto.
Qed.

Lemma iter_shift {A} (f : A -> A) n x : Nat.iter (Datatypes.S n) f x = Nat.iter n f (f x).
Proof. induction n as [|n IH]; [reflexivity|]. cbn [Nat.iter nat_rect] in *. unfold Nat.iter in *. cbn [nat_rect] in *. now rewrite IH. Qed.

(** ** Adding *)
Lemma add_ok (t0 t : tana S) xs x : usize_ok (S := S) -> ta_adds t0 xs = Ok t -> offends t0 x = false -> exists t', ta_add t x = Ok t'.
Proof.
  intros U H O. destruct (ta_adds_inv _ _ _ H) as (B & _ & _ & _ & L1 & L2 & _). pose proof (ta_add_cases t x U) as C. replace (offends t x) with false in C; [exact C|].
  rewrite <- O. unfold offends. now rewrite B, L1, L2.
Qed.
Lemma vec_adds_ok mn mx size lsize n (a0 : tvec S) (t0 : tana S) : n <> 0 -> tv_fresh mn mx size lsize n = Ok a0 -> ta_fresh mn mx size lsize = Ok t0 -> usize_ok (S := S) ->
  (forall x, offends t0 x = false) -> forall rows, Forall (fun row => length row = n) rows -> exists a, tv_adds a0 rows = Ok a.
Proof.
  intros Hn HF HT U O. destruct (tv_fresh_col _ _ _ _ _ _ HF) as (R0 & t & E0 & C0). rewrite HT in E0. injection E0 as <-.
  assert (G : forall rows, Forall (fun r => length r = n) rows -> exists a, tv_adds a0 rows = Ok a /\ regular n a /\
     forall k, k < n -> exists t, ta_adds t0 (map (fun row => nth k row s0) rows) = Ok t /\ column_of k a = Some t).
  { induction rows as [|x rows IH] using rev_ind; intros H.
    - exists a0. split; [reflexivity|]. split; [exact R0|]. intros k Hk. exists t0. split; [reflexivity|]. now apply C0.
    - apply Forall_app in H. destruct H as [H Hx]. apply Forall_inv in Hx. destruct (IH H) as (a & E & R1 & C).
      destruct (tv_add_total n a x R1 Hn Hx) as [a' Ea].
      { intros k t Hk Ct. destruct (C k Hk) as (t' & Et & Ct'). rewrite Ct in Ct'. injection Ct' as <-. exact (add_ok t0 t _ _ U Et (O _)). }
      exists a'. rewrite tv_adds_app, E. cbn [bind tv_adds]. rewrite Ea. split; [reflexivity|].
      destruct (tv_add_col _ _ _ _ R1 Hn Ea) as (R2 & _ & C2). split; [exact R2|]. intros k Hk. destruct (C k Hk) as (t & Et & Ct).
      destruct (C2 k t Hk Ct) as (t' & Et' & Ct'). exists t'. split; [|exact Ct'].
      rewrite map_app, ta_adds_app, Et. cbn [bind map ta_adds]. now rewrite Et'. }
  intros rows H. destruct (G rows H) as (a & E & _). eauto.
Qed.

Definition wide (N L : nat) (a : pana S) : Prop := length (pa_count a) = N /\ length (pa_bmean a) = N /\ length (pa_bsq a) = N /\
  length (pa_lcount a) = L /\ length (pa_lmean a) = L /\ length (pa_lsq a) = L.
Lemma pairs_ok (B : bins S) N L : usize_ok (S := S) -> (forall x, bad N (bin_pos B x) = false) -> (forall x, bad L (lbin_pos B x) = false) ->
  forall ps (a : pana S), pa_bins a = B -> wide N L a -> exists a', pa_pairs a ps = Ok a'.
Proof.
  intros U O1 O2. induction ps as [|[t v] ps IH]; intros a HB (L1 & L2 & L3 & L4 & L5 & L6); [cbn; eauto|]. cbn [pa_pairs].
  assert (P1 := bin_nonneg B t U). assert (P2 := lbin_nonneg B t U). unfold pa_pair. rewrite HB.
  destruct (bump_ok (bin_pos B t) Datatypes.S (pa_count a) P1) as [c Ec]; [rewrite L1; apply O1|].
  destruct (bump_ok (bin_pos B t) (fun y : S => y + v)%S (pa_bmean a) P1) as [me Em]; [rewrite L2; apply O1|].
  destruct (bump_ok (bin_pos B t) (fun y : S => y + v * v)%S (pa_bsq a) P1) as [sq Es]; [rewrite L3; apply O1|].
  destruct (bump_ok (lbin_pos B t) Datatypes.S (pa_lcount a) P2) as [lc Elc]; [rewrite L4; apply O2|].
  destruct (bump_ok (lbin_pos B t) (fun y : S => y + v)%S (pa_lmean a) P2) as [lm Elm]; [rewrite L5; apply O2|].
  destruct (bump_ok (lbin_pos B t) (fun y : S => y + v * v)%S (pa_lsq a) P2) as [ls Els]; [rewrite L6; apply O2|].
  rewrite Ec. cbn [bind]. rewrite Em. cbn [bind]. rewrite Es. cbn [bind]. rewrite Elc. cbn [bind]. rewrite Elm. cbn [bind]. rewrite Els. cbn [bind].
  apply bump_len in Ec, Em, Es, Elc, Elm, Els. apply IH; [reflexivity|]. unfold wide. cbn [pa_count pa_bmean pa_bsq pa_lcount pa_lmean pa_lsq].
  repeat split; congruence.
Qed.
Lemma lines_ok (B : bins S) N L : usize_ok (S := S) -> (forall x, bad N (bin_pos B x) = false) -> (forall x, bad L (lbin_pos B x) = false) ->
  forall ls (a : pana S), pa_bins a = B -> wide N L a -> exists a', add_lines pa_line a ls = Ok a' /\ pa_bins a' = B /\ wide N L a'.
Proof.
  intros U O1 O2. induction ls as [|p ls IH]; intros a HB W; [cbn; eauto|]. cbn [add_lines]. unfold pa_line at 1.
  destruct (pairs_ok B N L U O1 O2 p a HB W) as [a' E]. rewrite E. cbn [bind]. apply pa_pairs_inv in E. destruct E as (Y & _ & _ & M1 & M4 & M2 & M5 & M3 & M6 & _).
  destruct W as (L1 & L2 & L3 & L4 & L5 & L6). apply IH; [cbn [pa_add pa_bins]; congruence|]. unfold wide. cbn [pa_add pa_count pa_bmean pa_bsq pa_lcount pa_lmean pa_lsq]. repeat split; congruence.
Qed.

(** ** Exporting *)
Lemma idx_ok {A} (l : list A) i : i < length l -> exists x, Base.idx l i = Ok x.
Proof. intros H. unfold Base.idx. destruct (nth_error l i) eqn:E; [eauto|]. apply nth_error_None in E. lia. Qed.
Lemma cells_ok (cols : list (list nat)) (hists : list (list S)) i : forall idxs,
  (forall k, In k idxs -> exists c h, nth_error cols k = Some c /\ nth_error hists k = Some h /\ i < length c /\ i < length h) -> exists cells, tv_cells cols hists idxs i = Ok cells.
Proof.
  induction idxs as [|k r IH]; intros H; [cbn; eauto|]. cbn [tv_cells]. destruct (H k (or_introl eq_refl)) as (c & h & E1 & E2 & L1 & L2).
  destruct (idx_ok c i L1) as [n En], (idx_ok h i L2) as [x Ex]. unfold Base.idx at 1. rewrite E1. cbn [bind]. rewrite En. cbn [bind]. unfold Base.idx at 1. rewrite E2. cbn [bind]. rewrite Ex. cbn [bind].
  destruct IH as [cells ->]; [intros k' Hk; apply H; now right|]. cbn [bind]. eauto.
Qed.
Lemma tv_rows_ok (next : S -> S) mx nvar (cols : list (list nat)) (hists : list (list S)) : forall J time i, leb (Nat.iter J next time) mx = false ->
  (forall k, k < nvar -> exists c h, nth_error cols k = Some c /\ nth_error hists k = Some h /\ i + J <= length c /\ i + J <= length h) ->
  exists out, forall fuel, J < fuel -> tv_rows fuel next mx time i nvar cols hists = Ok out.
Proof.
  induction J as [|J IH]; intros time i H W.
  - exists []. intros [|fuel] Hf; [lia|]. cbn [tv_rows]. change (Nat.iter 0 next time) with time in H. now rewrite H.
  - rewrite iter_shift in H. destruct (leb time mx) eqn:D.
    + destruct (IH (next time) (Datatypes.S i) H) as [out Ho]. { intros k Hk. destruct (W k Hk) as (c & h & E1 & E2 & L1 & L2). exists c, h. repeat split; auto; lia. }
      destruct (cells_ok cols hists i (seq 0 nvar)) as [cells Ec]. { intros k Hk. apply in_seq in Hk. destruct (W k) as (c & h & E1 & E2 & L1 & L2); [lia|]. exists c, h. repeat split; auto; lia. }
      eexists. intros [|fuel] Hf; [lia|]. cbn [tv_rows]. rewrite D, Ec. cbn [bind]. rewrite Ho by lia. cbn [bind]. reflexivity.
    + exists []. intros [|fuel] Hf; [lia|]. cbn [tv_rows]. now rewrite D.
Qed.
Lemma pa_rows_ok (next : S -> S) mx (count : list nat) (mean sq : list S) : forall J time i, leb (Nat.iter J next time) mx = false ->
  i + J <= length count -> i + J <= length mean -> i + J <= length sq -> exists out, forall fuel, J < fuel -> pa_rows fuel next mx time i count mean sq = Ok out.
Proof.
  induction J as [|J IH]; intros time i H L1 L2 L3.
  - exists []. intros [|fuel] Hf; [lia|]. cbn [pa_rows]. change (Nat.iter 0 next time) with time in H. now rewrite H.
  - rewrite iter_shift in H. destruct (leb time mx) eqn:D.
    + destruct (IH (next time) (Datatypes.S i) H) as [out Ho]; try lia.
      destruct (idx_ok count i) as [n En]; [lia|]. destruct (idx_ok mean i) as [x Ex]; [lia|]. destruct (idx_ok sq i) as [d Ed]; [lia|].
      eexists. intros [|fuel] Hf; [lia|]. cbn [pa_rows]. rewrite D, En. cbn [bind]. rewrite Ex. cbn [bind]. rewrite Ed. cbn [bind]. rewrite Ho by lia. cbn [bind]. reflexivity.
    + exists []. intros [|fuel] Hf; [lia|]. cbn [pa_rows]. now rewrite D.
Qed.
Lemma means_len (c : list nat) : forall (m q : list S) r, means_loop c m q = Ok r -> length (fst r) = length m /\ length (snd r) = length q.
Proof.
  induction c as [|n c IH]; intros [|m ms] [|q qs] r H; cbn [means_loop] in H; try discriminate; try (injection H as <-; split; reflexivity).
  destruct (means_loop c ms qs) as [r'| | |] eqn:E; cbn [bind] in H; try discriminate. apply IH in E. destruct E as (E1 & E2). injection H as <-. cbn [fst snd length]. now rewrite E1, E2.
Qed.

(** Everything about one drawn analysis of vectors, and one of processes: the bins and the lengths of their columns. *)
Lemma vec_shape mn mx size lsize n (a0 a d : tvec S) (t0 : tana S) rows : n <> 0 -> tv_fresh mn mx size lsize n = Ok a0 -> ta_fresh mn mx size lsize = Ok t0 ->
  tv_adds a0 rows = Ok a -> tv_draw a = Ok d ->
  tv_nvar d = n /\ tv_bins d = ta_bins t0 /\
  (forall k, k < n -> exists c h, nth_error (tv_count d) k = Some c /\ nth_error (tv_hist d) k = Some h /\ length c = length (ta_count t0) /\ length h = length (ta_count t0)) /\
  (forall k, k < n -> exists c h, nth_error (tv_lcount d) k = Some c /\ nth_error (tv_lhist d) k = Some h /\ length c = length (ta_lcount t0) /\ length h = length (ta_lcount t0)).
Proof.
  intros Hn HF HT Ha Hd. destruct (tv_fresh_col _ _ _ _ _ _ HF) as (R0 & t & E0 & C0). rewrite HT in E0. injection E0 as <-.
  pose proof Ha as Hh. rewrite tv_adds_vhistory in Hh. destruct (vhistory_col _ _ Hn _ _ R0 Hh) as (R1 & _ & C1).
  destruct (tv_draw_col _ _ _ R1 Hd) as (R2 & C2).
  assert (G : forall k, k < n -> exists u, column_of k d = Some u /\ shape (ta_bins t0) u).
  { intros k Hk. destruct (C1 k t0 Hk (C0 k Hk)) as (t & Ht & Ct). destruct (C2 k t Hk Ct) as (u & Hu & Cu). exists u. split; [exact Cu|].
    pose proof (history_shape (ta_bins t0) _ _ _ (fresh_shape _ _ _ _ _ HT) Ht) as Sh. exact (proj1 (draw_shape _ _ _ Sh Hu)). }
  destruct (fresh_shape _ _ _ _ _ HT) as (_ & K1 & K2 & _). split; [apply R2|]. split.
  - destruct (G 0) as (u & Cu & Sh); [lia|]. apply column_inv in Cu. destruct Cu as (_ & _ & _ & _ & _ & _ & _ & Cu). rewrite <- Cu. apply Sh.
  - split; intros k Hk; destruct (G k Hk) as (u & Cu & Sh); apply column_inv in Cu; destruct Cu as (_ & _ & Q3 & Q4 & Q5 & Q6 & _); destruct Sh as (_ & S1 & S2 & S3 & S4).
    + exists (ta_count u), (ta_hist u). repeat split; auto; congruence.
    + exists (ta_lcount u), (ta_lhist u). repeat split; auto; congruence.
Qed.
Lemma pa_fresh_wide mn mx size lsize (a0 : pana S) (t0 : tana S) : pa_fresh mn mx size lsize = Ok a0 -> ta_fresh mn mx size lsize = Ok t0 ->
  pa_bins a0 = ta_bins t0 /\ wide (length (ta_count t0)) (length (ta_lcount t0)) a0.
Proof.
  intros HF HT. destruct (pa_fresh_inv _ _ _ _ _ HF) as (b & Hb & -> & _). destruct (ta_fresh_inv _ _ _ _ _ HT) as (b' & Hb' & -> & E & _). rewrite Hb in Hb'. injection Hb' as <-.
  split; [reflexivity|]. rewrite E. unfold wide. cbn [pa_count pa_bmean pa_bsq pa_lcount pa_lmean pa_lsq ta_count ta_lcount]. rewrite !repeat_length. repeat split.
Qed.
Lemma proc_shape N L (a d : pana S) : wide N L a -> pa_draw a = Ok d -> pa_bins d = pa_bins a /\ wide N L d.
Proof.
  intros (L1 & L2 & L3 & L4 & L5 & L6) H. unfold pa_draw in H. destruct (means_loop (pa_count a) _ _) as [l| | |] eqn:E1; cbn [bind] in H; try discriminate.
  destruct (means_loop (pa_lcount a) _ _) as [ll| | |] eqn:E2; cbn [bind] in H; try discriminate. apply means_len in E1, E2. injection H as <-. split; [reflexivity|].
  unfold wide. cbn [pa_count pa_bmean pa_bsq pa_lcount pa_lmean pa_lsq]. destruct E1, E2. repeat split; congruence.
Qed.

(** ** One analysis *)
Lemma vec_exports mn mx size lsize n (a0 a d : tvec S) (t0 : tana S) rows : n <> 0 -> tv_fresh mn mx size lsize n = Ok a0 -> ta_fresh mn mx size lsize = Ok t0 ->
  tv_adds a0 rows = Ok a -> tv_draw a = Ok d ->
  leb (Nat.iter (length (ta_count t0)) (fun t => t + size)%S (raised mn + size / s2)%S) mx = false ->
  leb (Nat.iter (length (ta_lcount t0)) (fun t => t * lsize)%S (raised mn * fsqrt lsize)%S) mx = false ->
  exists l1 l2, forall fuel, Nat.max (length (ta_count t0)) (length (ta_lcount t0)) < fuel -> tv_export_lin fuel d = Ok l1 /\ tv_export_log fuel d = Ok l2.
Proof.
  intros Hn HF HT Ha Hd P1 P2. destruct (vec_shape _ _ _ _ _ _ _ _ _ _ Hn HF HT Ha Hd) as (N & B & C1 & C2).
  destruct (ta_fresh_inv _ _ _ _ _ HT) as (b & Hb & E & _). apply from_bin_size_inv in Hb. destruct Hb as (B1 & B2 & B3 & B4 & _). rewrite E in B.
  unfold tv_export_lin, tv_export_log. cbv zeta. rewrite B, B1, B2, B3, B4, N.
  destruct (tv_rows_ok (fun t => t + size)%S mx n (tv_count d) (tv_hist d) _ _ 0 P1) as [l1 H1]. { intros k Hk. destruct (C1 k Hk) as (c & h & Q1 & Q2 & Q3 & Q4). exists c, h. repeat split; auto; lia. }
  destruct (tv_rows_ok (fun t => t * lsize)%S mx n (tv_lcount d) (tv_lhist d) _ _ 0 P2) as [l2 H2]. { intros k Hk. destruct (C2 k Hk) as (c & h & Q1 & Q2 & Q3 & Q4). exists c, h. repeat split; auto; lia. }
  exists l1, l2. intros fuel Hf. split; [apply H1|apply H2]; lia.
Qed.
Lemma proc_exports mn mx size lsize (a0 a d : pana S) (t0 : tana S) ls : pa_fresh mn mx size lsize = Ok a0 -> ta_fresh mn mx size lsize = Ok t0 -> usize_ok (S := S) -> (forall x, offends t0 x = false) ->
  add_lines pa_line a0 ls = Ok a -> pa_draw a = Ok d ->
  leb (Nat.iter (length (ta_count t0)) (fun t => t + size)%S (raised mn + size / s2)%S) mx = false ->
  leb (Nat.iter (length (ta_lcount t0)) (fun t => t * lsize)%S (raised mn * fsqrt lsize)%S) mx = false ->
  exists l1 l2, forall fuel, Nat.max (length (ta_count t0)) (length (ta_lcount t0)) < fuel -> pa_export_lin fuel d = Ok l1 /\ pa_export_log fuel d = Ok l2.
Proof.
  intros HF HT U O Ha Hd P1 P2. destruct (pa_fresh_wide _ _ _ _ _ _ HF HT) as (B & W).
  destruct (lines_ok (ta_bins t0) _ _ U (fun x => proj1 (proj1 (orb_false_iff _ _) (O x))) (fun x => proj2 (proj1 (orb_false_iff _ _) (O x))) ls a0 B W) as (a1 & Ea & Ba & Wa).
  rewrite Ha in Ea. injection Ea as <-. destruct (proc_shape _ _ _ _ Wa Hd) as (Bd & L1 & L2 & L3 & L4 & L5 & L6). rewrite Ba in Bd.
  destruct (ta_fresh_inv _ _ _ _ _ HT) as (b & Hb & E & _). apply from_bin_size_inv in Hb. destruct Hb as (B1 & B2 & B3 & B4 & _). rewrite E in Bd.
  unfold pa_export_lin, pa_export_log. cbv zeta. rewrite Bd, B1, B2, B3, B4.
  destruct (pa_rows_ok (fun t => t + size)%S mx (pa_count d) (pa_bmean d) (pa_bsq d) _ _ 0 P1) as [l1 H1]; try lia.
  destruct (pa_rows_ok (fun t => t * lsize)%S mx (pa_lcount d) (pa_lmean d) (pa_lsq d) _ _ 0 P2) as [l2 H2]; try lia.
  exists l1, l2. intros fuel Hf. split; [apply H1|apply H2]; lia.
Qed.
Lemma proc_adds_ok mn mx size lsize (a0 : pana S) (t0 : tana S) : pa_fresh mn mx size lsize = Ok a0 -> ta_fresh mn mx size lsize = Ok t0 -> usize_ok (S := S) ->
  (forall x, offends t0 x = false) -> forall ls, exists a, add_lines pa_line a0 ls = Ok a.
Proof.
  intros HF HT U O ls. destruct (pa_fresh_wide _ _ _ _ _ _ HF HT) as (B & W).
  destruct (lines_ok (ta_bins t0) _ _ U (fun x => proj1 (proj1 (orb_false_iff _ _) (O x))) (fun x => proj2 (proj1 (orb_false_iff _ _) (O x))) ls a0 B W) as (a1 & Ea & _). eauto.
Qed.
End Gen.
