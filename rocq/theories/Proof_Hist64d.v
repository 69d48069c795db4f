(** The exported rows of the three analyses on doubles. *)
From Coq Require Import Reals ZArith List Lra Lia Bool Arith.
From Flocq Require Import Core.
From Flocq.IEEE754 Require Import BinarySingleNaN.
From Verif Require Import Base Scalar Float64 Model_Position Spec_Position Proof_Position Proof_Norm64 Proof_Sum64 Proof_Rel64 Proof_Moments64
  Proof_Time Spec_Time Model_Time Model_Analysis Spec_Analysis Proof_Analysis Proof_Analysis2 Proof_Analysis3 Proof_Analysis4 Proof_Analysis5 Proof_Analysis7 Proof_Analysis9 Proof_Analysis8 Proof_System4
  Spec_Accuracy Proof_Accuracy Proof_Accuracy2 Proof_Accuracy3 Spec_Hist64 Proof_Hist64 Proof_Hist64b Proof_Hist64c.
Import ListNotations.
Local Open Scope nat_scope.

Section Generic.
Context {S : scalar}.
Implicit Types mn mx size lsize : S.
Definition set_up mn mx size lsize (b : bins S) : Prop := b_min b = raised mn /\ b_max b = mx /\ b_size b = size /\ b_lsize b = lsize.
Lemma set_up_of mn mx size lsize b : from_bin_size mn mx size lsize = Ok b -> set_up mn mx size lsize b.
Proof. intros H. apply from_bin_size_inv in H. destruct H as (E1 & E2 & E3 & E4 & _). repeat split; auto. Qed.
Lemma ta_draw_bins (a r : tana S) : ta_draw a = Ok r -> ta_bins r = ta_bins a.
Proof. unfold ta_draw. intros H. destruct (fill_lin _ _ _); try discriminate. cbn [bind] in H. destruct (fill _ _ _ _); try discriminate. cbn [bind] in H.
  assert (X : forall a b : tana S, Ok a = Ok b -> b = a) by congruence. apply X in H. subst r. reflexivity. Qed.
Lemma ta_whole mn mx size lsize (a0 a r : tana S) xs : ta_fresh mn mx size lsize = Ok a0 -> ta_adds a0 xs = Ok a -> ta_draw a = Ok r ->
  set_up mn mx size lsize (ta_bins r) /\ length (ta_hist r) = length (ta_count r) /\ length (ta_lhist r) = length (ta_lcount r).
Proof.
  intros H0 Ha Hd. destruct (ta_fresh_inv _ _ _ _ _ H0) as (b & Hb & Eb & E0 & _). destruct (ta_adds_inv _ _ _ Ha) as (B1 & A1 & A2 & _ & L1 & L2 & _).
  pose proof (ta_draw_bins _ _ Hd) as B2.
  assert (SH : shape b a). { unfold shape. rewrite B1, A1, A2, L1, L2, Eb, E0. cbn [ta_hist ta_lhist ta_count ta_lcount ta_bins]. rewrite !repeat_length. repeat split; auto. }
  destruct (draw_shape _ _ _ SH Hd) as (SH2 & _). unfold shape in SH2. decompose [and] SH2. split; [rewrite B2, B1, Eb; now apply set_up_of|]. split; congruence.
Qed.
Lemma tv_whole mn mx size lsize n (a0 a r : tvec S) rows : n <> 0 -> tv_fresh mn mx size lsize n = Ok a0 -> tv_adds a0 rows = Ok a -> tv_draw a = Ok r ->
  set_up mn mx size lsize (tv_bins r) /\ tv_nvar r = n.
Proof.
  intros Hn H0 Ha Hd. destruct (tv_fresh_col _ _ _ _ _ _ H0) as (R0 & t0 & E0 & C0). pose proof Ha as Hh. rewrite tv_adds_vhistory in Hh. destruct (vhistory_col _ _ Hn _ _ R0 Hh) as (R1 & _ & C1).
  destruct (tv_draw_col _ _ _ R1 Hd) as (R2 & C2). split; [|apply R2]. assert (K0 : 0 < n) by lia.
  destruct (C1 0 t0 K0 (C0 0 K0)) as (t & Ht & Ct). rewrite op_col_adds in Ht. destruct (C2 0 t K0 Ct) as (u & Hu & Cu).
  destruct (ta_whole _ _ _ _ _ _ _ _ E0 Ht Hu) as (X & _). apply column_inv in Cu. destruct Cu as (_ & _ & _ & _ & _ & _ & _ & Cu). now rewrite <- Cu.
Qed.
Lemma pa_pairs_bins ps : forall a a' : pana S, pa_pairs a ps = Ok a' -> pa_bins a' = pa_bins a.
Proof.
  induction ps as [|(t, v) ps IH]; intros a a' H; cbn [pa_pairs] in H; [congruence|]. destruct (pa_pair a t v) as [a1| | |] eqn:E; try discriminate. cbn [bind] in H.
  rewrite (IH _ _ H). unfold pa_pair in E. do 6 (destruct (bump _ _ _); try discriminate; cbn [bind] in E).
  assert (X : forall a b : pana S, Ok a = Ok b -> b = a) by congruence. apply X in E. subst a1. reflexivity.
Qed.
Lemma pa_whole mn mx size lsize (a0 a r : pana S) ls : pa_fresh mn mx size lsize = Ok a0 -> add_lines pa_line a0 ls = Ok a -> pa_draw a = Ok r -> set_up mn mx size lsize (pa_bins r).
Proof.
  intros H0 Ha Hd. destruct (pa_fresh_inv _ _ _ _ _ H0) as (b & Hb & E0 & _). destruct (pa_lines_inv _ _ _ Ha) as (a1 & H1 & E1). apply pa_pairs_bins in H1.
  unfold pa_draw in Hd. do 2 (destruct (means_loop _ _ _); try discriminate; cbn [bind] in Hd).
  assert (X : forall a b : pana S, Ok a = Ok b -> b = a) by congruence. apply X in Hd. subst r a a0. cbn [pa_bins] in *. rewrite H1. now apply set_up_of.
Qed.
End Generic.

Local Open Scope R_scope.
Section Exports.
Variables (lm : libm) (mn mx size lsize : b64).
Notation F := (F64 lm).
Notation m := (raised (S := F64 lm) mn : b64).
Notation lin_fit := (fin m = true /\ fin size = true /\ 0 < B2 m <= 2 ^ 900 /\ / 2 ^ 900 <= B2 size <= 2 ^ 900).
Notation log_fit := (fin m = true /\ fin lsize = true /\ / 2 ^ 900 <= B2 m <= 2 ^ 900 /\ 1 < B2 lsize <= 2 ^ 50).

Lemma lin_at (t : nat -> b64) : (forall j, lin_fit -> INR j <= Q50 -> B2 m + (INR j + 1) * B2 size <= Q900 -> close (4 * (INR j + 2)) (t j) (B2 m + INR j * B2 size + B2 size / 2)) ->
  lin_fit -> forall j, INR j <= 2 ^ 50 -> edge (B2 m) (B2 size) (S j) <= 2 ^ 900 -> close (4 * (INR j + 2)) (t j) (edge (B2 m) (B2 size) j + B2 size / 2).
Proof. intros H L j J E. unfold edge in *. rewrite S_INR in E. apply H; auto. Qed.
Lemma log_at (k : R) (t : nat -> b64) : (forall j, log_fit -> INR j <= Q50 -> B2 m * B2 lsize ^ j * sqrt (B2 lsize) <= Q900 -> close (INR j + k) (t j) (B2 m * B2 lsize ^ j * sqrt (B2 lsize))) -> k <= 3 ->
  log_fit -> forall j, INR j <= 2 ^ 50 -> ledge (B2 m) (B2 lsize) j * sqrt (B2 lsize) <= 2 ^ 900 -> close (INR j + 3) (t j) (ledge (B2 m) (B2 lsize) j * sqrt (B2 lsize)).
Proof.
  intros H K L j J E. unfold ledge in *. destruct (H j L J E) as (A & B). split; [exact A|]. apply Rle_trans with (1 := B).
  pose proof u_small. pose proof (Rabs_pos (B2 m * B2 lsize ^ j * sqrt (B2 lsize))). repeat apply Rmult_le_compat_r; lra.
Qed.

Lemma time_rows (a0 a r : tana F) (xs : list b64) : ta_fresh (S := F) mn mx size lsize = Ok a0 -> ta_adds a0 xs = Ok a -> ta_draw a = Ok r ->
  exists t lt : nat -> b64,
  ta_export_lin r = Ok (filter (fun row => negb (ltb (fabs (snd row)) tiny)) (map (fun j => (t j, nth j (ta_count r) 0%nat, nth j (ta_hist r) s0)) (seq 0 (length (ta_hist r))))) /\
  ta_export_log r = Ok (filter (fun row => negb (ltb (fabs (snd row)) tiny)) (map (fun j => (lt j, nth j (ta_lcount r) 0%nat, nth j (ta_lhist r) s0)) (seq 0 (length (ta_lhist r))))) /\
  (lin_fit -> forall j, INR j <= 2 ^ 50 -> edge (B2 m) (B2 size) (S j) <= 2 ^ 900 -> close (4 * (INR j + 2)) (t j) (edge (B2 m) (B2 size) j + B2 size / 2)) /\
  (log_fit -> forall j, INR j <= 2 ^ 50 -> ledge (B2 m) (B2 lsize) j * sqrt (B2 lsize) <= 2 ^ 900 -> close (INR j + 3) (lt j) (ledge (B2 m) (B2 lsize) j * sqrt (B2 lsize))).
Proof.
  intros H0 Ha Hd. destruct (ta_whole (S := F) _ _ _ _ _ _ _ _ H0 Ha Hd) as ((E1 & E2 & E3 & E4) & L1 & L2).
  exists (fun j => Nat.iter (S j) (fun t => add (s := F) t size) (Bminus mode_NE m (Bdiv mode_NE size (b64_of_Z 2)))), (fun j => Nat.iter (S j) (fun t => mul (s := F) t lsize) (Bdiv mode_NE m (Bsqrt mode_NE lsize))).
  split; [|split; [|split]].
  - unfold ta_export_lin. rewrite E1, E3. refine (eq_trans (rows_lin_is (S := F) _ _ _ _ 0 _) _); [cbn [Nat.add]; rewrite L1; apply le_n|]. reflexivity.
  - unfold ta_export_log. rewrite E1, E4. refine (eq_trans (rows_log_is (S := F) _ _ _ _ 0 _) _); [cbn [Nat.add]; rewrite L2; apply le_n|]. reflexivity.
  - apply lin_at. intros j (A & B & C & D) J E. apply centre_before; auto.
  - apply (log_at 3); [|lra]. intros j (A & B & C & D) J E. apply lcentre_before; auto.
Qed.
Lemma vector_rows n (a0 a r : tvec F) (rows : list (list b64)) : n <> 0%nat -> tv_fresh (S := F) mn mx size lsize n = Ok a0 -> tv_adds a0 rows = Ok a -> tv_draw a = Ok r ->
  exists t lt : nat -> b64,
  (forall fuel out, tv_export_lin fuel r = Ok out -> exists K, (forall j, (j < K)%nat -> leb (s := F) (t j) mx = true) /\ leb (s := F) (t K) mx = false /\
     out = filter (fun row => existsb (fun nx => ltb tiny (snd nx)) (snd row)) (map (fun j => (t j, map (fun k => (nth j (nth k (tv_count r) []) 0%nat, nth j (nth k (tv_hist r) []) s0)) (seq 0 n))) (seq 0 K))) /\
  (forall fuel out, tv_export_log fuel r = Ok out -> exists K, (forall j, (j < K)%nat -> leb (s := F) (lt j) mx = true) /\ leb (s := F) (lt K) mx = false /\
     out = filter (fun row => existsb (fun nx => ltb tiny (snd nx)) (snd row)) (map (fun j => (lt j, map (fun k => (nth j (nth k (tv_lcount r) []) 0%nat, nth j (nth k (tv_lhist r) []) s0)) (seq 0 n))) (seq 0 K))) /\
  (lin_fit -> forall j, INR j <= 2 ^ 50 -> edge (B2 m) (B2 size) (S j) <= 2 ^ 900 -> close (4 * (INR j + 2)) (t j) (edge (B2 m) (B2 size) j + B2 size / 2)) /\
  (log_fit -> forall j, INR j <= 2 ^ 50 -> ledge (B2 m) (B2 lsize) j * sqrt (B2 lsize) <= 2 ^ 900 -> close (INR j + 3) (lt j) (ledge (B2 m) (B2 lsize) j * sqrt (B2 lsize))).
Proof.
  intros Hn H0 Ha Hd. destruct (tv_whole (S := F) _ _ _ _ _ _ _ _ _ Hn H0 Ha Hd) as ((E1 & E2 & E3 & E4) & NV).
  exists (fun j => Nat.iter j (fun t => add (s := F) t size) (Bplus mode_NE m (Bdiv mode_NE size (b64_of_Z 2)))), (fun j => Nat.iter j (fun t => mul (s := F) t lsize) (Bmult mode_NE m (Bsqrt mode_NE lsize))).
  split; [|split; [|split]].
  - intros fuel out H. unfold tv_export_lin in H. rewrite E1, E2, E3, NV in H. apply (tv_rows_is (S := F)) in H. destruct H as (K & P & Q & R). exists K. split; [exact P|]. split; [exact Q|]. exact R.
  - intros fuel out H. unfold tv_export_log in H. rewrite E1, E2, E4, NV in H. apply (tv_rows_is (S := F)) in H. destruct H as (K & P & Q & R). exists K. split; [exact P|]. split; [exact Q|]. exact R.
  - apply lin_at. intros j (A & B & C & D) J E. apply centre_after; auto.
  - apply (log_at 2); [|lra]. intros j (A & B & C & D) J E. apply lcentre_after; auto.
Qed.
Lemma process_rows (a0 a r : pana F) (ls : list (list (b64 * b64))) : pa_fresh (S := F) mn mx size lsize = Ok a0 -> add_lines (pa_line (S := F)) a0 ls = Ok a -> pa_draw a = Ok r ->
  exists t lt : nat -> b64,
  (forall fuel out, pa_export_lin fuel r = Ok out -> exists K, (forall j, (j < K)%nat -> leb (s := F) (t j) mx = true) /\ leb (s := F) (t K) mx = false /\
     out = filter (fun row => ltb tiny (snd (fst row))) (map (fun j => (t j, nth j (pa_count r) 0%nat, nth j (pa_bmean r) s0, nth j (pa_bsq r) s0)) (seq 0 K))) /\
  (forall fuel out, pa_export_log fuel r = Ok out -> exists K, (forall j, (j < K)%nat -> leb (s := F) (lt j) mx = true) /\ leb (s := F) (lt K) mx = false /\
     out = filter (fun row => ltb tiny (snd (fst row))) (map (fun j => (lt j, nth j (pa_lcount r) 0%nat, nth j (pa_lmean r) s0, nth j (pa_lsq r) s0)) (seq 0 K))) /\
  (lin_fit -> forall j, INR j <= 2 ^ 50 -> edge (B2 m) (B2 size) (S j) <= 2 ^ 900 -> close (4 * (INR j + 2)) (t j) (edge (B2 m) (B2 size) j + B2 size / 2)) /\
  (log_fit -> forall j, INR j <= 2 ^ 50 -> ledge (B2 m) (B2 lsize) j * sqrt (B2 lsize) <= 2 ^ 900 -> close (INR j + 3) (lt j) (ledge (B2 m) (B2 lsize) j * sqrt (B2 lsize))).
Proof.
  intros H0 Ha Hd. destruct (pa_whole (S := F) _ _ _ _ _ _ _ _ H0 Ha Hd) as (E1 & E2 & E3 & E4).
  exists (fun j => Nat.iter j (fun t => add (s := F) t size) (Bplus mode_NE m (Bdiv mode_NE size (b64_of_Z 2)))), (fun j => Nat.iter j (fun t => mul (s := F) t lsize) (Bmult mode_NE m (Bsqrt mode_NE lsize))).
  split; [|split; [|split]].
  - intros fuel out H. unfold pa_export_lin in H. rewrite E1, E2, E3 in H. apply (pa_rows_is (S := F)) in H. destruct H as (K & P & Q & R). exists K. split; [exact P|]. split; [exact Q|]. exact R.
  - intros fuel out H. unfold pa_export_log in H. rewrite E1, E2, E4 in H. apply (pa_rows_is (S := F)) in H. destruct H as (K & P & Q & R). exists K. split; [exact P|]. split; [exact Q|]. exact R.
  - apply lin_at. intros j (A & B & C & D) J E. apply centre_after; auto.
  - apply (log_at 2); [|lra]. intros j (A & B & C & D) J E. apply lcentre_after; auto.
Qed.
End Exports.
