(** The rows the three analyses export, for any number type; then the positions of the bins on doubles. *)
From Coq Require Import Reals ZArith List Lra Lia Bool Arith.
From Flocq Require Import Core.
From Flocq.IEEE754 Require Import BinarySingleNaN.
From Verif Require Import Base Scalar Float64 Model_Position Spec_Position Proof_Position Proof_Norm64 Proof_Sum64 Proof_Rel64 Proof_Moments64
  Proof_Time Spec_Time Model_Time Model_Analysis Spec_Analysis Proof_Analysis Proof_Analysis2 Proof_Analysis3 Proof_Analysis4 Proof_Analysis5 Proof_Analysis7 Proof_Analysis9 Proof_Analysis8 Proof_System4
  Spec_Accuracy Proof_Accuracy Proof_Accuracy2 Proof_Accuracy3 Spec_Hist64 Proof_Hist64 Proof_Hist64b.
Import ListNotations.
Local Open Scope nat_scope.

Section Rows.
Context {S : scalar}.
Notation it next t j := (Nat.iter j next t).
Lemma it_r {A} (next : A -> A) t j : Nat.iter j next (next t) = Nat.iter (Datatypes.S j) next t.
Proof. induction j as [|j IH]; [reflexivity|]. change (Nat.iter (Datatypes.S j) next (next t)) with (next (Nat.iter j next (next t))). rewrite IH. reflexivity. Qed.

Lemma rows_lin_is (step : S) (cnt : list nat) (h : list S) : forall time i, i + length h <= length cnt ->
  rows_lin time step h i cnt = Ok (filter (fun row => negb (ltb (fabs (snd row)) tiny))
    (map (fun j => (it (fun t => add t step) time (Datatypes.S j), nth (i + j) cnt 0, nth j h s0)) (seq 0 (length h)))).
Proof.
  induction h as [|x h IH]; intros time i L; [reflexivity|]. cbn [rows_lin length seq map]. cbn [length] in L. rewrite <- seq_shift, map_map. cbv zeta.
  rewrite (IH (add time step) (Datatypes.S i)) by lia.
  assert (E : map (fun j => (it (fun t => add t step) (add time step) (Datatypes.S j), nth (Datatypes.S i + j) cnt 0, nth j h s0)) (seq 0 (length h)) =
              map (fun j => (it (fun t => add t step) time (Datatypes.S (Datatypes.S j)), nth (i + Datatypes.S j) cnt 0, nth (Datatypes.S j) (x :: h) s0)) (seq 0 (length h))).
  { apply map_ext. intros j. rewrite (it_r (fun t => add t step)). replace (Datatypes.S i + j) with (i + Datatypes.S j) by lia. reflexivity. }
  rewrite E. cbn [filter snd nth]. destruct (ltb (fabs x) tiny); cbn [negb bind]; [reflexivity|].
  assert (I : idx cnt i = Ok (nth i cnt 0)). { unfold idx. destruct (nth_error cnt i) eqn:Q; [erewrite nth_error_nth; eauto|apply nth_error_None in Q; lia]. }
  rewrite I. cbn [bind]. rewrite Nat.add_0_r. reflexivity.
Qed.
Lemma rows_log_is (step : S) (cnt : list nat) (h : list S) : forall time i, i + length h <= length cnt ->
  rows_log time step h i cnt = Ok (filter (fun row => negb (ltb (fabs (snd row)) tiny))
    (map (fun j => (it (fun t => mul t step) time (Datatypes.S j), nth (i + j) cnt 0, nth j h s0)) (seq 0 (length h)))).
Proof.
  induction h as [|x h IH]; intros time i L; [reflexivity|]. cbn [rows_log length seq map]. cbn [length] in L. rewrite <- seq_shift, map_map. cbv zeta.
  rewrite (IH (mul time step) (Datatypes.S i)) by lia.
  assert (E : map (fun j => (it (fun t => mul t step) (mul time step) (Datatypes.S j), nth (Datatypes.S i + j) cnt 0, nth j h s0)) (seq 0 (length h)) =
              map (fun j => (it (fun t => mul t step) time (Datatypes.S (Datatypes.S j)), nth (i + Datatypes.S j) cnt 0, nth (Datatypes.S j) (x :: h) s0)) (seq 0 (length h))).
  { apply map_ext. intros j. rewrite (it_r (fun t => mul t step)). replace (Datatypes.S i + j) with (i + Datatypes.S j) by lia. reflexivity. }
  rewrite E. cbn [filter snd nth]. destruct (ltb (fabs x) tiny); cbn [negb bind]; [reflexivity|].
  assert (I : idx cnt i = Ok (nth i cnt 0)). { unfold idx. destruct (nth_error cnt i) eqn:Q; [erewrite nth_error_nth; eauto|apply nth_error_None in Q; lia]. }
  rewrite I. cbn [bind]. rewrite Nat.add_0_r. reflexivity.
Qed.

Lemma idx_nth {A} (l : list A) i x d : idx l i = Ok x -> nth i l d = x.
Proof. unfold idx. destruct (nth_error l i) eqn:E; [|discriminate]. intros H. assert (a = x) by congruence. subst. now apply nth_error_nth. Qed.
Definition cells_at (cols : list (list nat)) (hists : list (list S)) (nvar i : nat) : list (nat * S) :=
  map (fun k => (nth i (nth k cols []) 0, nth i (nth k hists []) s0)) (seq 0 nvar).
Lemma tv_cells_is cols hists ks i cs : tv_cells (S := S) cols hists ks i = Ok cs -> cs = map (fun k => (nth i (nth k cols []) 0, nth i (nth k hists []) s0)) ks.
Proof.
  revert cs. induction ks as [|k ks IH]; intros cs H; cbn [tv_cells map] in *; [congruence|].
  destruct (idx cols k) as [c| | |] eqn:E1; cbn [bind] in H; try discriminate. destruct (idx c i) as [n| | |] eqn:E2; cbn [bind] in H; try discriminate.
  destruct (idx hists k) as [h| | |] eqn:E3; cbn [bind] in H; try discriminate. destruct (idx h i) as [x| | |] eqn:E4; cbn [bind] in H; try discriminate.
  destruct (tv_cells cols hists ks i) as [rest| | |] eqn:E5; cbn [bind] in H; try discriminate. rewrite <- (IH rest eq_refl).
  rewrite (idx_nth _ _ _ [] E1), (idx_nth _ _ _ 0 E2), (idx_nth _ _ _ [] E3), (idx_nth _ _ _ s0 E4). congruence.
Qed.
Lemma tv_rows_is (next : S -> S) mx nvar cols hists : forall fuel time i rows, tv_rows fuel next mx time i nvar cols hists = Ok rows ->
  exists K, (forall j, j < K -> leb (it next time j) mx = true) /\ leb (it next time K) mx = false /\
  rows = filter (fun row => existsb (fun nx => ltb tiny (snd nx)) (snd row)) (map (fun j => (it next time j, cells_at cols hists nvar (i + j))) (seq 0 K)).
Proof.
  induction fuel as [|fuel IH]; intros time i rows H; [discriminate|]. cbn [tv_rows] in H. destruct (leb time mx) eqn:Ht.
  - destruct (tv_cells cols hists (seq 0 nvar) i) as [cs| | |] eqn:Ec; cbn [bind] in H; try discriminate.
    destruct (tv_rows fuel next mx (next time) (Datatypes.S i) nvar cols hists) as [rest| | |] eqn:Er; cbn [bind] in H; try discriminate.
    destruct (IH _ _ _ Er) as (K & A & B & ->). exists (Datatypes.S K). split; [|split].
    + intros [|j] Hj; [exact Ht|]. rewrite <- (it_r next). apply A. lia.
    + rewrite <- (it_r next). exact B.
    + assert (E : map (fun j => (it next (next time) j, cells_at cols hists nvar (Datatypes.S i + j))) (seq 0 K) = map (fun j => (it next time (Datatypes.S j), cells_at cols hists nvar (i + Datatypes.S j))) (seq 0 K)).
      { apply map_ext. intros j. rewrite (it_r next). replace (Datatypes.S i + j) with (i + Datatypes.S j) by lia. reflexivity. }
      rewrite E in H. cbn [seq map]. rewrite <- seq_shift, map_map. cbn [filter]. rewrite Nat.add_0_r. apply tv_cells_is in Ec. fold (cells_at cols hists nvar i) in Ec. subst cs.
      cbn [snd]. cbn [Nat.iter nat_rect] in *. destruct (existsb _ (cells_at cols hists nvar i)); congruence.
  - exists 0. split; [intros j Hj; lia|]. split; [exact Ht|]. cbn [seq map filter]. congruence.
Qed.
Lemma pa_rows_is (next : S -> S) mx count mean sq : forall fuel time i rows, pa_rows fuel next mx time i count mean sq = Ok rows ->
  exists K, (forall j, j < K -> leb (it next time j) mx = true) /\ leb (it next time K) mx = false /\
  rows = filter (fun row => ltb tiny (snd (fst row))) (map (fun j => (it next time j, nth (i + j) count 0, nth (i + j) mean s0, nth (i + j) sq s0)) (seq 0 K)).
Proof.
  induction fuel as [|fuel IH]; intros time i rows H; [discriminate|]. cbn [pa_rows] in H. destruct (leb time mx) eqn:Ht.
  - destruct (idx count i) as [n| | |] eqn:E1; cbn [bind] in H; try discriminate. destruct (idx mean i) as [x| | |] eqn:E2; cbn [bind] in H; try discriminate.
    destruct (idx sq i) as [y| | |] eqn:E3; cbn [bind] in H; try discriminate.
    destruct (pa_rows fuel next mx (next time) (Datatypes.S i) count mean sq) as [rest| | |] eqn:Er; cbn [bind] in H; try discriminate.
    destruct (IH _ _ _ Er) as (K & A & B & ->). exists (Datatypes.S K). split; [|split].
    + intros [|j] Hj; [exact Ht|]. rewrite <- (it_r next). apply A. lia.
    + rewrite <- (it_r next). exact B.
    + assert (E : map (fun j => (it next (next time) j, nth (Datatypes.S i + j) count 0, nth (Datatypes.S i + j) mean s0, nth (Datatypes.S i + j) sq s0)) (seq 0 K) =
                  map (fun j => (it next time (Datatypes.S j), nth (i + Datatypes.S j) count 0, nth (i + Datatypes.S j) mean s0, nth (i + Datatypes.S j) sq s0)) (seq 0 K)).
      { apply map_ext. intros j. rewrite (it_r next). replace (Datatypes.S i + j) with (i + Datatypes.S j) by lia. reflexivity. }
      rewrite E in H. cbn [seq map]. rewrite <- seq_shift, map_map. cbn [filter]. rewrite Nat.add_0_r.
      rewrite (idx_nth _ _ _ 0 E1), (idx_nth _ _ _ s0 E2), (idx_nth _ _ _ s0 E3). cbn [fst snd]. cbn [Nat.iter nat_rect] in *. destruct (ltb tiny x); congruence.
  - exists 0. split; [intros j Hj; lia|]. split; [exact Ht|]. cbn [seq map filter]. congruence.
Qed.
End Rows.

Local Open Scope R_scope.
Lemma pt_fin_range (a w : b64) : fin a = true -> fin w = true -> 0 <= B2 w -> forall k, INR k <= 2 ^ 51 -> Rabs (B2 a) + INR k * B2 w <= bpow radix2 910 -> fin (pt a w k) = true.
Proof.
  intros Fa Fw Pw. induction k as [|k IH]; intros Hk Hb; [exact Fa|]. rewrite S_INR in Hk, Hb. pose proof (pos_INR k) as K0. pose proof (Rabs_pos (B2 a)) as A0.
  assert (Kw : 0 <= INR k * B2 w) by (apply Rmult_le_pos; lra).
  assert (F : fin (pt a w k) = true) by (apply IH; lra). rewrite pt_S.
  assert (K52 : INR k <= 2 ^ 52) by (replace (2 ^ 52) with (2 * 2 ^ 51) by (simpl; lra); lra).
  pose proof (pt_err a w Pw k F) as E. pose proof (g_lin k (two52 k K52)) as G. pose proof (two52 k K52) as T.
  destruct (plus_val _ _ F Fw) as (Nn & V). apply (rnd64_lt_fin _ _ Nn V).
  assert (X : Rabs (B2 (pt a w k) + B2 w) <= bpow radix2 912).
  { set (t := B2 (pt a w k)) in *. assert (Rabs t <= 2 * (Rabs (B2 a) + INR k * B2 w)).
    { replace t with ((t - (B2 a + INR k * B2 w)) + (B2 a + INR k * B2 w)) by ring. eapply Rle_trans; [apply Rabs_triang|].
      pose proof (Rabs_triang (B2 a) (INR k * B2 w)) as T2. rewrite (Rabs_pos_eq (INR k * B2 w)) in T2 by lra.
      assert (((1 + u64) ^ k - 1) * (Rabs (B2 a) + INR k * B2 w) <= 1 * (Rabs (B2 a) + INR k * B2 w)) by (apply Rmult_le_compat_r; lra). lra. }
    eapply Rle_trans; [apply Rabs_triang|]. rewrite (Rabs_pos_eq (B2 w)) by lra. change 912%Z with (2 + 910)%Z. rewrite bpow_plus. change (bpow radix2 2) with 4.
    pose proof (bpow_gt_0 radix2 910). lra. }
  apply Rle_lt_trans with (bpow radix2 912); [|apply bpow_lt; lia].
  apply abs_round_le_generic; auto with typeclass_instances. apply generic_format_bpow. unfold SpecFloat.fexp, SpecFloat.emin; lia.
Qed.

Lemma q910 : 2 ^ 6 * Q900 <= bpow radix2 910.
Proof. unfold Q900. rewrite <- pow_add. change (6 + 900)%nat with 906%nat. rewrite <- (bpow_pow 906). apply bpow_le. lia. Qed.

(** [k] steps from a start that is near [r]. *)
Lemma pt_near (a w : b64) (m r : R) (k j : nat) : fin a = true -> fin w = true -> 0 < m -> 0 < B2 w -> INR j <= Q50 -> m + (INR j + 1) * B2 w <= Q900 ->
  Rabs r <= m + B2 w / 2 -> Rabs (B2 a - r) <= u64 * (m + 2 * B2 w) -> (k <= S j)%nat -> r + INR k * B2 w = m + INR j * B2 w + B2 w / 2 ->
  close (4 * (INR j + 2)) (pt a w k) (m + INR j * B2 w + B2 w / 2).
Proof.
  intros Fa Fw Pm Pw Hj Hb Hr Ha Hk Hc. pose proof u_small as U. pose proof (pos_INR j) as J0. pose proof (pos_INR k) as K0. pose proof q50_ge as Q5.
  assert (KJ : INR k <= INR j + 1) by (rewrite <- S_INR; now apply le_INR).
  assert (Jw : 0 <= INR j * B2 w) by (apply Rmult_le_pos; lra). assert (Kw : 0 <= INR k * B2 w) by (apply Rmult_le_pos; lra).
  assert (KJw : INR k * B2 w <= (INR j + 1) * B2 w) by (apply Rmult_le_compat_r; lra).
  assert (A1 : Rabs (B2 a) <= m + B2 w / 2 + u64 * (m + 2 * B2 w)).
  { replace (B2 a) with ((B2 a - r) + r) by ring. eapply Rle_trans; [apply Rabs_triang|]. lra. }
  assert (UW : u64 * (m + 2 * B2 w) <= u64 * m + B2 w / 2). { clear -U Pw. assert (u64 * (2 * B2 w) <= / 1000 * (2 * B2 w)) by (apply Rmult_le_compat_r; lra). lra. }
  assert (Um : u64 * m <= m) by (clear -U Pm; assert (u64 * m <= / 1000 * m) by (apply Rmult_le_compat_r; lra); lra).
  set (D := m + (INR j + 2) * B2 w). assert (D0 : 0 < D) by (unfold D; lra).
  assert (A2 : Rabs (B2 a) + INR k * B2 w <= (1 + u64) * D).
  { unfold D. assert (0 <= u64 * ((INR j + 2) * B2 w)) by (apply Rmult_le_pos; [lra|apply Rmult_le_pos; lra]). lra. }
  assert (D900 : D <= 2 * Q900) by (unfold D; lra).
  assert (K51 : INR k <= 2 ^ 51). { apply Rle_trans with (2 * 2 ^ 50); [|simpl; lra]. change (2 ^ 50) with Q50. lra. }
  assert (K52 : INR k <= 2 ^ 52) by (replace (2 ^ 52) with (2 * 2 ^ 51) by (simpl; lra); lra).
  assert (F : fin (pt a w k) = true).
  { apply pt_fin_range; auto; [lra|]. apply Rle_trans with (2 := q910). assert ((1 + u64) * D <= 2 * D) by (apply Rmult_le_compat_r; lra). pose proof q900_pos. simpl. lra. }
  split; [exact F|]. pose proof (pt_err a w ltac:(lra) k F) as E. pose proof (g_lin k (two52 k K52)) as G.
  set (c := m + INR j * B2 w + B2 w / 2) in *. rewrite (Rabs_pos_eq c) by (unfold c; lra).
  replace (B2 (pt a w k) - c) with ((B2 (pt a w k) - (B2 a + INR k * B2 w)) + (B2 a - r)) by lra. eapply Rle_trans; [apply Rabs_triang|].
  assert (E1 : Rabs (B2 (pt a w k) - (B2 a + INR k * B2 w)) <= 2 * (INR j + 1) * u64 * ((1 + u64) * D)).
  { apply Rle_trans with (1 := E). apply Rmult_le_compat; [pose proof (g_pow k); lra|pose proof (Rabs_pos (B2 a)); lra| |exact A2].
    apply Rle_trans with (2 * INR k * u64); [lra|]. apply Rmult_le_compat_r; lra. }
  assert (E2 : Rabs (B2 a - r) <= u64 * D). { apply Rle_trans with (1 := Ha). apply Rmult_le_compat_l; [lra|]. unfold D. assert (0 <= INR j * B2 w) by exact Jw. lra. }
  assert (UJ : 2 * (INR j + 1) * u64 <= 1).
  { pose proof (two52 (S j)) as T. rewrite S_INR in T. apply T. apply Rle_trans with (4 * 2 ^ 50); [|simpl; lra]. change (2 ^ 50) with Q50. lra. }
  assert (DC : D <= 4 * c) by (unfold D, c; lra).
  apply Rle_trans with ((2 * (INR j + 2)) * u64 * D).
  - apply Rle_trans with (2 * (INR j + 1) * u64 * ((1 + u64) * D) + u64 * D); [lra|].
    replace (2 * (INR j + 1) * u64 * ((1 + u64) * D) + u64 * D) with ((2 * (INR j + 1) + 1 + 2 * (INR j + 1) * u64) * (u64 * D)) by ring.
    rewrite (Rmult_assoc (2 * (INR j + 2))). apply Rmult_le_compat_r; [apply Rmult_le_pos; lra|]. lra.
  - replace (2 * (4 * (INR j + 2)) * u64 * c) with (2 * (INR j + 2) * u64 * (4 * c)) by ring. apply Rmult_le_compat_l; [|exact DC].
    apply Rmult_le_pos; [|lra]. lra.
Qed.

Lemma half_near (w : b64) : fin w = true -> / Q900 <= B2 w <= Q900 -> fin (Bdiv mode_NE w (b64_of_Z 2)) = true /\ Rabs (B2 (Bdiv mode_NE w (b64_of_Z 2)) - B2 w / 2) <= u64 * B2 w.
Proof.
  intros Fw (W1 & W2). destruct (of_Z_exact 2 ltac:(lia)) as (F2 & E2). pose proof q900_pos as QP. pose proof q50_ge as Q5.
  assert (iQ : 0 < / Q900) by now apply Rinv_0_lt_compat.
  assert (R0 : rel 1 (Bdiv mode_NE w (b64_of_Z 2)) (B2 w / 2)).
  { rewrite <- E2. apply (rel_div 0 0); [now apply rel_exact|now apply rel_exact|rewrite E2; lra| |apply small_rel; simpl; lra].
    rewrite E2. apply range_dn. split; [|lra]. apply Rle_trans with (/ Q900 / 2); [|lra].
    replace (/ Q900 / 2) with (/ (2 * Q900)) by (field; lra). apply Rinv_le_contravar; [lra|]. apply Rmult_le_compat_r; [lra|].
    unfold Q50. apply Rle_trans with (2 ^ 1); [simpl; lra|apply Rle_pow; [lra|lia]]. }
  destruct (rel_bound _ _ _ R0 ltac:(apply small_rel; simpl; lra)) as (F & E). split; [exact F|]. apply Rle_trans with (1 := E). rewrite Rabs_pos_eq by lra. change (INR 1) with 1. lra.
Qed.
Lemma start_minus (m w : b64) : fin m = true -> fin w = true -> 0 < B2 m <= Q900 -> / Q900 <= B2 w <= Q900 ->
  let a := Bminus mode_NE m (Bdiv mode_NE w (b64_of_Z 2)) in fin a = true /\ Rabs (B2 a - (B2 m - B2 w / 2)) <= u64 * (B2 m + 2 * B2 w).
Proof.
  intros Fm Fw M W a. destruct (half_near w Fw W) as (Fh & Eh). pose proof u_small as U. set (h := Bdiv mode_NE w (b64_of_Z 2)) in *.
  pose proof q900_pos as QP. assert (iQ : 0 < / Q900) by now apply Rinv_0_lt_compat. apply Rabs_le_inv in Eh.
  assert (U1 : u64 * B2 w <= B2 w / 4). { assert (u64 * B2 w <= / 1000 * B2 w) by (apply Rmult_le_compat_r; lra). lra. }
  assert (H0 : 0 <= B2 h <= B2 w) by lra.
  destruct (minus_val m h Fm Fh) as (Nn & V).
  assert (Ab : Rabs (B2 m - B2 h) <= B2 m + B2 w) by (apply Rabs_le; lra).
  assert (F : fin a = true).
  { apply (rnd64_lt_fin _ _ Nn V). apply Rle_lt_trans with (bpow radix2 910); [|apply bpow_lt; lia].
    apply abs_round_le_generic; auto with typeclass_instances; [apply generic_format_bpow; unfold SpecFloat.fexp, SpecFloat.emin; lia|].
    apply Rle_trans with (2 := q910). simpl. lra. }
  split; [exact F|]. unfold a in *. rewrite (Proof_Sum64.fin_minus_eq m h F). pose proof (rnd64_minus m h) as E.
  replace (rnd64 (B2 m - B2 h) - (B2 m - B2 w / 2)) with ((rnd64 (B2 m - B2 h) - (B2 m - B2 h)) + (B2 w / 2 - B2 h)) by ring.
  eapply Rle_trans; [apply Rabs_triang|]. assert (Rabs (B2 w / 2 - B2 h) <= u64 * B2 w) by (apply Rabs_le; lra).
  assert (u64 * Rabs (B2 m - B2 h) <= u64 * (B2 m + B2 w)) by (apply Rmult_le_compat_l; lra). lra.
Qed.
Lemma start_plus (m w : b64) : fin m = true -> fin w = true -> 0 < B2 m <= Q900 -> / Q900 <= B2 w <= Q900 ->
  let a := Bplus mode_NE m (Bdiv mode_NE w (b64_of_Z 2)) in fin a = true /\ Rabs (B2 a - (B2 m + B2 w / 2)) <= u64 * (B2 m + 2 * B2 w).
Proof.
  intros Fm Fw M W a. destruct (half_near w Fw W) as (Fh & Eh). pose proof u_small as U. set (h := Bdiv mode_NE w (b64_of_Z 2)) in *.
  pose proof q900_pos as QP. assert (iQ : 0 < / Q900) by now apply Rinv_0_lt_compat. apply Rabs_le_inv in Eh.
  assert (U1 : u64 * B2 w <= B2 w / 4). { assert (u64 * B2 w <= / 1000 * B2 w) by (apply Rmult_le_compat_r; lra). lra. }
  assert (H0 : 0 <= B2 h <= B2 w) by lra.
  destruct (plus_val m h Fm Fh) as (Nn & V).
  assert (Ab : Rabs (B2 m + B2 h) <= B2 m + B2 w) by (apply Rabs_le; lra).
  assert (F : fin a = true).
  { apply (rnd64_lt_fin _ _ Nn V). apply Rle_lt_trans with (bpow radix2 910); [|apply bpow_lt; lia].
    apply abs_round_le_generic; auto with typeclass_instances; [apply generic_format_bpow; unfold SpecFloat.fexp, SpecFloat.emin; lia|].
    apply Rle_trans with (2 := q910). simpl. lra. }
  split; [exact F|]. destruct (plus_abs m h F) as (E & _). unfold a. rewrite (Rabs_pos_eq (B2 m)), (Rabs_pos_eq (B2 h)) in E by lra.
  replace (B2 (Bplus mode_NE m h) - (B2 m + B2 w / 2)) with ((B2 (Bplus mode_NE m h) - (B2 m + B2 h)) + (B2 h - B2 w / 2)) by ring.
  eapply Rle_trans; [apply Rabs_triang|]. assert (Rabs (B2 h - B2 w / 2) <= u64 * B2 w) by (apply Rabs_le; lra).
  assert (u64 * (B2 m + B2 h) <= u64 * (B2 m + B2 w)) by (apply Rmult_le_compat_l; lra). lra.
Qed.

(** The linear centres. *)
Lemma it_pt lm (a w : b64) k : Nat.iter k (fun t => add (s := F64 lm) t w) a = pt a w k.
Proof. induction k as [|k IH]; [reflexivity|]. change (add (s := F64 lm) (Nat.iter k (fun t => add (s := F64 lm) t w) a) w = pt a w (S k)). rewrite IH. reflexivity. Qed.
Lemma centre_before lm (m w : b64) j : fin m = true -> fin w = true -> 0 < B2 m <= Q900 -> / Q900 <= B2 w <= Q900 -> INR j <= Q50 -> B2 m + (INR j + 1) * B2 w <= Q900 ->
  close (4 * (INR j + 2)) (Nat.iter (S j) (fun t => add (s := F64 lm) t w) (Bminus mode_NE m (Bdiv mode_NE w (b64_of_Z 2)))) (B2 m + INR j * B2 w + B2 w / 2).
Proof.
  intros Fm Fw M W J Hb. rewrite it_pt. pose proof q900_pos as QP. assert (iQ : 0 < / Q900) by now apply Rinv_0_lt_compat.
  destruct (start_minus m w Fm Fw M W) as (Fa & Ea). refine (pt_near _ w (B2 m) (B2 m - B2 w / 2) (S j) j Fa Fw _ _ J Hb _ Ea _ _); [lra|lra|apply Rabs_le; lra|lia|rewrite S_INR; lra].
Qed.
Lemma centre_after lm (m w : b64) j : fin m = true -> fin w = true -> 0 < B2 m <= Q900 -> / Q900 <= B2 w <= Q900 -> INR j <= Q50 -> B2 m + (INR j + 1) * B2 w <= Q900 ->
  close (4 * (INR j + 2)) (Nat.iter j (fun t => add (s := F64 lm) t w) (Bplus mode_NE m (Bdiv mode_NE w (b64_of_Z 2)))) (B2 m + INR j * B2 w + B2 w / 2).
Proof.
  intros Fm Fw M W J Hb. rewrite it_pt. pose proof q900_pos as QP. assert (iQ : 0 < / Q900) by now apply Rinv_0_lt_compat.
  destruct (start_plus m w Fm Fw M W) as (Fa & Ea). refine (pt_near _ w (B2 m) (B2 m + B2 w / 2) j j Fa Fw _ _ J Hb _ Ea _ _); [lra|lra|apply Rabs_le; lra|lia|lra].
Qed.

(** The logarithmic centres. *)
Lemma it_times lm (g : b64) k : forall w : b64, Nat.iter k (fun t => mul (s := F64 lm) t g) w = times_by (S := F64 lm) w g k.
Proof. induction k as [|k IH]; intros w; [reflexivity|]. cbn [times_by]. rewrite <- IH. symmetry. apply (it_r (fun t : b64 => mul (s := F64 lm) t g)). Qed.
Lemma sqrt_rel (l : b64) : fin l = true -> 1 <= B2 l -> rel 1 (Bsqrt mode_NE l) (sqrt (B2 l)).
Proof.
  intros F P. destruct (sqrt_val l F ltac:(lra)) as (Fs & E). split; [exact Fs|]. rewrite E.
  assert (S1 : 1 <= sqrt (B2 l)) by (rewrite <- sqrt_1; apply sqrt_le_1; lra).
  destruct (one_round (sqrt (B2 l))) as (t & Et & T).
  { rewrite Rabs_pos_eq by lra. apply Rle_trans with (bpow radix2 0); [apply bpow_le; lia|]. simpl. lra. }
  exists t. rewrite !pow_1. auto.
Qed.
Lemma log_times lm (l a : b64) (A C : R) k : fin l = true -> 1 < B2 l -> rel 2 a A -> LO <= A -> A * B2 l ^ k = C -> C <= Q900 -> INR k <= Q50 + 1 ->
  close (INR k + 2) (Nat.iter k (fun t => mul (s := F64 lm) t l) a) C.
Proof.
  intros Fl Pl Ra LA EC HC K. rewrite it_times. assert (LP : 0 < LO) by (unfold LO; apply bpow_gt_0). pose proof q50_ge as Q5. pose proof hi_ge as HH. pose proof q900_pos as QP.
  assert (N : INR (2 + k) <= Q50 + 10) by (rewrite plus_INR; simpl; lra).
  assert (Rk : rel (2 + k) (times_by (S := F64 lm) a l k) (A * B2 l ^ k)).
  { apply rel_times; auto. intros j Hj. assert (P1 : 1 <= B2 l ^ j) by (apply pow_R1_Rle; lra). assert (P2 : B2 l ^ j <= B2 l ^ k) by (apply Rle_pow; [lra|lia]).
    assert (X : A <= A * B2 l ^ j) by (rewrite <- (Rmult_1_r A) at 1; apply Rmult_le_compat_l; lra).
    assert (Y : A * B2 l ^ j <= A * B2 l ^ k) by (apply Rmult_le_compat_l; lra). rewrite Rabs_pos_eq by lra. split; [lra|].
    assert (Q900 <= Q50 * Q900) by (rewrite <- (Rmult_1_l Q900) at 1; apply Rmult_le_compat_r; lra). lra. }
  rewrite EC in Rk. destruct (rel_bound _ _ _ Rk ltac:(now apply small_rel)) as (F & E). split; [exact F|].
  replace (INR k + 2) with (INR (2 + k)) by (rewrite plus_INR; simpl; ring). exact E.
Qed.
Lemma lcentre_before lm (m l : b64) j : fin m = true -> fin l = true -> / Q900 <= B2 m <= Q900 -> 1 < B2 l <= Q50 -> INR j <= Q50 -> B2 m * B2 l ^ j * sqrt (B2 l) <= Q900 ->
  close (INR j + 3) (Nat.iter (S j) (fun t => mul (s := F64 lm) t l) (Bdiv mode_NE m (Bsqrt mode_NE l))) (B2 m * B2 l ^ j * sqrt (B2 l)).
Proof.
  intros Fm Fl M L J Hb. pose proof q900_pos as QP. pose proof q50_ge as Q5. assert (iQ : 0 < / Q900) by now apply Rinv_0_lt_compat.
  assert (S1 : 1 <= sqrt (B2 l)) by (rewrite <- sqrt_1; apply sqrt_le_1; lra). assert (S2 : sqrt (B2 l) * sqrt (B2 l) = B2 l) by (apply sqrt_sqrt; lra).
  assert (S3 : sqrt (B2 l) <= Q50) by nra. set (q := sqrt (B2 l)) in *.
  assert (D1 : / (Q50 * Q900) <= B2 m / q).
  { rewrite Rinv_mult. unfold Rdiv. rewrite Rmult_comm. apply Rmult_le_compat; try lra; [left; apply Rinv_0_lt_compat; lra|apply Rinv_le_contravar; lra]. }
  assert (D2 : B2 m / q <= Q900). { apply Rle_trans with (B2 m * 1); [|lra]. apply Rmult_le_compat_l; [lra|]. rewrite <- Rinv_1. apply Rinv_le_contravar; lra. }
  assert (Rd : rel 2 (Bdiv mode_NE m (Bsqrt mode_NE l)) (B2 m / q)).
  { apply (rel_div 0 1); [now apply rel_exact|apply sqrt_rel; auto; lra|unfold q in *; lra|apply range_dn; lra|apply small_rel; simpl; lra]. }
  pose proof (log_times lm l _ (B2 m / q) (B2 m * B2 l ^ j * q) (S j) Fl ltac:(lra) Rd) as X. rewrite S_INR in X. replace (INR j + 1 + 2) with (INR j + 3) in X by ring.
  apply X; [|cbn [pow]; rewrite <- S2 at 1; field; lra|exact Hb|lra].
  pose proof lo_le. lra.
Qed.
Lemma lcentre_after lm (m l : b64) j : fin m = true -> fin l = true -> / Q900 <= B2 m <= Q900 -> 1 < B2 l <= Q50 -> INR j <= Q50 -> B2 m * B2 l ^ j * sqrt (B2 l) <= Q900 ->
  close (INR j + 2) (Nat.iter j (fun t => mul (s := F64 lm) t l) (Bmult mode_NE m (Bsqrt mode_NE l))) (B2 m * B2 l ^ j * sqrt (B2 l)).
Proof.
  intros Fm Fl M L J Hb. pose proof q900_pos as QP. pose proof q50_ge as Q5. assert (iQ : 0 < / Q900) by now apply Rinv_0_lt_compat.
  assert (S1 : 1 <= sqrt (B2 l)) by (rewrite <- sqrt_1; apply sqrt_le_1; lra). assert (S2 : sqrt (B2 l) * sqrt (B2 l) = B2 l) by (apply sqrt_sqrt; lra).
  assert (S3 : sqrt (B2 l) <= Q50) by nra. set (q := sqrt (B2 l)) in *.
  assert (D1 : / Q900 <= B2 m * q <= Q50 * Q900). { split; [apply Rle_trans with (B2 m * 1); [lra|apply Rmult_le_compat_l; lra]|]. rewrite Rmult_comm. apply Rmult_le_compat; lra. }
  pose proof (range_up _ D1) as RU.
  assert (Rd : rel 2 (Bmult mode_NE m (Bsqrt mode_NE l)) (B2 m * q)).
  { apply (rel_mul 0 1); [now apply rel_exact|apply sqrt_rel; auto; lra|exact RU|apply small_rel; simpl; lra]. }
  apply (log_times lm l _ (B2 m * q) (B2 m * B2 l ^ j * q) j Fl ltac:(lra) Rd); [|ring|exact Hb|lra].
  rewrite Rabs_pos_eq in RU by lra. lra.
Qed.
