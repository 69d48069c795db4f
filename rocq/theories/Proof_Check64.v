(** The reflection tests in double precision. *)
From Coq Require Import Reals ZArith List Lra Lia.
From Flocq Require Import Core.
From Flocq.IEEE754 Require Import BinarySingleNaN.
From Verif Require Import Base Scalar Float64 Model_Position Spec_Position Proof_Position Proof_Norm64 Proof_Sum64 Proof_Force64 Model_System Spec_System Proof_System Proof_System2 Proof_System4 Proof_System9
  Spec_Wall64 Proof_Wall64b Spec_Refl64 Proof_Refl64b Proof_Refl64c Proof_Refl64e Proof_Mirror Proof_Default64 Model_Check Proof_Check.
Import ListNotations.
Local Open Scope R_scope.

Section Unit.
Variable lm : libm.
Local Notation F := (F64 lm).
Definition disc64 : circ F := Circ (S := F64 lm) ContinuousCircular Reflection (b64_of_Z 1) 2.
Lemma with_disc_64 {A : Type} (f : circ F -> A) (bad : A) : with_disc f bad = f disc64.
Proof. unfold with_disc, circ_new. assert (E : @leb F s1 s0 = false) by (vm_compute; reflexivity). rewrite E. reflexivity. Qed.
Lemma disc64_ok : moderate_radius (ci_size disc64) /\ INR (ci_dim disc64) <= 2 ^ 40 /\ B2 (ci_size disc64) = 1 /\ 0 <= slack (ci_dim disc64) <= / 1000000.
Proof.
  cbn [disc64 ci_size ci_dim]. destruct (of_Z_exact 1) as (F1 & E1); [lia|]. split; [split; [exact F1|]; rewrite E1; split|].
  - rewrite <- Rinv_1. apply Rinv_le_contravar; [lra|]. apply pow_R1_Rle. lra.
  - apply pow_R1_Rle. lra.
  - split; [apply Rle_trans with (2 ^ 1); [simpl; lra|apply Rle_pow; [lra|lia]]|]. split; [exact E1|]. unfold slack. assert (2 ^ 53 >= 1000000000). { apply Rle_ge. apply Rle_trans with (2 ^ 30); [simpl; lra|apply Rle_pow; [lra|lia]]. }
    assert (0 < / 2 ^ 53 <= / 1000000000). { split; [apply Rinv_0_lt_compat; lra|apply Rinv_le_contravar; lra]. } simpl INR. unfold Rdiv. lra.
Qed.

(** A short step. *)
Lemma short_64 (x y c s : b64) : fin x = true -> fin y = true -> fin c = true -> fin s = true -> 0 <= B2 x <= 61 / 64 -> Rabs (B2 y) <= 1 / 32 -> Rabs (B2 c) <= 1 -> Rabs (B2 s) <= 1 ->
  let p := [x; b64_of_Z 0] in let d := [Bmult mode_NE y c; Bmult mode_NE y s] in let e := Spec_System.vsum (S := F64 lm) p d in
  circ_check_bc_exact disc64 p d = (e, d, Ok tt) /\ circ_check_bc_first_order disc64 p d = (e, d, Ok tt) /\ circ_check_bc disc64 p d = (e, Ok tt) /\ circ_inclusion disc64 e = Ok true /\ finite_pos e /\ length e = 2%nat.
Proof.
  intros Fx Fy Fc Fs X Y C S p d e. destruct (of_Z_exact 0) as (F0 & E0); [lia|].
  assert (M : forall z, fin z = true -> Rabs (B2 z) <= 1 -> fin (Bmult mode_NE y z) = true /\ Rabs (B2 (Bmult mode_NE y z)) <= 313 / 10000).
  { intros z Fz Z. assert (P : Rabs (B2 y * B2 z) <= 1 / 32) by (rewrite Rabs_mult, <- (Rmult_1_r (1 / 32)); apply Rmult_le_compat; try apply Rabs_pos; lra).
    destruct (mult_any y z Fy Fz) as (Fm & Em); [apply Rle_trans with 1; [lra|apply pow_R1_Rle; lra]|]. split; [exact Fm|].
    pose proof (Rabs_triang (B2 (Bmult mode_NE y z) - B2 y * B2 z) (B2 y * B2 z)) as T. replace (B2 (Bmult mode_NE y z) - B2 y * B2 z + B2 y * B2 z) with (B2 (Bmult mode_NE y z)) in T by ring.
    pose proof u64_tiny. pose proof u64_pos. assert (eta64 <= / 1000000). { unfold eta64. apply Rinv_le_contravar; [lra|]. apply Rle_trans with (2 ^ 20); [simpl; lra|apply Rle_pow; [lra|lia]]. }
    assert (u64 * Rabs (B2 y * B2 z) <= / 1000000 * (1 / 32)) by (apply Rmult_le_compat; [lra|apply Rabs_pos|lra|exact P]). lra. }
  destruct (M c Fc C) as (F1 & B1). destruct (M s Fs S) as (F2 & B2'). destruct disc64_ok as (Mo & Few & E1 & Sl).
  assert (Fp : finite_pos p) by (repeat constructor; assumption). assert (Fd : finite_pos d) by (repeat constructor; assumption).
  assert (A1 : euclid_norm (reals p) <= B2 (ci_size disc64)).
  { rewrite E1. unfold reals, p. cbn [map]. rewrite E0, norm_pair. rewrite <- (sqrt_pow2 1) by lra. apply sqrt_le_1_alt. assert (B2 x ^ 2 <= 1 ^ 2) by (apply pow_incr; lra). lra. }
  assert (A2 : euclid_norm (along (reals p) (reals d) 1) <= B2 (ci_size disc64) * (1 - slack (ci_dim disc64))).
  { rewrite E1. apply Rle_trans with (99 / 100); [|lra]. unfold reals, p, d, along. cbn [map combine fst snd]. rewrite E0, norm_pair. rewrite <- (sqrt_pow2 (99 / 100)) by lra. apply sqrt_le_1_alt.
    set (a := B2 (Bmult mode_NE y c)) in *. set (b := B2 (Bmult mode_NE y s)) in *. apply Rabs_le_inv in B1, B2'.
    assert ((B2 x + 1 * a) ^ 2 <= (985 / 1000) ^ 2). { rewrite <- !Rsqr_pow2. apply Rsqr_le_abs_1. rewrite (Rabs_pos_eq (985 / 1000)) by lra. apply Rabs_le. lra. }
    assert ((0 + 1 * b) ^ 2 <= (313 / 10000) ^ 2). { rewrite <- !Rsqr_pow2. apply Rsqr_le_abs_1. rewrite (Rabs_pos_eq (313 / 10000)) by lra. apply Rabs_le. lra. }
    lra. }
  destruct (exact_inside lm disc64 p d Mo Few eq_refl eq_refl Fp Fd A1 A2) as (X1 & X2). fold e in X1, X2.
  assert (In : circ_inclusion disc64 e = Ok true) by exact (proj1 (circ_exact_ok (S := F64 lm) disc64 p d e d) X1).
  split; [exact X1|]. split; [exact X2|]. split; [exact (circ_interior (S := F64 lm) disc64 p d eq_refl In)|]. split; [exact In|]. split; [|reflexivity].
  assert (Big : 2 <= 2 ^ 800) by (apply Rle_trans with (2 ^ 1); [simpl; lra|apply Rle_pow; [lra|lia]]).
  assert (G : forall a b, fin a = true -> fin b = true -> Rabs (B2 a) <= 1 -> Rabs (B2 b) <= 1 -> fin (fwd (a, b)) = true).
  { intros a b Fa Fb Ha Hb. apply (fwd_ok (a, b)). split; [exact Fa|]. split; [exact Fb|]. unfold size. cbn [fst snd]. lra. }
  change e with [fwd (x, Bmult mode_NE y c); fwd (b64_of_Z 0, Bmult mode_NE y s)]. repeat constructor; apply G; try assumption; try (rewrite E0, Rabs_R0; lra); try lra. rewrite Rabs_pos_eq; lra.
Qed.

(** The difference of a position with itself. *)
Lemma self_64 (e : list b64) : length e = 2%nat -> finite_pos e -> exists z, pos_sub (S := F64 lm) e e = Ok z /\ Bltb (norm (S := F64 lm) z) (Bdiv mode_NE (b64_of_Z 1) (b64_of_Z 10000000000)) = true.
Proof.
  intros L Fe. destruct e as [|a [|b [|]]]; try discriminate. inversion Fe as [|? ? Fa Fb']; subst. inversion Fb' as [|? ? Fb _]; subst.
  exists [Bminus mode_NE a a; Bminus mode_NE b b]. split; [reflexivity|].
  assert (Z : forall x, fin x = true -> fin (Bminus mode_NE x x) = true /\ B2 (Bminus mode_NE x x) = 0).
  { intros x Fx. pose proof (Bminus_correct 53 1024 _ _ mode_NE x x Fx Fx) as B. rewrite Rminus_diag_eq in B by reflexivity. rewrite round_0, Rabs_R0 in B by apply valid_rnd_N. rewrite Rlt_bool_true in B by apply bpow_gt_0. destruct B as (B1 & B2' & _). split; assumption. }
  destruct (Z a Fa) as (Za & Va). destruct (Z b Fb) as (Zb & Vb).
  assert (Fl : finite_pos [Bminus mode_NE a a; Bminus mode_NE b b]) by (repeat constructor; assumption).
  assert (N0 : euclid_norm (reals [Bminus mode_NE a a; Bminus mode_NE b b]) = 0).
  { unfold reals. cbn [map]. change (B2R (Bminus mode_NE a a)) with (B2 (Bminus mode_NE a a)). rewrite Va, Vb, norm_pair. replace (0 ^ 2 + 0 ^ 2) with 0 by ring. apply sqrt_0. }
  destruct (norm_near [Bminus mode_NE a a; Bminus mode_NE b b]) as (Fn & _ & _ & Small).
  - unfold few. simpl length. apply Rle_trans with (2 ^ 1); [simpl; lra|apply Rle_pow; [lra|lia]].
  - exact Fl.
  - rewrite N0. apply Rlt_le, pow_lt. lra.
  - rewrite N0 in Small. pose proof T410_pos. specialize (Small ltac:(lra)).
    destruct (sf_value (Bdiv mode_NE (b64_of_Z 1) (b64_of_Z 10000000000)) 7737125245533627 (-86)) as (Ft & Et); [vm_compute; reflexivity|].
    apply ltb_lt; [exact Fn|exact Ft|]. apply Rle_lt_trans with (1 := Small). rewrite Et. apply Rlt_le_trans with (1 * bpow radix2 (-86)); [|apply Rmult_le_compat_r; [apply bpow_ge_0|lra]].
    unfold T410. rewrite <- (Rmult_1_l (2 * / 2 ^ 410)), Rmult_1_l. change (bpow radix2 (-86)) with (/ IZR (Z.pow_pos 2 86)). replace (IZR (Z.pow_pos 2 86)) with (2 ^ 86) by (rewrite pow_IZR; reflexivity).
    replace (2 ^ 410) with (2 * 2 ^ 409) by reflexivity. rewrite Rinv_mult. rewrite <- Rmult_assoc, Rinv_r, !Rmult_1_l by lra. apply Rinv_lt_contravar; [apply Rmult_lt_0_compat; apply pow_lt; lra|]. apply Rlt_pow; [lra|lia].
Qed.
End Unit.

(** The grids. *)
(* std: std::f64::consts::PI *)
Definition pi64 : b64 := Bdiv mode_NE (b64_of_Z 884279719003555) (b64_of_Z (2 ^ 48)).
Definition grid_x64 (i : nat) : b64 := Bplus mode_NE (Bdiv mode_NE (b64_of_Z 5) (b64_of_Z 100)) (Bmult mode_NE (b64_of_Z (Z.of_nat i)) (Bdiv mode_NE (b64_of_Z 1) (b64_of_Z 10))).
Definition grid_y64 (j : nat) : b64 := Bmult mode_NE (b64_of_Z (Z.of_nat j)) (Bdiv mode_NE (b64_of_Z 1) (b64_of_Z 1000)).
Definition grid_t64 (k : nat) : b64 := Bmult mode_NE (Bmult mode_NE (b64_of_Z (Z.of_nat k)) pi64) (Bdiv mode_NE (b64_of_Z 1) (b64_of_Z 10)).
Definition between (lo hi x : b64) : bool := fin x && negb (Bltb x lo) && negb (Bltb hi x).
Lemma between_ok lo hi x : fin lo = true -> fin hi = true -> between lo hi x = true -> fin x = true /\ B2 lo <= B2 x <= B2 hi.
Proof.
  intros Fl Fh H. unfold between in H. apply andb_prop in H. destruct H as (H & H2). apply andb_prop in H. destruct H as (Fx & H1). apply Bool.negb_true_iff in H1, H2.
  split; [exact Fx|]. split; [now apply (ltb64 x lo)|now apply (ltb64 hi x)].
Qed.
Lemma grid_x64_ok i : (i < 10)%nat -> fin (grid_x64 i) = true /\ 0 <= B2 (grid_x64 i) <= 61 / 64.
Proof.
  intros H. assert (A : forallb (fun i => between (b64_of_Z 0) (Bdiv mode_NE (b64_of_Z 61) (b64_of_Z 64)) (grid_x64 i)) (seq 0 10) = true) by (vm_compute; reflexivity).
  pose proof (proj1 (forallb_forall _ _) A i ltac:(apply in_seq; lia)) as B. cbv beta in B. destruct (of_Z_exact 0) as (F0 & E0); [lia|].
  destruct (sf_value (Bdiv mode_NE (b64_of_Z 61) (b64_of_Z 64)) 8584986789675008 (-53)) as (Ft & Et); [vm_compute; reflexivity|].
  destruct (between_ok _ _ _ F0 Ft B) as (Fx & X). split; [exact Fx|]. rewrite E0, Et in X. split; [lra|]. apply Rle_trans with (1 := proj2 X). change (bpow radix2 (-53)) with (/ IZR (Z.pow_pos 2 53)). change (Z.pow_pos 2 53) with 9007199254740992%Z. lra.
Qed.
Lemma grid_y64_ok j : (j < 30)%nat -> fin (grid_y64 j) = true /\ Rabs (B2 (grid_y64 j)) <= 1 / 32.
Proof.
  intros H. assert (A : forallb (fun j => between (b64_of_Z 0) (Bdiv mode_NE (b64_of_Z 1) (b64_of_Z 32)) (grid_y64 j)) (seq 0 30) = true) by (vm_compute; reflexivity).
  pose proof (proj1 (forallb_forall _ _) A j ltac:(apply in_seq; lia)) as B. cbv beta in B. destruct (of_Z_exact 0) as (F0 & E0); [lia|].
  destruct (sf_value (Bdiv mode_NE (b64_of_Z 1) (b64_of_Z 32)) 4503599627370496 (-57)) as (Ft & Et); [vm_compute; reflexivity|].
  destruct (between_ok _ _ _ F0 Ft B) as (Fx & X). split; [exact Fx|]. rewrite E0, Et in X. rewrite Rabs_pos_eq by lra. apply Rle_trans with (1 := proj2 X). change (bpow radix2 (-57)) with (/ IZR (Z.pow_pos 2 57)). change (Z.pow_pos 2 57) with 144115188075855872%Z. lra.
Qed.
Lemma grid_t64_ok k : (k < 10)%nat -> fin (grid_t64 k) = true.
Proof.
  intros H. assert (A : forallb (fun k => fin (grid_t64 k)) (seq 0 10) = true) by (vm_compute; reflexivity). exact (proj1 (forallb_forall _ _) A k ltac:(apply in_seq; lia)).
Qed.

Section Tests.
Variable lm : libm.
Variables fc fs : b64 -> b64.
Hypothesis Hc : forall z, fin z = true -> fin (fc z) = true /\ Rabs (B2 (fc z)) <= 1.
Hypothesis Hs : forall z, fin z = true -> fin (fs z) = true /\ Rabs (B2 (fs z)) <= 1.

Lemma in_cases_64 (n : nat) (p d : list b64) : In (p, d) (cases (S := F64 lm) fc fs pi64 (seq 0 10) n (lit 1 1000)) ->
  exists i j k, (i < 10)%nat /\ (j < n)%nat /\ (k < 10)%nat /\ p = [grid_x64 i; b64_of_Z 0] /\ d = [Bmult mode_NE (grid_y64 j) (fc (grid_t64 k)); Bmult mode_NE (grid_y64 j) (fs (grid_t64 k))].
Proof.
  unfold cases. intros H. apply in_flat_map in H. destruct H as (i & I & H). cbv zeta in H. apply in_flat_map in H. destruct H as (j & J & H). apply in_map_iff in H. destruct H as (k & E & K). apply in_seq in I, J, K.
  exists i, j, k. split; [lia|]. split; [lia|]. split; [lia|]. apply pair_equal_spec in E. destruct E as (<- & <-). split; reflexivity.
Qed.
Lemma case_64 n p d : (n <= 30)%nat -> In (p, d) (cases (S := F64 lm) fc fs pi64 (seq 0 10) n (lit 1 1000)) -> let e := Spec_System.vsum (S := F64 lm) p d in
  circ_check_bc_exact (disc64 lm) p d = (e, d, Ok tt) /\ circ_check_bc_first_order (disc64 lm) p d = (e, d, Ok tt) /\ circ_check_bc (disc64 lm) p d = (e, Ok tt) /\
  circ_inclusion (disc64 lm) e = Ok true /\ finite_pos e /\ length e = 2%nat /\ pos_add (S := F64 lm) p d = Ok e.
Proof.
  intros Hn H. apply in_cases_64 in H. destruct H as (i & j & k & I & J & K & -> & ->). destruct (grid_x64_ok i I) as (Fx & X). destruct (grid_y64_ok j ltac:(lia)) as (Fy & Y). pose proof (grid_t64_ok k K) as Ft. destruct (Hc _ Ft) as (Fc & C). destruct (Hs _ Ft) as (Fs & S).
  destruct (short_64 lm _ _ _ _ Fx Fy Fc Fs X Y C S) as (Q1 & Q2 & Q3 & Q4 & Q5 & Q6). repeat (split; [assumption|]). reflexivity.
Qed.
Lemma reflection_test_64 : reflection_test (S := F64 lm) fc fs pi64 = Ok tt.
Proof.
  unfold reflection_test. rewrite with_disc_64. apply (run_all_ok (S := F64 lm)). intros p d I. destruct (case_64 30 p d (le_n 30) I) as (_ & _ & _ & In & _ & _ & A). unfold single_check. rewrite A. cbn [bind]. rewrite In. reflexivity.
Qed.
Lemma error_test_64 : error_test (S := F64 lm) fc fs pi64 = ([], Ok tt).
Proof.
  unfold error_test. rewrite with_disc_64.
  assert (H : forall p d, In (p, d) (cases (S := F64 lm) fc fs pi64 (seq 0 10) 10 (lit 1 1000)) -> error_row (disc64 lm) p d = Ok None).
  { intros p d I. destruct (case_64 10 p d ltac:(lia) I) as (Q1 & Q2 & Q3 & _ & Fe & Le & _). unfold error_row. rewrite Q1, Q2, Q3. unfold moved, moved_by. cbn [fst snd bind].
    destruct (self_64 lm _ Le Fe) as (z & Z1 & Z2). rewrite Z1. cbn [bind]. change (@ltb (F64 lm) (norm (S := F64 lm) z) (lit 1 10000000000)) with (Bltb (norm (S := F64 lm) z) (Bdiv mode_NE (b64_of_Z 1) (b64_of_Z 10000000000))). rewrite Z2. reflexivity. }
  destruct (run_rows_ok (S := F64 lm) (error_row (disc64 lm)) _ (fun p d I => ex_intro _ None (H p d I))) as (O & R).
  destruct (run_rows (error_row (disc64 lm)) _) as [rows o]. cbn [fst snd] in *. f_equal; [|exact O]. destruct rows as [|a rows]; [reflexivity|].
  destruct (proj1 (R a) (or_introl eq_refl)) as (p & d & I & E). rewrite (H p d I) in E. discriminate.
Qed.
End Tests.
