(** In double precision, with an ample request, nothing fails: new analyses, samples, exports, and the analyses of whole directories. *)
From Coq Require Import Reals String ZArith List Lra Lia Bool Arith.
From Flocq Require Import Core.
From Flocq.IEEE754 Require Import BinarySingleNaN.
From Verif Require Import Base Scalar Float64 Model_Position Spec_Position Proof_Position Proof_Norm64 Proof_Sum64
  Model_Text Spec_Text Model_Args Spec_Args Model_Analysis Spec_Analysis Proof_Analysis Proof_Analysis4 Proof_Analysis8 Proof_Analysis9 Proof_System4 Spec_Hist64 Proof_Hist64 Proof_Hist64e Spec_Export64 Proof_Export64 Proof_Export64b
  Model_Run Model_Program Spec_Program Model_Program2 Spec_Program2 Proof_Total Proof_Total2.
Import ListNotations.
Local Notation length := List.length.
Local Open Scope R_scope.

Section Ample.
Variables (lm : libm) (mn mx size lsize : b64).
Local Notation F := (F64 lm).
Hypotheses (HA : ample_lin lm mn mx size) (HL : ample_log lsize) (HP : fine_log2 lm).

Lemma fresh64 : exists t0, ta_fresh (S := F) mn mx size lsize = Ok t0.
Proof.
  destruct (lin_count_bins lm mn mx size HA) as (_ & _ & N & E1 & N24 & _). destruct (log_count_bins lm mn mx size lsize HA HL HP) as (_ & _ & _ & _ & _ & L & E2 & L30).
  pose proof HA as (F1 & F2 & F3 & P1 & P2 & P3 & _). pose proof HL as (Fl & Pl). pose proof i19 as I19.
  assert (Z0 : fin (b64_of_Z 0) = true /\ B2 (b64_of_Z 0) = 0) by exact zero64. destruct Z0 as (Z1 & Z2).
  apply (fresh_intro (S := F) mn mx size lsize N L).
  - change (Bltb mn (b64_of_Z 0) = false). apply (ltb64 mn _ F1 Z1). rewrite Z2. exact P1.
  - change (Bltb mx mn = false). apply (ltb64 mx mn F2 F1). apply Rle_trans with (2 := proj1 P2). unfold raised. change (@Scalar.ltb F) with (@Bltb 53 1024).
    destruct (tiny64 lm) as (T1 & _). destruct (ltb64 mn (lit (s := F) 1 (10 ^ 15)) F1 T1) as (D1 & D2). destruct (Bltb mn _); [left; now apply D1|lra].
  - change (Bltb size (b64_of_Z 0) = false). apply (ltb64 size _ F3 Z1). rewrite Z2. lra.
  - change (Bltb lsize (b64_of_Z 0) = false). apply (ltb64 lsize _ Fl Z1). rewrite Z2. lra.
  - exact E1.
  - exact E2.
  - assert (Z.of_nat N <= 2 ^ 25)%Z; [|lia]. apply le_IZR. rewrite <- INR_IZR_INZ. apply Rle_trans with (1 := N24). rewrite pow_IZR, <- plus_IZR. apply IZR_le. vm_compute. discriminate.
  - assert (Z.of_nat L <= 2 ^ 31)%Z; [|lia]. apply le_IZR. rewrite <- INR_IZR_INZ.
    destruct (raised64 lm mn F1) as (_ & Lm). pose proof (T_range _ _ _ Lm P2 Pl) as TR. apply Rle_trans with (2 ^ 30 + 2); [lra|]. rewrite pow_IZR, <- plus_IZR. apply IZR_le. vm_compute. discriminate.
Qed.

Section Fresh.
Variable t0 : tana F.
Hypothesis HF : ta_fresh (S := F) mn mx size lsize = Ok t0.
Lemma m_facts : fin (clip_min (S := F) mn : b64) = true /\ 0 < B2 (clip_min (S := F) mn : b64) <= B2 mx.
Proof. pose proof HA as (F1 & F2 & F3 & P1 & P2 & P3 & _). destruct (raised64 lm mn F1) as (A & B). split; [exact A|]. split; [exact (m_pos _ B)|exact (proj1 P2)]. Qed.
Lemma safe64 : forall x, offends t0 x = false.
Proof.
  intros x. unfold offends. apply orb_false_iff. destruct m_facts as (Fm & Pm). pose proof HA as (F1 & F2 & F3 & P1 & P2 & P3 & _).
  destruct (lin_count_bins lm mn mx size HA) as (G1 & G2 & _). destruct (log_count_bins lm mn mx size lsize HA HL HP) as (K1 & K2 & K3 & K4 & K5 & _). split.
  - exact (lin_safe lm mn mx size lsize t0 HF Fm F2 F3 Pm (proj1 P3) G1 G2 x).
  - exact (log_safe lm mn mx size lsize t0 HF Fm F2 Pm (proj1 HP) K1 K2 K3 K4 K5 x).
Qed.
Lemma past64 : Scalar.leb (s := F) (Nat.iter (length (ta_count t0)) (fun t => add (s := F) t size) (add (s := F) (raised (S := F) mn) (div (s := F) size s2))) mx = false /\
  Scalar.leb (s := F) (Nat.iter (length (ta_lcount t0)) (fun t => mul (s := F) t lsize) (mul (s := F) (raised (S := F) mn) (fsqrt (s := F) lsize))) mx = false.
Proof.
  destruct (sz lm mn mx size lsize t0 HF) as (B & _ & _ & _ & _ & _ & E1 & E2 & L1 & L2).
  destruct (lin_count_bins lm mn mx size HA) as (_ & _ & N & EN & N24 & NN). destruct (log_count_bins lm mn mx size lsize HA HL HP) as (_ & _ & _ & _ & _ & L & EL & LL).
  assert (X1 : b_num B = Z.of_nat N) by (rewrite E1; exact EN). assert (X2 : b_lnum B = Z.of_nat L) by (rewrite E2; exact EL).
  rewrite L1, L2, X1, X2, !Nat2Z.id. split; [exact (lin_past lm mn mx size N HA N24 NN)|exact (log_past lm mn mx size lsize L HA HL LL)].
Qed.
End Fresh.

Lemma vec64 n : n <> 0%nat -> exists a0, tv_fresh (S := F) mn mx size lsize n = Ok a0 /\
  (forall rows : list (list b64), Forall (fun row => length row = n) rows -> exists a, tv_adds a0 rows = Ok a) /\
  exists N, forall rows a d, tv_adds a0 rows = Ok a -> tv_draw a = Ok d -> exists l1 l2, forall fuel, (N < fuel)%nat -> tv_export_lin fuel d = Ok l1 /\ tv_export_log fuel d = Ok l2.
Proof.
  intros Hn. destruct fresh64 as (t0 & HF). destruct (tv_fresh_ok (S := F) mn mx size lsize n t0 HF) as (a0 & H0). exists a0. split; [exact H0|]. split.
  - exact (vec_adds_ok (S := F) mn mx size lsize n a0 t0 Hn H0 HF (f64_usize_ok lm) (safe64 t0 HF)).
  - exists (Nat.max (length (ta_count t0)) (length (ta_lcount t0))). intros rows a d Ha Hd. destruct (past64 t0 HF) as (P1 & P2).
    exact (vec_exports (S := F) mn mx size lsize n a0 a d t0 rows Hn H0 HF Ha Hd P1 P2).
Qed.
Lemma proc64 : exists a0, pa_fresh (S := F) mn mx size lsize = Ok a0 /\
  (forall ls : list (list (b64 * b64)), exists a, add_lines (pa_line (S := F)) a0 ls = Ok a) /\
  exists N, forall ls a d, add_lines (pa_line (S := F)) a0 ls = Ok a -> pa_draw a = Ok d -> exists l1 l2, forall fuel, (N < fuel)%nat -> pa_export_lin fuel d = Ok l1 /\ pa_export_log fuel d = Ok l2.
Proof.
  destruct fresh64 as (t0 & HF). destruct (pa_fresh_ok (S := F) mn mx size lsize t0 HF) as (a0 & H0). exists a0. split; [exact H0|]. split.
  - exact (proc_adds_ok (S := F) mn mx size lsize a0 t0 H0 HF (f64_usize_ok lm) (safe64 t0 HF)).
  - exists (Nat.max (length (ta_count t0)) (length (ta_lcount t0))). intros ls a d Ha Hd. destruct (past64 t0 HF) as (P1 & P2).
    exact (proc_exports (S := F) mn mx size lsize a0 a d t0 ls H0 HF (f64_usize_ok lm) (safe64 t0 HF) Ha Hd P1 P2).
Qed.

Variables (nt : numtext F) (r : F -> F) (show_e : F -> string).
Hypotheses (FN : faithful nt) (RN : rereads nt r).
Lemma vec_dir64 sip dir nvar req files texts : nvar <> 0%nat -> bin_sizes req = Ok (mn : F, mx : F, size : F, lsize : F) ->
  Forall2 (directory_file nt (exp_structs nt) varsim_spec exp_width (vector_line nt)) files texts ->
  (forall v s xs x, In (Some (v, s, xs)) files -> In x xs -> length x = nvar) ->
  exists N out, forall fuel, (N < fuel)%nat -> vec_analyze nt show_e fuel sip dir nvar req texts = Ok out.
Proof.
  intros Hn B H W. destruct (vec64 nvar Hn) as (a0 & H0 & T & N & X).
  refine (vec_succeeds nt r FN RN show_e sip dir nvar req mn mx size lsize a0 files texts Hn B H0 T _ H W).
  intros rows a d _ _ Ha Hd. destruct (X rows a d Ha Hd) as (l1 & l2 & HX). exists N, l1, l2. exact HX.
Qed.
Lemma proc_dir64 sip dir req files texts : bin_sizes req = Ok (mn : F, mx : F, size : F, lsize : F) ->
  Forall2 (directory_file nt (exp_structs nt) varsim_spec exp_width (process_line nt)) files texts ->
  exists N out, forall fuel, (N < fuel)%nat -> proc_analyze nt show_e fuel sip dir req texts = Ok out.
Proof.
  intros B H. destruct proc64 as (a0 & H0 & T & N & X).
  refine (proc_succeeds nt r FN RN show_e sip dir req mn mx size lsize a0 files texts B H0 T _ H).
  intros ls a d Ha Hd. destruct (X ls a d Ha Hd) as (l1 & l2 & HX). exists N, l1, l2. exact HX.
Qed.
End Ample.

(** The correctly rounded [log2] is fine. *)
Lemma good_sane : sane_log2 good.
Proof.
  split.
  - intros x H. change (nan x = true) in H. change (nan (exact_log2 x) = true). unfold exact_log2. rewrite H. exact H.
  - intros x y Fx Fy Hx Hxy. cbn [good m_log2]. destruct (exact_is_rounded x Fx Hx) as (A1 & A2). destruct (exact_is_rounded y Fy ltac:(lra)) as (B1 & B2'). pose proof ln2_pos as L2. assert (I : 0 < / ln 2) by now apply Rinv_0_lt_compat.
    assert (LX : 0 <= ln (B2 x)). { rewrite <- ln_1. destruct Hx as [Hx|<-]; [left; apply ln_increasing; lra|lra]. }
    assert (LY : ln (B2 x) <= ln (B2 y)). { destruct Hxy as [Hxy|<-]; [left; apply ln_increasing; lra|lra]. }
    split; [exact A1|]. split; [exact B1|]. rewrite A2, B2'. split; [apply rnd64_pos, Rmult_le_pos; lra|]. apply round_le; auto with typeclass_instances. apply Rmult_le_compat_r; lra.
Qed.
Lemma good_fine : fine_log2 good.
Proof.
  split; [exact good_sane|]. exists u64. split; [|exact good_accurate]. pose proof u64_pos. split; [lra|]. unfold u64. apply Rinv_le_contravar; [apply pow_lt; lra|]. apply Rle_pow; [lra|lia].
Qed.
