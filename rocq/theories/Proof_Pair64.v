(** Rounding errors of the distance and the direction between two agents. *)
From Coq Require Import Reals ZArith List Lra Lia.
From Flocq Require Import Core.
From Flocq.IEEE754 Require Import BinarySingleNaN.
From Verif Require Import Base Scalar Float64 Model_Position Spec_Position Proof_Position Proof_Norm64 Proof_Sum64 Proof_Rel64 Proof_Force64 Proof_Force64b Proof_Walk64 Model_System Model_Agent Spec_Agent Proof_Agent2 Proof_Agent4 Spec_Accuracy Spec_Force64.
Import ListNotations.
Open Scope R_scope.

Lemma rel_zero n (x : b64) : fin x = true -> B2 x = 0 -> rel n x 0.
Proof. intros F E. split; [exact F|]. exists 1. rewrite E. split; [ring|]. split; [apply vn_le1|apply vn_inv]. Qed.
Lemma rnd64_0 : rnd64 0 = 0. Proof. apply round_0; auto with typeclass_instances. Qed.
Lemma zero_mult n (x y : b64) : fin x = true -> fin y = true -> B2 x = 0 -> rel n (Bmult mode_NE x y) 0.
Proof.
  intros Fx Fy Z. destruct (mult_val x y Fx Fy) as (Nn & Vv). rewrite Z, Rmult_0_l in Vv.
  assert (Fm : fin (Bmult mode_NE x y) = true) by (apply (rnd64_lt_fin _ _ Nn Vv); rewrite rnd64_0, Rabs_R0; apply top_pos).
  apply rel_zero; [exact Fm|]. rewrite (fin_mult_eq x y Fm), Z, Rmult_0_l. apply rnd64_0.
Qed.
Lemma rel_diff (x y : b64) : fin x = true -> fin y = true -> B2 x - B2 y = 0 \/ bd 200 (B2 x - B2 y) -> rel 1 (Bminus mode_NE x y) (B2 x - B2 y).
Proof.
  intros Fx Fy [E|B].
  - destruct (minus_val x y Fx Fy) as (Nn & V). rewrite E in *. assert (F : fin (Bminus mode_NE x y) = true) by (apply (rnd64_lt_fin _ _ Nn V); rewrite rnd64_0, Rabs_R0; apply top_pos).
    apply rel_zero; [exact F|]. rewrite (fin_minus_eq x y F), E. apply rnd64_0.
  - apply rel_minus; auto; [exact (bd_nz _ _ B)|]. exact (proj2 (bd_range 200 _ ltac:(lia) B)).
Qed.
Lemma rel_plus n (x y : b64) a b : rel n x a -> rel n y b -> 0 <= a -> 0 <= b -> a + b <= HI -> INR n * u64 <= 1 / 2 -> rel (n + 1) (Bplus mode_NE x y) (a + b).
Proof.
  intros (Fx & s & Ex & Hs) (Fy & t & Ey & Ht) Pa Pb HH K. destruct (plus_val x y Fx Fy) as (Nn & V).
  assert (M : exists w, B2 x + B2 y = (a + b) * w /\ (1 - u64) ^ n <= w <= / (1 - u64) ^ n).
  { rewrite Ex, Ey. destruct (Req_dec (a + b) 0) as [Z|N].
    - exists 1. assert (a = 0) by lra. assert (b = 0) by lra. subst. split; [ring|]. split; [apply vn_le1|apply vn_inv].
    - exists ((a * s + b * t) / (a + b)). split; [field; exact N|]. assert (0 < a + b) by lra. set (L := (1 - u64) ^ n) in *. set (U := / L) in *.
      assert (a * L <= a * s) by (apply Rmult_le_compat_l; lra). assert (b * L <= b * t) by (apply Rmult_le_compat_l; lra). assert (a * s <= a * U) by (apply Rmult_le_compat_l; lra). assert (b * t <= b * U) by (apply Rmult_le_compat_l; lra).
      split; apply Rmult_le_reg_r with (a + b); auto; unfold Rdiv; rewrite Rmult_assoc, Rinv_l, Rmult_1_r by lra; lra. }
  destruct M as (w & Ew & Hw). pose proof (theta_two _ _ K Hw) as W2. pose proof (rnd64_plus x y) as E. rewrite Ew in E, V.
  assert (F : fin (Bplus mode_NE x y) = true).
  { apply (rnd64_lt_fin _ _ Nn V). apply Rle_lt_trans with (bpow radix2 1001); [|apply bpow_lt; lia].
    apply abs_round_le_generic; auto with typeclass_instances. { apply generic_format_bpow. unfold fexp64, SpecFloat.fexp, SpecFloat.emin; lia. }
    rewrite Rabs_pos_eq by (apply Rmult_le_pos; lra). change 1001%Z with (1000 + 1)%Z. rewrite bpow_plus. change (bpow radix2 1) with 2. apply Rmult_le_compat; unfold HI in HH; lra. }
  split; [exact F|]. rewrite (fin_plus_eq x y F), Ew. destruct (Req_dec (a + b) 0) as [Z|N].
  - exists 1. rewrite Z, !Rmult_0_l. split; [apply rnd64_0|]. split; [apply vn_le1|apply vn_inv].
  - set (r := (a + b) * w) in *. assert (Pr : 0 < r) by (apply Rmult_lt_0_compat; lra). pose proof v_pos as V0. pose proof u64_pos as U0. exists (w * (rnd64 r / r)). split; [unfold r; field; fold r; split; [lra|exact N]|].
    apply theta_mul; [exact Hw|]. rewrite !pow_1. rewrite (Rabs_pos_eq r) in E by lra. apply Rabs_le_inv in E.
    assert (Q1 : rnd64 r / r * r = rnd64 r) by (field; lra). split; apply Rmult_le_reg_r with r; auto; rewrite Q1; [lra|].
    apply Rle_trans with ((1 + u64) * r); [lra|]. apply Rmult_le_compat_r; [lra|]. apply Rmult_le_reg_r with (1 - u64); [lra|]. rewrite Rinv_l by lra. nra.
Qed.

Definition dif (x : b64) (D : R) : Prop := rel 1 x D /\ (D = 0 \/ bd 200 D).
Definition rsq (l : list R) : R := rsum (map (fun x => x ^ 2) l).
Lemma dif_square x D : dif x D -> rel 3 (Bmult mode_NE x x) (D ^ 2) /\ 0 <= D ^ 2 <= 2 ^ 400.
Proof.
  intros (Hr & [->|B]).
  - assert (Fx : fin x = true) by apply Hr. assert (E : B2 x = 0) by (destruct Hr as (_ & t & E & _); rewrite E; ring). replace (0 ^ 2) with 0 by ring. split; [now apply zero_mult|]. pose proof (p2 400). lra.
  - pose proof (brel_mul 1 1 200 200 _ _ _ _ (conj Hr B) (conj Hr B) ltac:(lia) ltac:(lia)) as (H & B4). replace (D ^ 2) with (D * D) by ring. split; [exact H|]. destruct B4 as (_ & B4). change (200 + 200)%nat with 400%nat in B4.
    assert (0 <= D * D) by nra. rewrite Rabs_pos_eq in B4 by auto. split; lra.
Qed.
Lemma small_n n : INR n <= 2 ^ 50 -> INR (n + 8) * u64 <= 1 / 2.
Proof. intros H. pose proof (n50 n H). rewrite plus_INR. pose proof u64_tiny. pose proof u64_pos. replace (INR 8) with 8 by (simpl; ring). nra. Qed.
Lemma P450 n : INR n <= 2 ^ 50 -> INR n * 2 ^ 400 <= 2 ^ 450.
Proof. intros H. change 450%nat with (50 + 400)%nat. rewrite pow_add. apply Rmult_le_compat_r; [apply pow_le; lra|exact H]. Qed.
Lemma P450_HI : 2 ^ 450 <= HI.
Proof. unfold HI. rewrite bpow_powerRZ. change (IZR radix2) with 2. change (powerRZ 2 1000) with (2 ^ 1000). apply Rle_pow; [lra|lia]. Qed.
Lemma ss_rel : forall (d : list b64) (D : list R), Forall2 dif d D -> forall (a : b64) A k, rel (3 + k) a A -> 0 <= A <= INR k * 2 ^ 400 -> INR (k + length d) <= 2 ^ 50 ->
  rel (3 + (k + length d)) (ss a d) (A + rsq D) /\ 0 <= A + rsq D <= INR (k + length d) * 2 ^ 400.
Proof.
  induction 1 as [|x X d D Hx H IH]; intros a A k Ha HA HN.
  - unfold rsq. cbn [map rsum fold_right length ss fold_left]. rewrite Nat.add_0_r, Rplus_0_r. split; assumption.
  - destruct (dif_square x X Hx) as (R3 & P3). cbn [length] in HN.
    assert (Hk : INR k <= 2 ^ 50). { apply Rle_trans with (2 := HN). apply le_INR. lia. }
    assert (Hk1 : INR (k + 1) <= 2 ^ 50). { apply Rle_trans with (2 := HN). apply le_INR. lia. }
    assert (B1 : A + X ^ 2 <= INR (k + 1) * 2 ^ 400). { rewrite plus_INR. change (INR 1) with 1. lra. }
    assert (K : INR (3 + k) * u64 <= 1 / 2). { apply Rle_trans with (2 := small_n k Hk). apply Rmult_le_compat_r; [apply Rlt_le, u64_pos|]. apply le_INR. lia. }
    pose proof (rel_plus (3 + k) a (Bmult mode_NE x x) A (X ^ 2) Ha (rel_mono 3 (3 + k) _ _ ltac:(lia) R3) ltac:(lra) ltac:(lra)
      ltac:(apply Rle_trans with (1 := B1); apply Rle_trans with (2 := P450_HI); apply P450; exact Hk1) K) as HP.
    replace (3 + k + 1)%nat with (3 + (k + 1))%nat in HP by lia.
    destruct (IH (Bplus mode_NE a (Bmult mode_NE x x)) (A + X ^ 2) (k + 1)%nat HP ltac:(lra) ltac:(replace (k + 1 + length d)%nat with (k + S (length d))%nat by lia; exact HN)) as (Q1 & Q2).
    replace (k + 1 + length d)%nat with (k + length (x :: d))%nat in Q1, Q2 by (cbn [length]; lia). replace (A + rsq (X :: D)) with (A + X ^ 2 + rsq D) by (unfold rsq; cbn [map rsum fold_right]; unfold rsum; ring).
    split; assumption.
Qed.
Lemma rsq_low (D : list R) : (exists d, Forall2 dif d D) -> (exists X, In X D /\ X <> 0) -> / 2 ^ 400 <= rsq D.
Proof.
  intros (d & H) (X & HI & HX). induction H as [|x Y d D Hx H IH]; [destruct HI|]. unfold rsq. cbn [map rsum fold_right]. 
  assert (P : 0 <= rsum (map (fun x => x ^ 2) D)). { clear. induction D as [|y D IH]; unfold rsum in *; cbn [map fold_right]; [lra|]. pose proof (pow2_ge_0 y). lra. }
  destruct HI as [->|HI].
  - destruct Hx as (_ & [E|B]); [easy|]. pose proof (bd_mul _ _ _ _ B B) as (L & _). change (200 + 200)%nat with 400%nat in L. replace (X ^ 2) with (X * X) by ring. assert (0 <= X * X) by nra. rewrite Rabs_pos_eq in L by auto. unfold rsum in P. lra.
  - specialize (IH HI). unfold rsq in IH. pose proof (pow2_ge_0 Y). unfold rsum in *. lra.
Qed.
Lemma norm_rel (d : list b64) (D : list R) : Forall2 dif d D -> INR (length d) <= 2 ^ 50 -> (exists X, In X D /\ X <> 0) ->
  rel (length d + 4) (n64 d) (sqrt (rsq D)) /\ bd 226 (sqrt (rsq D)).
Proof.
  intros H HN HX. destruct zero64 as (Z1 & Z2). destruct (ss_rel d D H (b64_of_Z 0) 0 0) as (Q1 & Q2).
  - apply rel_zero; auto.
  - simpl. lra.
  - exact HN.
  - rewrite Rplus_0_l in Q1, Q2. cbn [Nat.add] in Q1, Q2. pose proof (rsq_low D (ex_intro _ d H) HX) as L. pose proof (p2i 400) as I0. split.
    + unfold n64. replace (length d + 4)%nat with (S (S (S (length d))) + 1)%nat by lia. apply rel_sqrt; [exact Q1|lra|]. apply Rle_trans with (2 := small_n _ HN). apply Rmult_le_compat_r; [apply Rlt_le, u64_pos|]. apply le_INR. lia.
    + unfold bd. rewrite Rabs_pos_eq by apply sqrt_pos. pose proof (P450 _ HN) as B. split.
      * rewrite <- (sqrt_pow2 (/ 2 ^ 226)) by (apply Rlt_le, p2i). apply sqrt_le_1_alt. apply Rle_trans with (2 := L). rewrite pow_inv. apply Rinv_le_contravar; [apply p2|]. rewrite <- pow_mult. apply Rle_pow; [lra|lia].
      * rewrite <- (sqrt_pow2 (2 ^ 226)) by (apply pow_le; lra). apply sqrt_le_1_alt. rewrite <- pow_mult. change (226 * 2)%nat with 452%nat. apply Rle_trans with (2 ^ 450); [lra|]. apply Rle_pow; [lra|lia].
Qed.
Lemma brel_mul_n n m k l x y a b : brel n k x a -> brel m l y b -> INR (n + m) * u64 <= 1 / 2 -> (k + l <= 990)%nat -> rel (n + m + 1) (Bmult mode_NE x y) (a * b).
Proof. intros (A & B) (C & D) H1 H2. pose proof (bd_mul _ _ _ _ B D) as E. apply rel_mul; auto. exact (bd_range _ _ H2 E). Qed.
Lemma dir_rel (d : list b64) (D : list R) (x : b64) (X : R) : Forall2 dif d D -> INR (length d) <= 2 ^ 50 -> (exists X, In X D /\ X <> 0) -> dif x X ->
  rel (length d + 7) (Bmult mode_NE x (Bdiv mode_NE (b64_of_Z 1) (n64 d))) (X / sqrt (rsq D)).
Proof.
  intros H HN HX Hx. destruct (norm_rel d D H HN HX) as (R1 & B1). pose proof (small_n _ HN) as SN. pose proof u64_pos as U0. destruct (of_Z_exact 1) as (F1 & E1); [lia|].
  assert (Rone : rel 0 (b64_of_Z 1) 1) by (pose proof (rel_exact _ F1) as Q; rewrite E1 in Q; exact Q). pose proof (bd_inv _ _ B1) as Bi. assert (Bo : bd 226 (1 / sqrt (rsq D))) by (unfold Rdiv; rewrite Rmult_1_l; exact Bi).
  assert (R2 : rel (0 + (length d + 4) + 1) (Bdiv mode_NE (b64_of_Z 1) (n64 d)) (1 / sqrt (rsq D))).
  { apply rel_div; auto; [exact (bd_nz _ _ B1)|exact (bd_range 226 _ ltac:(lia) Bo)|]. apply Rle_trans with (2 := SN). apply Rmult_le_compat_r; [lra|]. apply le_INR. lia. }
  cbn [Nat.add] in R2. destruct Hx as (Hr & [->|B]).
  - unfold Rdiv. rewrite Rmult_0_l. apply zero_mult; [apply Hr|apply R2|]. destruct Hr as (_ & t & E & _). rewrite E. ring.
  - replace (X / sqrt (rsq D)) with (X * (1 / sqrt (rsq D))) by (field; exact (bd_nz _ _ B1)). replace (length d + 7)%nat with (1 + (length d + 4 + 1) + 1)%nat by lia.
    apply (brel_mul_n 1 (length d + 4 + 1) 200 226); [split; auto|split; auto| |lia]. apply Rle_trans with (2 := SN). apply Rmult_le_compat_r; [lra|]. apply le_INR. lia.
Qed.

Definition difs (p q : list b64) : list R := map (fun xy => B2 (fst xy) - B2 (snd xy)) (combine q p).
Definition fdifs (p q : list b64) : list b64 := map (fun xy => Bminus mode_NE (fst xy) (snd xy)) (combine q p).
Lemma difs_ok : forall p q : list b64, Forall2 (fun x y => fin x = true /\ fin y = true /\ comparable x y) p q -> Forall2 dif (fdifs p q) (difs p q).
Proof.
  induction 1 as [|x y p q (Fx & Fy & C) H IH]; [constructor|]. unfold fdifs, difs. cbn [combine map fst snd]. constructor; [|exact IH].
  assert (C' : B2 y - B2 x = 0 \/ bd 200 (B2 y - B2 x)). { destruct C as [E|E]; [left; lra|right; exact E]. } split; [now apply rel_diff|exact C'].
Qed.
Lemma difs_euclid (p q : list b64) : length p = length q -> sqrt (rsq (difs p q)) = euclid (reals p) (reals q).
Proof.
  intros L. assert (LR : length (reals p) = length (reals q)) by (unfold reals; rewrite !map_length; exact L). destruct (euclid_metric (reals p) (reals q) (reals q) LR eq_refl) as (_ & E & _).
  rewrite E, euclid_sq by (symmetry; exact LR). f_equal. unfold rsq, sq, vsub, difs. do 2 f_equal. clear. revert p. induction q as [|y q IH]; intros [|x p]; [reflexivity..|]. cbn [combine map reals fst snd]. f_equal. exact (IH p).
Qed.
Lemma difs_apart (p q : list b64) : length p = length q -> reals p <> reals q -> exists X, In X (difs p q) /\ X <> 0.
Proof.
  revert q. induction p as [|x p IH]; intros [|y q] L N; try discriminate; [now destruct N|]. destruct (Req_dec (B2 y - B2 x) 0) as [E|E].
  - destruct (IH q ltac:(cbn in L; lia)) as (X & I & NX). { intros Q. apply N. unfold reals in *. cbn [map]. rewrite Q. f_equal. lra. } exists X. split; [now right|exact NX].
  - exists (B2 y - B2 x). split; [now left|exact E].
Qed.
Lemma difs_nth (p q : list b64) i : length p = length q -> (i < length p)%nat -> nth i (difs p q) 0 = coord i q - coord i p.
Proof.
  revert q i. induction p as [|x p IH]; intros [|y q] i L H; cbn [length] in *; try lia. destruct i as [|i]; [reflexivity|]. apply (IH q i); lia.
Qed.
Lemma forall2_nth {A B : Type} (P : A -> B -> Prop) da db : forall l m, Forall2 P l m -> forall i, (i < length l)%nat -> P (nth i l da) (nth i m db).
Proof. induction 1 as [|x y l m H H' IH]; intros i L; cbn [length] in L; [lia|]. destruct i as [|i]; [exact H|]. apply IH. lia. Qed.
Lemma forall2_len {A B : Type} (P : A -> B -> Prop) : forall l m, Forall2 P l m -> length l = length m.
Proof. induction 1; cbn; congruence. Qed.
Lemma close_rel n x r : INR n * u64 <= 1 / 2 -> rel n x r -> close (INR n) x r.
Proof. intros K H. exact (rel_bound n x r H K). Qed.

Lemma pair_lists (p q : list b64) : length p = length q -> INR (length p) <= 2 ^ 50 -> Forall2 (fun x y => fin x = true /\ fin y = true /\ comparable x y) p q -> reals p <> reals q ->
  let e := map (fun x => Bmult mode_NE x (Bdiv mode_NE (b64_of_Z 1) (n64 (fdifs p q)))) (fdifs p q) in
  close (INR (length p) + 4) (n64 (fdifs p q)) (euclid (reals p) (reals q)) /\ length e = length p /\
  forall i, (i < length p)%nat -> close (INR (length p) + 7) (nth i e (b64_of_Z 0)) ((coord i q - coord i p) / euclid (reals p) (reals q)).
Proof.
  intros L HN HC HD e. pose proof (difs_ok p q HC) as HF. pose proof (difs_apart p q L HD) as HX. assert (LF : length (fdifs p q) = length p) by (unfold fdifs; rewrite map_length, combine_length, L; apply Nat.min_id).
  assert (HN' : INR (length (fdifs p q)) <= 2 ^ 50) by (rewrite LF; exact HN). destruct (norm_rel _ _ HF HN' HX) as (R1 & _). rewrite (difs_euclid p q L), LF in R1. pose proof (small_n _ HN) as SN. pose proof u64_pos as U0.
  assert (K : forall k, (k <= 8)%nat -> INR (length p + k) * u64 <= 1 / 2). { intros k Hk. apply Rle_trans with (2 := SN). apply Rmult_le_compat_r; [lra|]. apply le_INR. lia. }
  split; [|split].
  - replace (INR (length p) + 4) with (INR (length p + 4)) by (rewrite plus_INR; simpl; ring). apply close_rel; [apply K; lia|exact R1].
  - unfold e. rewrite map_length. exact LF.
  - intros i Hi. assert (Hi' : (i < length (fdifs p q))%nat) by (rewrite LF; exact Hi). pose proof (forall2_nth dif (b64_of_Z 0) 0 _ _ HF i Hi') as Dx. rewrite (difs_nth p q i L Hi) in Dx.
    pose proof (dir_rel _ _ _ _ HF HN' HX Dx) as R2. rewrite (difs_euclid p q L), LF in R2. unfold e. rewrite nth_map_b64 by exact Hi'.
    replace (INR (length p) + 7) with (INR (length p + 7)) by (rewrite plus_INR; simpl; ring). apply close_rel; [apply K; lia|exact R2].
Qed.
Lemma pair_64 lm (a b : anyagent (F64 lm)) (p q : list b64) : same_kind a b -> coherent a -> coherent b -> a_dim a = a_dim b -> a_pos a = p -> a_pos b = q -> INR (length p) <= 2 ^ 50 ->
  Forall2 (fun x y => fin x = true /\ fin y = true /\ comparable x y) p q -> reals p <> reals q ->
  exists (e : list b64) (d : b64), a_mutual_displacement a b = Ok ((e : pos (F64 lm)), (d : F64 lm)) /\ a_mutual_distance a b = Ok (d : F64 lm) /\ length e = length p /\
    close (INR (length p) + 4) d (euclid (reals p) (reals q)) /\
    forall i, (i < length p)%nat -> close (INR (length p) + 7) (nth i e (b64_of_Z 0)) ((coord i q - coord i p) / euclid (reals p) (reals q)).
Proof.
  intros K Ca Cb H Ep Eq HN HC HD. pose proof (forall2_len _ _ _ HC) as L. destruct (pair_lists p q L HN HC HD) as (P1 & P2 & P3).
  destruct (md_form a b K) as (E1 & _ & E3). destruct (md_eq (S := F64 lm) _ _ _ _ (eq_sym Ca) (eq_sym Cb)) as (_ & M2).
  eexists. eexists. split; [rewrite E1; rewrite (M2 H); rewrite Ep, Eq; reflexivity|]. split; [rewrite E3, Ep, Eq; exact (norm_dvec_distance lm p q L)|]. split; [exact P2|]. split; [exact P1|exact P3].
Qed.
