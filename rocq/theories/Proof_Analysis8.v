(** The histogram of a TimeAnalysis in IEEE binary64: which configurations cannot panic. *)
From Coq Require Import ZArith Reals Lra Lia List Bool.
From Flocq Require Import Core.
From Flocq.IEEE754 Require Import BinarySingleNaN.
From Verif Require Import Base Scalar Float64 Model_Analysis Spec_Analysis Proof_Analysis.
Import ListNotations.
Open Scope R_scope.

Lemma trunc_val (x : b64) : Btrunc x = Ztrunc (B2 x).
Proof. apply eq_IZR. rewrite (Btrunc_correct 53 1024 _ x). apply round_FIX_IZR. Qed.

Lemma usize_fin (x : b64) : fin x = true -> b64_as_usize x = sat_usize (Ztrunc (B2 x)).
Proof. intros F. unfold b64_as_usize. rewrite <- trunc_val. destruct x as [|[|]| |]; try discriminate; reflexivity. Qed.
Lemma usize_range (x : b64) : (0 <= b64_as_usize x <= usize_max)%Z.
Proof. unfold b64_as_usize, sat_usize, usize_max. destruct x as [|[|]| |]; lia. Qed.
Lemma f64_usize_ok lm : usize_ok (S := F64 lm).
Proof. intros x. apply usize_range. Qed.

Lemma half_val : fin (Bdiv mode_NE (b64_of_Z 1) (b64_of_Z 2)) = true /\ B2 (Bdiv mode_NE (b64_of_Z 1) (b64_of_Z 2)) = 1 / 2.
Proof. destruct (of_Z_exact 1 ltac:(lia)) as [F1 E1], (of_Z_exact 2 ltac:(lia)) as [F2 E2].
  destruct (div_val _ _ F1 F2) as [N V]; [rewrite E2; lra|]. rewrite E1, E2 in V.
  assert (Q : rnd (1 / 2) = 1 / 2).
  { unfold rnd. rewrite round_generic; auto with typeclass_instances.
    - assert (4 < top) by (change 4 with (bpow radix2 2); apply bpow_lt; lia). unfold clamp. repeat destruct Rle_dec; lra.
    - replace (1 / 2) with (bpow radix2 (-1)) by (simpl; lra). apply generic_format_bpow. unfold SpecFloat.fexp, SpecFloat.emin. lia. }
  rewrite Q in V. assert (F : fin (Bdiv mode_NE (b64_of_Z 1) (b64_of_Z 2)) = true).
  { apply val_lt_fin; [exact N|]. rewrite V. assert (4 < top) by (change 4 with (bpow radix2 2); apply bpow_lt; lia). lra. }
  split; [exact F|]. now rewrite <- val_fin. Qed.

Lemma half_format (k : Z) : (0 <= k < 2 ^ 52)%Z -> rnd (IZR k + 1 / 2) = IZR k + 1 / 2.
Proof. intros Hk. unfold rnd. rewrite round_generic; auto with typeclass_instances.
  - assert (IZR k + 1/2 < top). { apply Rlt_trans with (bpow radix2 53); [|apply bpow_lt; lia]. change (bpow radix2 53) with (IZR (2 ^ 53)).
      assert (IZR k <= IZR (2 ^ 53 - 1)) by (apply IZR_le; lia). rewrite minus_IZR in H. lra. }
    assert (0 <= IZR k) by (apply IZR_le; lia). pose proof top_pos. unfold clamp. repeat destruct Rle_dec; lra.
  - apply generic_format_FLT. apply FLT_spec with (Float radix2 (2 * k + 1) (-1)); cbn [Fnum Fexp].
    + unfold F2R. cbn [Fnum Fexp]. rewrite plus_IZR, mult_IZR. simpl. lra.
    + change (Z.pow radix2 53) with (2 ^ 53)%Z. lia.
    + unfold SpecFloat.emin. lia. Qed.

(** The number of bins computed from the quotient [Q] covers every quotient [q <= Q]. *)
Lemma index_lt lm (q Q : b64) : fin Q = true -> 0 <= B2 Q < IZR (2 ^ 52) -> (nan q = true \/ (fin q = true /\ B2 q <= B2 Q)) ->
  (b64_as_usize q < ceil_usize (S := F64 lm) (Bplus mode_NE Q (Bdiv mode_NE (b64_of_Z 1) (b64_of_Z 2))))%Z.
Proof. intros FQ [P0 P1] Hq. destruct half_val as [Fh Eh]. set (h := Bdiv mode_NE _ _) in *.
  destruct (plus_val Q h FQ Fh) as [N V]. rewrite Eh in V. set (Q' := Bplus mode_NE Q h) in *.
  set (k := Ztrunc (B2 Q)).
  assert (Ek : k = Zfloor (B2 Q)) by (apply Ztrunc_floor; exact P0).
  assert (K0 : (0 <= k)%Z) by (rewrite Ek; apply Zfloor_lub; exact P0).
  assert (KQ : IZR k <= B2 Q) by (rewrite Ek; apply Zfloor_lb).
  assert (K1 : (k < 2 ^ 52)%Z) by (apply lt_IZR; lra).
  assert (Qk : (b64_as_usize q <= k)%Z).
  { destruct Hq as [Hn|[Fq Lq]]; [destruct q; try discriminate; exact K0|].
    rewrite usize_fin by exact Fq. assert ((Ztrunc (B2 q) <= k)%Z) by (apply Ztrunc_le; exact Lq). unfold sat_usize, usize_max. lia. }
  assert (V1 : IZR k + 1 / 2 <= val Q'). { rewrite V, <- half_format by lia. apply rnd_le. lra. }
  assert (V2 : val Q' <= IZR (2 ^ 53)). { rewrite V, <- (rnd_IZR (2 ^ 53)) by lia. apply rnd_le. change (IZR (2 ^ 53)) with (IZR (2 * 2 ^ 52)). rewrite mult_IZR.
    assert (1 <= IZR (2 ^ 52)) by (apply IZR_le; lia). lra. }
  assert (FQ' : fin Q' = true). { apply val_lt_fin; [exact N|]. pose proof (IZR_lt_top (2 ^ 53) ltac:(lia)). assert (0 <= IZR k) by (apply IZR_le; lia). lra. }
  rewrite val_fin in V1, V2 by exact FQ'.
  unfold ceil_usize. change (@as_usize (F64 lm)) with b64_as_usize. change (@of_Z (F64 lm)) with b64_of_Z. change (@ltb (F64 lm)) with (@Bltb 53 1024). cbv zeta.
  rewrite (usize_fin Q') by exact FQ'. set (z := Ztrunc (B2 Q')) in *.
  assert (0 <= IZR k) by (apply IZR_le; lia).
  assert (Ez : z = Zfloor (B2 Q')) by (apply Ztrunc_floor; lra).
  assert (Z0 : (k <= z)%Z) by (rewrite Ez; apply Zfloor_lub; lra).
  assert (Z1 : (z <= 2 ^ 53)%Z) by (apply le_IZR; apply Rle_trans with (B2 Q'); [rewrite Ez; apply Zfloor_lb|exact V2]).
  replace (sat_usize z) with z by (unfold sat_usize, usize_max; lia).
  destruct (Z.eq_dec z k) as [Ezk|Nz].
  - destruct (of_Z_exact z ltac:(lia)) as [Fz Bz]. replace (Bltb (b64_of_Z z) Q') with true; [unfold usize_max; lia|].
    symmetry. apply ltb_val; [destruct (b64_of_Z z); easy|exact N|]. rewrite !val_fin by assumption. rewrite Bz, Ezk. lra.
  - destruct (Bltb _ _); unfold usize_max; lia. Qed.

Section Safe.
Variable lm : libm.
Local Notation F := (F64 lm).
Local Notation "x .- y" := (@Bminus 53 1024 _ _ mode_NE x y) (at level 50).
Local Notation "x ./ y" := (@Bdiv 53 1024 _ _ mode_NE x y) (at level 40).
Variables (mn mx size lsize : b64) (a0 : tana F).
Hypotheses (HF : ta_fresh (S := F) mn mx size lsize = Ok a0).
Let m : b64 := clip_min (S := F) mn.
Hypotheses (Fm : fin m = true) (Fx : fin mx = true) (Fs : fin size = true) (Hmx : 0 < B2 m <= B2 mx).

Lemma between_F x : between (S := F) m mx x = true -> nan x = true \/ (fin x = true /\ B2 m <= B2 x <= B2 mx).
Proof. unfold between. change (@ltb F) with (@Bltb 53 1024). rewrite andb_true_iff, !negb_true_iff. intros [H1 H2].
  destruct (nan x) eqn:Nx; [now left|right].
  assert (Nm : nan m = false) by (destruct m; easy). assert (Nmx : nan mx = false) by (destruct mx; easy).
  apply nltb_leb in H1, H2; auto. apply leb_val in H1, H2; auto. rewrite (val_fin m Fm) in H1. rewrite (val_fin mx Fx) in H2.
  assert (Fq : fin x = true). { apply val_lt_fin; [exact Nx|]. pose proof (B2_bound m). pose proof (B2_bound mx). lra. }
  rewrite val_fin in * by exact Fq. auto. Qed.

Lemma minus_fin_gen (x : b64) : fin x = true -> B2 m <= B2 x <= B2 mx -> fin (x .- m) = true /\ 0 <= B2 (x .- m) /\ B2 (x .- m) = rnd (B2 x - B2 m).
Proof. intros Fq [L1 L2]. destruct (minus_val x m Fq Fm) as [N V].
  assert (R0 : 0 <= rnd (B2 x - B2 m)) by (apply rnd_pos; lra).
  assert (R1 : rnd (B2 x - B2 m) <= B2 x) by (rewrite <- (rnd_B2 x) at 2; apply rnd_le; lra).
  assert (G : fin (x .- m) = true). { apply val_lt_fin; [exact N|]. rewrite V. pose proof (B2_bound x). pose proof top_pos. lra. }
  rewrite val_fin in V by exact G. rewrite V. auto. Qed.

(** A quotient of ordered numerators by a positive number is ordered. *)
Lemma div_mono (u v w : b64) : fin u = true -> fin v = true -> fin w = true -> 0 < B2 w -> 0 <= B2 u <= B2 v -> fin (v ./ w) = true ->
  fin (u ./ w) = true /\ 0 <= B2 (u ./ w) <= B2 (v ./ w).
Proof. intros Fu Fv Fw Pw [P0 P1] Fq. assert (I : 0 < / B2 w) by now apply Rinv_0_lt_compat.
  destruct (div_val u w Fu Fw) as [N V]; [lra|]. destruct (div_val v w Fv Fw) as [N' V']; [lra|]. rewrite val_fin in V' by exact Fq.
  assert (R0 : 0 <= rnd (B2 u / B2 w)) by (apply rnd_pos; unfold Rdiv; nra).
  assert (R1 : rnd (B2 u / B2 w) <= rnd (B2 v / B2 w)) by (apply rnd_le; unfold Rdiv; nra).
  assert (G : fin (u ./ w) = true). { apply val_lt_fin; [exact N|]. rewrite V. pose proof (B2_bound (v ./ w)). pose proof top_pos. lra. }
  rewrite val_fin in V by exact G. rewrite V, V'. auto. Qed.

Lemma sz : exists B, ta_bins a0 = B /\ b_min B = m /\ b_max B = mx /\ b_size B = size /\ b_lsize B = lsize /\
  b_num B = ceil_usize (S := F) (Bplus mode_NE ((mx .- m) ./ size) (b64_of_Z 1 ./ b64_of_Z 2)) /\
  b_lnum B = ceil_usize (S := F) (Bplus mode_NE (m_log2 lm (mx ./ m) ./ m_log2 lm lsize) (b64_of_Z 1 ./ b64_of_Z 2)) /\
  length (ta_count a0) = Z.to_nat (b_num B) /\ length (ta_lcount a0) = Z.to_nat (b_lnum B).
Proof. destruct (ta_fresh_inv _ _ _ _ _ HF) as (B & HB & EB & E & _ & _). apply from_bin_size_inv in HB. destruct HB as (E1 & E2 & E3 & E4 & E5 & E6 & _).
  exists B. do 7 (split; [assumption|]). rewrite E. cbn [ta_count ta_lcount]. rewrite !repeat_length. auto. Qed.

Lemma lin_safe : 0 < B2 size -> fin ((mx .- m) ./ size) = true -> B2 ((mx .- m) ./ size) < IZR (2 ^ 52) ->
  forall x, bad (length (ta_count a0)) (bin_pos (ta_bins a0) x) = false.
Proof. intros Ps FQ LQ x. destruct sz as (B & -> & E1 & E2 & E3 & E4 & E5 & E6 & L1 & L2). rewrite (proj1 (bin_pos_cases (S := F) B x)), E1, E2, E3, L1.
  destruct (between (S := F) m mx x) eqn:D; [|reflexivity]. cbn [bad]. apply negb_false_iff, Z.ltb_lt.
  destruct (minus_fin_gen mx Fx) as (G1 & G2 & G3); [lra|].
  assert (I : (b64_as_usize ((x .- m) ./ size) < b_num B)%Z).
  { rewrite E5. apply index_lt; [exact FQ| |].
    - split; [|exact LQ]. apply (div_mono (mx .- m) (mx .- m) size); auto; lra.
    - apply between_F in D. destruct D as [D|[Fq Lq]].
      + left. destruct x; try discriminate. destruct m, size; reflexivity.
      + right. destruct (minus_fin_gen x Fq Lq) as (K1 & K2 & K3). apply and_comm.
        destruct (div_mono (x .- m) (mx .- m) size); auto; [|tauto]. split; [exact K2|]. rewrite K3, G3. apply rnd_le. lra. }
  change (as_usize (s := F) (div (s := F) (sub (s := F) x m) size)) with (b64_as_usize ((x .- m) ./ size)).
  pose proof (usize_range ((x .- m) ./ size)). lia. Qed.

Lemma log_safe : sane_log2 lm -> fin (mx ./ m) = true -> fin (m_log2 lm lsize) = true -> 0 < B2 (m_log2 lm lsize) ->
  fin (m_log2 lm (mx ./ m) ./ m_log2 lm lsize) = true -> B2 (m_log2 lm (mx ./ m) ./ m_log2 lm lsize) < IZR (2 ^ 52) ->
  forall x, bad (length (ta_lcount a0)) (lbin_pos (ta_bins a0) x) = false.
Proof. intros [S1 S2] FR FL PL FQ LQ x. destruct sz as (B & -> & E1 & E2 & E3 & E4 & E5 & E6 & L1 & L2). rewrite (proj2 (bin_pos_cases (S := F) B x)), E1, E2, E4, L2.
  destruct (between (S := F) m mx x) eqn:D; [|reflexivity]. cbn [bad]. apply negb_false_iff, Z.ltb_lt.
  assert (Im : 0 < / B2 m) by (apply Rinv_0_lt_compat; lra).
  assert (One : forall y, fin y = true -> B2 m <= B2 y <= B2 mx -> fin (y ./ m) = true /\ 1 <= B2 (y ./ m) <= B2 (mx ./ m)).
  { intros y Fy [Y1 Y2]. destruct (div_val y m Fy Fm) as [N V]; [lra|]. destruct (div_mono y mx m) as (G & _ & G2); auto; [lra|lra|].
    split; [exact G|]. split; [|exact G2]. rewrite val_fin in V by exact G. rewrite V. rewrite <- (rnd_IZR 1) by lia. apply rnd_le.
    apply Rmult_le_reg_r with (B2 m); [lra|]. unfold Rdiv. rewrite Rmult_assoc, Rinv_l by lra. lra. }
  destruct (One mx Fx) as (_ & O1 & _); [lra|].
  assert (I : (b64_as_usize (m_log2 lm (x ./ m) ./ m_log2 lm lsize) < b_lnum B)%Z).
  { rewrite E6. apply index_lt; [exact FQ| |].
    - split; [|exact LQ]. destruct (S2 (mx ./ m) (mx ./ m)) as (T1 & _ & T2 & _); auto; [lra|].
      apply (div_mono (m_log2 lm (mx ./ m)) (m_log2 lm (mx ./ m)) (m_log2 lm lsize)); auto; lra.
    - apply between_F in D. destruct D as [D|[Fq Lq]].
      + left. assert (Nn : nan (x ./ m) = true) by (destruct x; try discriminate; destruct m; reflexivity).
        apply S1 in Nn. destruct (m_log2 lm (x ./ m)); try discriminate. destruct (m_log2 lm lsize); reflexivity.
      + right. destruct (One x Fq Lq) as (K1 & K2 & K3). destruct (S2 (x ./ m) (mx ./ m)) as (T1 & T2 & T3 & T4); auto.
        destruct (div_mono (m_log2 lm (x ./ m)) (m_log2 lm (mx ./ m)) (m_log2 lm lsize)); auto; tauto. }
  change (as_usize (s := F) (div (s := F) (flog2 (s := F) (div (s := F) x m)) (flog2 (s := F) lsize))) with (b64_as_usize (m_log2 lm (x ./ m) ./ m_log2 lm lsize)).
  pose proof (usize_range (m_log2 lm (x ./ m) ./ m_log2 lm lsize)). lia. Qed.
End Safe.
