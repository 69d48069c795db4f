(** The default analyses (C65). *)
From Coq Require Import Reals ZArith List Lra Lia.
From Flocq Require Import Core IEEE754.BinarySingleNaN.
From Verif Require Import Base Scalar Float64 Model_Analysis Spec_Analysis Proof_Time Proof_Analysis4 Proof_Analysis8 Proof_Analysis10 Model_Default.
Import ListNotations.
Local Open Scope R_scope.

Lemma to_nat_1001 : Z.to_nat 1001 = 1001%nat. Proof. reflexivity. Qed.
Lemma to_nat_355 : Z.to_nat 355 = 355%nat. Proof. reflexivity. Qed.
Lemma alloc_small {X : Type} (x : X) z n : (0 <= z <= 2000)%Z -> Z.to_nat z = n -> alloc x z = Ok (repeat x n).
Proof. intros H E. unfold alloc. destruct (Z.leb_spec (8 * z) (2 ^ 63 - 1)); [|lia]. now rewrite E. Qed.
Lemma from_default {S : scalar} mn : from_bin_size (S := S) mn (of_Z (10 ^ 13)) (of_Z (10 ^ 10)) (lit 12 10) = Ok default_bins ->
  ta_fresh mn (of_Z (10 ^ 13)) (of_Z (10 ^ 10)) (lit 12 10) = Ok ta_default /\
  tv_fresh mn (of_Z (10 ^ 13)) (of_Z (10 ^ 10)) (lit 12 10) 10 = Ok tv_default /\
  pa_fresh mn (of_Z (10 ^ 13)) (of_Z (10 ^ 10)) (lit 12 10) = Ok pa_default.
Proof.
  intros E. unfold ta_fresh, tv_fresh, pa_fresh. rewrite E. cbn [bind].
  unfold ta_allocate, tv_allocate, pa_allocate. cbn [ta_set_bins tv_set_bins pa_set_bins ta_bins tv_bins pa_bins default_bins b_num b_lnum tv_nvar tv_new ta_new pa_new].
  rewrite !(fun X (x : X) => alloc_small x 1001 1001 ltac:(lia) to_nat_1001), !(fun X (x : X) => alloc_small x 355 355 ltac:(lia) to_nat_355). cbn [bind]. auto.
Qed.

Lemma ceil_is (x : R) (n : Z) : (0 <= n < usize_max)%Z -> IZR n < x <= IZR n + 1 -> ceil_usize (S := RR) x = (n + 1)%Z.
Proof.
  intros Hn H. unfold ceil_usize. assert (0 <= IZR n) by (apply IZR_le; lia). 
  destruct (Rlt_le_dec x (IZR n + 1)) as [L|L].
  - assert (F : Zfloor x = n) by (apply Zfloor_imp; rewrite plus_IZR; lra).
    rewrite as_usize_floor by (rewrite ?F; lra || lia). rewrite F. change (@ltb RR) with Rltb. change (@of_Z RR) with IZR.
    replace (Rltb (IZR n) x) with true by (symmetry; apply Rltb_spec; lra). lia.
  - assert (E : x = IZR (n + 1)) by (rewrite plus_IZR; lra). rewrite E. assert (F : Zfloor (IZR (n + 1)) = (n + 1)%Z) by apply Zfloor_IZR.
    rewrite as_usize_floor; rewrite ?F; [|apply IZR_le; lia|lia]. change (@ltb RR) with Rltb. change (@of_Z RR) with IZR.
    destruct (Rltb (IZR (n + 1)) (IZR (n + 1))) eqn:B; [apply Rltb_spec in B; lra|reflexivity].
Qed.
Lemma ln_pow_lt x y n : 0 < x -> 0 < y -> x ^ n < y -> INR n * ln x < ln y.
Proof. intros Hx Hy H. rewrite <- ln_pow by exact Hx. apply ln_increasing; [now apply pow_lt|exact H]. Qed.
Lemma ln_pow_gt x y n : 0 < x -> 0 < y -> y < x ^ n -> ln y < INR n * ln x.
Proof. intros Hx Hy H. rewrite <- ln_pow by exact Hx. apply ln_increasing; auto. Qed.
(** 353.5 < 28 ln 10 / ln 1.2 <= 354.5 *)
Lemma log_bins : 353 + 1 / 2 < ln (IZR (10 ^ 28)) / ln (12 / 10) < 354.
Proof.
  assert (P : 0 < ln (12 / 10)) by (rewrite <- ln_1; apply ln_increasing; lra).
  assert (K : forall z : Z, (0 < z)%Z -> 0 < IZR z) by (intros; now apply IZR_lt).
  assert (A : INR 707 * ln (12 / 10) < 2 * ln (IZR (10 ^ 28))).
  { replace (2 * ln (IZR (10 ^ 28))) with (INR 2 * ln (IZR (10 ^ 28))) by reflexivity. rewrite <- (ln_pow (IZR (10 ^ 28)) (K (10 ^ 28)%Z eq_refl) 2).
    apply ln_pow_lt; [lra|apply pow_lt, K; reflexivity|].
    replace (12 / 10) with (IZR 6 / IZR 5) by lra. unfold Rdiv. rewrite Rpow_mult_distr, pow_inv, !pow_IZR.
    apply Rmult_lt_reg_r with (IZR (5 ^ Z.of_nat 707)); [apply K; reflexivity|]. rewrite Rmult_assoc, Rinv_l by (apply Rgt_not_eq, K; reflexivity). rewrite Rmult_1_r, <- mult_IZR.
    apply IZR_lt. vm_compute. reflexivity. }
  assert (B : ln (IZR (10 ^ 28)) < INR 354 * ln (12 / 10)).
  { apply ln_pow_gt; [lra|apply K; reflexivity|].
    replace (12 / 10) with (IZR 6 / IZR 5) by lra. unfold Rdiv. rewrite Rpow_mult_distr, pow_inv, !pow_IZR.
    apply Rmult_lt_reg_r with (IZR (5 ^ Z.of_nat 354)); [apply K; reflexivity|]. rewrite Rmult_assoc, Rinv_l by (apply Rgt_not_eq, K; reflexivity). rewrite Rmult_1_r, <- mult_IZR.
    apply IZR_lt. vm_compute. reflexivity. }
  assert (I7 : INR 707 = 707) by (rewrite INR_IZR_INZ; reflexivity). assert (I3 : INR 354 = 354) by (rewrite INR_IZR_INZ; reflexivity). rewrite I7 in A. rewrite I3 in B.
  split; apply Rmult_lt_reg_r with (ln (12 / 10)); auto; unfold Rdiv; rewrite Rmult_assoc, Rinv_l by lra; lra.
Qed.
Lemma default_R (mn : R) : 0 <= mn <= / IZR (10 ^ 15) -> from_bin_size (S := RR) mn (IZR (10 ^ 13)) (IZR (10 ^ 10)) (lit (s := RR) 12 10) = Ok (default_bins (S := RR)).
Proof.
  intros [H0 H1]. unfold from_bin_size. change (@ltb RR) with Rltb. change (@s0 RR) with 0.
  assert (T : 0 < / IZR (10 ^ 15) < 1).
  { split; [apply Rinv_0_lt_compat; apply IZR_lt; reflexivity|]. apply Rlt_le_trans with (/ 1); [|rewrite Rinv_1; lra]. apply Rinv_lt_contravar; [rewrite Rmult_1_l; apply IZR_lt; reflexivity|apply IZR_lt; reflexivity]. }
  assert (B13 : IZR (10 ^ 13) = 10000000000000) by reflexivity. assert (B10 : IZR (10 ^ 10) = 10000000000) by reflexivity.
  assert (L : lit (s := RR) 12 10 = 12 / 10) by reflexivity.
  assert (Et : tiny (S := RR) = / IZR (10 ^ 15)) by (unfold tiny, lit; cbn [div RR of_Z]; unfold Rdiv; apply Rmult_1_l).
  replace (Rltb mn 0) with false by (symmetry; apply Rltb_false; lra). replace (Rltb (IZR (10 ^ 13)) mn) with false by (symmetry; apply Rltb_false; rewrite B13; lra).
  replace (Rltb (IZR (10 ^ 10)) 0) with false by (symmetry; apply Rltb_false; rewrite B10; lra). replace (Rltb (lit (s := RR) 12 10) 0) with false by (symmetry; apply Rltb_false; rewrite L; lra).
  cbn [orb]. assert (C : clip_min (S := RR) mn = tiny (S := RR)).
  { unfold clip_min. change (@ltb RR) with Rltb. destruct (Rltb mn (tiny (S := RR))) eqn:E; [reflexivity|]. apply Rltb_false in E. rewrite Et in *. change (car RR) with R in *. lra. }
  rewrite C.
  assert (E1 : ceil_usize (S := RR) (((IZR (10 ^ 13) : RR) - tiny (S := RR)) / (IZR (10 ^ 10) : RR) + lit (s := RR) 1 2)%S = 1001%Z).
  { change 1001%Z with (1000 + 1)%Z. apply ceil_is; [unfold usize_max; lia|]. rewrite Et. change (lit (s := RR) 1 2) with (1 / 2). cbn [add sub div RR]. rewrite B13, B10.
    set (t := / IZR (10 ^ 15)) in *. clearbody t. lra. }
  assert (E2 : ceil_usize (S := RR) (flog2 (s := RR) ((IZR (10 ^ 13) : RR) / tiny (S := RR))%S / flog2 (s := RR) (lit (s := RR) 12 10) + lit (s := RR) 1 2)%S = 355%Z).
  { change 355%Z with (354 + 1)%Z. apply ceil_is; [unfold usize_max; lia|]. rewrite Et, L. change (lit (s := RR) 1 2) with (1 / 2). cbn [add sub div flog2 RR].
    replace (IZR (10 ^ 13) / / IZR (10 ^ 15)) with (IZR (10 ^ 28)).
    2:{ unfold Rdiv. rewrite Rinv_inv, <- mult_IZR. reflexivity. }
    assert (P : 0 < ln (12 / 10)) by (rewrite <- ln_1; apply ln_increasing; lra). assert (P2 : 0 < ln 2) by (rewrite <- ln_1; apply ln_increasing; lra).
    replace (ln (IZR (10 ^ 28)) / ln 2 / (ln (12 / 10) / ln 2)) with (ln (IZR (10 ^ 28)) / ln (12 / 10)) by (field; lra).
    pose proof log_bins. lra. }
  change (IZR (10 ^ 13)) with (of_Z (s := RR) (10 ^ 13)) in *. change (IZR (10 ^ 10)) with (of_Z (s := RR) (10 ^ 10)) in *.
  cbv zeta. rewrite E1, E2. reflexivity.
Qed.

Lemma ceil_is64 lm (Q : b64) : fin Q = true -> 353 + 6 / 10 <= B2 Q <= 354 + 4 / 10 -> ceil_usize (S := F64 lm) (Bplus mode_NE Q (Bdiv mode_NE (b64_of_Z 1) (b64_of_Z 2))) = 355%Z.
Proof.
  intros FQ HQ. destruct half_val as [Fh Eh]. set (h := Bdiv mode_NE _ _) in *. destruct (plus_val Q h FQ Fh) as [N V]. rewrite Eh in V. set (x := Bplus mode_NE Q h) in *.
  assert (Q64 : forall k : Z, (0 < k < 2 ^ 52)%Z -> rnd (IZR k / 64) = IZR k / 64).
  { intros k Hk. unfold rnd. rewrite round_generic; auto with typeclass_instances.
    - assert (IZR k < top). { apply Rlt_trans with (bpow radix2 53); [|apply bpow_lt; lia]. change (bpow radix2 53) with (IZR (2 ^ 53)). apply IZR_lt. lia. }
      assert (0 < IZR k) by (apply IZR_lt; lia). pose proof top_pos. unfold clamp. repeat destruct Rle_dec; lra.
    - apply generic_format_FLT. apply FLT_spec with (Float radix2 k (-6)); cbn [Fnum Fexp].
      + unfold F2R. cbn [Fnum Fexp]. simpl. lra.
      + change (Z.pow radix2 53) with (2 ^ 53)%Z. lia.
      + unfold SpecFloat.emin. lia. }
  assert (V1 : 22657 / 64 <= val x). { rewrite V, <- Q64 by lia. apply rnd_le. lra. }
  assert (V2 : val x <= 22719 / 64). { rewrite V, <- Q64 by lia. apply rnd_le. lra. }
  assert (Fx : fin x = true). { apply val_lt_fin; [exact N|]. pose proof (IZR_lt_top (2 ^ 53) ltac:(lia)). change (IZR (2 ^ 53)) with 9007199254740992 in *. lra. }
  rewrite val_fin in V1, V2 by exact Fx.
  unfold ceil_usize. change (@as_usize (F64 lm)) with b64_as_usize. change (@of_Z (F64 lm)) with b64_of_Z. change (@ltb (F64 lm)) with (@Bltb 53 1024). cbv zeta.
  rewrite (usize_fin x) by exact Fx. assert (Ez : Ztrunc (B2 x) = 354%Z) by (rewrite Ztrunc_floor by lra; apply Zfloor_imp; simpl; lra).
  rewrite Ez. change (sat_usize 354) with 354%Z. destruct (of_Z_exact 354 ltac:(lia)) as [Fz Bz].
  replace (Bltb (b64_of_Z 354) x) with true; [reflexivity|]. symmetry. apply ltb_val; [destruct (b64_of_Z 354); easy|exact N|]. rewrite !val_fin by assumption. rewrite Bz. lra.
Qed.
Lemma ltb_refl_false (x : b64) : Bltb x x = false.
Proof. destruct x as [s| [|]| |s m e B]; try reflexivity. unfold Bltb, SpecFloat.SFltb. cbn [B2SF SpecFloat.SFcompare]. destruct s; rewrite Z.compare_refl; [rewrite Pos.compare_cont_refl|rewrite Pos.compare_cont_refl]; reflexivity. Qed.
Section F64.
Variable lm : libm.
Local Notation F := (F64 lm).
Definition d_min : b64 := lit (s := F) 1 (10 ^ 15).
Definition d_max : b64 := b64_of_Z (10 ^ 13).
Definition d_size : b64 := b64_of_Z (10 ^ 10).
Definition d_factor : b64 := lit (s := F) 12 10.
Definition d_log : b64 := Bdiv mode_NE (m_log2 lm (Bdiv mode_NE d_max d_min)) (m_log2 lm d_factor).
Lemma clip_64 (mn : b64) : mn = d_min \/ mn = b64_of_Z 0 -> clip_min (S := F) mn = d_min.
Proof.
  intros [->| ->]; unfold clip_min; change (tiny (S := F)) with d_min; change (@ltb F) with (@Bltb 53 1024).
  - now rewrite ltb_refl_false.
  - replace (Bltb (b64_of_Z 0) d_min) with true by (vm_compute; reflexivity). reflexivity.
Qed.
Lemma default_64 (mn : b64) : mn = d_min \/ mn = b64_of_Z 0 -> fin d_log = true -> 353 + 6 / 10 <= B2 d_log <= 354 + 4 / 10 ->
  from_bin_size (S := F) mn (of_Z (s := F) (10 ^ 13)) (of_Z (s := F) (10 ^ 10)) (lit (s := F) 12 10) = Ok (default_bins (S := F)).
Proof.
  intros Hm FQ HQ. unfold from_bin_size. rewrite (clip_64 mn Hm).
  change (@of_Z F (10 ^ 13)) with d_max. change (@of_Z F (10 ^ 10)) with d_size. change (lit (s := F) 12 10) with d_factor. change (@ltb F) with (@Bltb 53 1024). change (@s0 F) with (b64_of_Z 0).
  replace (Bltb d_size (b64_of_Z 0)) with false by (vm_compute; reflexivity). replace (Bltb d_factor (b64_of_Z 0)) with false by (vm_compute; reflexivity).
  replace (Bltb mn (b64_of_Z 0)) with false by (destruct Hm as [->| ->]; vm_compute; reflexivity). replace (Bltb d_max mn) with false by (destruct Hm as [->| ->]; vm_compute; reflexivity).
  cbn [orb]. cbv zeta.
  assert (E1 : ceil_usize (S := F) (Bplus mode_NE (Bdiv mode_NE (Bminus mode_NE d_max d_min) d_size) (Bdiv mode_NE (b64_of_Z 1) (b64_of_Z 2))) = 1001%Z) by (vm_compute; reflexivity).
  pose proof (ceil_is64 lm d_log FQ HQ) as E2.
  change (ceil_usize (S := F) (((d_max : F) - d_min) / d_size + lit (s := F) 1 2)%S) with (ceil_usize (S := F) (Bplus mode_NE (Bdiv mode_NE (Bminus mode_NE d_max d_min) d_size) (Bdiv mode_NE (b64_of_Z 1) (b64_of_Z 2)))).
  change (ceil_usize (S := F) (flog2 (s := F) ((d_max : F) / d_min)%S / flog2 (s := F) d_factor + lit (s := F) 1 2)%S) with (ceil_usize (S := F) (Bplus mode_NE d_log (Bdiv mode_NE (b64_of_Z 1) (b64_of_Z 2)))).
  rewrite E1, E2. reflexivity.
Qed.
Lemma quotient_ok : fin (Bdiv mode_NE (Bminus mode_NE d_max d_min) d_size) = true /\ B2 (Bdiv mode_NE (Bminus mode_NE d_max d_min) d_size) = 1000.
Proof.
  assert (E : B2SF (Bdiv mode_NE (Bminus mode_NE d_max d_min) d_size) = B2SF (b64_of_Z 1000)) by (vm_compute; reflexivity).
  apply B2SF_inj in E. rewrite E. destruct (of_Z_exact 1000 ltac:(lia)) as [A B]. rewrite A, B. auto.
Qed.
Lemma min_pos : 0 < B2 d_min <= B2 d_max.
Proof.
  destruct (of_Z_exact (10 ^ 13) ltac:(lia)) as [A B]. fold d_max in A, B.
  assert (F0 : fin d_min = true) by (vm_compute; reflexivity). destruct (of_Z_exact 0 ltac:(lia)) as [Z0 Z1].
  split.
  - rewrite <- Z1. rewrite <- !val_fin by assumption. apply (proj1 (ltb_val (b64_of_Z 0) d_min ltac:(reflexivity) ltac:(vm_compute; reflexivity))). vm_compute. reflexivity.
  - apply Rlt_le. rewrite <- !val_fin by assumption. apply (proj1 (ltb_val d_min d_max ltac:(vm_compute; reflexivity) ltac:(vm_compute; reflexivity))). vm_compute. reflexivity.
Qed.
Lemma default_safe : sane_log2 lm -> fin d_log = true -> 353 + 6 / 10 <= B2 d_log <= 354 + 4 / 10 -> fin (m_log2 lm d_factor) = true -> 0 < B2 (m_log2 lm d_factor) ->
  forall xs, exists a, ta_adds (ta_default (S := F)) xs = Ok a.
Proof.
  intros Hs FQ HQ Ff Pf. destruct (from_default (S := F) d_min (default_64 d_min (or_introl eq_refl) FQ HQ)) as [E _].
  assert (Er : raised (S := F) d_min = d_min) by (exact (clip_64 d_min (or_introl eq_refl))).
  destruct quotient_ok as [Q1 Q2]. destruct (of_Z_exact (10 ^ 13) ltac:(lia)) as [A13 _]. destruct (of_Z_exact (10 ^ 10) ltac:(lia)) as [A10 B10].
  apply (f64_safe lm d_min d_max d_size d_factor (ta_default (S := F)) E Hs); rewrite ?Er.
  - vm_compute; reflexivity.
  - exact A13.
  - exact A10.
  - exact min_pos.
  - change (B2R d_size) with (B2 d_size). unfold d_size. rewrite B10. apply IZR_lt. reflexivity.
  - exact Q1.
  - refine (eq_ind_r (fun z => (z < IZR (2 ^ 52))%R) _ Q2). apply IZR_lt. reflexivity.
  - vm_compute; reflexivity.
  - exact Ff.
  - exact Pf.
  - exact FQ.
  - apply Rle_lt_trans with (354 + 4 / 10); [apply HQ|]. apply Rlt_trans with 1000; [lra|]. apply IZR_lt. reflexivity.
Qed.
End F64.
