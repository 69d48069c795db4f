(** Which parameters count as the same (C41): exactly, on the reals; up to 2e-10, for doubles. *)
From Coq Require Import Reals ZArith List Lra Lia.
From Flocq Require Import Core.
From Flocq.IEEE754 Require Import BinarySingleNaN.
From Verif Require Import Base Scalar Float64 Model_Analysis Spec_Analysis Proof_Analysis3 Proof_Analysis8 Proof_Analysis9 Proof_Time4 Proof_Norm64.
Import ListNotations.
Local Open Scope R_scope.

Lemma sat_cell w k : 0 <= w -> (sat_usize (Zfloor w) = k <-> ((0 <= k <= usize_max)%Z /\ IZR k <= w /\ (w < IZR (k + 1) \/ k = usize_max))).
Proof.
  intros H. assert (F : (0 <= Zfloor w)%Z) by (apply Zfloor_lub; simpl; lra). pose proof (Zfloor_lb w) as L. pose proof (Zfloor_ub w) as U. unfold sat_usize. split.
  - intros <-. destruct (Z.le_gt_cases usize_max (Zfloor w)) as [G|G].
    + replace (Z.max 0 (Z.min (Zfloor w) usize_max)) with usize_max by (unfold usize_max in *; lia). split; [unfold usize_max; lia|]. split; [apply IZR_le in G; lra|auto].
    + replace (Z.max 0 (Z.min (Zfloor w) usize_max)) with (Zfloor w) by lia. split; [lia|]. split; [lra|]. left. rewrite plus_IZR. lra.
  - intros (B & L' & [U'|U']).
    + assert (E : Zfloor w = k) by (apply Zfloor_imp; lra). lia.
    + subst k. assert ((usize_max <= Zfloor w)%Z) by (apply Zfloor_lub; exact L'). unfold usize_max in *. lia.
Qed.
Lemma key_cell (u : R) k : field_key (S := RR) u = k <-> hash_cell u k.
Proof.
  rewrite key_R. pose proof p10 as P. unfold hash_cell. destruct (Rlt_dec (u * 10 ^ 10) 0) as [L|L].
  - assert (U : u < 0) by nra. rewrite Ztrunc_floor by lra. rewrite sat_cell by lra. split.
    + intros (B & H1 & H2). split; [exact B|]. exists (- u * 10 ^ 10 + 1). split; [right; auto|]. replace (- u * 10 ^ 10 + 1) with (- (u * 10 ^ 10) + 1) by ring. auto.
    + intros (B & w & [[X _]|[_ ->]] & H1 & H2); [lra|]. replace (- u * 10 ^ 10 + 1) with (- (u * 10 ^ 10) + 1) in * by ring. auto.
  - assert (U : 0 <= u) by nra. rewrite Ztrunc_floor by nra. rewrite sat_cell by nra. split.
    + intros (B & H1 & H2). split; [exact B|]. exists (u * 10 ^ 10). auto.
    + intros (B & w & [[_ ->]|[X _]] & H1 & H2); [auto|lra].
Qed.
Lemma keys_cells (us : list R) ks : Forall2 hash_cell us ks <-> keys (S := RR) us = ks.
Proof.
  revert ks. induction us as [|u us IH]; intros ks; split.
  - now inversion 1.
  - intros <-. constructor.
  - inversion 1 as [|? k ? ks' H1 H2]; subst. apply key_cell in H1. apply IH in H2. unfold keys in *. cbn [map]. congruence.
  - intros <-. constructor; [now apply key_cell|]. now apply IH.
Qed.
Lemma merged_exactly sip (us vs : list R) :
  (forall ks ls, Forall2 hash_cell us ks -> Forall2 hash_cell vs ls -> sip ks = sip ls -> ks = ls) ->
  same_dataset (S := RR) sip us vs = true <-> Forall2 (fun u v => exists k, hash_cell u k /\ hash_cell v k) us vs.
Proof.
  intros Inj. unfold same_dataset. rewrite Z.eqb_eq. split.
  - intros E. assert (K : keys (S := RR) us = keys (S := RR) vs) by (apply Inj; auto; now apply keys_cells). clear Inj E. revert vs K.
    induction us as [|u us IH]; intros [|v vs] K; try discriminate K; constructor.
    + exists (field_key (S := RR) u). split; apply key_cell; [reflexivity|]. unfold keys in K. cbn [map] in K. injection K as K _. now symmetry.
    + apply IH. unfold keys in *. cbn [map] in K. now injection K.
  - intros H. f_equal. unfold keys. clear Inj. induction H as [|u v us vs (k & H1 & H2) H IH]; [reflexivity|]. cbn [map]. apply key_cell in H1, H2. rewrite H1, H2. f_equal. exact IH.
Qed.

(** ** doubles *)
Section F.
Variable lm : libm.
Local Notation F := (F64 lm).
Lemma rnd_int53 z : (Z.abs z <= 2 ^ 53)%Z -> rnd (IZR z) = IZR z.
Proof. intros H. destruct (of_Z_exact z H) as [Fz E]. destruct (of_Z_val z) as [_ V]. rewrite <- V, val_fin by auto. exact E. Qed.
Lemma key_between (u : b64) : fin u = true -> 0 <= B2 u -> B2 u * 10 ^ 10 <= IZR (2 ^ 53) ->
  (Zfloor (B2 u * 10 ^ 10) <= field_key (S := F) u <= Zceil (B2 u * 10 ^ 10))%Z.
Proof.
  intros Fu P H. set (w := B2 u * 10 ^ 10) in *. assert (W : 0 <= w) by (unfold w; pose proof p10; nra).
  destruct (of_Z_exact (10 ^ 10) ltac:(lia)) as [F1 E1]. set (T := b64_of_Z (10 ^ 10)) in *.
  destruct (mult_val u T Fu F1) as [N V]. replace (B2 u * B2 T) with w in V by (unfold w; rewrite E1; f_equal; exact (pow_IZR 10 10)).
  assert (F0 : (0 <= Zfloor w)%Z) by (apply Zfloor_lub; exact W). pose proof (Zfloor_lb w) as L. pose proof (Zceil_ub w) as U.
  assert (C0 : (Zceil w <= 2 ^ 53)%Z) by (apply Zceil_glb; exact H). assert (FC : (Zfloor w <= Zceil w)%Z) by (apply le_IZR; lra).
  assert (V1 : IZR (Zfloor w) <= val (Bmult mode_NE u T)) by (rewrite V, <- (rnd_int53 (Zfloor w)) by lia; apply rnd_le; exact L).
  assert (V2 : val (Bmult mode_NE u T) <= IZR (Zceil w)) by (rewrite V, <- (rnd_int53 (Zceil w)) by lia; apply rnd_le; exact U).
  assert (P53 : IZR (2 ^ 53) < top) by (change (IZR (2 ^ 53)) with (bpow radix2 53); apply bpow_lt; lia).
  assert (Q : fin (Bmult mode_NE u T) = true).
  { apply val_lt_fin; auto. apply IZR_le in F0, C0. pose proof top_pos. split; lra. }
  set (c := Bmult mode_NE u T) in *. rewrite (val_fin c Q) in V1, V2.
  unfold field_key. change (@of_Z F (10 ^ 10)) with T. change (@mul F u T) with c. cbv zeta.
  assert (Cz : 0 <= B2 c) by (apply IZR_le in F0; lra).
  assert (Lt : ltb (s := F) c s0 = false).
  { change (@Bltb 53 1024 c (b64_of_Z 0) = false). destruct (of_Z_exact 0 ltac:(lia)) as [Fz Ez]. rewrite Bltb_correct by auto. rewrite Ez. apply Rlt_bool_false. exact Cz. }
  rewrite Lt. change (@as_usize F) with b64_as_usize.
  destruct (of_Z_exact 0 ltac:(lia)) as [Fz Ez].
  destruct (plus_val c (b64_of_Z 0) Q Fz) as [N2 V3]. rewrite Ez, Rplus_0_r in V3.
  assert (R0 : rnd (B2 c) = B2 c).
  { rewrite rnd_small; [|rewrite round_generic by (auto with typeclass_instances; apply (generic_format_B2R 53 1024)); apply abs_B2R_lt_emax].
    apply round_generic; auto with typeclass_instances. apply (generic_format_B2R 53 1024). }
  rewrite R0 in V3. change (@add F c s0) with (Bplus mode_NE c (b64_of_Z 0)). set (e := Bplus mode_NE c (b64_of_Z 0)) in *.
  assert (Fe : fin e = true). { apply val_lt_fin; auto. rewrite V3. apply IZR_le in F0, C0. pose proof top_pos. split; lra. }
  rewrite (val_fin e Fe) in V3. rewrite (usize_fin e Fe), V3. rewrite Ztrunc_floor by exact Cz.
  assert (A1 : (Zfloor w <= Zfloor (B2 c))%Z) by (apply Zfloor_lub; exact V1).
  assert (A2 : (Zfloor (B2 c) <= Zceil w)%Z) by (apply le_IZR; pose proof (Zfloor_lb (B2 c)); lra).
  unfold sat_usize, usize_max. lia.
Qed.
Lemma key_apart (u v : b64) : fin u = true -> fin v = true -> 0 <= B2 u -> B2 v * 10 ^ 10 <= IZR (2 ^ 53) -> 2 / 10 ^ 10 <= B2 v - B2 u ->
  (field_key (S := F) u < field_key (S := F) v)%Z.
Proof.
  intros Fu Fv Pu Hv D. pose proof p10 as P. assert (D' : 2 <= B2 v * 10 ^ 10 - B2 u * 10 ^ 10).
  { apply (Rmult_le_compat_r (10 ^ 10)) in D; [|lra]. replace (2 / 10 ^ 10 * 10 ^ 10) with 2 in D by (field; lra). lra. }
  assert (Pv : 0 <= B2 v). { assert (0 < 2 / 10 ^ 10) by (apply Rdiv_lt_0_compat; lra). lra. }
  pose proof (key_between u Fu Pu ltac:(lra)) as K1. pose proof (key_between v Fv Pv Hv) as K2.
  assert ((Zceil (B2 u * 10 ^ 10) <= Zfloor (B2 u * 10 ^ 10) + 1)%Z).
  { apply Zceil_glb. rewrite plus_IZR. pose proof (Zfloor_ub (B2 u * 10 ^ 10)). lra. }
  assert ((Zfloor (B2 u * 10 ^ 10) + 2 <= Zfloor (B2 v * 10 ^ 10))%Z).
  { apply Zfloor_lub. rewrite plus_IZR. pose proof (Zfloor_lb (B2 u * 10 ^ 10)). lra. }
  lia.
Qed.
Lemma f64_merged_close sip (us vs : list b64) : (sip (keys (S := F) us) = sip (keys (S := F) vs) -> keys (S := F) us = keys (S := F) vs) ->
  Forall (fun u => fin u = true /\ 0 <= B2 u <= 900000) us -> Forall (fun u => fin u = true /\ 0 <= B2 u <= 900000) vs ->
  same_dataset (S := F) sip us vs = true -> Forall2 (fun u v => Rabs (B2 u - B2 v) < 2 / 10 ^ 10) us vs.
Proof.
  intros Inj Hu Hv E. unfold same_dataset in E. apply Z.eqb_eq in E. apply Inj in E. clear Inj.
  assert (P : forall x, x <= 900000 -> x * 10 ^ 10 <= IZR (2 ^ 53)).
  { intros x Hx. pose proof p10. apply Rle_trans with (900000 * 10 ^ 10); [nra|]. replace (10 ^ 10) with (IZR (10 ^ 10)) by (symmetry; exact (pow_IZR 10 10)). rewrite <- mult_IZR. apply IZR_le. vm_compute. discriminate. }
  revert vs Hv E. induction Hu as [|u us (F1 & P1) Hu IH]; intros [|v vs] Hv E; try discriminate E; constructor.
  - apply Forall_inv in Hv as (F2 & P2). unfold keys in E. cbn [map] in E. apply (f_equal (hd 0%Z)) in E. cbn [hd] in E.
    apply Rnot_le_lt. intros D. destruct (Rle_lt_dec (B2 u) (B2 v)) as [L|L].
    + rewrite Rabs_left1 in D by lra. pose proof (key_apart u v F1 F2 (proj1 P1) (P _ (proj2 P2)) ltac:(lra)). lia.
    + rewrite Rabs_right in D by lra. pose proof (key_apart v u F2 F1 (proj1 P2) (P _ (proj2 P1)) D). lia.
  - apply IH; [now apply Forall_inv_tail in Hv|]. unfold keys in *. cbn [map] in E. now apply (f_equal (@tl Z)) in E.
Qed.
End F.
