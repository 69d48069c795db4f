From Coq Require Import Reals ZArith List Lra Lia.
From Flocq Require Import Core.
From Flocq.IEEE754 Require Import BinarySingleNaN.
From Verif Require Import Base Scalar Float64 Model_Position Spec_Position.
Local Open Scope Z_scope.

Lemma zsum_nonneg f p q : (forall z, 0 <= f z) -> 0 <= zsum (zdiffs f p q).
Proof.
  intros Hf. revert q. induction p as [|x p IH]; intros [|y q]; simpl; try lia.
  specialize (IH q). unfold zdiffs, zsum in *. simpl. specialize (Hf (x - y)). lia.
Qed.

Lemma i32_res_ok ck z : in_i32 z = true -> i32_res ck z = Ok z.
Proof. unfold i32_res. now intros ->. Qed.
Lemma i32_res_checked z r : i32_res true z = Ok r -> r = z /\ in_i32 z = true.
Proof. unfold i32_res. destruct (in_i32 z); intros E; inversion E; auto. Qed.

Lemma in_i32_spec z : in_i32 z = true <-> - 2 ^ 31 <= z <= 2 ^ 31 - 1.
Proof. unfold in_i32, i32_min, i32_max. rewrite Bool.andb_true_iff, !Z.leb_le. lia. Qed.

Lemma taxi_loop_ok ck p q r : 0 <= r -> r + zsum (zdiffs Z.abs p q) <= i32_max ->
  taxi_loop ck p q r = Ok (r + zsum (zdiffs Z.abs p q)).
Proof.
  revert q r. induction p as [|x p IH]; intros [|y q] r Hr H; try (simpl; f_equal; unfold zsum; simpl; lia).
  pose proof (zsum_nonneg Z.abs p q Z.abs_nonneg) as N.
  assert (E : zsum (zdiffs Z.abs (x :: p) (y :: q)) = Z.abs (x - y) + zsum (zdiffs Z.abs p q)) by reflexivity.
  rewrite E in *. cbn [taxi_loop]. unfold i32_max in *.
  rewrite i32_res_ok by (apply in_i32_spec; lia). cbn [bind].
  rewrite i32_res_ok by (apply in_i32_spec; lia). cbn [bind].
  rewrite i32_res_ok by (apply in_i32_spec; lia). cbn [bind].
  rewrite IH by lia. f_equal. lia.
Qed.

Lemma taxi_loop_inv p q r v : 0 <= r <= i32_max -> taxi_loop true p q r = Ok v ->
  length p = length q -> v = r + zsum (zdiffs Z.abs p q) /\ v <= i32_max.
Proof.
  revert q r. induction p as [|x p IH]; intros [|y q] r Hr H L; simpl in H, L; try discriminate.
  - inversion H. unfold zsum; simpl. lia.
  - destruct (i32_res true (x - y)) as [d| | |] eqn:D; try discriminate. cbn [bind] in H. apply i32_res_checked in D as (-> & _).
    destruct (i32_res true (Z.abs (x - y))) as [d| | |] eqn:D; try discriminate. cbn [bind] in H. apply i32_res_checked in D as (-> & _).
    destruct (i32_res true (r + Z.abs (x - y))) as [d| | |] eqn:D; try discriminate. cbn [bind] in H. apply i32_res_checked in D as (-> & I).
    apply in_i32_spec in I. apply IH in H; unfold i32_max in *; try lia.
    assert (E : zsum (zdiffs Z.abs (x :: p) (y :: q)) = Z.abs (x - y) + zsum (zdiffs Z.abs p q)) by reflexivity.
    rewrite E. lia.
Qed.

Lemma taxi_exact ck p q : length p = length q -> zsum (zdiffs Z.abs p q) <= i32_max ->
  taxi_distance ck p q = Ok (zsum (zdiffs Z.abs p q)).
Proof.
  intros L H. unfold taxi_distance. apply Nat.eqb_eq in L. rewrite L. cbn [negb].
  rewrite taxi_loop_ok; try lia. reflexivity.
Qed.

Lemma taxi_debug p q : length p = length q ->
  (zsum (zdiffs Z.abs p q) <= i32_max -> taxi_distance true p q = Ok (zsum (zdiffs Z.abs p q))) /\
  (i32_max < zsum (zdiffs Z.abs p q) -> taxi_distance true p q = Panic).
Proof.
  intros L. split; [now apply taxi_exact|]. intros H.
  unfold taxi_distance. pose proof L as L'. apply Nat.eqb_eq in L'. rewrite L'. cbn [negb].
  destruct (taxi_loop true p q 0) as [v|e| |] eqn:E; auto.
  - apply taxi_loop_inv in E; auto; unfold i32_max in *; lia.
  - exfalso. clear -E. revert q E. generalize 0. induction p as [|x p IH]; intros z [|y q] E; simpl in E; try discriminate.
    unfold i32_res in E. repeat (match type of E with context[if ?b then _ else _] => destruct b end; cbn [bind] in E; try discriminate); eauto.
  - exfalso. clear -E. revert q E. generalize 0. induction p as [|x p IH]; intros z [|y q] E; simpl in E; try discriminate.
    unfold i32_res in E. repeat (match type of E with context[if ?b then _ else _] => destruct b end; cbn [bind] in E; try discriminate); eauto.
Qed.

Section F.
Variable lm : libm.
Local Notation F := (F64 lm).
Open Scope Z_scope.

Lemma sumsq_nonneg p q : 0 <= zsum (zdiffs (fun z => z * z) p q).
Proof. apply zsum_nonneg. intros. nia. Qed.

Lemma dist_loop_exact ck p q (r : b64) a :
  fin r = true -> B2 r = IZR a -> 0 <= a -> length p = length q ->
  (forall x y, In (x, y) (combine p q) -> Z.abs (x - y) <= 46340) ->
  a + zsum (zdiffs (fun z => z * z) p q) <= 2 ^ 53 ->
  exists s : b64, i32_dist_loop ck (S := F) p q r = Ok (s : F) /\ fin s = true /\ B2 s = IZR (a + zsum (zdiffs (fun z => z * z) p q)).
Proof.
  revert q r a. induction p as [|x p IH]; intros [|y q] r a Fr Er Ha L HI Hs; try discriminate.
  - exists r. split; [reflexivity|]. split; auto. rewrite Er. f_equal. unfold zsum; simpl; lia.
  - pose proof (sumsq_nonneg p q) as N.
    assert (E : zsum (zdiffs (fun z => z * z) (x :: p) (y :: q)) = (x - y) * (x - y) + zsum (zdiffs (fun z => z * z) p q)) by reflexivity.
    rewrite E in *. cbn [i32_dist_loop].
    pose proof (HI x y (or_introl eq_refl)) as B. 
    rewrite i32_res_ok by (apply in_i32_spec; lia). cbn [bind].
    rewrite i32_res_ok by (apply in_i32_spec; nia). cbn [bind].
    assert (S53 : Z.abs ((x - y) * (x - y)) <= 2 ^ 53) by nia.
    destruct (of_Z_exact ((x - y) * (x - y)) S53) as (F1 & E1).
    destruct (plus_int r (b64_of_Z ((x - y) * (x - y))) a _ Fr F1 Er E1) as (F2 & E2); [nia|].
    destruct (IH q (Bplus mode_NE r (b64_of_Z ((x - y) * (x - y)))) _ F2 E2) as (s & S1 & S2 & S3).
    + nia.
    + simpl in L; lia.
    + intros. apply HI. now right.
    + lia.
    + exists s. split; [exact S1|]. split; auto. rewrite S3. f_equal. lia.
Qed.

Lemma i32_distance_exact ck p q : length p = length q ->
  (forall x y, In (x, y) (combine p q) -> Z.abs (x - y) <= 46340) ->
  zsum (zdiffs (fun z => z * z) p q) <= 2 ^ 53 ->
  exists d : b64, i32_distance ck (S := F) p q = Ok (d : F) /\ is_rounded d (sqrt (IZR (zsum (zdiffs (fun z => z * z) p q)))).
Proof.
  intros L HI H. unfold i32_distance. pose proof L as L'. apply Nat.eqb_eq in L'. rewrite L'. cbn [negb].
  destruct (dist_loop_exact ck p q (B754_zero false) 0 eq_refl eq_refl ltac:(lia) L HI ltac:(lia)) as (s & S1 & S2 & S3).
  change (@s0 F) with (B754_zero false : b64). rewrite S1. cbn [bind]. rewrite Z.add_0_l in S3.
  assert (P : (0 <= B2 s)%R) by (rewrite S3; apply IZR_le, sumsq_nonneg).
  destruct (sqrt_val s S2 P) as (Q1 & Q2). eexists. split; [reflexivity|]. split; [exact Q1|]. rewrite <- S3. exact Q2.
Qed.

Lemma norm_fold_exact p (r : b64) a : fin r = true -> B2 r = IZR a -> 0 <= a -> a + zsum (map (fun z => z * z) p) <= 2 ^ 53 ->
  let s := fold_left (fun r x => Bplus mode_NE r (Bmult mode_NE (b64_of_Z x) (b64_of_Z x))) p r in
  fin s = true /\ B2 s = IZR (a + zsum (map (fun z => z * z) p)).
Proof.
  revert r a. induction p as [|x p IH]; intros r a Fr Er Ha Hs; cbn [fold_left].
  - split; auto. cbv zeta. rewrite Er. f_equal. unfold zsum; simpl; lia.
  - assert (E : zsum (map (fun z => z * z) (x :: p)) = x * x + zsum (map (fun z => z * z) p)) by reflexivity.
    assert (N : 0 <= zsum (map (fun z => z * z) p)).
    { clear. induction p; unfold zsum in *; simpl in *; nia. }
    rewrite E in *. assert (S53 : Z.abs x <= 2 ^ 53) by nia.
    destruct (of_Z_exact x S53) as (F1 & E1).
    destruct (mult_int _ _ _ _ F1 F1 E1 E1) as (F2 & E2); [nia|].
    destruct (plus_int r _ a _ Fr F2 Er E2) as (F3 & E3); [nia|].
    destruct (IH _ _ F3 E3) as (F4 & E4); try nia.
    split; auto. rewrite E4. f_equal. lia.
Qed.

Lemma i32_norm_exact p : zsum (map (fun z => z * z) p) <= 2 ^ 53 ->
  is_rounded (i32_norm (S := F) p) (sqrt (IZR (zsum (map (fun z => z * z) p)))).
Proof.
  intros H. destruct (norm_fold_exact p (B754_zero false) 0 eq_refl eq_refl ltac:(lia) H) as (A & B).
  rewrite Z.add_0_l in B.
  assert (N : 0 <= zsum (map (fun z => z * z) p)) by (clear; induction p; unfold zsum in *; simpl in *; nia).
  destruct (sqrt_val _ A) as (Q1 & Q2); [rewrite B; now apply IZR_le|].
  split; [exact Q1|]. rewrite <- B. exact Q2.
Qed.
End F.

(** Debug build of the lattice distance: a panic exactly when some coordinate differs by more than 46340. *)
Section Dbg.
Context {S : scalar}.
Local Open Scope Z_scope.
Lemma dist_loop_debug p q (r : S) :
  ((forall x y, In (x, y) (combine p q) -> Z.abs (x - y) <= 46340) -> exists d, i32_dist_loop true p q r = Ok d) /\
  ((exists x y, In (x, y) (combine p q) /\ 46340 < Z.abs (x - y)) -> i32_dist_loop true p q r = Panic).
Proof.
  revert q r. induction p as [|x p IH]; intros [|y q] r; try (split; [intros _; eexists; reflexivity|intros (a & b & H & _); destruct H]).
  cbn [i32_dist_loop combine]. destruct (Z_le_gt_dec (Z.abs (x - y)) 46340) as [L|L].
  - rewrite i32_res_ok by (apply in_i32_spec; lia). cbn [bind]. rewrite i32_res_ok by (apply in_i32_spec; nia). cbn [bind].
    destruct (IH q (add r (of_Z ((x - y) * (x - y))))) as (A & B). split.
    + intros H. apply A. intros a b Hab. apply H. right. exact Hab.
    + intros (a & b & [H|H] & G); [injection H as -> ->; lia|]. apply B. eauto.
  - split; [intros H; specialize (H x y (or_introl eq_refl)); lia|]. intros _.
    destruct (in_i32 (x - y)) eqn:I.
    + rewrite (i32_res_ok true _ I). cbn [bind]. assert (Q : in_i32 ((x - y) * (x - y)) = false).
      { apply Bool.not_true_is_false. intros J. apply in_i32_spec in J. nia. }
      unfold i32_res. rewrite Q. reflexivity.
    + unfold i32_res. rewrite I. reflexivity.
Qed.
Lemma i32_distance_debug p q : length p = length q ->
  ((forall x y, In (x, y) (combine p q) -> Z.abs (x - y) <= 46340) -> exists d, i32_distance (S := S) true p q = Ok d) /\
  ((exists x y, In (x, y) (combine p q) /\ 46340 < Z.abs (x - y)) -> i32_distance (S := S) true p q = Panic).
Proof.
  intros L. unfold i32_distance. apply Nat.eqb_eq in L. rewrite L. cbn [negb].
  destruct (dist_loop_debug p q (s0 : S)) as (A & B). split.
  - intros H. destruct (A H) as (d & ->). eexists. reflexivity.
  - intros H. rewrite (B H). reflexivity.
Qed.

(** Release build: everything modulo 2^32. *)
Lemma wrap_id z : in_i32 z = true -> wrap32 z = z.
Proof. intros H. apply in_i32_spec in H. unfold wrap32. rewrite Z.mod_small by lia. lia. Qed.
Lemma i32_res_release z : i32_res false z = Ok (wrap32 z).
Proof. unfold i32_res. destruct (in_i32 z) eqn:E; [rewrite wrap_id by auto|]; reflexivity. Qed.
Lemma wrap_add a b : wrap32 (wrap32 a + b) = wrap32 (a + b).
Proof.
  unfold wrap32. f_equal. replace ((a + 2 ^ 31) mod 2 ^ 32 - 2 ^ 31 + b + 2 ^ 31) with ((a + 2 ^ 31) mod 2 ^ 32 + b) by ring.
  rewrite Zplus_mod_idemp_l. f_equal. ring.
Qed.
Lemma wrap_add_r a b : wrap32 (a + wrap32 b) = wrap32 (a + b).
Proof. rewrite Z.add_comm, wrap_add. f_equal. ring. Qed.
Lemma dist_loop_release p q (r : S) : length p = length q ->
  i32_dist_loop false p q r = Ok (fold_left (fun r d => add r (of_Z (wrap32 (wrap32 d * wrap32 d)))) (zdiffs (fun d => d) p q) r).
Proof.
  revert q r. induction p as [|x p IH]; intros [|y q] r L; try discriminate; [reflexivity|].
  cbn [i32_dist_loop]. rewrite !i32_res_release. cbn [bind]. rewrite i32_res_release. cbn [bind]. rewrite IH by (simpl in L; lia). reflexivity.
Qed.
Lemma i32_distance_release p q : length p = length q ->
  i32_distance (S := S) false p q =
  Ok (fsqrt (fold_left (fun r d => add r (of_Z (wrap32 (wrap32 d * wrap32 d)))) (zdiffs (fun d => d) p q) s0)).
Proof.
  intros L. unfold i32_distance. assert (L' := L). apply Nat.eqb_eq in L'. rewrite L'. cbn [negb]. rewrite dist_loop_release by auto. reflexivity.
Qed.
Lemma wrap_range z : in_i32 (wrap32 z) = true.
Proof.
  apply in_i32_spec. unfold wrap32. pose proof (Z.mod_pos_bound (z + 2 ^ 31) (2 ^ 32) ltac:(lia)) as B.
  revert B. generalize ((z + 2 ^ 31) mod 2 ^ 32). intros w B. change (2^31) with 2147483648 in *. change (2^32) with 4294967296 in *. lia.
Qed.
Lemma taxi_loop_release p q r : length p = length q -> in_i32 r = true ->
  taxi_loop false p q r = Ok (wrap32 (r + zsum (zdiffs (fun d => Z.abs (wrap32 d)) p q))).
Proof.
  revert q r. induction p as [|x p IH]; intros [|y q] r L H; try discriminate.
  - cbn [taxi_loop]. unfold zsum. simpl. rewrite Z.add_0_r, wrap_id by auto. reflexivity.
  - cbn [taxi_loop]. rewrite !i32_res_release. cbn [bind]. rewrite i32_res_release. cbn [bind]. rewrite i32_res_release. cbn [bind].
    rewrite IH.
    + f_equal. assert (E : zsum (zdiffs (fun d => Z.abs (wrap32 d)) (x :: p) (y :: q)) = Z.abs (wrap32 (x - y)) + zsum (zdiffs (fun d => Z.abs (wrap32 d)) p q)) by reflexivity.
      rewrite E, wrap_add. rewrite <- Z.add_assoc, (Z.add_comm (wrap32 _)), Z.add_assoc, wrap_add_r. f_equal. ring.
    + simpl in L; lia.
    + apply wrap_range.
Qed.
Lemma taxi_release p q : length p = length q ->
  taxi_distance false p q = Ok (wrap32 (zsum (zdiffs (fun d => Z.abs (wrap32 d)) p q))).
Proof.
  intros L. unfold taxi_distance. assert (L' := L). apply Nat.eqb_eq in L'. rewrite L'. cbn [negb].
  rewrite taxi_loop_release by auto. reflexivity.
Qed.

Lemma wrap_meaning z : - 2 ^ 31 <= wrap32 z < 2 ^ 31 /\ exists k, wrap32 z = z + k * 2 ^ 32.
Proof.
  split; [pose proof (proj1 (in_i32_spec _) (wrap_range z)); lia|].
  exists (- ((z + 2 ^ 31) / 2 ^ 32)). unfold wrap32. pose proof (Z.div_mod (z + 2 ^ 31) (2 ^ 32) ltac:(lia)). lia.
Qed.
Lemma i32_dims (checked : bool) (p q : list Z) : length p <> length q ->
  taxi_distance checked p q = Err InvalidDimension /\ i32_distance (S := S) checked p q = Err InvalidDimension.
Proof. intros N. unfold taxi_distance, i32_distance. apply Nat.eqb_neq in N. rewrite N. split; reflexivity. Qed.
End Dbg.
