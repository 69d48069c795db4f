(** Rounding error of the inner product on doubles. *)
From Coq Require Import Reals ZArith List Lra Lia.
From Flocq Require Import Core.
From Flocq.IEEE754 Require Import BinarySingleNaN.
From Verif Require Import Base Scalar Float64 Model_Position Spec_Position Proof_Position Proof_Norm64 Proof_Sum64 Proof_Rel64 Proof_Force64 Proof_Walk64 Spec_Force64.
Import ListNotations.
Open Scope R_scope.

Definition prods (l : list (b64 * b64)) : list b64 := map (fun xy => Bmult mode_NE (fst xy) (snd xy)) l.
Definition pairs_sum (l : list (b64 * b64)) : R := rsum (map (fun xy => B2 (fst xy) * B2 (snd xy)) l).
Definition pairs_abs (l : list (b64 * b64)) : R := rsum (map (fun xy => Rabs (B2 (fst xy) * B2 (snd xy))) l).
Lemma prods_close (l : list (b64 * b64)) : Forall (fun x => fin x = true) (prods l) ->
  Rabs (Proof_Sum64.vsum (prods l) - pairs_sum l) <= u64 * pairs_abs l + INR (length l) * eta64 /\ asum (prods l) <= (1 + u64) * pairs_abs l + INR (length l) * eta64.
Proof.
  induction l as [|(x, y) l IH]; intros H.
  - unfold Proof_Sum64.vsum, asum, pairs_sum, pairs_abs, prods. cbn [map rsum fold_right length INR]. rewrite !Rmult_0_r, !Rmult_0_l, Rminus_0_r, Rabs_R0. split; lra.
  - unfold prods in H. cbn [map fst snd] in H. apply Forall_cons_iff in H as (Fx & H). destruct (IH H) as (I1 & I2). unfold prods. cbn [map fst snd]. fold (prods l). rewrite vsum_cons, asum_cons.
    unfold pairs_sum, pairs_abs. cbn [map rsum fold_right fst snd]. fold (pairs_sum l). fold (pairs_abs l).
    change (fold_right Rplus 0 (map (fun xy : b64 * b64 => B2 (fst xy) * B2 (snd xy)) l)) with (pairs_sum l).
    change (fold_right Rplus 0 (map (fun xy : b64 * b64 => Rabs (B2 (fst xy) * B2 (snd xy))) l)) with (pairs_abs l).
    cbn [length]. rewrite S_INR. rewrite (fin_mult_eq x y Fx). pose proof (rnd64_err (B2 x * B2 y)) as E. set (r := rnd64 (B2 x * B2 y)) in *. set (t := B2 x * B2 y) in *.
    pose proof (Rabs_triang (r - t) (Proof_Sum64.vsum (prods l) - pairs_sum l)) as T. replace (r - t + (Proof_Sum64.vsum (prods l) - pairs_sum l)) with (r + Proof_Sum64.vsum (prods l) - (t + pairs_sum l)) in T by ring.
    pose proof (Rabs_triang (r - t) t) as T2. replace (r - t + t) with r in T2 by ring. split; lra.
Qed.
Lemma pairs_abs_nonneg l : 0 <= pairs_abs l.
Proof. induction l as [|x l IH]; unfold pairs_abs in *; cbn [map rsum fold_right]; [lra|]. pose proof (Rabs_pos (B2 (fst x) * B2 (snd x))). unfold rsum in IH. lra. Qed.
Lemma dot_err (l : list (b64 * b64)) (s : b64) : INR (length l) <= 2 ^ 50 -> s = sum64 (b64_of_Z 0) (prods l) -> fin s = true ->
  Rabs (B2 s - pairs_sum l) <= (4 * INR (length l) + 1) * u64 * pairs_abs l + 2 * INR (length l) * eta64.
Proof.
  intros Hn -> F. assert (Lp : length (prods l) = length l) by apply map_length. destruct (sum64_fin _ _ F) as (_ & FP). destruct (prods_close l FP) as (P1 & P2).
  pose proof (sum_err _ _ ltac:(rewrite Lp; exact Hn) F) as E. rewrite Lp in E. destruct (of_Z_exact 0) as (_ & Z0); [lia|]. rewrite Z0, Rabs_R0, !Rplus_0_l in E.
  pose proof (n50 _ Hn) as U. pose proof (pairs_abs_nonneg l) as A. pose proof u64_pos as U0. pose proof u64_tiny as U1. pose proof (pos_INR (length l)) as N0. assert (E0 : 0 < eta64) by (unfold eta64; apply Rinv_0_lt_compat, pow_lt; lra).
  set (n := INR (length l)) in *. pose proof (Rabs_triang (B2 (sum64 (b64_of_Z 0) (prods l)) - Proof_Sum64.vsum (prods l)) (Proof_Sum64.vsum (prods l) - pairs_sum l)) as T.
  match type of T with Rabs ?x <= _ => replace x with (B2 (sum64 (b64_of_Z 0) (prods l)) - pairs_sum l) in T by ring end.
  assert (Q : 2 * n * u64 * asum (prods l) <= 2 * n * u64 * (2 * pairs_abs l + n * eta64)).
  { apply Rmult_le_compat_l; [repeat apply Rmult_le_pos; lra|]. assert (u64 * pairs_abs l <= 1 * pairs_abs l) by (apply Rmult_le_compat_r; lra). lra. }
  assert (V : 2 * n * u64 * (n * eta64) <= 1 * (n * eta64)) by (apply Rmult_le_compat_r; [apply Rmult_le_pos; lra|lra]). lra.
Qed.
Lemma fold_prods (l : list (b64 * b64)) : forall a : b64, fold_left (fun r xy => Bplus mode_NE r (Bmult mode_NE (fst xy) (snd xy))) l a = sum64 a (prods l).
Proof. induction l as [|x l IH]; intros a; [reflexivity|]. exact (IH _). Qed.
Lemma inner_err lm (p q : list b64) : length p = length q -> INR (length p) <= 2 ^ 50 -> exists s : b64, inner_product (S := F64 lm) p q = Ok (s : F64 lm) /\
  (fin s = true -> Rabs (B2 s - pairs_sum (combine p q)) <= (4 * INR (length p) + 1) * u64 * pairs_abs (combine p q) + 2 * INR (length p) * eta64).
Proof.
  intros L Hn. exists (sum64 (b64_of_Z 0) (prods (combine p q))). assert (LC : length (combine p q) = length p) by (rewrite combine_length, <- L; apply Nat.min_id). split.
  - unfold inner_product, dim. change (@length (car (F64 lm)) p) with (@length b64 p). change (@length (car (F64 lm)) q) with (@length b64 q). rewrite L, Nat.eqb_refl. cbn [negb]. unfold sum64, prods.
    refine (f_equal Ok _). exact (fold_prods (combine p q) (b64_of_Z 0)).
  - intros F. rewrite <- LC. apply dot_err; [rewrite LC; exact Hn|reflexivity|exact F].
Qed.

Lemma inner_64 lm (p q : list b64) : length p = length q -> INR (length p) <= 2 ^ 50 -> exists s : b64, inner_product (S := F64 lm) p q = Ok (s : F64 lm) /\
  (fin s = true -> Rabs (B2 s - dot (reals p) (reals q)) <= (4 * INR (length p) + 1) * u64 * dot_abs (reals p) (reals q) + 2 * INR (length p) * eta64).
Proof.
  intros L HN. destruct (inner_err lm p q L HN) as (s & E & H). exists s. split; [exact E|]. intros F. specialize (H F).
  assert (C : combine (reals p) (reals q) = map (fun xy => (B2 (fst xy), B2 (snd xy))) (combine p q)).
  { clear. revert q. induction p as [|x p IH]; intros [|y q]; [reflexivity..|]. cbn [reals map combine fst snd]. f_equal. exact (IH q). }
  unfold dot, dot_abs. rewrite C, !map_map. exact H.
Qed.
