From Coq Require Import Reals ZArith List Lra Lia.
From Flocq Require Import Core.
From Flocq.IEEE754 Require Import BinarySingleNaN.
From Verif Require Import Base Scalar Float64 Model_Position Spec_Position Proof_Position Proof_Norm64
  Model_System Spec_System Proof_System Proof_System2 Proof_System3 Proof_System4 Proof_System5 Proof_System6.
Local Open Scope R_scope.

(** ** The computed distance against the exact one *)
Lemma distance_eq {S : scalar} (p q : pos S) : length p = length q ->
  distance p q = Ok (fsqrt (fold_left (fun r xy => add r (mul (sub (fst xy) (snd xy)) (sub (fst xy) (snd xy)))) (combine p q) s0)).
Proof. intros L. unfold distance, dim. apply Nat.eqb_eq in L. rewrite L. reflexivity. Qed.

Section F.
Variable lm : libm.
Local Notation F := (F64 lm).

Definition diffs (p q : list b64) : list b64 := map (fun xy => Bminus mode_NE (fst xy) (snd xy)) (combine p q).

Lemma fold_map_sq {A} (f : A -> b64) l : forall a,
  fold_left (fun r x => Bplus mode_NE r (Bmult mode_NE (f x) (f x))) l a = ss a (map f l).
Proof. induction l as [|x l IH]; intros a; [reflexivity|]. cbn [fold_left map]. rewrite IH. reflexivity. Qed.

Lemma distance_64 (p q : list b64) : length p = length q -> distance (S := F) p q = Ok (n64 (diffs p q) : F).
Proof.
  intros L. rewrite (distance_eq (S := F) p q L). f_equal. unfold n64, diffs.
  exact (f_equal (Bsqrt mode_NE) (fold_map_sq (fun xy : b64 * b64 => Bminus mode_NE (fst xy) (snd xy)) (combine p q) (b64_of_Z 0))).
Qed.

Lemma minus_fin_eq (x y : b64) : fin x = true -> fin y = true -> fin (Bminus mode_NE x y) = true ->
  Rabs (B2 (Bminus mode_NE x y) - (B2 x - B2 y)) <= u64 * Rabs (B2 x - B2 y).
Proof.
  intros Fx Fy Fm. destruct (minus_val x y Fx Fy) as (_ & V). rewrite val_fin in V by auto.
  assert (E : rnd (B2 x - B2 y) = rnd64 (B2 x - B2 y)).
  { pose proof (B2_bound (Bminus mode_NE x y)) as Bd. rewrite V in Bd. unfold rnd, clamp in *. repeat destruct Rle_dec; lra. }
  rewrite V, E. pose proof (rnd64_plus x (Bopp y)) as H. rewrite B2R_Bopp in H. exact H.
Qed.

Lemma sq_between a b u : 0 <= u <= 1 -> Rabs (a - b) <= u * Rabs b -> (1 - u) ^ 2 * b ^ 2 <= a ^ 2 <= (1 + u) ^ 2 * b ^ 2.
Proof.
  intros U H. rewrite <- (pow2_abs a), <- (pow2_abs b), <- !Rpow_mult_distr.
  pose proof (Rabs_pos b). pose proof (Rabs_triang_inv b a) as A. pose proof (Rabs_triang_inv a b) as B. rewrite Rabs_minus_sym in A.
  split; apply pow_incr; split; try apply Rabs_pos; try lra. apply Rmult_le_pos; lra.
Qed.

Definition d2 (p q : list b64) : R := rsum (map (fun xy => (B2 (fst xy) - B2 (snd xy)) ^ 2) (combine p q)).
Lemma rsum_nonneg' {A} (f : A -> R) l : (forall x, 0 <= f x) -> 0 <= rsum (map f l).
Proof. intros H. induction l; cbn [map rsum fold_right]; [lra|]. pose proof (H a). unfold rsum in IHl. lra. Qed.
Lemma d2_nonneg p q : 0 <= d2 p q.
Proof. apply rsum_nonneg'. intros. apply pow2_ge_0. Qed.

Lemma rss_diffs (p q : list b64) : finite_pos p -> finite_pos q -> finite_pos (diffs p q) ->
  (1 - u64) ^ 2 * d2 p q <= rss (diffs p q) <= (1 + u64) ^ 2 * d2 p q.
Proof.
  intros A. revert q. induction A as [|x p Fx _ IH]; intros [|y q] B D; try (unfold rss, d2, diffs; cbn; lra).
  inversion B as [|? ? Fy Bq]; subst. unfold diffs in D. cbn [combine map fst snd] in D. inversion D as [|? ? Fm Dq]; subst.
  specialize (IH q Bq Dq). pose proof (minus_fin_eq x y Fx Fy Fm) as M.
  pose proof u64_pos. pose proof u64_lt1. apply sq_between in M; [|lra].
  change (rss (diffs (x :: p) (y :: q))) with (B2 (Bminus mode_NE x y) ^ 2 + rss (diffs p q)).
  change (d2 (x :: p) (y :: q)) with ((B2 x - B2 y) ^ 2 + d2 p q). lra.
Qed.

Lemma d2_euclid (p q : list b64) : length p = length q -> d2 p q = euclid (reals p) (reals q) ^ 2.
Proof.
  intros L. rewrite euclid_sq by (unfold reals; rewrite !map_length; auto).
  assert (E : d2 p q = sq (vsub (reals p) (reals q))).
  { clear L. unfold d2, sq, reals. revert q. induction p as [|x p IH]; intros [|y q]; try reflexivity.
    cbn [combine map rsum fold_right vsub fst snd]. unfold rsum in IH. rewrite IH. reflexivity. }
  rewrite E, <- Rsqr_pow2, Rsqr_sqrt; auto. rewrite <- E. apply d2_nonneg.
Qed.

Lemma diffs_length (p q : list b64) : length p = length q -> length (diffs p q) = length p.
Proof. intros L. unfold diffs. rewrite map_length, combine_length. lia. Qed.

Lemma diffs_nonan (p q : list b64) : finite_pos p -> finite_pos q -> Forall (fun x => nan x = false) (diffs p q).
Proof.
  intros A. revert q. induction A as [|x p Fx _ IH]; intros [|y q] B; try constructor.
  - inversion B; subst. now apply minus_val.
  - inversion B; subst. now apply IH.
Qed.

Lemma diffs_small (p q : list b64) : finite_pos p -> finite_pos q -> d2 p q <= 2 ^ 1022 -> finite_pos (diffs p q).
Proof.
  intros A. revert q. induction A as [|x p Fx _ IH]; intros [|y q] B H; try constructor.
  - inversion B; subst. destruct (minus_val x y Fx H2) as (N & V). change (d2 (x :: p) (y :: q)) with ((B2 x - B2 y) ^ 2 + d2 p q) in H.
    pose proof (d2_nonneg p q). assert (Q : Rabs (B2 x - B2 y) <= 2 ^ 1022).
    { destruct (Rle_or_lt 1 (Rabs (B2 x - B2 y))) as [K|K].
      - apply Rle_trans with (Rabs (B2 x - B2 y) ^ 2); [nra|]. rewrite pow2_abs. lra.
      - apply Rle_trans with 1; [lra|]. apply pow_R1_Rle. lra. }
    change (fin (Bminus mode_NE x y) = true). apply val_lt_fin; auto. rewrite V. rewrite <- (bpow_pow 1022) in Q. change (Z.of_nat 1022) with 1022%Z in Q.
    assert (Rb : rnd (bpow radix2 1022) = bpow radix2 1022).
    { assert (E : rnd64 (bpow radix2 1022) = bpow radix2 1022).
      { apply round_generic; auto with typeclass_instances. apply generic_format_bpow. unfold SpecFloat.fexp, SpecFloat.emin. lia. }
      rewrite rnd_small, E; auto. rewrite E, Rabs_pos_eq by apply bpow_ge_0. apply bpow_lt. lia. }
    assert (Tp : bpow radix2 1022 < top) by (apply bpow_lt; lia).
    apply Rabs_le_inv in Q. split.
    + apply Rlt_le_trans with (rnd (- bpow radix2 1022)); [rewrite rnd_opp, Rb; lra|apply rnd_le; lra].
    + apply Rle_lt_trans with (rnd (bpow radix2 1022)); [apply rnd_le; lra|rewrite Rb; lra].
  - inversion B; subst. apply IH; auto. change (d2 (x :: p) (y :: q)) with ((B2 x - B2 y) ^ 2 + d2 p q) in H.
    pose proof (pow2_ge_0 (B2 x - B2 y)). lra.
Qed.

(** The distance function of binary64 positions, with explicit rounding error. *)
Lemma distance_64_bounds (p q : list b64) (d : b64) : finite_pos p -> finite_pos q -> distance (S := F) p q = Ok (d : F) -> fin d = true ->
  0 <= B2 d /\
  (1 - u64) ^ (length p + 5) * euclid (reals p) (reals q) ^ 2 - INR (length p) * eta64 <= B2 d ^ 2 /\
  B2 d ^ 2 <= (1 + u64) ^ (length p + 5) * euclid (reals p) (reals q) ^ 2 + (1 + u64) ^ (length p + 2) * (INR (length p) * eta64).
Proof.
  intros Fp Fq E Fd. destruct (Nat.eq_dec (length p) (length q)) as [L|L].
  2:{ rewrite (proj1 (distance_cases (S := F) p q) L) in E. discriminate. }
  rewrite (distance_64 p q L) in E. assert (E' : n64 (diffs p q) = d) by (injection E; auto). subst d.
  pose proof (n64_finite _ Fd) as FD. destruct (rss_diffs p q Fp Fq FD) as (R1 & R2). destruct (n64_bounds _ Fd) as (P & N1 & N2).
  rewrite (diffs_length p q L) in N1, N2. rewrite (d2_euclid p q L) in R1, R2.
  pose proof u64_pos. pose proof u64_lt1. split; auto. split.
  - replace (length p + 5)%nat with (length p + 3 + 2)%nat by lia. rewrite pow_add.
    assert (0 <= (1 - u64) ^ (length p + 3)) by (apply pow_le; lra).
    apply Rmult_le_compat_l with (r := (1 - u64) ^ (length p + 3)) in R1; auto. lra.
  - replace (length p + 5)%nat with (length p + 3 + 2)%nat by lia. rewrite (pow_add _ (length p + 3) 2).
    assert (0 <= (1 + u64) ^ (length p + 3)) by (apply pow_le; lra).
    apply Rmult_le_compat_l with (r := (1 + u64) ^ (length p + 3)) in R2; auto. lra.
Qed.

Lemma check_find_64 (t : target F) (p : list b64) : length (tg_pos t) = length p -> finite_pos (tg_pos t) -> finite_pos p ->
  fin (tg_size t : b64) = true -> 0 <= B2 (tg_size t) ->
  (check_find t p = Ok true ->
     (1 - u64) ^ (length p + 5) * euclid (reals (tg_pos t)) (reals p) ^ 2 <= B2 (tg_size t) ^ 2 + INR (length p) * eta64) /\
  (B2 (tg_size t) <= 2 ^ 511 ->
   (1 + u64) ^ (length p + 5) * euclid (reals (tg_pos t)) (reals p) ^ 2 + (1 + u64) ^ (length p + 2) * (INR (length p) * eta64) < B2 (tg_size t) ^ 2 ->
   check_find t p = Ok true).
Proof.
  intros L Ft Fp Fs Ps. pose proof (L : @length b64 (tg_pos t) = @length b64 p) as L'. unfold check_find, target_distance.
  pose proof (distance_64 (tg_pos t) p L) as E. set (d := n64 (diffs (tg_pos t) p)) in *.
  rewrite E. cbn [bind]. change (@ltb F) with (@Bltb 53 1024). set (s := tg_size t : b64) in *.
  destruct (n64_cases_nan _ (diffs_nonan (tg_pos t) p Ft Fp)) as [Fd|Fd]; fold d in Fd.
  - destruct (distance_64_bounds (tg_pos t) p d Ft Fp E Fd) as (P & B1 & B2'). rewrite L' in B1, B2'. split.
    + intros H. assert (Lt : Bltb d s = true) by (destruct (Bltb d s); [auto|discriminate]).
      apply (ltb64 d s Fd Fs) in Lt. assert (B2 d ^ 2 <= B2 s ^ 2) by (apply pow_incr; lra). lra.
    + intros _ H. assert (Lt : Bltb d s = true); [|now rewrite Lt]. apply (ltb64 d s Fd Fs).
      apply Rnot_le_lt. intros C. assert (B2 s ^ 2 <= B2 d ^ 2) by (apply pow_incr; lra). lra.
  - split.
    + intros H. exfalso. rewrite Fd in H. destruct s as [|[|]| |[|]]; discriminate.
    + intros Sm H. exfalso. pose proof u64_pos as U0. pose proof eta64_pos as E0. pose proof (pos_INR (length p)) as N0.
      rewrite <- (d2_euclid (tg_pos t) p L') in H. pose proof (d2_nonneg (tg_pos t) p) as D0.
      assert (Hs : B2 s ^ 2 <= 2 ^ 1022). { replace (2 ^ 1022) with ((2 ^ 511) ^ 2) by (rewrite <- pow_mult; reflexivity). apply pow_incr. lra. }
      assert (Q2 : 0 <= (1 + u64) ^ (length p + 2) * (INR (length p) * eta64)) by (apply Rmult_le_pos; [apply pow_le; lra|apply Rmult_le_pos; lra]).
      assert (Q5 : 1 <= (1 + u64) ^ (length p + 5)) by (apply pow_R1_Rle; lra).
      assert (Fdf : finite_pos (diffs (tg_pos t) p)) by (apply diffs_small; auto; nra).
      destruct (rss_diffs _ _ Ft Fp Fdf) as (_ & R2).
      assert (Ff : fin d = true).
      { apply n64_fin_intro; auto. rewrite (diffs_length _ _ L'), L'.
        apply Rle_lt_trans with (2 ^ 1022); [|pose proof pow1023_top; pose proof (pow_lt 2 1022); lra].
        eapply Rle_trans; [|exact Hs]. eapply Rle_trans; [|apply Rlt_le; exact H].
        assert (P0 : 0 < (1 + u64) ^ length p) by (apply pow_lt; lra).
        rewrite !pow_add. set (a := (1 + u64) ^ length p) in *.
        apply Rle_trans with (a * ((1 + u64) * ((1 + u64) ^ 2 * d2 (tg_pos t) p) + INR (length p) * eta64)).
        { apply Rmult_le_compat_l; [lra|]. apply Rplus_le_compat_r. apply Rmult_le_compat_l; lra. }
        assert (I1 : 1 <= (1 + u64) ^ 2) by (apply pow_R1_Rle; lra).
        assert (I2 : (1 + u64) * (1 + u64) ^ 2 <= (1 + u64) ^ 5).
        { change ((1 + u64) * (1 + u64) ^ 2) with ((1 + u64) ^ 3). apply Rle_pow; [lra|lia]. }
        assert (T1 : (1 + u64) * ((1 + u64) ^ 2 * d2 (tg_pos t) p) <= (1 + u64) ^ 5 * d2 (tg_pos t) p).
        { rewrite <- Rmult_assoc. apply Rmult_le_compat_r; auto. }
        assert (T2 : INR (length p) * eta64 <= (1 + u64) ^ 2 * (INR (length p) * eta64)).
        { rewrite <- (Rmult_1_l (INR (length p) * eta64)) at 1. apply Rmult_le_compat_r; auto. apply Rmult_le_pos; lra. }
        rewrite !Rmult_assoc. rewrite <- Rmult_plus_distr_l. apply Rmult_le_compat_l; lra. }
      rewrite Fd in Ff. discriminate.
Qed.
End F.
