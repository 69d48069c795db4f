(** The times of the constant clock and the mean of an ensemble on doubles. *)
From Coq Require Import Reals ZArith List Lra Lia.
From Flocq Require Import Core.
From Flocq.IEEE754 Require Import BinarySingleNaN.
From Verif Require Import Base Scalar Float64 Model_Position Spec_Position Proof_Position Proof_Norm64 Proof_Sum64 Proof_Rel64 Proof_Moments64
  Spec_Accuracy Model_Time Spec_Time Proof_Time Proof_Accuracy Proof_Accuracy2 Model_Search Spec_Search Proof_Search Proof_Search3.
Import ListNotations.
Open Scope R_scope.

Lemma fin_nan (x : b64) : fin x = true -> nan x = false. Proof. destruct x; easy. Qed.
(** Times that are at most a finite end time are finite: a sum of finite non-negative numbers that overflows is +infinity. *)
Lemma pt_fin (dt tmax : b64) : fin dt = true -> 0 <= B2 dt -> fin tmax = true -> forall k, (forall j, (j <= k)%nat -> Bleb (pt (b64_of_Z 0) dt j) tmax = true) ->
  fin (pt (b64_of_Z 0) dt k) = true /\ 0 <= B2 (pt (b64_of_Z 0) dt k).
Proof.
  intros Fd Pd Ft. destruct zero64 as (Z1 & Z2). induction k as [|k IH]; intros H.
  - unfold pt. cbn [plus_times]. rewrite Z2. split; [exact Z1|lra].
  - destruct (IH ltac:(intros; apply H; lia)) as (F & P). pose proof (H (S k) ltac:(lia)) as L. rewrite pt_S in *.
    destruct (plus_val _ _ F Fd) as (Nn & V). set (z := Bplus mode_NE (pt (b64_of_Z 0) dt k) dt) in *.
    assert (R0 : 0 <= rnd64 (B2 (pt (b64_of_Z 0) dt k) + B2 dt)).
    { rewrite <- (round_0 radix2 fexp64 (round_mode mode_NE)). apply round_le; auto with typeclass_instances. lra. }
    assert (V0 : 0 <= val z). { rewrite V. unfold rnd, clamp. pose proof top_pos. repeat destruct Rle_dec; lra. }
    assert (Fz : fin z = true).
    { clear - L V0 Nn Ft. destruct z as [|[|]| |], tmax as [|[|]| |]; try easy; exfalso; unfold val in V0; cbn in V0; pose proof top_pos; try lra; discriminate. }
    split; auto. rewrite val_fin in V0 by auto. exact V0.
Qed.

Lemma clock_times lm n (s s' : conststep (F64 lm)) (vs : list b64) : cs_current s = b64_of_Z 0 -> fin (cs_dt s) = true -> 0 <= B2 (cs_dt s) -> fin (cs_tmax s) = true ->
  collect cs_next n s = Ok (vs, s') -> forall k v, nth_error vs k = Some v -> INR k <= 2 ^ 52 ->
  fin v = true /\ Rabs (B2 v - INR k * B2 (cs_dt s)) <= 2 * INR k * u64 * (INR k * B2 (cs_dt s)).
Proof.
  intros C Fd Pd Ft H k v Hv Hk. destruct (cs_collect n s) as (vs' & s1 & H' & _ & A & _). rewrite H in H'.
  assert (X : forall (a b : list b64 * conststep (F64 lm)), Ok a = Ok b -> a = b) by congruence. apply X in H'. assert (vs' = vs) by congruence. subst vs'. clear H' X.
  rewrite C in A.
  assert (A' : forall j w, nth_error vs j = Some w -> w = pt (b64_of_Z 0) (cs_dt s) j /\ Bleb w (cs_tmax s) = true).
  { intros j w Hw. destruct (A j w Hw) as (E & L). split; [rewrite <- (plus_times_pt lm); exact E|exact L]. }
  assert (F : fin (pt (b64_of_Z 0) (cs_dt s) k) = true).
  { apply (pt_fin _ (cs_tmax s)); auto. intros j Hj. destruct (nth_error vs j) as [w|] eqn:E; [destruct (A' j w E) as (<- & L); exact L|].
    apply nth_error_None in E. assert (nth_error vs k <> None) by congruence. apply nth_error_Some in H0. lia. }
  destruct (A' k v Hv) as (-> & _). split; auto. now apply clock_err.
Qed.

Lemma tick_count lm (s : conststep (F64 lm)) (vs : list b64) : cs_current s = b64_of_Z 0 -> fin (cs_dt s) = true -> 0 <= B2 (cs_dt s) -> fin (cs_tmax s) = true ->
  0 <= B2 (cs_tmax s) -> yields_all cs_next s vs -> INR (length vs) <= 2 ^ 52 -> let n := INR (length vs) in
  (n - 1) * B2 (cs_dt s) * (1 - 2 * n * u64) <= B2 (cs_tmax s) < n * B2 (cs_dt s) * (1 + 2 * n * u64).
Proof.
  intros C Fd Pd Ft P0 (s1 & s2 & H & Hn) Hk n.
  change (collect cs_next (@length b64 vs) s = Ok (vs, s1)) in H. destruct (cs_collect (@length b64 vs) s) as (vs' & s1' & H' & _ & A & _ & Es).
  assert (H2 : Ok (vs, s1) = Ok (vs', s1')) by (transitivity (collect cs_next (@length b64 vs) s); [symmetry; exact H|exact H']). clear H'. rename H2 into H'.
  assert (X : forall (a b : list b64 * conststep (F64 lm)), Ok a = Ok b -> a = b) by congruence. apply X in H'. assert (vs' = vs) by congruence. assert (E1 : s1' = s1) by congruence. subst vs'. rewrite E1 in Es. clear H' X E1 s1'.
  rewrite C in A, Es.
  assert (A' : forall j w, nth_error vs j = Some w -> w = pt (b64_of_Z 0) (cs_dt s) j /\ Bleb w (cs_tmax s) = true).
  { intros j w Hw. destruct (A j w Hw) as (E & L). split; [rewrite <- (plus_times_pt lm); exact E|exact L]. }
  assert (AL : forall j, (j < length vs)%nat -> Bleb (pt (b64_of_Z 0) (cs_dt s) j) (cs_tmax s) = true).
  { intros j Hj. destruct (nth_error vs j) as [w|] eqn:E; [destruct (A' j w E) as (<- & L); exact L|]. apply nth_error_None in E. lia. }
  assert (O : Bleb (pt (b64_of_Z 0) (cs_dt s) (length vs)) (cs_tmax s) = false).
  { rewrite <- (plus_times_pt lm). rewrite Es in Hn. unfold cs_next in Hn. cbn [cs_current cs_dt cs_tmax cs_titype] in Hn.
    match type of Hn with context [if ?b then _ else _] => change b with (Bleb (plus_times (S := F64 lm) (b64_of_Z 0) (cs_dt s) (length vs)) (cs_tmax s)) in Hn; destruct (Bleb (plus_times (S := F64 lm) (b64_of_Z 0) (cs_dt s) (length vs)) (cs_tmax s)) end; [discriminate|reflexivity]. }
  assert (N1 : (1 <= length vs)%nat).
  { destruct vs as [|v vs]; [exfalso|cbn [length]; lia]. cbn [length] in O. unfold pt in O. cbn [plus_times] in O. destruct zero64 as (Z1 & Z2).
    assert (NT : nan (cs_tmax s) = false) by now apply fin_nan. assert (NZ : nan (b64_of_Z 0) = false) by now apply fin_nan.
    apply nleb_ltb in O; auto. apply ltb_val in O; auto. rewrite !val_fin in O by auto. lra. }
  destruct (length vs) as [|k] eqn:E; [lia|]. clear N1.
  assert (Fk : fin (pt (b64_of_Z 0) (cs_dt s) k) = true) by (apply (pt_fin _ (cs_tmax s)); auto; intros j Hj; apply AL; lia).
  unfold n. split.
  - pose proof (AL k ltac:(lia)) as L. pose proof (clock_err _ k Pd ltac:(rewrite S_INR in Hk; lra) Fk) as Er. apply Rabs_le_inv in Er.
    apply leb_val in L; [|now apply fin_nan|now apply fin_nan]. rewrite !val_fin in L by auto. rewrite S_INR. pose proof u64_pos. pose proof (pos_INR k) as K0.
    replace (INR k + 1 - 1) with (INR k) by ring. assert (Kd : 0 <= INR k * B2 (cs_dt s)) by (apply Rmult_le_pos; lra).
    assert (0 <= 2 * u64 * (INR k * B2 (cs_dt s))) by (apply Rmult_le_pos; lra). 
    replace (INR k * B2 (cs_dt s) * (1 - 2 * (INR k + 1) * u64)) with (INR k * B2 (cs_dt s) - 2 * INR k * u64 * (INR k * B2 (cs_dt s)) - 2 * u64 * (INR k * B2 (cs_dt s))) by ring. lra.
  - apply clock_over; auto.
Qed.

Lemma ensemble_accuracy lm (G : rng (F64 lm)) (sample : rstate G -> rstate G * outcome (F64 lm)) num g g' (m : b64) :
  ensemble_mean (S := F64 lm) sample num g = (g', Ok m) ->
  exists ts : list b64, sampled (X := F64 lm) sample g ts g' /\ length ts = num /\ (moderate ts -> near_average m ts).
Proof.
  intros H. destruct (@mean_any (F64 lm) G sample num g) as [(ts & g1 & Hs & L & E)|(k & g1 & o & _ & Hf & E)].
  - rewrite H in E. assert (Eg : g1 = g') by congruence. assert (Em : Ok m = Ok (@div (F64 lm) (fold_left (@add (F64 lm)) ts s0) (of_Z (Z.of_nat num)))) by congruence.
    assert (X : forall a b : b64, Ok a = Ok b -> a = b) by congruence. apply X in Em. subst g1. exists ts. split; [exact Hs|]. split; [exact L|].
    intros M. rewrite Em, <- L. exact (mean64_near ts M).
  - exfalso. destruct Hf as (ts & g2 & _ & _ & _ & N). rewrite H in E. apply (N m). assert (X : forall (a b : rstate G) (x y : outcome (F64 lm)), (a, x) = (b, y) -> y = x) by congruence. exact (X _ _ _ _ E).
Qed.
