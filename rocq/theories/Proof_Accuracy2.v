(** Clock times, numbers of ticks, densities and bin centres on doubles. *)
From Coq Require Import Reals ZArith List Lra Lia.
From Flocq Require Import Core.
From Flocq.IEEE754 Require Import BinarySingleNaN.
From Verif Require Import Base Scalar Float64 Model_Position Spec_Position Proof_Position Proof_Norm64 Proof_Sum64 Proof_Moments64
  Model_Analysis Spec_Analysis Proof_Analysis Proof_Analysis2 Proof_Analysis3 Proof_Analysis5 Proof_Analysis7 Proof_Analysis9 Spec_Accuracy
  Model_Time Spec_Time Proof_Time Proof_Accuracy.
Import ListNotations.
Open Scope R_scope.

(** ** Repeated addition of a step *)
Definition pt (a dt : b64) (k : nat) : b64 := plus_times (S := F64 (Libm (fun x => x) (fun x => x) (fun x _ => x))) a dt k.
Lemma plus_times_pt lm (a dt : b64) k : plus_times (S := F64 lm) a dt k = pt a dt k.
Proof. induction k as [|k IH]; [reflexivity|]. unfold pt in *. cbn [plus_times]. rewrite IH. reflexivity. Qed.
Lemma pt_S a dt k : pt a dt (S k) = Bplus mode_NE (pt a dt k) dt. Proof. reflexivity. Qed.
Lemma pt_fin_le a dt k : fin (pt a dt (S k)) = true -> fin (pt a dt k) = true.
Proof. rewrite pt_S. intros H. now apply plus_fin_inv in H. Qed.

(** [k] additions to [a]. *)
Lemma pt_err (a dt : b64) : 0 <= B2 dt -> forall k, fin (pt a dt k) = true ->
  Rabs (B2 (pt a dt k) - (B2 a + INR k * B2 dt)) <= ((1 + u64) ^ k - 1) * (Rabs (B2 a) + INR k * B2 dt).
Proof.
  intros P. pose proof u64_pos as U. induction k as [|k IH]; intros F.
  - unfold pt. cbn [plus_times]. simpl. replace (B2 a - (B2 a + 0 * B2 dt)) with 0 by ring. rewrite Rabs_R0. lra.
  - pose proof (pt_fin_le a dt k F) as Fk. specialize (IH Fk). rewrite pt_S in *. destruct (plus_abs _ _ F) as (E1 & _).
    rewrite S_INR, <- tech_pow_Rmult. set (t := B2 (pt a dt k)) in *. set (t' := B2 (Bplus mode_NE (pt a dt k) dt)) in *.
    pose proof (g_pow k) as G. set (g := (1 + u64) ^ k) in *. pose proof (pos_INR k) as K0. set (K := INR k) in *. set (d := B2 dt) in *.
    pose proof (Rabs_pos (B2 a)) as A0. set (A := Rabs (B2 a)) in *. assert (Kd : 0 <= K * d) by (apply Rmult_le_pos; lra).
    rewrite (Rabs_pos_eq d) in E1 by lra.
    assert (T : Rabs t <= g * (A + K * d)).
    { replace t with ((t - (B2 a + K * d)) + (B2 a + K * d)) by ring. eapply Rle_trans; [apply Rabs_triang|].
      pose proof (Rabs_triang (B2 a) (K * d)) as T2. rewrite (Rabs_pos_eq (K * d)) in T2 by lra. fold A in T2. lra. }
    replace (t' - (B2 a + (K + 1) * d)) with ((t' - (t + d)) + (t - (B2 a + K * d))) by ring. eapply Rle_trans; [apply Rabs_triang|].
    assert (M : u64 * (Rabs t + d) <= u64 * (g * (A + K * d) + d)) by (apply Rmult_le_compat_l; lra).
    replace (((1 + u64) * g - 1) * (A + (K + 1) * d)) with (u64 * (g * (A + K * d) + d) + (g - 1) * (A + K * d) + ((1 + u64) * g - 1 - u64) * d) by ring.
    assert (0 <= ((1 + u64) * g - 1 - u64) * d) by (apply Rmult_le_pos; [nra|lra]). lra.
Qed.

Lemma two52 k : INR k <= 2 ^ 52 -> 2 * INR k * u64 <= 1.
Proof.
  intros H. pose proof u64_pos. unfold u64. apply Rmult_le_reg_r with (2 ^ 53); [apply pow_lt; lra|].
  rewrite Rmult_assoc, Rinv_l by (apply pow_nonzero; lra). rewrite Rmult_1_r, Rmult_1_l. replace (2 ^ 53) with (2 * 2 ^ 52) by (simpl; lra). lra.
Qed.

Lemma clock_err (dt : b64) k : 0 <= B2 dt -> INR k <= 2 ^ 52 -> fin (pt (b64_of_Z 0) dt k) = true ->
  Rabs (B2 (pt (b64_of_Z 0) dt k) - INR k * B2 dt) <= 2 * INR k * u64 * (INR k * B2 dt).
Proof.
  intros P K F. pose proof (pt_err _ _ P k F) as E. destruct zero64 as (_ & Z). rewrite Z, Rabs_R0, !Rplus_0_l in E.
  pose proof (g_lin k (two52 k K)) as G. pose proof (pos_INR k) as K0. assert (0 <= INR k * B2 dt) by (apply Rmult_le_pos; lra).
  apply Rle_trans with (1 := E). apply Rmult_le_compat_r; lra.
Qed.

(** The first time that is no longer at most [tmax], finite or overflowed. *)
Lemma clock_over (dt tmax : b64) k : 0 <= B2 dt -> INR (S k) <= 2 ^ 52 -> fin dt = true -> fin tmax = true -> fin (pt (b64_of_Z 0) dt k) = true ->
  Bleb (pt (b64_of_Z 0) dt (S k)) tmax = false -> B2 tmax < INR (S k) * B2 dt * (1 + 2 * INR (S k) * u64).
Proof.
  intros P K Fd Ft F H. rewrite pt_S in H. set (t := pt (b64_of_Z 0) dt k) in *.
  destruct (plus_val t dt F Fd) as (Nn & V).
  assert (NT : nan tmax = false) by (destruct tmax; easy).
  apply nleb_ltb in H; auto. apply ltb_val in H; auto. rewrite V, (val_fin tmax) in H by auto.
  destruct zero64 as (_ & Z). pose proof u64_pos as U.
  pose proof (pt_err _ _ P k F) as E. rewrite Z, Rabs_R0, !Rplus_0_l in E. fold t in E. apply Rabs_le_inv in E.
  pose proof (g_lin (S k) (two52 _ K)) as G. rewrite <- tech_pow_Rmult in G. pose proof (g_pow k) as G1. set (g := (1 + u64) ^ k) in *.
  pose proof (rnd64_plus t dt) as Er.
  assert (T0 : - top < rnd64 (B2 t + B2 dt)).
  { apply Rnot_le_lt. intros Q. assert (rnd (B2 t + B2 dt) = - top). { unfold rnd, clamp. pose proof top_pos. repeat destruct Rle_dec; lra. }
    pose proof (B2_bound tmax). lra. }
  assert (C : rnd (B2 t + B2 dt) <= rnd64 (B2 t + B2 dt)) by (unfold rnd, clamp; repeat destruct Rle_dec; lra).
  assert (Tn : 0 <= B2 t). { 
    pose proof (pos_INR k) as K0. assert (D : 0 <= INR k * B2 dt) by (apply Rmult_le_pos; lra).
    assert (L : INR k <= 2 ^ 52) by (rewrite S_INR in K; lra). pose proof (g_lin k (two52 k L)) as Gk. fold g in Gk. pose proof (two52 k L).
    assert ((g - 1) * (INR k * B2 dt) <= 1 * (INR k * B2 dt)) by (apply Rmult_le_compat_r; lra). lra. }
  rewrite (Rabs_pos_eq (B2 t + B2 dt)) in Er by lra. apply Rabs_le_inv in Er. rewrite S_INR in *. set (K' := INR k) in *. set (d := B2 dt) in *.
  assert (W : B2 t + d <= g * ((K' + 1) * d)).
  { replace (g * ((K' + 1) * d)) with ((g - 1) * (K' * d) + K' * d + g * d) by ring. assert (1 * d <= g * d) by (apply Rmult_le_compat_r; lra). lra. }
  assert (W2 : (1 + u64) * (B2 t + d) <= (1 + u64) * (g * ((K' + 1) * d))) by (apply Rmult_le_compat_l; lra).
  assert (Kp : 0 <= (K' + 1) * d) by (apply Rmult_le_pos; [unfold K'; pose proof (pos_INR k); lra|lra]).
  assert (W3 : (1 + u64) * g * ((K' + 1) * d) <= (1 + 2 * (K' + 1) * u64) * ((K' + 1) * d)) by (apply Rmult_le_compat_r; lra).
  lra.
Qed.
