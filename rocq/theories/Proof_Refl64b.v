(** The scalar part of the exact reflection at a sphere in double precision: crossing parameter and the two factors. *)
From Coq Require Import Reals ZArith List Lra Lia.
From Flocq Require Import Core.
From Flocq.IEEE754 Require Import BinarySingleNaN.
From Verif Require Import Base Scalar Float64 Model_Position Spec_Position Proof_Norm64 Proof_Sum64 Proof_Force64 Proof_Refl64.
Import ListNotations.
Local Open Scope R_scope.

Definition rg (k : nat) (x : R) : Prop := / 2 ^ k <= x <= 2 ^ k.
Lemma p2 k : 0 < 2 ^ k. Proof. apply pow_lt. lra. Qed.
Lemma i2 k : 0 < / 2 ^ k. Proof. apply Rinv_0_lt_compat, p2. Qed.
Lemma rg_pos k x : rg k x -> 0 < x. Proof. intros (A & _). pose proof (i2 k). lra. Qed.
Lemma rg_mul k l x y : rg k x -> rg l y -> rg (k + l) (x * y).
Proof.
  intros X Y. pose proof (rg_pos _ _ X). pose proof (rg_pos _ _ Y). destruct X as (A & B), Y as (C & D). unfold rg. rewrite pow_add, Rinv_mult. split; apply Rmult_le_compat; try lra; apply Rlt_le, i2.
Qed.
Lemma rg_ok k x : (k <= 900)%nat -> rg k x -> okW x.
Proof.
  intros K (A & B). assert (2 ^ k <= 2 ^ 900) by (apply Rle_pow; [lra|lia]). split; [|lra]. apply Rle_trans with (2 := A). apply Rinv_le_contravar; [apply p2|assumption].
Qed.
Lemma rg_le k l x : (k <= l)%nat -> rg k x -> rg l x.
Proof.
  intros K (A & B). assert (2 ^ k <= 2 ^ l) by (apply Rle_pow; [lra|lia]). split; [|lra]. apply Rle_trans with (2 := A). apply Rinv_le_contravar; [apply p2|assumption].
Qed.
Lemma rg_small x : 1 / 16 <= x <= 16 -> rg 4 x. Proof. intros H. unfold rg. replace (2 ^ 4) with 16 by (simpl; lra). lra. Qed.

Definition one : b64 := b64_of_Z 1.
Definition two : b64 := b64_of_Z 2.
Lemma one_ap : ap one 1 1 0. Proof. destruct (of_Z_exact 1) as (F & V); [lia|]. split; [exact F|]. unfold one. rewrite V, Rabs_pos_eq by lra. split; [lra|]. rewrite Rminus_diag_eq, Rabs_R0 by reflexivity. lra. Qed.
Lemma two_ap : ap two 2 2 0. Proof. destruct (of_Z_exact 2) as (F & V); [lia|]. split; [exact F|]. unfold two. rewrite V, Rabs_pos_eq by lra. split; [lra|]. rewrite Rminus_diag_eq, Rabs_R0 by reflexivity. lra. Qed.

Definition refl_t (r0 r dr rdr : b64) : b64 :=
  Bdiv mode_NE (Bplus mode_NE (Bopp rdr) (Bsqrt mode_NE (Bplus mode_NE (Bmult mode_NE rdr rdr)
    (Bmult mode_NE (Bmult mode_NE dr dr) (Bminus mode_NE (Bmult mode_NE r0 r0) (Bmult mode_NE r r)))))) (Bmult mode_NE dr dr).
Definition refl_k (r0 dr rdr t : b64) : b64 :=
  Bdiv mode_NE (Bmult mode_NE (Bminus mode_NE one t) (Bplus mode_NE rdr (Bmult mode_NE (Bmult mode_NE t dr) dr))) (Bmult mode_NE r0 r0).
Definition fac1 (k : b64) : b64 := Bminus mode_NE one (Bmult mode_NE two k).
Definition fac2 (k t : b64) : b64 := Bminus mode_NE one (Bmult mode_NE (Bmult mode_NE two k) t).

Section Chain.
Variables (x0 xr xd xb : b64) (R0 d P b c A w t k : R).
Hypothesis HR : rg 200 R0.
Hypothesis Hd : / 2 ^ 46 * R0 <= d <= 2 * R0.
Hypothesis HP : 0 <= P <= R0.
Hypothesis Hb : b * b <= P * P * (d * d).
Hypothesis HA : 4 * u64 <= A.
Hypothesis Hc : 0 < c <= 1.
Hypothesis HAc : 2048 * A <= c * c.
Hypothesis A0 : ap x0 R0 R0 0.
Hypothesis Ar : ap xr P R0 (4 * A).
Hypothesis Ad : ap xd d d A.
Hypothesis Ab : ap xb b (R0 * d) (7 * A).
Hypothesis Hw : w = sqrt (b * b + d * d * (R0 * R0 - P * P)).
Hypothesis Hcw : c * (R0 * d) <= w.
Hypothesis Ht : t * (d * d) = w - b.
Hypothesis Ht1 : 0 <= t <= 1.
Hypothesis Hk : k * (R0 * R0) = (1 - t) * w.

Let B := A / c.

Lemma A_small : 0 < A <= / 2048. Proof. pose proof u64_pos. split; [lra|]. assert (c * c <= 1) by nra. lra. Qed.
Lemma AB : A <= B /\ B <= / 2048 /\ c * B = A /\ 0 < B.
Proof.
  pose proof A_small as (a0 & _). assert (E : c * B = A) by (unfold B; field; lra). assert (B0 : 0 < B) by (apply Rdiv_lt_0_compat; lra). repeat split; auto.
  - nra.
  - assert (2048 * (c * B) <= c * c) by (rewrite E; lra). apply Rmult_le_reg_l with (2048 * c); [lra|]. nra.
Qed.
Lemma R_pos : 0 < R0. Proof. exact (rg_pos _ _ HR). Qed.
Lemma d_pos : 0 < d. Proof. pose proof R_pos. pose proof (i2 46). nra. Qed.
Lemma d_rg : rg 246 d.
Proof.
  destruct HR as (L & H). split.
  - replace 246%nat with (46 + 200)%nat by reflexivity. rewrite pow_add, Rinv_mult. pose proof (i2 46). apply Rle_trans with (/ 2 ^ 46 * R0); [apply Rmult_le_compat_l; lra|lra].
  - apply Rle_trans with (2 * 2 ^ 200); [lra|]. change (2 * 2 ^ 200) with (2 ^ 201). apply Rle_pow; [lra|lia].
Qed.
Lemma q_rg : rg 46 (R0 / d) /\ 1 / 2 <= R0 / d.
Proof.
  pose proof R_pos. pose proof d_pos. pose proof (p2 46). assert (H2 : 1 / 2 <= R0 / d) by (apply Rmult_le_reg_r with d; [lra|]; unfold Rdiv; rewrite (Rmult_assoc R0), Rinv_l; lra).
  split; [|exact H2]. split.
  - apply Rle_trans with (1 / 2); [|exact H2]. unfold Rdiv. rewrite Rmult_1_l. apply Rinv_le_contravar; [lra|]. rewrite <- (pow_1 2) at 1. apply Rle_pow; [lra|lia].
  - apply Rmult_le_reg_r with d; [lra|]. unfold Rdiv. rewrite Rmult_assoc, Rinv_l, Rmult_1_r by lra. replace R0 with (2 ^ 46 * (/ 2 ^ 46 * R0)) by (field; apply pow_nonzero; lra). apply Rmult_le_compat_l; lra.
Qed.
Lemma dq : d * (R0 / d) = R0. Proof. pose proof d_pos. field. lra. Qed.
Lemma le900 k0 x : (k0 <= 900)%nat -> rg k0 x -> 0 <= x <= 2 ^ 900.
Proof. intros K H. pose proof (rg_pos _ _ H). destruct (rg_ok _ _ K H) as (_ & L). lra. Qed.

Lemma b_le : Rabs b <= R0 * d. Proof. exact (proj1 (proj2 Ab)). Qed.
Let D := b * b + d * d * (R0 * R0 - P * P).
Lemma D_bound : 0 <= D <= (R0 * d) * (R0 * d).
Proof. unfold D. pose proof d_pos. assert (0 <= R0 * R0 - P * P) by nra. assert (0 <= d * d) by nra. split; [assert (0 <= b * b) by nra; assert (0 <= d * d * (R0 * R0 - P * P)) by (apply Rmult_le_pos; lra); lra|lra]. Qed.
Lemma w_facts : w * w = D /\ 0 < w <= R0 * d.
Proof.
  pose proof D_bound as (D0 & D1). pose proof R_pos. pose proof d_pos. assert (RD : 0 < R0 * d) by (apply Rmult_lt_0_compat; lra). assert (E : w * w = D) by (rewrite Hw; apply sqrt_sqrt; exact D0).
  assert (0 < w) by (apply Rlt_le_trans with (2 := Hcw); apply Rmult_lt_0_compat; lra). split; [exact E|]. split; [assumption|]. apply Rnot_lt_le. intros Q. nra.
Qed.

(** One step of the numbers: all bounds are multiples of [A] or [B]. *)
Ltac num := pose proof AB as (? & ? & ? & ?); pose proof A_small as (? & ?); pose proof u64_pos; 
  assert (A * A <= / 2048 * A) by (apply Rmult_le_compat_r; lra); assert (B * B <= / 2048 * B) by (apply Rmult_le_compat_r; lra); assert (A * B <= / 2048 * B) by (apply Rmult_le_compat_r; lra).

Lemma s_rr : ap (Bmult mode_NE xr xr) (P * P) (R0 * R0) (10 * A).
Proof.
  num. pose proof R_pos. eapply ap_weak; [apply (ap_mul _ _ _ _ _ _ _ _ Ar Ar); [lra|lra|]|nra|nra]. apply (rg_ok 400); [lia|]. exact (rg_mul 200 200 _ _ HR HR).
Qed.
Lemma s_00 : ap (Bmult mode_NE x0 x0) (R0 * R0) (R0 * R0) (2 * A).
Proof.
  num. pose proof R_pos. eapply ap_weak; [apply (ap_mul _ _ _ _ _ _ _ _ A0 A0); [lra|lra|]|nra|lra]. apply (rg_ok 400); [lia|]. exact (rg_mul 200 200 _ _ HR HR).
Qed.
Lemma s_g : ap (Bminus mode_NE (Bmult mode_NE x0 x0) (Bmult mode_NE xr xr)) (R0 * R0 - P * P) (R0 * R0) (13 * A).
Proof.
  num. pose proof R_pos. assert (V : 0 <= R0 * R0 <= 2 ^ 900) by exact (le900 400 _ ltac:(lia) (rg_mul 200 200 _ _ HR HR)).
  assert (0 <= P * P) by nra. assert (P * P <= R0 * R0) by nra.
  apply (ap_minus _ _ _ _ _ _ _ _ _ _ s_00 s_rr); [rewrite Rabs_pos_eq; lra| |lra|exact V].
  replace (2 * A * (R0 * R0) + 10 * A * (R0 * R0) + u64 * (R0 * R0 + (2 * A * (R0 * R0) + 10 * A * (R0 * R0)))) with ((12 * A + u64 + u64 * (12 * A)) * (R0 * R0)) by ring.
  apply Rmult_le_compat_r; [lra|]. assert (u64 * (12 * A) <= A * (12 * A)) by (apply Rmult_le_compat_r; lra). lra.
Qed.
Lemma s_dd : ap (Bmult mode_NE xd xd) (d * d) (d * d) (4 * A).
Proof.
  num. pose proof d_pos. eapply ap_weak; [apply (ap_mul _ _ _ _ _ _ _ _ Ad Ad); [lra|lra|]|nra|lra]. apply (rg_ok 492); [lia|]. exact (rg_mul 246 246 _ _ d_rg d_rg).
Qed.
Lemma s_bb : ap (Bmult mode_NE xb xb) (b * b) ((R0 * d) * (R0 * d)) (16 * A).
Proof.
  num. pose proof d_pos. pose proof R_pos. eapply ap_weak; [apply (ap_mul _ _ _ _ _ _ _ _ Ab Ab); [lra|lra|]|nra|lra]. pose proof (rg_mul 200 246 _ _ HR d_rg) as Q. apply (rg_ok 892); [lia|]. exact (rg_mul 446 446 _ _ Q Q).
Qed.
Lemma s_D : ap (Bplus mode_NE (Bmult mode_NE xb xb) (Bmult mode_NE (Bmult mode_NE xd xd) (Bminus mode_NE (Bmult mode_NE x0 x0) (Bmult mode_NE xr xr)))) D ((R0 * d) * (R0 * d)) (36 * A).
Proof.
  num. pose proof d_pos. pose proof R_pos. pose proof D_bound as (D0 & D1).
  assert (M : ap (Bmult mode_NE (Bmult mode_NE xd xd) (Bminus mode_NE (Bmult mode_NE x0 x0) (Bmult mode_NE xr xr))) (d * d * (R0 * R0 - P * P)) (d * d * (R0 * R0)) (19 * A)).
  { eapply ap_weak; [apply (ap_mul _ _ _ _ _ _ _ _ s_dd s_g); [lra|lra|]|nra|lra]. apply (rg_ok 892); [lia|]. exact (rg_mul 492 400 _ _ (rg_mul 246 246 _ _ d_rg d_rg) (rg_mul 200 200 _ _ HR HR)). }
  pose proof (rg_mul 200 246 _ _ HR d_rg) as Q. assert (V : 0 <= R0 * d * (R0 * d) <= 2 ^ 900) by exact (le900 892 _ ltac:(lia) (rg_mul 446 446 _ _ Q Q)).
  unfold D. apply (ap_plus _ _ _ _ _ _ _ _ _ _ s_bb M); [fold D; rewrite Rabs_pos_eq; lra| |lra|exact V].
  set (V0 := R0 * d * (R0 * d)) in *. replace (d * d * (R0 * R0)) with V0 by (unfold V0; ring).
  replace (16 * A * V0 + 19 * A * V0 + u64 * (V0 + (16 * A * V0 + 19 * A * V0))) with ((35 * A + u64 + u64 * (35 * A)) * V0) by ring. apply Rmult_le_compat_r; [lra|].
  assert (u64 * (35 * A) <= A * (35 * A)) by (apply Rmult_le_compat_r; lra). lra.
Qed.
Lemma s_w : ap (Bsqrt mode_NE (Bplus mode_NE (Bmult mode_NE xb xb) (Bmult mode_NE (Bmult mode_NE xd xd) (Bminus mode_NE (Bmult mode_NE x0 x0) (Bmult mode_NE xr xr))))) w (R0 * d) (37 * B).
Proof.
  num. pose proof d_pos. pose proof R_pos. pose proof w_facts as (W2 & W0 & W1). assert (RD : 0 < R0 * d) by (apply Rmult_lt_0_compat; lra).
  rewrite Hw. fold D. apply ap_weak with (36 * A / c + 2 * u64); [|lra|unfold B in *; lra]. apply ap_sqrt; [exact s_D|exact RD|exact Hc| |lra].
  fold D. rewrite <- W2. apply Rmult_le_compat; try (apply Rmult_le_pos; lra); exact Hcw.
Qed.
Lemma s_t : ap (refl_t x0 xr xd xb) t (2 * (R0 / d)) (30 * B).
Proof.
  num. pose proof d_pos. pose proof R_pos. pose proof w_facts as (W2 & W0 & W1). assert (RD : 0 < R0 * d) by (apply Rmult_lt_0_compat; lra).
  assert (N : ap (Bplus mode_NE (Bopp xb) (Bsqrt mode_NE (Bplus mode_NE (Bmult mode_NE xb xb) (Bmult mode_NE (Bmult mode_NE xd xd) (Bminus mode_NE (Bmult mode_NE x0 x0) (Bmult mode_NE xr xr)))))) (t * (d * d)) (2 * (R0 * d)) (23 * B)).
  { replace (t * (d * d)) with (- b + w) by lra. apply (ap_plus _ _ _ _ _ _ _ _ _ _ (ap_opp _ _ _ _ Ab) s_w); [| |lra|].
    - replace (- b + w) with (t * (d * d)) by lra. assert (0 <= d * d) by nra. rewrite Rabs_pos_eq by (apply Rmult_le_pos; lra). nra.
    - set (V := R0 * d) in *. replace (7 * A * V + 37 * B * V + u64 * (2 * V + (7 * A * V + 37 * B * V))) with ((7 * A + 37 * B + u64 * (2 + 7 * A + 37 * B)) * V) by ring.
      replace (23 * B * (2 * V)) with (46 * B * V) by ring. apply Rmult_le_compat_r; [lra|]. assert (u64 * (2 + 7 * A + 37 * B) <= u64 * 3) by (apply Rmult_le_compat_l; lra). lra.
    - apply (le900 (4 + 446) _ ltac:(lia)). apply rg_mul; [apply rg_small; lra|]. exact (rg_mul 200 246 _ _ HR d_rg). }
  replace t with (t * (d * d) / (d * d)) by (field; lra). replace (2 * (R0 / d)) with (2 * (R0 * d) / (d * d)) by (field; lra).
  eapply ap_weak; [apply (ap_div _ _ _ _ _ _ _ N s_dd); [nra|lra|lra|]| |].
  - replace (2 * (R0 * d) / (d * d)) with (2 * (R0 / d)) by (field; lra). apply (rg_ok (4 + 46) _ ltac:(lia)). apply rg_mul; [apply rg_small; lra|]. exact (proj1 q_rg).
  - apply Rlt_le. apply Rdiv_lt_0_compat; nra.
  - assert ((23 * B + 4 * A) * (1 + 2 * (4 * A)) = 23 * B + 4 * A + 184 * (A * B) + 32 * (A * A)) as -> by ring. lra.
Qed.
Lemma s_1t : ap (Bminus mode_NE one (refl_t x0 xr xd xb)) (1 - t) (2 * (R0 / d)) (32 * B).
Proof.
  num. destruct q_rg as (Q1 & Q2). assert (V : 0 <= 2 * (R0 / d) <= 2 ^ 900) by (apply (le900 (4 + 46) _ ltac:(lia)); apply rg_mul; [apply rg_small; lra|exact Q1]).
  apply (ap_minus _ _ _ _ _ _ _ _ _ _ one_ap s_t); [rewrite Rabs_pos_eq; lra| |lra|exact V].
  set (V0 := 2 * (R0 / d)) in *. assert (1 <= V0) by (unfold V0; lra). replace (0 * 1 + 30 * B * V0 + u64 * (V0 + (0 * 1 + 30 * B * V0))) with ((30 * B + u64 + u64 * (30 * B)) * V0) by ring.
  apply Rmult_le_compat_r; [lra|]. assert (u64 * (30 * B) <= A * (30 * B)) by (apply Rmult_le_compat_r; lra). lra.
Qed.
Lemma s_td : ap (Bmult mode_NE (Bmult mode_NE (refl_t x0 xr xd xb) xd) xd) (t * d * d) (2 * (R0 * d)) (36 * B).
Proof.
  num. pose proof d_pos. pose proof R_pos. destruct q_rg as (Q1 & Q2). assert (q2 : rg 50 (2 * (R0 / d))) by (apply (rg_mul 4 46); [apply rg_small; lra|exact Q1]).
  assert (E1 : 2 * (R0 / d) * d = 2 * R0) by (field; lra). assert (E2 : 2 * R0 * d = 2 * (R0 * d)) by ring.
  assert (M : ap (Bmult mode_NE (refl_t x0 xr xd xb) xd) (t * d) (2 * R0) (33 * B)).
  { rewrite <- E1. eapply ap_weak; [apply (ap_mul _ _ _ _ _ _ _ _ s_t Ad); [lra|lra|]|rewrite E1; lra|]; [|lra]. rewrite E1. apply (rg_ok 204 _ ltac:(lia)). apply (rg_mul 4 200); [apply rg_small; lra|exact HR]. }
  rewrite <- E2. eapply ap_weak; [apply (ap_mul _ _ _ _ _ _ _ _ M Ad); [lra|lra|]| |]; [| |lra].
  - apply (rg_ok 450 _ ltac:(lia)). apply (rg_mul 204 246); [|exact d_rg]. apply (rg_mul 4 200); [apply rg_small; lra|exact HR].
  - apply Rmult_le_pos; lra.
Qed.
Lemma s_w2 : ap (Bplus mode_NE xb (Bmult mode_NE (Bmult mode_NE (refl_t x0 xr xd xb) xd) xd)) w (R0 * d) (80 * B).
Proof.
  num. pose proof d_pos. pose proof R_pos. pose proof w_facts as (W2 & W0 & W1). assert (RD : 0 < R0 * d) by (apply Rmult_lt_0_compat; lra).
  replace w with (b + t * d * d) by lra. apply (ap_plus _ _ _ _ _ _ _ _ _ _ Ab s_td); [| |lra|].
  - replace (b + t * d * d) with w by lra. rewrite Rabs_pos_eq; lra.
  - set (V := R0 * d) in *. replace (7 * A * V + 36 * B * (2 * V) + u64 * (V + (7 * A * V + 36 * B * (2 * V)))) with ((7 * A + 72 * B + u64 * (1 + 7 * A + 72 * B)) * V) by ring.
    apply Rmult_le_compat_r; [lra|]. assert (u64 * (1 + 7 * A + 72 * B) <= u64 * 2) by (apply Rmult_le_compat_l; lra). lra.
  - apply (le900 446 _ ltac:(lia)). exact (rg_mul 200 246 _ _ HR d_rg).
Qed.
Let xt := refl_t x0 xr xd xb.
Let xk := refl_k x0 xd xb xt.
Lemma k_le : Rabs k <= 2 /\ 0 <= k.
Proof.
  pose proof d_pos. pose proof R_pos. pose proof w_facts as (W2 & W0 & W1). assert (RR2 : 0 < R0 * R0) by nra. assert (0 <= (1 - t) * w <= 2 * (R0 * R0)).
  { split; [apply Rmult_le_pos; lra|]. apply Rle_trans with (1 * (R0 * d)); [apply Rmult_le_compat; lra|nra]. }
  assert (0 <= k) by (apply Rnot_lt_le; intros Q; nra). split; [|assumption]. rewrite Rabs_pos_eq by assumption. apply Rnot_lt_le. intros Q. nra.
Qed.
Lemma s_k : ap xk k 2 (120 * B).
Proof.
  num. pose proof d_pos. pose proof R_pos. pose proof w_facts as (W2 & W0 & W1). destruct q_rg as (Q1 & Q2). assert (RR2 : 0 < R0 * R0) by nra.
  assert (E1 : 2 * (R0 / d) * (R0 * d) = 2 * (R0 * R0)) by (field; lra). assert (E2 : 2 * (R0 * R0) / (R0 * R0) = 2) by (field; lra).
  assert (M : ap (Bmult mode_NE (Bminus mode_NE one xt) (Bplus mode_NE xb (Bmult mode_NE (Bmult mode_NE xt xd) xd))) ((1 - t) * w) (2 * (R0 * R0)) (115 * B)).
  { rewrite <- E1. eapply ap_weak; [apply (ap_mul _ _ _ _ _ _ _ _ s_1t s_w2); [lra|lra|]| |]; [| |lra].
    - rewrite E1. apply (rg_ok 404 _ ltac:(lia)). apply (rg_mul 4 400); [apply rg_small; lra|]. exact (rg_mul 200 200 _ _ HR HR).
    - rewrite E1. lra. }
  rewrite <- E2. replace k with ((1 - t) * w / (R0 * R0)) by (rewrite <- Hk; field; lra). unfold xk, refl_k.
  eapply ap_weak; [apply (ap_div _ _ _ _ _ _ _ M s_00); [lra|lra|lra|]| |].
  - rewrite E2. apply (rg_ok 4 _ ltac:(lia)). apply rg_small. lra.
  - rewrite E2. lra.
  - replace ((115 * B + 2 * A) * (1 + 2 * (2 * A))) with (115 * B + 2 * A + 460 * (A * B) + 8 * (A * A)) by ring. lra.
Qed.
Lemma s_2k : ap (Bmult mode_NE two xk) (2 * k) 4 (122 * B).
Proof.
  num. replace 4 with (2 * 2) by ring. eapply ap_weak; [apply (ap_mul _ _ _ _ _ _ _ _ two_ap s_k); [lra|lra|]| |]; [|lra|lra]. apply (rg_ok 4 _ ltac:(lia)). apply rg_small. lra.
Qed.
Lemma s_f1 : ap (fac1 xk) (1 - 2 * k) 5 (100 * B).
Proof.
  num. destruct k_le as (K1 & K0). rewrite Rabs_pos_eq in K1 by lra. unfold fac1. apply (ap_minus _ _ _ _ _ _ _ _ _ _ one_ap s_2k); [apply Rabs_le; lra| |lra|].
  - assert (u64 * (5 + (0 * 1 + 122 * B * 4)) <= u64 * 6) by (apply Rmult_le_compat_l; lra). lra.
  - apply (le900 4 _ ltac:(lia)). apply rg_small. lra.
Qed.
Lemma s_f2 : ap (fac2 xk xt) (1 - 2 * k * t) (10 * (R0 / d)) (130 * B).
Proof.
  num. pose proof d_pos. pose proof R_pos. destruct q_rg as (Q1 & Q2). destruct k_le as (K1 & K0). rewrite Rabs_pos_eq in K1 by lra.
  assert (q2 : rg 50 (2 * (R0 / d))) by (apply (rg_mul 4 46); [apply rg_small; lra|exact Q1]).
  assert (M : ap (Bmult mode_NE (Bmult mode_NE two xk) xt) (2 * k * t) (4 * (2 * (R0 / d))) (157 * B)).
  { eapply ap_weak; [apply (ap_mul _ _ _ _ _ _ _ _ s_2k s_t); [lra|lra|]| |].
    - apply (rg_ok 54 _ ltac:(lia)). apply (rg_mul 4 50); [apply rg_small; lra|exact q2].
    - lra.
    - replace (122 * B * (30 * B)) with (3660 * (B * B)) by ring. lra. }
  set (q := R0 / d) in *. assert (KT : 0 <= 2 * k * t <= 8 * q). { split; [apply Rmult_le_pos; lra|]. apply Rle_trans with (2 * 2 * 1); [apply Rmult_le_compat; lra|lra]. }
  unfold fac2. apply (ap_minus _ _ _ _ _ _ _ _ _ _ one_ap M); [apply Rabs_le; lra| |lra|].
  - replace (0 * 1 + 157 * B * (4 * (2 * q)) + u64 * (10 * q + (0 * 1 + 157 * B * (4 * (2 * q))))) with ((1256 * B + u64 * (10 + 1256 * B)) * q) by ring. replace (130 * B * (10 * q)) with (1300 * B * q) by ring.
    apply Rmult_le_compat_r; [lra|]. assert (u64 * (10 + 1256 * B) <= u64 * 12) by (apply Rmult_le_compat_l; lra). lra.
  - apply (le900 (4 + 46) _ ltac:(lia)). apply rg_mul; [apply rg_small; lra|exact Q1].
Qed.
End Chain.
