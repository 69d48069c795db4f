(** First order reflection at a sphere in double precision: the scalars. *)
From Coq Require Import Reals ZArith List Lra Lia.
From Flocq Require Import Core.
From Flocq.IEEE754 Require Import BinarySingleNaN.
From Verif Require Import Base Scalar Float64 Model_Position Spec_Position Proof_Position Proof_Norm64 Proof_Sum64 Proof_Force64 Proof_Walk64 Proof_Inner64 Proof_System2 Proof_System4 Proof_System5
  Spec_Wall64 Proof_Wall64b Proof_Refl64 Proof_Refl64b Proof_Refl64c.
Local Open Scope R_scope.

Definition fst_a (r0 r : b64) : b64 := Bdiv mode_NE r r0.
Definition fst_cos (r dr rdr : b64) : b64 := Bdiv mode_NE rdr (Bmult mode_NE r dr).
Definition fst_t (r0 r dr rdr : b64) : b64 := Bdiv mode_NE (Bminus mode_NE one (fst_a r0 r)) (Bmult mode_NE (fst_a r0 dr) (fst_cos r dr rdr)).
Definition fst_k (r0 r dr rdr : b64) : b64 :=
  Bminus mode_NE (Bmult mode_NE (Bmult mode_NE (fst_a r0 r) (fst_a r0 dr)) (fst_cos r dr rdr)) (Bmult mode_NE (fst_a r0 r) (Bminus mode_NE one (fst_a r0 r))).

(** A product with absolute errors. *)
Lemma mul_raw (x x' : b64) (y y' d d' Y Y' E : R) : fin x = true -> fin x' = true -> Rabs (B2 x - y) <= d -> Rabs (B2 x' - y') <= d' -> Rabs y <= Y -> Rabs y' <= Y' ->
  Y * d' + Y' * d + d * d' <= E -> Y * Y' + E <= 2 ^ 900 ->
  fin (Bmult mode_NE x x') = true /\ Rabs (B2 (Bmult mode_NE x x') - y * y') <= E + u64 * (Y * Y' + E) + eta64.
Proof.
  intros F F' H H' HY HY' HE HB. assert (d0 := Rle_trans _ _ _ (Rabs_pos _) H). assert (d0' := Rle_trans _ _ _ (Rabs_pos _) H'). assert (Y0 := Rle_trans _ _ _ (Rabs_pos _) HY). assert (Y0' := Rle_trans _ _ _ (Rabs_pos _) HY').
  assert (X : Rabs (B2 x * B2 x' - y * y') <= E).
  { apply Rle_trans with (2 := HE). replace (B2 x * B2 x' - y * y') with (y * (B2 x' - y') + y' * (B2 x - y) + (B2 x - y) * (B2 x' - y')) by ring.
    apply Rle_trans with (1 := Rabs_triang _ _). apply Rplus_le_compat; [apply Rle_trans with (1 := Rabs_triang _ _); apply Rplus_le_compat|]; rewrite Rabs_mult; apply Rmult_le_compat; try apply Rabs_pos; assumption. }
  assert (M : Rabs (y * y') <= Y * Y') by (rewrite Rabs_mult; apply Rmult_le_compat; try apply Rabs_pos; assumption).
  assert (Z : Rabs (B2 x * B2 x') <= Y * Y' + E). { pose proof (Rabs_triang (B2 x * B2 x' - y * y') (y * y')) as T. replace (B2 x * B2 x' - y * y' + y * y') with (B2 x * B2 x') in T by ring. lra. }
  destruct (mult_any x x' F F' ltac:(lra)) as (Fz & Ez). split; [exact Fz|].
  replace (B2 (Bmult mode_NE x x') - y * y') with ((B2 (Bmult mode_NE x x') - B2 x * B2 x') + (B2 x * B2 x' - y * y')) by ring. apply Rle_trans with (1 := Rabs_triang _ _).
  pose proof u64_pos. assert (u64 * Rabs (B2 x * B2 x') <= u64 * (Y * Y' + E)) by (apply Rmult_le_compat_l; lra). lra.
Qed.

Section Chain.
Variables (x0 xr xd xb : b64) (R0 d P b c A : R).
Hypothesis HR : rg 200 R0.
Hypothesis Hd : / 2 ^ 46 * R0 <= d <= 2 * R0.
Hypothesis HdA : 32 * A * R0 <= d.
Hypothesis HP : R0 / 2 <= P <= R0.
Hypothesis Hleave : R0 <= P + d.
Hypothesis HbP : b <= P * d.
Hypothesis HA : 4 * u64 <= A.
Hypothesis Hc : 0 < c <= 1.
Hypothesis HAc : 2048 * A <= c * c.
Hypothesis Hcb : c * (R0 * d) <= b.
Hypothesis A0 : ap x0 R0 R0 0.
Hypothesis Ar : ap xr P R0 (4 * A).
Hypothesis Ad : ap xd d d A.
Hypothesis Ab : ap xb b (R0 * d) (7 * A).

Let B := A / c.
Let v := d / R0.
Let a := P / R0.
Let co := b / (P * d).
Let t := (1 - a) / (v * co).
Let k := a * v * co - a * (1 - a).

Lemma f_nums : A <= B /\ B <= / 2048 /\ c * B = A /\ 0 < B /\ 0 < A <= / 2048.
Proof. destruct (AB c A HA Hc HAc) as (H1 & H2 & H3 & H4). pose proof (A_small c A HA Hc HAc). repeat split; try lra; assumption. Qed.
Lemma f_R : 0 < R0. Proof. exact (rg_pos _ _ HR). Qed.
Lemma f_d : 0 < d. Proof. exact (d_pos R0 d HR Hd). Qed.
Lemma f_v : / 2 ^ 46 <= v <= 2 /\ 32 * A <= v /\ v * R0 = d.
Proof.
  pose proof f_R. pose proof f_d. assert (E : v * R0 = d) by (unfold v; field; lra). repeat split; try exact E; apply Rmult_le_reg_r with R0; try lra.
Qed.
Lemma f_a : 1 / 2 <= a <= 1 /\ 1 - a <= v /\ a * R0 = P.
Proof. pose proof f_R. assert (E : a * R0 = P) by (unfold a; field; lra). destruct f_v as (_ & _ & V). repeat split; try exact E; apply Rmult_le_reg_r with R0; lra. Qed.
Lemma f_co : c <= co <= 1 /\ co * (P * d) = b.
Proof.
  pose proof f_R. pose proof f_d. assert (PD : 0 < P * d) by (apply Rmult_lt_0_compat; lra). assert (E : co * (P * d) = b) by (unfold co; field; lra). split; [|exact E].
  split; apply Rmult_le_reg_r with (P * d); try lra. apply Rle_trans with (c * (R0 * d)); [|lra]. apply Rmult_le_compat_l; [lra|]. apply Rmult_le_compat_r; lra.
Qed.
Lemma f_c : rg 20 c.
Proof.
  split; [|apply Rle_trans with 1; [lra|apply pow_R1_Rle; lra]]. assert (Q : / 2 ^ 40 <= c * c). { apply Rle_trans with (2 := HAc). apply Rle_trans with (2048 * (4 * u64)); [|lra]. unfold u64. right.
    replace (2 ^ 53) with (2 ^ 13 * 2 ^ 40) by (rewrite <- pow_add; reflexivity). replace (2 ^ 13) with 8192 by (simpl; lra). pose proof (p2 40). field; lra. }
  replace (2 ^ 40) with (2 ^ 20 * 2 ^ 20) in Q by (rewrite <- pow_add; reflexivity). rewrite Rinv_mult in Q. pose proof (i2 20). apply Rnot_lt_le. intros H'. nra.
Qed.
Lemma f_D : c * v <= v * co <= 2 /\ 0 < v * co /\ rg 66 (v * co).
Proof.
  destruct f_v as (V & _ & _). destruct f_co as (C & _). pose proof (i2 46). pose proof (i2 20). destruct f_c as (C20 & _).
  assert (Q : c * v <= v * co) by (rewrite Rmult_comm; apply Rmult_le_compat_l; lra). assert (Q2 : v * co <= 2 * 1) by (apply Rmult_le_compat; lra). assert (Q0 : 0 < c * v) by (apply Rmult_lt_0_compat; lra).
  repeat split; try lra.
  replace 66%nat with (20 + 46)%nat by reflexivity. rewrite pow_add, Rinv_mult. apply Rle_trans with (c * v); [|lra]. apply Rmult_le_compat; lra.
Qed.
Lemma f_t : 0 <= t <= 1 / c.
Proof.
  destruct f_D as ((D1 & _) & D0 & _). destruct f_a as (_ & F & _). destruct f_a as (G & _). destruct f_v as (V & _). pose proof (i2 46). unfold t. split; [apply Rmult_le_pos; [lra|left; now apply Rinv_0_lt_compat]|].
  apply Rmult_le_reg_r with (v * co); [exact D0|]. unfold Rdiv at 1. rewrite Rmult_assoc, Rinv_l, Rmult_1_r by lra. apply Rle_trans with (1 := F). apply Rle_trans with (1 / c * (c * v)); [right; field; lra|]. apply Rmult_le_compat_l; [apply Rlt_le, Rdiv_lt_0_compat; lra|lra].
Qed.
Lemma f_k : Rabs k <= v /\ Rabs k <= 2.
Proof.
  destruct f_a as (G & F & _). destruct f_v as (V & _). destruct f_co as (C & _). pose proof (i2 46). assert (Q : 0 <= v * co <= v). { split; [apply Rmult_le_pos; lra|]. rewrite <- (Rmult_1_r v) at 2. apply Rmult_le_compat_l; lra. }
  assert (K : Rabs k <= 1 * v). { unfold k. replace (a * v * co - a * (1 - a)) with (a * (v * co - (1 - a))) by ring. rewrite Rabs_mult, (Rabs_pos_eq a) by lra. apply Rmult_le_compat; [lra|apply Rabs_pos|lra|apply Rabs_le; lra]. } lra.
Qed.

Ltac num := pose proof f_nums as (? & ? & ? & ? & ? & ?); pose proof u64_pos;
  assert (A * A <= / 2048 * A) by (apply Rmult_le_compat_r; lra); assert (B * B <= / 2048 * B) by (apply Rmult_le_compat_r; lra); assert (A * B <= / 2048 * B) by (apply Rmult_le_compat_r; lra).
Ltac small := apply (rg_ok 4 _ ltac:(lia)); apply rg_small; lra.

Lemma x_a : ap (fst_a x0 xr) a 1 (6 * A).
Proof.
  num. pose proof f_R. unfold fst_a. assert (E : R0 / R0 = 1) by (field; lra). rewrite <- E. eapply ap_weak; [apply (ap_div _ _ _ _ _ _ _ Ar A0); [lra|lra|lra|]| |]; [rewrite E; small|rewrite E; lra|lra].
Qed.
Lemma x_v : ap (fst_a x0 xd) v v (3 * A).
Proof.
  num. pose proof f_R. unfold fst_a. destruct f_v as (V & _). pose proof (i2 46). eapply ap_weak; [apply (ap_div _ _ _ _ _ _ _ Ad A0); [lra|lra|lra|]| |]; [|fold v; lra|lra].
  fold v. apply (rg_ok 46 _ ltac:(lia)). split; [lra|]. apply Rle_trans with (2 ^ 1); [simpl; lra|apply Rle_pow; [lra|lia]].
Qed.
Lemma x_co : ap (fst_cos xr xd xb) co 1 (40 * A).
Proof.
  num. pose proof f_R. pose proof f_d. unfold fst_cos.
  assert (RP : ap xr P P (8 * A)). { apply (ap_scale _ _ _ _ _ _ Ar); [rewrite Rabs_pos_eq; lra|]. assert (4 * A * R0 <= 4 * A * (2 * P)) by (apply Rmult_le_compat_l; lra). lra. }
  assert (PD : 0 < P * d) by (apply Rmult_lt_0_compat; lra).
  assert (RGP : rg 201 P). { destruct HR as (Hr1 & Hr2). split; [|apply Rle_trans with (2 ^ 200); [lra|apply Rle_pow; [lra|lia]]]. replace (2 ^ 201) with (2 * 2 ^ 200) by reflexivity. rewrite Rinv_mult. lra. }
  assert (M : ap (Bmult mode_NE xr xd) (P * d) (P * d) (11 * A)).
  { eapply ap_weak; [apply (ap_mul _ _ _ _ _ _ _ _ RP Ad); [lra|lra|]| |]; [|lra|lra]. apply (rg_ok 447 _ ltac:(lia)). exact (rg_mul 201 246 _ _ RGP (d_rg R0 d HR Hd)). }
  assert (W : R0 * d / (P * d) = R0 / P) by (field; lra).
  assert (W2 : 1 <= R0 / P <= 2). { split; apply Rmult_le_reg_r with P; try lra; unfold Rdiv; rewrite Rmult_assoc, Rinv_l; lra. }
  assert (Q : ap (Bdiv mode_NE xb (Bmult mode_NE xr xd)) (b / (P * d)) (R0 / P) (20 * A)).
  { rewrite <- W. eapply ap_weak; [apply (ap_div _ _ _ _ _ _ _ Ab M); [lra|lra|lra|]| |]; [rewrite W; small|rewrite W; lra|lra]. }
  apply (ap_scale _ _ _ _ _ _ Q); [|]. { destruct f_co as (C & _). fold co. rewrite Rabs_pos_eq; lra. }
  assert (20 * A * (R0 / P) <= 20 * A * 2) by (apply Rmult_le_compat_l; lra). lra.
Qed.
Lemma x_1a : ap (Bminus mode_NE one (fst_a x0 xr)) (1 - a) 1 (7 * A).
Proof.
  num. destruct f_a as (G & _). apply (ap_minus _ _ _ _ _ _ _ _ _ _ one_ap x_a); [apply Rabs_le; lra| |lra|].
  - assert (u64 * (1 + (0 * 1 + 6 * A * 1)) <= u64 * 2) by (apply Rmult_le_compat_l; lra). lra.
  - apply (le900 4 _ ltac:(lia)). apply rg_small. lra.
Qed.
Lemma x_vc : ap (Bmult mode_NE (fst_a x0 xd) (fst_cos xr xd xb)) (v * co) v (45 * A).
Proof.
  num. destruct f_v as (V & _). pose proof (i2 46). rewrite <- (Rmult_1_r v) at 2. eapply ap_weak; [apply (ap_mul _ _ _ _ _ _ _ _ x_v x_co); [lra|lra|]| |]; [|lra|lra].
  rewrite Rmult_1_r. apply (rg_ok 46 _ ltac:(lia)). split; [lra|]. apply Rle_trans with (2 ^ 1); [simpl; lra|apply Rle_pow; [lra|lia]].
Qed.
Lemma x_t : fin (fst_t x0 xr xd xb) = true /\ Rabs (B2 (fst_t x0 xr xd xb) - t) <= 60 * B * / (c * v).
Proof.
  num. destruct f_D as ((D1 & D2) & D0 & DG). destruct f_v as (V & _). pose proof (i2 46).
  assert (M : ap (Bmult mode_NE (fst_a x0 xd) (fst_cos xr xd xb)) (v * co) (v * co) (45 * B)).
  { apply (ap_scale _ _ _ _ _ _ x_vc); [rewrite Rabs_pos_eq; lra|]. apply Rle_trans with (45 * B * (c * v)); [|apply Rmult_le_compat_l; lra]. replace (45 * B * (c * v)) with (45 * (c * B) * v) by ring. destruct f_nums as (_ & _ & cB & _). rewrite cB. lra. }
  destruct (ap_div _ _ _ _ _ _ _ x_1a M D0) as (F & _ & E); [lra|lra| |].
  - unfold Rdiv. rewrite Rmult_1_l. apply (rg_ok 66 _ ltac:(lia)). destruct DG as (L & H'). split; [apply Rinv_le_contravar; [exact D0|exact H']|]. rewrite <- (Rinv_inv (2 ^ 66)). apply Rinv_le_contravar; [apply i2|exact L].
  - split; [exact F|]. fold t in E. apply Rle_trans with (1 := E). apply Rmult_le_compat; [|unfold Rdiv; rewrite Rmult_1_l; left; now apply Rinv_0_lt_compat| |].
    + assert (0 <= (7 * A + 45 * B) * (1 + 2 * (45 * B))) by (apply Rmult_le_pos; lra). lra.
    + replace ((7 * A + 45 * B) * (1 + 2 * (45 * B))) with (7 * A + 45 * B + 630 * (A * B) + 4050 * (B * B)) by ring. lra.
    + unfold Rdiv. rewrite Rmult_1_l. apply Rinv_le_contravar; [apply Rmult_lt_0_compat; lra|exact D1].
Qed.
Lemma x_k : ap (fst_k x0 xr xd xb) k 2 (64 * A).
Proof.
  num. destruct f_a as (G & F & _). destruct f_v as (V & _). destruct f_co as (C & _). pose proof (i2 46). destruct f_k as (K1 & K2).
  assert (VG : rg 46 v). { split; [lra|]. apply Rle_trans with (2 ^ 1); [simpl; lra|apply Rle_pow; [lra|lia]]. }
  assert (M1 : ap (Bmult mode_NE (fst_a x0 xr) (fst_a x0 xd)) (a * v) v (11 * A)).
  { rewrite <- (Rmult_1_l v) at 2. eapply ap_weak; [apply (ap_mul _ _ _ _ _ _ _ _ x_a x_v); [lra|lra|]| |]; [|lra|lra]. rewrite Rmult_1_l. exact (rg_ok 46 _ ltac:(lia) VG). }
  assert (M2 : ap (Bmult mode_NE (Bmult mode_NE (fst_a x0 xr) (fst_a x0 xd)) (fst_cos xr xd xb)) (a * v * co) v (54 * A)).
  { rewrite <- (Rmult_1_r v) at 2. eapply ap_weak; [apply (ap_mul _ _ _ _ _ _ _ _ M1 x_co); [lra|lra|]| |]; [|lra|lra]. rewrite Rmult_1_r. exact (rg_ok 46 _ ltac:(lia) VG). }
  assert (M3 : ap (Bmult mode_NE (fst_a x0 xr) (Bminus mode_NE one (fst_a x0 xr))) (a * (1 - a)) 1 (15 * A)).
  { replace 1 with (1 * 1) at 2 by ring. eapply ap_weak; [apply (ap_mul _ _ _ _ _ _ _ _ x_a x_1a); [lra|lra|]| |]; [|lra|lra]. rewrite Rmult_1_r. small. }
  unfold fst_k, k. apply (ap_minus _ _ _ _ _ _ _ _ _ _ M2 M3); [exact K2| |lra|].
  - assert (Q : 54 * A * v <= 54 * A * 2) by (apply Rmult_le_compat_l; lra). assert (u64 * (2 + (54 * A * v + 15 * A * 1)) <= u64 * 3) by (apply Rmult_le_compat_l; lra). lra.
  - apply (le900 4 _ ltac:(lia)). apply rg_small. lra.
Qed.
Lemma x_2k : ap (Bmult mode_NE two (fst_k x0 xr xd xb)) (2 * k) 4 (66 * A).
Proof. num. replace 4 with (2 * 2) by ring. eapply ap_weak; [apply (ap_mul _ _ _ _ _ _ _ _ two_ap x_k); [lra|lra|]| |]; [small|lra|lra]. Qed.
Lemma x_f1 : ap (fac1 (fst_k x0 xr xd xb)) (1 - 2 * k) 5 (100 * B).
Proof.
  num. destruct f_k as (_ & K). apply Rabs_le_inv in K. unfold fac1. apply (ap_minus _ _ _ _ _ _ _ _ _ _ one_ap x_2k); [apply Rabs_le; lra| |lra|].
  - assert (u64 * (5 + (0 * 1 + 66 * A * 4)) <= u64 * 6) by (apply Rmult_le_compat_l; lra). lra.
  - apply (le900 4 _ ltac:(lia)). apply rg_small. lra.
Qed.
Lemma eta_u : eta64 <= u64.
Proof. unfold eta64, u64. apply Rinv_le_contravar; [apply pow_lt; lra|]. apply Rle_pow; [lra|lia]. Qed.
Lemma x_f2 : ap (fac2 (fst_k x0 xr xd xb) (fst_t x0 xr xd xb)) (1 - 2 * k * t) (10 * (1 / c)) (130 * B).
Proof.
  num. destruct f_v as (V & VA & _). pose proof (i2 46). destruct f_k as (K & _). pose proof f_t as T. destruct x_t as (Ft & Et). destruct x_2k as (F2 & _ & E2).
  pose proof eta_u. set (q := 1 / c) in *. assert (q1 : 1 <= q). { unfold q. apply Rmult_le_reg_r with c; [lra|]. unfold Rdiv. rewrite Rmult_assoc, Rinv_l; lra. }
  assert (cq : c * q = 1) by (unfold q; field; lra). assert (Iq : / (c * v) = q * / v) by (unfold q; field; lra). rewrite Iq in Et.
  assert (Vi : 0 < / v) by (apply Rinv_0_lt_compat; lra). assert (vV : v * / v = 1) by (field; lra).
  assert (AV : A * / v <= / 32). { apply Rmult_le_reg_r with v; [lra|]. rewrite Rmult_assoc, Rinv_l by lra. lra. }
  assert (Bq0 : 0 < B * q) by (apply Rmult_lt_0_compat; lra).
  assert (Cq : q <= 2 ^ 20). { apply Rmult_le_reg_l with c; [lra|]. rewrite cq. destruct f_c as (L & _). rewrite <- (Rinv_l (2 ^ 20)) by (apply pow_nonzero; lra). apply Rmult_le_compat_r; [apply Rlt_le, p2|exact L]. }
  assert (P20 : 2 ^ 20 * 2 ^ 10 <= 2 ^ 900) by (rewrite <- pow_add; apply Rle_pow; [lra|lia]). replace (2 ^ 10) with 1024 in P20 by (simpl; lra).
  destruct (mul_raw (Bmult mode_NE two (fst_k x0 xr xd xb)) (fst_t x0 xr xd xb) (2 * k) t (66 * A * 4) (60 * B * (q * / v)) (2 * v) q (880 * (B * q)) F2 Ft E2 Et) as (Fm & Em).
  - rewrite Rabs_mult, (Rabs_pos_eq 2) by lra. lra.
  - rewrite Rabs_pos_eq; lra.
  - replace (2 * v * (60 * B * (q * / v))) with (120 * (B * q) * (v * / v)) by ring. rewrite vV, Rmult_1_r.
    replace (66 * A * 4 * (60 * B * (q * / v))) with (15840 * (B * q) * (A * / v)) by ring.
    assert (15840 * (B * q) * (A * / v) <= 15840 * (B * q) * / 32) by (apply Rmult_le_compat_l; lra).
    assert (q * (66 * A * 4) <= q * (66 * B * 4)) by (apply Rmult_le_compat_l; lra). lra.
  - assert (2 * v * q <= 4 * q) by (apply Rmult_le_compat_r; lra). assert (B * q <= / 2048 * q) by (apply Rmult_le_compat_r; lra). lra.
  - assert (KT : Rabs (2 * k * t) <= 4 * q). { rewrite !Rabs_mult, (Rabs_pos_eq 2), (Rabs_pos_eq t) by lra. apply Rmult_le_compat; [assert (0 <= Rabs k) by apply Rabs_pos; lra|lra|lra|lra]. }
    assert (M : ap (Bmult mode_NE (Bmult mode_NE two (fst_k x0 xr xd xb)) (fst_t x0 xr xd xb)) (2 * k * t) (4 * q) (225 * B)).
    { split; [exact Fm|]. split; [exact KT|]. apply Rle_trans with (1 := Em). assert (2 * v * q <= 4 * q) by (apply Rmult_le_compat_r; lra). assert (B * q <= / 2048 * q) by (apply Rmult_le_compat_r; lra).
      assert (u64 * (2 * v * q + 880 * (B * q)) <= u64 * (5 * q)) by (apply Rmult_le_compat_l; lra). assert (u64 * q <= / 4 * B * q) by (apply Rmult_le_compat_r; lra). assert (eta64 <= u64 * q). { apply Rle_trans with (u64 * 1); [lra|apply Rmult_le_compat_l; lra]. } lra. }
    apply Rabs_le_inv in KT. unfold fac2. apply (ap_minus _ _ _ _ _ _ _ _ _ _ one_ap M); [apply Rabs_le; lra| |lra|].
    + assert (0 <= B * q) by lra. assert (B * q <= / 2048 * q) by (apply Rmult_le_compat_r; lra). assert (u64 * (10 * q + (0 * 1 + 225 * B * (4 * q))) <= u64 * (11 * q)) by (apply Rmult_le_compat_l; lra). assert (u64 * q <= / 4 * B * q) by (apply Rmult_le_compat_r; lra). lra.
    + lra.
Qed.
End Chain.
