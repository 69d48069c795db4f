(** Mean and standard deviation on doubles, with their rounding errors. *)
From Coq Require Import Reals ZArith List Lra Lia.
From Flocq Require Import Core.
From Flocq.IEEE754 Require Import BinarySingleNaN.
From Verif Require Import Base Scalar Float64 Model_Position Spec_Position Proof_Position Proof_Norm64 Proof_Sum64.
Open Scope R_scope.

Lemma rsum_shift (l : list R) t : rsum (map (fun x => (x - t) ^ 2) l) = rsum (map (fun x => x ^ 2) l) - 2 * t * rsum l + INR (length l) * t ^ 2.
Proof.
  induction l as [|x l IH]; [unfold rsum; simpl; ring|].
  unfold rsum in *. cbn [map fold_right]. rewrite IH. cbn [length]. rewrite S_INR. ring.
Qed.
Lemma rsum_sq_nonneg (l : list R) : 0 <= rsum (map (fun x => x ^ 2) l).
Proof. induction l as [|x l IH]; unfold rsum in *; cbn [map fold_right]; [lra|]. pose proof (pow2_ge_0 x). lra. Qed.
(** The mean square is at least the squared mean. *)
Lemma jensen (l : list R) : l <> [] -> (rsum l / INR (length l)) ^ 2 <= rsum (map (fun x => x ^ 2) l) / INR (length l).
Proof.
  intros H. assert (P : 1 <= INR (length l)) by (destruct l; [easy|]; cbn [length]; rewrite S_INR; pose proof (pos_INR (length l)); lra).
  pose proof (rsum_shift l (rsum l / INR (length l))) as E.
  assert (Q : 0 <= rsum (map (fun x => (x - rsum l / INR (length l)) ^ 2) l)).
  { rewrite <- (map_map (fun x => x - rsum l / INR (length l)) (fun x => x ^ 2)). apply rsum_sq_nonneg. }
  rewrite E in Q. set (n := INR (length l)) in *. set (s := rsum l) in *. set (q := rsum (map (fun x => x ^ 2) l)) in *.
  apply Rmult_le_reg_l with n; [lra|]. replace (n * (q / n)) with q by (field; lra).
  replace (q - 2 * (s / n) * s + n * (s / n) ^ 2) with (q - n * (s / n) ^ 2) in Q by (field; lra). lra.
Qed.

Lemma abs_vsum xs : Rabs (vsum xs) <= asum xs.
Proof.
  induction xs as [|x xs IH]; [unfold vsum, asum, rsum; simpl; rewrite Rabs_R0; lra|].
  rewrite vsum_cons, asum_cons. pose proof (Rabs_triang (B2 x) (vsum xs)). lra.
Qed.

(** The real-number core. *)
Lemma variance_core (u eta n E A mu m qn p v : R) :
  0 < u <= / 1000 -> 0 < eta <= / 1000 -> 1 <= n -> n * u <= / 8 -> 0 <= A -> Rabs mu <= A -> A ^ 2 <= E ->
  Rabs (m - mu) <= 2 * (n + 1) * u * A + eta ->
  Rabs (qn - E) <= 2 * (n + 2) * u * E + 3 * eta ->
  Rabs (p - m ^ 2) <= u * m ^ 2 + eta ->
  Rabs (v - (qn - p)) <= u * Rabs (qn - p) ->
  Rabs (v - (E - mu ^ 2)) <= 8 * (n + 2) * u * E + 20 * eta * (1 + E).
Proof.
  intros Hu He Hn Hnu HA Hmu HAE Hm Hq Hp Hv.
  assert (E0 : 0 <= E) by (pose proof (pow2_ge_0 A); lra).
  set (e := 2 * (n + 1) * u) in *.
  assert (He1 : 0 <= e <= 26 / 100) by (unfold e; split; [apply Rmult_le_pos; lra|lra]).
  assert (A1 : A <= 1 + E) by nra.
  set (h := eta * (1 + E)). assert (H0 : eta <= h) by (unfold h; nra).
  assert (HAh : A * eta <= h) by (unfold h; rewrite (Rmult_comm A); apply Rmult_le_compat_l; lra).
  set (D := e * A + eta) in *. assert (D0 : 0 <= D) by (unfold D; pose proof (Rmult_le_pos e A); lra).
  assert (S1 : Rabs (m ^ 2 - mu ^ 2) <= D * (D + 2 * A)).
  { replace (m ^ 2 - mu ^ 2) with ((m - mu) * ((m - mu) + 2 * mu)) by ring. rewrite Rabs_mult.
    apply Rmult_le_compat; try apply Rabs_pos; [exact Hm|].
    eapply Rle_trans; [apply Rabs_triang|]. rewrite Rabs_mult, (Rabs_pos_eq 2) by lra. lra. }
  assert (S2 : D * (D + 2 * A) <= 23 / 10 * (e * E) + 36 / 10 * h).
  { assert (X1 : D * (D + 2 * A) = (e * e + 2 * e) * A ^ 2 + (2 * e + 2) * (A * eta) + eta * eta) by (unfold D; ring).
    assert (X2 : (e * e + 2 * e) * A ^ 2 <= 23 / 10 * (e * E)).
    { apply Rle_trans with (23 / 10 * e * A ^ 2).
      - apply Rmult_le_compat_r; [apply pow2_ge_0|]. assert (e * e <= e * (3 / 10)) by (apply Rmult_le_compat_l; lra). lra.
      - replace (23 / 10 * (e * E)) with (23 / 10 * e * E) by ring. apply Rmult_le_compat_l; lra. }
    assert (X3 : (2 * e + 2) * (A * eta) <= 252 / 100 * h).
    { apply Rmult_le_compat; try lra. apply Rmult_le_pos; lra. }
    assert (X4 : eta * eta <= eta * 1) by (apply Rmult_le_compat_l; lra). lra. }
  assert (EE : e * E <= 26 / 100 * E) by (apply Rmult_le_compat_r; lra).
  assert (M0 : mu ^ 2 <= E).
  { apply Rle_trans with (A ^ 2); [|exact HAE]. rewrite <- (pow2_abs mu). apply pow_incr. split; [apply Rabs_pos|exact Hmu]. }
  pose proof (pow2_ge_0 mu) as MU0.
  assert (S3 : m ^ 2 <= 16 / 10 * E + 4 * h).
  { apply Rabs_le_inv in S1. lra. }
  assert (Eh : 0 <= h) by (unfold h; apply Rmult_le_pos; lra).
  assert (S4 : u * m ^ 2 <= 16 / 10 * (u * E) + / 100 * h).
  { apply Rle_trans with (u * (16 / 10 * E + 4 * h)); [apply Rmult_le_compat_l; lra|].
    assert (u * h <= / 1000 * h) by (apply Rmult_le_compat_r; lra). lra. }
  assert (S5 : Rabs (p - mu ^ 2) <= 23 / 10 * (e * E) + 16 / 10 * (u * E) + 5 * h).
  { replace (p - mu ^ 2) with ((p - m ^ 2) + (m ^ 2 - mu ^ 2)) by ring. eapply Rle_trans; [apply Rabs_triang|]. lra. }
  assert (S6 : Rabs (qn - p - (E - mu ^ 2)) <= 66 / 10 * (n * u * E) + 102 / 10 * (u * E) + 8 * h).
  { replace (qn - p - (E - mu ^ 2)) with ((qn - E) + - (p - mu ^ 2)) by ring. eapply Rle_trans; [apply Rabs_triang|]. rewrite Rabs_Ropp.
    assert (X : e * E = 2 * (n * u * E) + 2 * (u * E)) by (unfold e; ring). rewrite X in S5. lra. }
  assert (nuE : n * u * E <= / 8 * E) by (apply Rmult_le_compat_r; lra).
  assert (uE : u * E <= / 1000 * E) by (apply Rmult_le_compat_r; lra).
  assert (S7 : Rabs (qn - p) <= 2 * E + 8 * h).
  { replace (qn - p) with ((qn - p - (E - mu ^ 2)) + (E - mu ^ 2)) by ring. eapply Rle_trans; [apply Rabs_triang|].
    rewrite (Rabs_pos_eq (E - mu ^ 2)) by lra. lra. }
  assert (S8 : u * Rabs (qn - p) <= 2 * (u * E) + h).
  { apply Rle_trans with (u * (2 * E + 8 * h)); [apply Rmult_le_compat_l; lra|].
    assert (u * h <= / 1000 * h) by (apply Rmult_le_compat_r; lra). lra. }
  replace (v - (E - mu ^ 2)) with ((v - (qn - p)) + (qn - p - (E - mu ^ 2))) by ring.
  eapply Rle_trans; [apply Rabs_triang|].
  replace (8 * (n + 2) * u * E + 20 * eta * (1 + E)) with (8 * (n * u * E) + 16 * (u * E) + 20 * h) by (unfold h; ring).
  assert (0 <= n * u * E) by (apply Rmult_le_pos; [apply Rmult_le_pos; lra|lra]).
  assert (0 <= u * E) by (apply Rmult_le_pos; lra). lra.
Qed.

Definition P480 : R := 2 ^ 480.
Lemma P480_1 : 1 <= P480. Proof. apply pow_R1_Rle. lra. Qed.
Lemma top_P480 : top = 2 ^ 64 * (P480 * P480).
Proof. unfold P480. rewrite <- pow_add, <- pow_add. rewrite bpow_powerRZ. change (IZR radix2) with 2. exact (eq_sym (pow_powerRZ 2 1024)). Qed.

Lemma asum_le (l : list b64) : Forall (fun x => fin x = true /\ Rabs (B2 x) <= 2 ^ 480) l -> asum l <= INR (length l) * P480.
Proof.
  induction 1 as [|x l (F & B) _ IH]; [unfold asum, rsum; simpl; lra|].
  rewrite asum_cons. cbn [length]. rewrite S_INR. fold P480 in B. lra.
Qed.
Lemma rss_le (l : list b64) : Forall (fun x => fin x = true /\ Rabs (B2 x) <= 2 ^ 480) l -> rss l <= INR (length l) * (P480 * P480).
Proof.
  induction 1 as [|x l (F & B) _ IH]; [unfold rss, rsum; simpl; lra|].
  assert (R1 : rss (x :: l) = B2 x ^ 2 + rss l) by reflexivity. rewrite R1. cbn [length]. rewrite S_INR. fold P480 in B.
  assert (B2 x ^ 2 <= P480 * P480).
  { rewrite <- pow2_abs. replace (P480 * P480) with (P480 ^ 2) by ring. apply pow_incr. split; [apply Rabs_pos|exact B]. }
  lra.
Qed.

Section M.
Variable xs : list b64.
Hypothesis ne : xs <> [].
Hypothesis few : INR (length xs) <= 2 ^ 50.
Hypothesis small : Forall (fun x => fin x = true /\ Rabs (B2 x) <= 2 ^ 480) xs.
Notation n := (INR (length xs)).

Lemma n1 : 1 <= n.
Proof. destruct xs as [|x l]; [easy|]. cbn [length]. rewrite S_INR. pose proof (pos_INR (length l)). lra. Qed.
Lemma nu : n * u64 <= / 8.
Proof.
  unfold u64. apply Rmult_le_reg_r with (2 ^ 53); [apply pow_lt; lra|]. rewrite Rmult_assoc, Rinv_l by (apply pow_nonzero; lra).
  replace (/ 8 * 2 ^ 53) with (2 ^ 50) by lra. lra.
Qed.
Lemma u_small : 0 < u64 <= / 1000.
Proof. split; [apply u64_pos|]. unfold u64. apply Rinv_le_contravar; lra. Qed.
Lemma eta_small : 0 < eta64 <= / 1000.
Proof.
  split; [apply eta64_pos|]. unfold eta64. apply Rinv_le_contravar; [lra|].
  replace 1075%nat with (10 + 1065)%nat by reflexivity. rewrite pow_add. pose proof (pow_R1_Rle 2 1065 ltac:(lra)). set (z := 2 ^ 1065) in *. lra.
Qed.
Lemma all_fin : Forall (fun x => fin x = true) xs.
Proof. eapply Forall_impl; [|exact small]. intros a (H & _). exact H. Qed.

Lemma asum_small : asum xs <= n * P480.
Proof. apply asum_le. exact small. Qed.
Lemma rss_small : rss xs <= n * (P480 * P480).
Proof. apply rss_le. exact small. Qed.
Lemma gn k : (INR k <= 2 * n + 4) -> (1 + u64) ^ k <= 1 + 2 * INR k * u64 /\ (1 + u64) ^ k <= 2.
Proof.
  intros H. pose proof u_small as (U & U'). pose proof nu as N.
  assert (2 * INR k * u64 <= 1). { assert (INR k * u64 <= (2 * n + 4) * u64) by (apply Rmult_le_compat_r; lra). lra. }
  pose proof (g_lin k H0). lra.
Qed.

Definition mean64 : b64 := Bdiv mode_NE (sum64 (b64_of_Z 0) xs) (b64_of_Z (Z.of_nat (length xs))).
Definition sqs64 : b64 := Bdiv mode_NE (ss (b64_of_Z 0) xs) (b64_of_Z (Z.of_nat (length xs))).
Definition var64 : b64 := Bminus mode_NE sqs64 (Bmult mode_NE mean64 mean64).
Definition dev64 : b64 := Bsqrt mode_NE var64.

Lemma len1 : (1 <= length xs)%nat. Proof. destruct xs; [easy|cbn; lia]. Qed.
Lemma few53 : n <= 2 ^ 53. Proof. lra. Qed.

Lemma sum_finite : fin (sum64 (b64_of_Z 0) xs) = true.
Proof.
  destruct zero64 as (Z1 & Z2). apply sum64_fin_intro; auto using all_fin. rewrite Z2, Rabs_R0, Rplus_0_l.
  destruct (gn (length xs)) as (_ & G); [pose proof n1; lra|]. pose proof asum_small as S. pose proof (asum_nonneg xs) as S0. pose proof P480_1 as P1.
  apply Rle_lt_trans with (2 * (n * P480)); [apply Rmult_le_compat; try lra; apply Rlt_le, pow_lt; pose proof u_small; lra|].
  rewrite top_P480. assert (n * P480 <= 2 ^ 50 * P480) by (apply Rmult_le_compat_r; lra).
  assert (P480 <= P480 * P480) by nra. lra.
Qed.
Lemma ss_finite : fin (ss (b64_of_Z 0) xs) = true.
Proof.
  destruct zero64 as (Z1 & Z2). apply ss_fin_intro; auto; [lra|exact all_fin|]. rewrite Z2, Rplus_0_l.
  destruct (gn (length xs)) as (_ & G); [pose proof n1; lra|]. pose proof rss_small as S. pose proof (rss_nonneg xs) as S0. pose proof P480_1 as P1.
  pose proof u_small as (U & U'). pose proof eta_small as (V & V'). pose proof n1 as N1.
  assert (X : n * eta64 <= 2 ^ 50 * / 1000) by (apply Rmult_le_compat; lra).
  assert (X0 : 0 <= n * eta64) by (apply Rmult_le_pos; lra).
  assert (Y : (1 + u64) * rss xs <= 2 * (n * (P480 * P480))) by (apply Rmult_le_compat; lra).
  assert (PP : 1 <= P480 * P480) by nra.
  assert (W : n * (P480 * P480) <= 2 ^ 50 * (P480 * P480)) by (apply Rmult_le_compat_r; lra).
  apply Rle_lt_trans with (2 * (2 * (n * (P480 * P480)) + 2 ^ 50 * / 1000)); [|rewrite top_P480; lra].
  apply Rmult_le_compat; try lra; [apply Rlt_le, pow_lt; lra|]. apply Rplus_le_le_0_compat; [apply Rmult_le_pos; lra|exact X0].
Qed.

Notation A := (asum xs / n).
Notation E := (rss xs / n).
Notation mu := (vsum xs / n).

Lemma A0 : 0 <= A. Proof. apply Rmult_le_pos; [apply asum_nonneg|]. apply Rlt_le, Rinv_0_lt_compat. pose proof n1; lra. Qed.
Lemma E0 : 0 <= E. Proof. apply Rmult_le_pos; [apply rss_nonneg|]. apply Rlt_le, Rinv_0_lt_compat. pose proof n1; lra. Qed.
Lemma muA : Rabs mu <= A.
Proof.
  unfold Rdiv. pose proof n1. rewrite Rabs_mult, Rabs_inv, (Rabs_pos_eq n) by lra. apply Rmult_le_compat_r; [|apply abs_vsum].
  apply Rlt_le, Rinv_0_lt_compat. lra.
Qed.
Lemma AE : A ^ 2 <= E.
Proof.
  pose proof (jensen (map (fun x => Rabs (B2 x)) xs)) as J. rewrite map_map, map_length in J.
  assert (X : rsum (map (fun x => Rabs (B2 x) ^ 2) xs) = rss xs).
  { unfold rss. f_equal. apply map_ext. intros x. apply pow2_abs. }
  rewrite X in J. apply J. intros K. apply ne. now apply map_eq_nil in K.
Qed.

Lemma mean_ok : fin mean64 = true /\ Rabs (B2 mean64 - mu) <= 2 * (n + 1) * u64 * A + eta64.
Proof.
  destruct zero64 as (Z1 & Z2). pose proof sum_finite as F. pose proof (sum64_err xs _ F) as SE. rewrite Z2, Rabs_R0, !Rplus_0_l in SE.
  destruct (div_count _ (length xs) F len1 few53) as (Fm & Em). split; [exact Fm|].
  fold mean64 in Em. set (s := B2 (sum64 (b64_of_Z 0) xs)) in *. pose proof n1 as N1. pose proof (asum_nonneg xs) as AN.
  pose proof u_small as (U & U').
  destruct (gn (Datatypes.S (length xs))) as (G & _); [rewrite S_INR; lra|]. rewrite <- tech_pow_Rmult, S_INR in G.
  set (g := (1 + u64) ^ length xs) in *. assert (G1 : 1 <= g) by apply g_pow.
  assert (I : 0 < / n) by (apply Rinv_0_lt_compat; lra).
  assert (D1 : Rabs (s / n - mu) <= (g - 1) * A).
  { replace (s / n - mu) with ((s - vsum xs) * / n) by (field; lra). rewrite Rabs_mult, (Rabs_pos_eq (/ n)) by lra.
    unfold Rdiv. rewrite <- Rmult_assoc. apply Rmult_le_compat_r; lra. }
  assert (D2 : Rabs (s / n) <= g * A).
  { replace (s / n) with ((s / n - mu) + mu) by ring. eapply Rle_trans; [apply Rabs_triang|]. pose proof muA. lra. }
  replace (B2 mean64 - mu) with ((B2 mean64 - s / n) + (s / n - mu)) by ring. eapply Rle_trans; [apply Rabs_triang|].
  assert (D3 : u64 * Rabs (s / n) <= u64 * (g * A)) by (apply Rmult_le_compat_l; lra).
  assert (A0' : 0 <= A) by (apply Rmult_le_pos; lra).
  apply Rle_trans with (((1 + u64) * g - 1) * A + eta64); [lra|].
  apply Rplus_le_compat_r. apply Rmult_le_compat_r; [exact A0'|lra].
Qed.

Lemma sqs_ok : fin sqs64 = true /\ Rabs (B2 sqs64 - E) <= 2 * (n + 2) * u64 * E + 3 * eta64.
Proof.
  destruct zero64 as (Z1 & Z2). pose proof ss_finite as F. assert (Z3 : 0 <= B2 (b64_of_Z 0)) by lra.
  destruct (ss_bounds xs _ F Z3) as (L & H). rewrite Z2, Rplus_0_l in L, H.
  destruct (div_count _ (length xs) F len1 few53) as (Fm & Em). split; [exact Fm|]. fold sqs64 in Em.
  pose proof (ss_nonneg xs F) as Q0. set (s := B2 (ss (b64_of_Z 0) xs)) in *. pose proof n1 as N1. pose proof (rss_nonneg xs) as R0.
  pose proof u_small as (U & U'). pose proof eta_small as (V & V').
  destruct (gn (length xs + 2)) as (G & _); [rewrite plus_INR; simpl (INR 2); lra|]. rewrite pow_add, plus_INR in G. simpl (INR 2) in G.
  destruct (gn (length xs + 1)) as (_ & G'); [rewrite plus_INR; simpl (INR 1); lra|]. rewrite pow_add in G'.
  set (g := (1 + u64) ^ length xs) in *. assert (G1 : 1 <= g) by apply g_pow.
  pose proof (l_lin (length xs + 2)) as Lo. rewrite pow_add, plus_INR in Lo. simpl (INR 2) in Lo.
  set (lo := (1 - u64) ^ length xs) in *. assert (L1 : 0 < lo) by (apply pow_lt; lra).
  assert (L2 : lo <= 1) by (apply pow_le1; lra).
  assert (I : 0 < / n) by (apply Rinv_0_lt_compat; lra).
  assert (EE : 0 <= E) by (apply Rmult_le_pos; lra).
  assert (Hs : s / n <= g * (1 + u64) * E + g * eta64).
  { replace (g * (1 + u64) * E + g * eta64) with (g * ((1 + u64) * rss xs + n * eta64) * / n) by (field; lra).
    apply Rmult_le_compat_r; lra. }
  assert (Ls : lo * (1 - u64) * E - eta64 <= s / n).
  { replace (lo * (1 - u64) * E - eta64) with ((lo * ((1 - u64) * rss xs) - n * eta64) * / n) by (field; lra).
    apply Rmult_le_compat_r; lra. }
  assert (s0 : 0 <= s / n) by (apply Rmult_le_pos; lra).
  rewrite (Rabs_pos_eq (s / n)) in Em by lra. apply Rabs_le_inv in Em. simpl pow in G, G', Lo. rewrite !Rmult_1_r in G, G', Lo.
  apply Rabs_le. split.
  - assert (K1 : (1 - u64) * (lo * (1 - u64) * E - eta64) <= (1 - u64) * (s / n)) by (apply Rmult_le_compat_l; lra).
    assert (K2 : (1 - (n + 2) * u64) * E <= lo * ((1 - u64) * (1 - u64)) * E) by (apply Rmult_le_compat_r; lra).
    assert (K3 : 0 <= (n + 2) * u64 * E) by (apply Rmult_le_pos; [apply Rmult_le_pos; lra|lra]).
    assert (K4 : (1 - u64) * (lo * (1 - u64) * E - eta64) = lo * ((1 - u64) * (1 - u64)) * E - (1 - u64) * eta64) by ring.
    assert (K5 : (1 - u64) * eta64 <= eta64) by nra. lra.
  - assert (K1 : (1 + u64) * (s / n) <= (1 + u64) * (g * (1 + u64) * E + g * eta64)) by (apply Rmult_le_compat_l; lra).
    assert (K2 : g * ((1 + u64) * (1 + u64)) * E <= (1 + 2 * (n + 2) * u64) * E) by (apply Rmult_le_compat_r; lra).
    assert (K3 : (1 + u64) * (g * (1 + u64) * E + g * eta64) = g * ((1 + u64) * (1 + u64)) * E + g * (1 + u64) * eta64) by ring.
    assert (K4 : g * (1 + u64) * eta64 <= 2 * eta64) by (apply Rmult_le_compat_r; lra). lra.
Qed.

Lemma mean_sq_fin : fin (Bmult mode_NE mean64 mean64) = true /\ Rabs (B2 (Bmult mode_NE mean64 mean64) - B2 mean64 ^ 2) <= u64 * B2 mean64 ^ 2 + eta64.
Proof.
  destruct mean_ok as (Fm & Em). pose proof u_small as (U & U'). pose proof eta_small as (V & V'). pose proof n1 as N1. pose proof nu as NU.
  assert (AP : A <= P480).
  { apply Rmult_le_reg_r with n; [lra|]. replace (A * n) with (asum xs) by (field; lra). pose proof asum_small. lra. }
  pose proof A0 as AA. pose proof P480_1 as P1. pose proof muA as MA.
  assert (M : Rabs (B2 mean64) <= 3 * P480).
  { replace (B2 mean64) with ((B2 mean64 - mu) + mu) by ring. eapply Rle_trans; [apply Rabs_triang|].
    assert (2 * (n + 1) * u64 * A <= 1 * A) by (apply Rmult_le_compat_r; lra). lra. }
  assert (M2 : B2 mean64 * B2 mean64 <= 9 * (P480 * P480)).
  { replace (9 * (P480 * P480)) with ((3 * P480) * (3 * P480)) by ring.
    replace (B2 mean64 * B2 mean64) with (Rabs (B2 mean64) * Rabs (B2 mean64)) by (rewrite <- Rabs_mult; apply Rabs_pos_eq; nra).
    apply Rmult_le_compat; auto using Rabs_pos. }
  assert (P : 0 <= B2 mean64 * B2 mean64) by nra.
  pose proof (rnd64_err (B2 mean64 * B2 mean64)) as Er. rewrite (Rabs_pos_eq (B2 mean64 * B2 mean64)) in Er by exact P.
  assert (F : fin (Bmult mode_NE mean64 mean64) = true).
  { destruct (mult_val mean64 mean64 Fm Fm) as (Nn & Vv). apply (rnd64_lt_fin _ _ Nn Vv). rewrite Rabs_pos_eq by (now apply rnd64_pos).
    apply Rabs_le_inv in Er. rewrite top_P480. assert (1 <= P480 * P480) by nra.
    assert (u64 * (B2 mean64 * B2 mean64) <= 1 * (B2 mean64 * B2 mean64)) by (apply Rmult_le_compat_r; lra). lra. }
  split; auto. rewrite fin_mult_eq by auto. replace (B2 mean64 ^ 2) with (B2 mean64 * B2 mean64) by ring. exact Er.
Qed.

Lemma var_ok : fin var64 = true /\ Rabs (B2 var64 - (E - mu ^ 2)) <= 8 * (n + 2) * u64 * E + 20 * eta64 * (1 + E).
Proof.
  destruct mean_ok as (Fm & Em). destruct sqs_ok as (Fq & Eq). destruct mean_sq_fin as (Fp & Ep).
  pose proof u_small as (U & U'). pose proof eta_small as (V & V'). pose proof n1 as N1. pose proof nu as NU. pose proof P480_1 as P1.
  pose proof A0 as AA. pose proof E0 as EE. pose proof AE as HAE. pose proof muA as MA.
  pose proof (rnd64_minus sqs64 (Bmult mode_NE mean64 mean64)) as Er.
  pose proof (variance_core u64 eta64 n E A mu (B2 mean64) (B2 sqs64) (B2 (Bmult mode_NE mean64 mean64)) _
     (conj U U') (conj V V') N1 NU AA MA HAE Em Eq Ep Er) as K.
  assert (EP : E <= P480 * P480).
  { apply Rmult_le_reg_r with n; [lra|]. replace (E * n) with (rss xs) by (field; lra). pose proof rss_small. lra. }
  assert (PP : 1 <= P480 * P480) by nra.
  assert (M0 : 0 <= mu ^ 2 <= E).
  { split; [apply pow2_ge_0|]. apply Rle_trans with (A ^ 2); [|exact HAE]. rewrite <- (pow2_abs mu). apply pow_incr. split; [apply Rabs_pos|exact MA]. }
  assert (F : fin var64 = true).
  { destruct (minus_val sqs64 _ Fq Fp) as (Nn & Vv). apply (rnd64_lt_fin _ _ Nn Vv).
    set (w := rnd64 _) in *. rewrite top_P480.
    assert (8 * (n + 2) * u64 * E <= 4 * E) by (apply Rmult_le_compat_r; lra).
    assert (eta64 * (1 + E) <= / 1000 * (1 + E)) by (apply Rmult_le_compat_r; lra).
    apply Rabs_le_inv in K. apply Rabs_def1; lra. }
  split; auto. unfold var64. rewrite fin_minus_eq by exact F. exact K.
Qed.

Lemma dev_ok : let B := 8 * (n + 3) * u64 * E + 21 * eta64 * (1 + E) in
  (fin dev64 = true /\ 0 <= B2 dev64 /\ Rabs (B2 dev64 ^ 2 - (E - mu ^ 2)) <= B) \/ (nan dev64 = true /\ E - mu ^ 2 <= B).
Proof.
  cbv zeta. destruct var_ok as (Fv & Ev). pose proof u_small as (U & U'). pose proof eta_small as (V & V'). pose proof n1 as N1. pose proof nu as NU.
  pose proof A0 as AA. pose proof E0 as EE. pose proof AE as HAE. pose proof muA as MA.
  assert (M0 : 0 <= mu ^ 2 <= E).
  { split; [apply pow2_ge_0|]. apply Rle_trans with (A ^ 2); [|exact HAE]. rewrite <- (pow2_abs mu). apply pow_incr. split; [apply Rabs_pos|exact MA]. }
  assert (uE : 0 <= u64 * E) by (apply Rmult_le_pos; lra). assert (hE : 0 <= eta64 * (1 + E)) by (apply Rmult_le_pos; lra).
  assert (X8 : 8 * (n + 2) * u64 * E <= 2 * E) by (apply Rmult_le_compat_r; lra).
  replace (8 * (n + 3) * u64 * E + 21 * eta64 * (1 + E)) with ((8 * (n + 2) * u64 * E + 20 * eta64 * (1 + E)) + 8 * (u64 * E) + eta64 * (1 + E)) by ring.
  set (B := 8 * (n + 2) * u64 * E + 20 * eta64 * (1 + E)) in *. apply Rabs_le_inv in Ev.
  destruct (Rle_or_lt 0 (B2 var64)) as [P|P].
  - left. destruct (sqrt_val var64 Fv P) as (Fd & Ed). fold dev64 in Fd, Ed. split; [exact Fd|].
    pose proof (rnd64_sqrt var64 P) as Er. rewrite <- Ed in Er. pose proof (sqrt_pos (B2 var64)) as SP. pose proof (sqrt_sqrt (B2 var64) P) as SS.
    set (r := sqrt (B2 var64)) in *. set (d := B2 dev64) in *. set (v := B2 var64) in *. apply Rabs_le_inv in Er.
    assert (D0 : 0 <= d). { rewrite Ed. apply rnd64_pos. exact SP. }
    split; [exact D0|]. assert (K : Rabs (d ^ 2 - v) <= 3 * u64 * v).
    { rewrite <- SS. assert (ur : 0 <= u64 * r) by (apply Rmult_le_pos; lra).
      apply Rabs_le. split.
      - assert ((1 - u64) * r * ((1 - u64) * r) <= d * d) by (apply Rmult_le_compat; try lra; apply Rmult_le_pos; lra).
        assert (0 <= u64 * u64 * (r * r)) by (apply Rmult_le_pos; nra). simpl. assert (0 <= u64 * (r * r)) by (apply Rmult_le_pos; nra). lra.
      - assert (d * d <= (1 + u64) * r * ((1 + u64) * r)) by (apply Rmult_le_compat; lra).
        assert (u64 * u64 * (r * r) <= u64 * 1 * (r * r)) by (apply Rmult_le_compat_r; [nra|apply Rmult_le_compat_l; lra]). simpl. lra. }
    apply Rabs_le_inv in K. assert (VB : v <= 3 * E + 20 * eta64 * (1 + E)) by (unfold B in Ev; lra).
    assert (3 * u64 * v <= 3 * u64 * (3 * E + 20 * eta64 * (1 + E))) by (apply Rmult_le_compat_l; lra).
    assert (K2 : Rabs (d ^ 2 - v) <= 8 * (u64 * E) + eta64 * (1 + E)).
    { assert (VB2 : v <= 5 / 2 * E + 20 * (eta64 * (1 + E))).
      { assert (8 * (n + 2) * u64 * E <= 3 / 2 * E) by (apply Rmult_le_compat_r; lra). unfold B in Ev. lra. }
      assert (3 * u64 * v <= 3 * u64 * (5 / 2 * E + 20 * (eta64 * (1 + E)))) by (apply Rmult_le_compat_l; lra).
      assert (u64 * (eta64 * (1 + E)) <= / 1000 * (eta64 * (1 + E))) by (apply Rmult_le_compat_r; lra).
      apply Rabs_le. lra. }
    apply Rabs_le_inv in K2. apply Rabs_le. lra.
  - right. split; [|lra]. unfold dev64. destruct var64 as [s| | |[|] m e b]; simpl in P; try lra; try easy.
    exfalso. assert (0 < F2R (beta := radix2) (Float radix2 (Zpos m) e)) by now apply F2R_gt_0. lra.
Qed.
End M.
