(** Exact reflection at a sphere in double precision: from the coordinates to the image. *)
From Coq Require Import Reals ZArith List Lra Lia.
From Flocq Require Import Core.
From Flocq.IEEE754 Require Import BinarySingleNaN.
From Verif Require Import Base Scalar Float64 Model_Position Spec_Position Proof_Position Proof_Norm64 Proof_Sum64 Proof_Force64 Proof_Walk64 Proof_Inner64 Proof_System2 Proof_System4 Proof_System5
  Spec_Wall64 Proof_Wall64b Proof_Refl64 Proof_Refl64b Proof_Refl64c.
Import ListNotations.
Local Open Scope R_scope.

Definition rp (a : b64 * b64) : R := B2 (fst a).
Definition rd (a : b64 * b64) : R := B2 (snd a).
Definition inner (l : list (b64 * b64)) : b64 := sum64 (b64_of_Z 0) (prods (map (fun a => (back a, snd a)) l)).

Lemma T_small R0 : rg 200 R0 -> 2 * T410 <= u64 * R0.
Proof.
  intros (L & _). pose proof u64_pos. apply Rle_trans with (u64 * / 2 ^ 200); [|apply Rmult_le_compat_l; lra]. unfold T410, u64. rewrite <- Rinv_mult, <- pow_add.
  replace (2 * / 2 ^ 410) with (/ 2 ^ 409). { apply Rinv_le_contravar; [apply pow_lt; lra|]. apply Rle_pow; [lra|lia]. }
  replace (2 ^ 410) with (2 * 2 ^ 409) by reflexivity. field.
Qed.
Lemma T_sq R0 d : rg 200 R0 -> rg 246 d -> T410 ^ 2 <= R0 * d.
Proof.
  intros H1 H2. pose proof (rg_mul 200 246 _ _ H1 H2) as (L & _). apply Rle_trans with (2 := L). unfold T410. rewrite pow_inv, <- pow_mult.
  apply Rinv_le_contravar; [apply pow_lt; lra|]. apply Rle_pow; [lra|lia].
Qed.
Lemma pow_201_800 : 3 * 2 ^ 200 * 2 ^ 50 <= 2 ^ 800.
Proof. rewrite Rmult_assoc, <- pow_add. apply Rle_trans with (2 ^ 2 * 2 ^ 250); [change (200 + 50)%nat with 250%nat; apply Rmult_le_compat_r; [apply Rlt_le, pow_lt; lra|simpl; lra]|]. rewrite <- pow_add. apply Rle_pow; [lra|lia]. Qed.

Section L.
Variables (x0 : b64) (l : list (b64 * b64)).
Let R0 := B2 x0.
Let n := length l.
Let A := al n.
Let P := euclid_norm (map rp l).
Let d := euclid_norm (map rd l).
Let b := rsum (map (fun a => rp a * rd a) l).
Hypothesis F0 : fin x0 = true.
Hypothesis Fl : Forall (fun a => fin (fst a) = true /\ fin (snd a) = true) l.
Hypothesis Fk : INR n <= 2 ^ 40.
Hypothesis HR : rg 200 R0.
Hypothesis HP : P <= R0.
Hypothesis Hd : / 2 ^ 46 * R0 <= d <= 2 * R0.

Lemma A_s : 4 * u64 <= A <= / 1000. Proof. split; [apply al_pos|apply al_small, Fk]. Qed.
Lemma Rp : 0 < R0. Proof. exact (rg_pos _ _ HR). Qed.
Lemma P0 : 0 <= P. Proof. apply euclid_norm_nonneg. Qed.
Lemma dp0 : 0 < d. Proof. pose proof Rp. pose proof (i2 46). assert (0 < / 2 ^ 46 * R0) by (apply Rmult_lt_0_compat; lra). lra. Qed.
Lemma drg : rg 246 d. Proof. exact (d_rg R0 d HR Hd). Qed.
Lemma in_good a : In a l -> good a /\ size a * 2 ^ 50 <= 2 ^ 800.
Proof.
  intros I. rewrite Forall_forall in Fl. destruct (Fl a I) as (F1 & F2).
  assert (C1 : Rabs (rp a) <= P) by (apply coord_le, (in_map rp), I). assert (C2 : Rabs (rd a) <= d) by (apply coord_le, (in_map rd), I).
  assert (S : size a <= 3 * 2 ^ 200). { unfold size. fold (rp a) (rd a). destruct HR as (_ & H). lra. }
  assert (P50 : 1 <= 2 ^ 50) by (apply pow_R1_Rle; lra). assert (S0 : 0 <= size a) by (unfold size; pose proof (Rabs_pos (B2 (fst a))); pose proof (Rabs_pos (B2 (snd a))); lra).
  assert (Q : size a * 2 ^ 50 <= 2 ^ 800). { apply Rle_trans with (2 := pow_201_800). apply Rmult_le_compat_r; lra. }
  split; [|exact Q]. split; [exact F1|]. split; [exact F2|]. apply Rle_trans with (2 := Q). rewrite <- (Rmult_1_r (size a)) at 1. apply Rmult_le_compat_l; lra.
Qed.
Lemma back_norm : euclid_norm (map (fun a => B2 (back a) - rp a) l) <= 9 * u64 * R0.
Proof.
  pose proof u64_pos. pose proof P0. pose proof Rp. apply Rle_trans with (3 * u64 * P + 3 * u64 * d + INR (length l) * 0).
  - apply norm_dom; try lra. intros a I. destruct (in_good a I) as (G & _). destruct (back_ok a G) as (_ & E). unfold size in E. fold (rp a) (rd a) in E. lra.
  - assert (3 * u64 * P <= 3 * u64 * R0) by (apply Rmult_le_compat_l; lra). assert (3 * u64 * d <= 3 * u64 * (2 * R0)) by (apply Rmult_le_compat_l; lra). lra.
Qed.
Lemma back_close : Rabs (euclid_norm (map (fun a => B2 (back a)) l) - P) <= 9 * u64 * R0.
Proof. apply Rle_trans with (1 := norm_close _ _ _). exact back_norm. Qed.
Lemma reals_map (f : b64 * b64 -> b64) : reals (map f l) = map (fun a => B2 (f a)) l. Proof. unfold reals. now rewrite map_map. Qed.
Lemma big410 x : x <= 4 * R0 -> x <= 2 ^ 410.
Proof. intros H. destruct HR as (_ & U). apply Rle_trans with (2 ^ 2 * 2 ^ 200); [simpl (2 ^ 2); lra|]. rewrite <- pow_add. apply Rle_pow; [lra|lia]. Qed.

Lemma L_dr : ap (n64 (map snd l)) d d A.
Proof.
  pose proof A_s. pose proof dp0. assert (E : euclid_norm (reals (map snd l)) = d) by (rewrite reals_map; reflexivity).
  destruct (norm_near (map snd l)) as (F & N0 & N1 & _).
  - unfold few. rewrite map_length. exact Fk.
  - unfold finite_pos. rewrite Forall_map. eapply Forall_impl; [|exact Fl]. intros a (_ & H1). exact H1.
  - rewrite E. apply big410. pose proof Rp. lra.
  - rewrite E, map_length in N1. fold n in N1. fold A in N1. split; [exact F|]. rewrite Rabs_pos_eq by lra. split; [lra|].
    assert (T : T410 <= d). { pose proof (T_small R0 HR) as TS. pose proof T410_pos. apply Rle_trans with (u64 * R0); [lra|]. destruct Hd as (D1 & _). apply Rle_trans with (2 := D1). apply Rmult_le_compat_r; [pose proof Rp; lra|]. unfold u64. apply Rinv_le_contravar; [apply pow_lt; lra|]. apply Rle_pow; [lra|lia]. }
    destruct (N1 T). apply Rabs_le. lra.
Qed.
Lemma L_r : ap (n64 (map back l)) P R0 (4 * A).
Proof.
  pose proof A_s. pose proof Rp. pose proof P0. pose proof u64_pos. pose proof u64_tiny. set (m := euclid_norm (map (fun a => B2 (back a)) l)). pose proof back_close as BC. fold m in BC. assert (E : euclid_norm (reals (map back l)) = m) by (rewrite reals_map; reflexivity).
  assert (m0 : 0 <= m) by apply euclid_norm_nonneg. apply Rabs_le_inv in BC as BC2. assert (9 * u64 * R0 <= / 1000 * R0) by (apply Rmult_le_compat_r; lra).
  destruct (norm_near (map back l)) as (F & N0 & N1 & N2).
  - unfold few. rewrite map_length. exact Fk.
  - unfold finite_pos. rewrite Forall_map, Forall_forall. intros a I. apply back_ok, in_good, I.
  - rewrite E. apply big410. lra.
  - rewrite E, map_length in N1. rewrite E in N2. fold n in N1. fold A in N1. split; [exact F|]. rewrite Rabs_pos_eq by lra. split; [lra|]. set (N := B2 (n64 (map back l))) in *.
    assert (Q : Rabs (N - m) <= A * m + u64 * R0).
    { assert (0 <= u64 * R0) by (apply Rmult_le_pos; lra). assert (0 <= A * m) by (apply Rmult_le_pos; lra). destruct (Rle_or_lt T410 m) as [T|T]; [destruct (N1 T); apply Rabs_le; lra|]. pose proof (N2 ltac:(lra)). pose proof (T_small R0 HR). pose proof T410_pos. apply Rabs_le. lra. }
    replace (N - P) with ((N - m) + (m - P)) by ring. apply Rle_trans with (1 := Rabs_triang _ _).
    assert (A * m <= A * (R0 + 9 * u64 * R0)) by (apply Rmult_le_compat_l; lra). assert (u64 * R0 <= / 4 * A * R0) by (apply Rmult_le_compat_r; lra). assert (A * (9 * u64 * R0) <= A * (/ 1000 * R0)) by (apply Rmult_le_compat_l; lra). assert (0 <= A * R0) by (apply Rmult_le_pos; lra). lra.
Qed.
Lemma b_small : Rabs b <= P * d. Proof. apply dot_cs. Qed.
Lemma L_b : ap (inner l) b (R0 * d) (7 * A).
Proof.
  pose proof A_s. pose proof Rp as R1. pose proof dp0 as d1. pose proof P0 as P1. pose proof u64_pos. pose proof u64_tiny. pose proof b_small as BS. set (m := euclid_norm (map (fun a => B2 (back a)) l)). pose proof back_close as BC. fold m in BC.
  assert (m0 : 0 <= m) by apply euclid_norm_nonneg. apply Rabs_le_inv in BC as BC2. assert (9 * u64 * R0 <= / 1000 * R0) by (apply Rmult_le_compat_r; lra).
  set (l' := map (fun a => (back a, snd a)) l). assert (Ll : length l' = n) by apply map_length. assert (RD : 0 < R0 * d) by (apply Rmult_lt_0_compat; lra).
  assert (N50 : INR (length l') <= 2 ^ 50) by (rewrite Ll; apply Rle_trans with (1 := Fk), Rle_pow; [lra|lia]).
  assert (PF : Forall (fun x => fin x = true /\ Rabs (B2 x) <= 2 ^ 900) (prods l')).
  { unfold prods, l'. rewrite map_map, Forall_map, Forall_forall. intros a I. cbn [fst snd]. destruct (in_good a I) as (G & S). destruct (back_ok a G) as (Fb & Eb). destruct G as (G1 & G2 & _).
    assert (C1 : Rabs (B2 (back a)) <= 2 * R0). { apply Rle_trans with m; [|lra]. apply coord_le. exact (in_map (fun a => B2 (back a)) l a I). }
    assert (C2 : Rabs (rd a) <= 2 * R0) by (apply Rle_trans with d; [apply coord_le, (in_map rd), I|lra]). unfold rd in C2.
    assert (C : Rabs (B2 (back a) * B2 (snd a)) <= 2 ^ 402). { rewrite Rabs_mult. apply Rle_trans with ((2 * R0) * (2 * R0)); [apply Rmult_le_compat; try apply Rabs_pos; lra|]. replace (2 * R0 * (2 * R0)) with (4 * (R0 * R0)) by ring. pose proof (rg_mul 200 200 _ _ HR HR) as (_ & Q). change (200 + 200)%nat with 400%nat in Q. replace (2 ^ 402) with (4 * 2 ^ 400) by (change (2 ^ 402) with (2 * (2 * 2 ^ 400)); ring). lra. }
    destruct (mult_any (back a) (snd a) Fb G2) as (Fm & Em). { apply Rle_trans with (1 := C), Rle_pow; [lra|lia]. }
    split; [exact Fm|]. pose proof (Rabs_triang (B2 (Bmult mode_NE (back a) (snd a)) - B2 (back a) * B2 (snd a)) (B2 (back a) * B2 (snd a))) as T. match type of T with Rabs ?x <= _ => replace x with (B2 (Bmult mode_NE (back a) (snd a))) in T by ring end.
    assert (u64 * Rabs (B2 (back a) * B2 (snd a)) <= 1 * 2 ^ 402) by (apply Rmult_le_compat; [lra|apply Rabs_pos|lra|exact C]). assert (eta64 <= 1). { unfold eta64. rewrite <- Rinv_1. apply Rinv_le_contravar; [lra|]. apply pow_R1_Rle. lra. }
    assert (1 <= 2 ^ 402) by (apply pow_R1_Rle; lra). assert (2 ^ 2 * 2 ^ 402 <= 2 ^ 900) by (rewrite <- pow_add; apply Rle_pow; [lra|lia]). simpl (2 ^ 2) in *. lra. }
  assert (Fs : fin (inner l) = true). { unfold inner. fold l'. destruct zero64 as (Z1 & Z2). apply sum_finite; [unfold prods; rewrite map_length; exact N50|exact Z1|rewrite Z2, Rabs_R0; apply Rlt_le, pow_lt; lra|exact PF]. }
  pose proof (dot_err l' (inner l) N50 eq_refl Fs) as E. rewrite Ll in E.
  assert (Es : pairs_sum l' = rsum (map (fun a => B2 (back a) * rd a) l)) by (unfold pairs_sum, l'; rewrite map_map; reflexivity).
  assert (Ea : pairs_abs l' <= m * d). { unfold pairs_abs, l'. rewrite map_map. cbn [fst snd]. apply Rle_trans with (Rabs (rsum (map (fun a => Rabs (B2 (back a)) * Rabs (rd a)) l))).
    - rewrite (map_ext _ (fun a => Rabs (B2 (back a)) * Rabs (rd a))) by (intros a; apply Rabs_mult). apply Rle_abs.
    - apply Rle_trans with (1 := dot_cs l (fun a => Rabs (B2 (back a))) (fun a => Rabs (rd a))). rewrite (norm_abs l (fun a => B2 (back a))), (norm_abs l rd). apply Rle_refl. }
  assert (Ed : Rabs (pairs_sum l' - b) <= 9 * u64 * R0 * d).
  { rewrite Es. unfold b. rewrite rsum_minus. rewrite (map_ext _ (fun a => (B2 (back a) - rp a) * rd a)) by (intros a; ring). apply Rle_trans with (1 := dot_cs _ _ _). apply Rmult_le_compat_r; [fold d; lra|exact back_norm]. }
  split; [exact Fs|]. split; [apply Rle_trans with (1 := BS), Rmult_le_compat_r; lra|].
  replace (B2 (inner l) - b) with ((B2 (inner l) - pairs_sum l') + (pairs_sum l' - b)) by ring. apply Rle_trans with (1 := Rabs_triang _ _).
  destruct (eta_T n Fk) as (ET & _). pose proof (T_sq R0 d HR drg) as TS. assert (U2 : u64 * T410 ^ 2 <= u64 * (R0 * d)) by (apply Rmult_le_compat_l; lra).
  pose proof (pairs_abs_nonneg l') as PA0. pose proof (pos_INR n) as N0. assert (K4 : (4 * INR n + 1) * u64 = 4 * A - 15 * u64) by (unfold A, al; ring).
  assert (M1 : (4 * INR n + 1) * u64 * pairs_abs l' <= 4 * A * (m * d)). { rewrite K4. apply Rmult_le_compat; lra. }
  assert (M2 : m * d <= (R0 + 9 * u64 * R0) * d) by (apply Rmult_le_compat_r; lra).
  assert (M3 : 4 * A * (m * d) <= 4 * A * ((R0 + 9 * u64 * R0) * d)) by (apply Rmult_le_compat_l; lra).
  set (V := R0 * d) in *. replace ((R0 + 9 * u64 * R0) * d) with ((1 + 9 * u64) * V) in M3 by (unfold V; ring). replace (9 * u64 * R0 * d) with (9 * u64 * V) in Ed by (unfold V; ring).
  assert (u64 * V <= / 4 * A * V) by (apply Rmult_le_compat_r; lra). assert (A * (u64 * V) <= A * (/ 1000000 * V)) by (apply Rmult_le_compat_l; [lra|apply Rmult_le_compat_r; lra]). assert (0 <= A * V) by (apply Rmult_le_pos; lra). lra.
Qed.

(** The image. *)
Variables (c w t k : R).
Hypothesis Hc : 0 < c <= 1.
Hypothesis HAc : 2048 * A <= c * c.
Hypothesis Hw : w = sqrt (b * b + d * d * (R0 * R0 - P * P)).
Hypothesis Hcw : c * (R0 * d) <= w.
Hypothesis Ht : t * (d * d) = w - b.
Hypothesis Ht1 : 0 <= t <= 1.
Hypothesis Hk : k * (R0 * R0) = (1 - t) * w.
Let xt := refl_t x0 (n64 (map back l)) (n64 (map snd l)) (inner l).
Let xk := refl_k x0 (n64 (map snd l)) (inner l) xt.
Definition images : list b64 := map (image (fac1 xk) (fac2 xk xt)) l.
Lemma bb_le : b * b <= P * P * (d * d).
Proof. pose proof b_small as H. pose proof P0. pose proof dp0. replace (P * P * (d * d)) with ((P * d) * (P * d)) by ring. assert (0 <= Rabs b) by apply Rabs_pos. replace (b * b) with (Rabs b * Rabs b) by (rewrite <- Rabs_mult; apply Rabs_pos_eq; nra). apply Rmult_le_compat; lra. Qed.
Lemma image_all : Forall (fun a => fin (image (fac1 xk) (fac2 xk xt) a) = true) l /\
  euclid_norm (map (fun a => B2 (image (fac1 xk) (fac2 xk xt) a) - ((1 - 2 * k) * rp a + (1 - 2 * k * t) * rd a)) l) <= 1900 * (A / c) * R0.
Proof.
  pose proof A_s as AS. pose proof Rp. pose proof dp0. pose proof P0. pose proof u64_pos.
  assert (X0 : ap x0 R0 R0 0). { unfold R0. apply ap_exact; [exact F0|]. rewrite Rabs_pos_eq; fold R0; lra. }
  assert (HP' : 0 <= P <= R0) by lra. assert (HA : 4 * u64 <= A) by lra.
  pose proof (s_f1 x0 (n64 (map back l)) (n64 (map snd l)) (inner l) R0 d P b c A w t k HR Hd HP' bb_le HA Hc HAc X0 L_r L_dr L_b Hw Hcw Ht Ht1 Hk) as S1.
  pose proof (s_f2 x0 (n64 (map back l)) (n64 (map snd l)) (inner l) R0 d P b c A w t k HR Hd HP' bb_le HA Hc HAc X0 L_r L_dr L_b Hw Hcw Ht Ht1 Hk) as S2.
  fold xt in S1, S2. fold xk in S1, S2. destruct (AB c A HA Hc HAc) as (B1 & B2 & B3 & B4). set (B := A / c) in *.
  destruct (q_rg R0 d HR Hd) as ((_ & Q1) & Q2). assert (Q50 : R0 / d <= 2 ^ 50) by (apply Rle_trans with (1 := Q1), Rle_pow; [lra|lia]).
  assert (K : forall a, In a l -> fin (image (fac1 xk) (fac2 xk xt) a) = true /\
    Rabs (Float64.B2 (image (fac1 xk) (fac2 xk xt) a) - ((1 - 2 * k) * rp a + (1 - 2 * k * t) * rd a)) <= 520 * B * Rabs (rp a) + 1340 * B * (R0 / d) * Rabs (rd a) + 4 * eta64).
  { intros a I. destruct (in_good a I) as (G & S). exact (image_ok _ _ _ _ (R0 / d) B a G ltac:(lra) ltac:(lra) S S1 S2). }
  split; [apply Forall_forall; intros a I; apply K, I|].
  apply Rle_trans with (520 * B * P + 1340 * B * (R0 / d) * d + INR (length l) * (4 * eta64)).
  - apply norm_dom; [nra|apply Rmult_le_pos; lra|pose proof eta64_pos; lra|]. intros a I. apply K, I.
  - replace (1340 * B * (R0 / d) * d) with (1340 * B * R0) by (field; lra). assert (520 * B * P <= 520 * B * R0) by (apply Rmult_le_compat_l; lra).
    destruct (eta_T n Fk) as (ET & _). fold n. assert (U2 : u64 * T410 ^ 2 <= u64 * R0). { apply Rmult_le_compat_l; [lra|]. pose proof (T_small R0 HR). pose proof T410_pos. pose proof u64_tiny. assert (u64 * R0 <= 1 * R0) by (apply Rmult_le_compat_r; lra). assert (T410 <= 1). { unfold T410. rewrite <- Rinv_1. apply Rinv_le_contravar; [lra|]. apply pow_R1_Rle. lra. } assert (T410 * T410 <= 1 * T410) by (apply Rmult_le_compat_r; lra). simpl. lra. }
    assert (u64 * R0 <= B * R0) by (apply Rmult_le_compat_r; lra). assert (0 <= B * R0) by (apply Rmult_le_pos; lra). lra.
Qed.
End L.
