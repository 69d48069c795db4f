(** First order reflection at a sphere in double precision: the function. *)
From Coq Require Import Reals ZArith List Lra Lia.
From Flocq Require Import Core.
From Flocq.IEEE754 Require Import BinarySingleNaN.
From Verif Require Import Base Scalar Float64 Model_Position Spec_Position Proof_Position Proof_Norm64 Proof_Sum64 Proof_Force64 Proof_Walk64 Proof_Inner64 Model_System Spec_System Proof_System Proof_System2 Proof_System4 Proof_System5 Proof_System9
  Spec_Wall64 Proof_Wall64b Proof_Refl64 Proof_Refl64b Proof_Refl64c Proof_Refl64d Proof_Refl64e Spec_Refl64 Spec_First64 Proof_First64.
Import ListNotations.
Local Open Scope R_scope.

Section Generic2.
Context {S : scalar}.
Lemma first_maps (s : circ S) (l : list (S * S)) : length l = ci_dim s ->
  let fw := fun a : S * S => add (fst a) (snd a) in let bk := fun a : S * S => sub (add (fst a) (snd a)) (snd a) in
  ltb (ci_size s) (norm (map fw l)) = true ->
  let r0 := ci_size s in let r := norm (map bk l) in let dr := norm (map snd l) in
  let rdr := fold_left (fun r xy => add r (mul (fst xy) (snd xy))) (map (fun a => (bk a, snd a)) l) s0 in
  let a := div r r0 in let b := div dr r0 in let co := div rdr (mul r dr) in
  let t := div (sub s1 a) (mul b co) in let k := sub (mul (mul a b) co) (mul a (sub s1 a)) in
  let f1 := sub s1 (mul s2 k) in let f2 := sub s1 (mul (mul s2 k) t) in
  let q := map (fun a => add (mul (bk a) f1) (mul (snd a) f2)) l in
  circ_check_bc_first_order s (map fst l) (map snd l) = (q, map (fun a => mul (snd a) f2) l, if ltb r0 (norm q) then Err TooLargeTimeStep else Ok tt).
Proof.
  intros Ld fw bk Out r0 r dr rdr a b co t k f1 f2 q. unfold circ_check_bc_first_order, mut_add, mut_sub. rewrite zip_maps. fold fw.
  rewrite circ_inclusion_eq by now rewrite map_length. rewrite Out. rewrite zip_maps. change (map (fun a : S * S => sub (fw a) (snd a)) l) with (map bk l). rewrite inner_maps. cbv zeta. fold rdr r0 r dr. fold a b co. fold t k.
  unfold mut_scalar_mul. rewrite !map_map. fold f1 f2. rewrite zip_maps. fold q. rewrite circ_inclusion_eq by (unfold q; now rewrite map_length).
  change (@ci_size S s) with r0. now destruct (ltb r0 (norm q)).
Qed.
End Generic2.

Section F.
Variable lm : libm.
Local Notation F := (F64 lm).

Lemma first_64 (s : circ F) (l : list (b64 * b64)) : length l = ci_dim s -> Bltb (ci_size s) (n64 (map fwd l)) = true ->
  let xt := fst_t (ci_size s) (n64 (map back l)) (n64 (map snd l)) (inner l) in let xk := fst_k (ci_size s) (n64 (map back l)) (n64 (map snd l)) (inner l) in
  circ_check_bc_first_order s (map fst l) (map snd l) =
    (map (image (fac1 xk) (fac2 xk xt)) l, map (fun a => Bmult mode_NE (snd a) (fac2 xk xt)) l, if Bltb (ci_size s) (n64 (map (image (fac1 xk) (fac2 xk xt)) l)) then Err TooLargeTimeStep else Ok tt).
Proof.
  intros L Out xt xk. pose proof (first_maps (S := F) s l L) as E. cbv zeta in E. specialize (E Out).
  assert (I : fold_left (fun r xy => Bplus mode_NE r (Bmult mode_NE (fst xy) (snd xy))) (map (fun a => (back a, snd a)) l) (b64_of_Z 0) = inner l) by apply fold_prods.
  refine (eq_trans E _). clear E. unfold xk, xt. rewrite <- I. clear.
  change (@add F) with (@Bplus 53 1024 _ _ mode_NE). change (@sub F) with (@Bminus 53 1024 _ _ mode_NE). change (@mul F) with (@Bmult 53 1024 _ _ mode_NE). change (@div F) with (@Bdiv 53 1024 _ _ mode_NE).
  change (@ltb F) with (@Bltb 53 1024). change (@s1 F) with one. change (@s2 F) with two. change (@s0 F) with (b64_of_Z 0).
  change (@norm F) with n64. unfold image, fac1, fac2, fst_k, fst_t, fst_cos, fst_a, back, fwd. reflexivity.
Qed.

Lemma first_near (s : circ F) (p dp : list b64) (c : R) (q0 : list R) : moderate_radius (ci_size s) -> INR (ci_dim s) <= 2 ^ 40 ->
  length p = ci_dim s -> length dp = ci_dim s -> finite_pos p -> finite_pos dp ->
  let r := B2 (ci_size s) in let e := slack (ci_dim s) in
  r / 2 <= euclid_norm (reals p) <= r -> euclid_norm (reals dp) <= 2 * r -> r * (1 + e) <= euclid_norm (along (reals p) (reals dp) 1) ->
  first_order_image r (reals p) (reals dp) q0 -> meets_at_angle c r (reals p) (reals dp) -> 64 * e <= c ^ 2 ->
  exists q dq o, circ_check_bc_first_order s p dp = (q, dq, o) /\ finite_pos q /\ length q = ci_dim s /\ euclid (reals q) q0 <= 128 * e / c ^ 2 * r /\
    (o = Ok tt \/ o = Err TooLargeTimeStep) /\ (euclid_norm q0 <= r * (1 - 128 * e / c ^ 2) -> o = Ok tt) /\ (r * (1 + 128 * e / c ^ 2) <= euclid_norm q0 -> o = Err TooLargeTimeStep).
Proof.
  intros (Fr & Hr) HN Lp Ld Fp Fd. remember (combine p dp) as l eqn:El. destruct (split_pairs p dp ltac:(congruence)) as (Ep & Ed). rewrite <- El in Ep, Ed.
  assert (Ll : length l = ci_dim s) by (rewrite <- Lp, Ep; symmetry; apply map_length). clear El. subst p dp. intros r e HP Hd Out (t & k & T1 & K1 & ->) (c0 & Hang) Hc.
  rewrite !along_maps in *. unfold reals in HP, Hd, Hang, T1, K1. rewrite !map_map in HP. rewrite !map_map in Hd. repeat rewrite (map_map fst B2) in Hang, T1, K1. repeat rewrite (map_map snd B2) in Hang, T1, K1. change (map (fun x => B2 (fst x)) l) with (map rp l) in HP, Hang, T1, K1. change (map (fun x => B2 (snd x)) l) with (map rd l) in Hd, Hang, T1, K1.
  rewrite <- Ll in *. set (n := length l) in *. set (A := al n). assert (Ee : e = 32 * A) by (unfold e; rewrite <- Ll; apply slack_al).
  set (P := euclid_norm (map rp l)) in *. set (d := euclid_norm (map rd l)) in *. rewrite (dot_maps l rp rd) in Hang, T1, K1. set (b := rsum (map (fun a => rp a * rd a) l)) in *.
  assert (HR : rg 200 r) by exact Hr. pose proof (rg_pos _ _ HR) as r0. assert (AS : 4 * u64 <= A <= / 1000) by (split; [apply al_pos|apply al_small; exact HN]). pose proof u64_pos as U0.
  assert (d0 : 0 <= d) by apply euclid_norm_nonneg.
  (* the size of the displacement *)
  assert (De : e * r <= d /\ r <= P + d).
  { pose proof (norm_add l rp (fun a => 1 * rd a)) as T. rewrite (norm_ext l (fun a => 1 * rd a) rd) in T by (intros; ring). fold P d in T. assert (0 <= e * r) by (rewrite Ee; apply Rmult_le_pos; lra). lra. }
  destruct De as (De & Hrd).
  assert (U46 : / 2 ^ 46 = 128 * u64). { unfold u64. replace (2 ^ 53) with (128 * 2 ^ 46) by (replace 128 with (2 ^ 7) by (simpl; lra); rewrite <- pow_add; reflexivity). field. }
  assert (HD : / 2 ^ 46 * r <= d <= 2 * r). { split; [|exact Hd]. apply Rle_trans with (2 := De). rewrite U46, Ee. apply Rmult_le_compat_r; lra. }
  assert (dpos : 0 < d). { apply Rlt_le_trans with (2 := De). apply Rmult_lt_0_compat; lra. }
  assert (Hb : b <= P * d). { apply Rle_trans with (1 := Rle_abs _). apply dot_cs. }
  assert (rd0 : 0 < r * d) by (apply Rmult_lt_0_compat; lra).
  assert (c1 : c <= 1). { apply Rmult_le_reg_r with (r * d); [exact rd0|]. assert (P * d <= r * d) by (apply Rmult_le_compat_r; lra). lra. }
  assert (b0 : 0 < b). { apply Rlt_le_trans with (2 := Hang). apply Rmult_lt_0_compat; lra. }
  assert (HAc : 2048 * A <= c * c) by (rewrite Ee in Hc; lra).
  assert (Fl : Forall (fun a => fin (fst a) = true /\ fin (snd a) = true) l).
  { unfold finite_pos in Fp, Fd. rewrite Forall_map in Fp, Fd. rewrite Forall_forall in *. intros a I. split; auto. }
  assert (X0 : ap (ci_size s) r r 0). { apply ap_exact; [exact Fr|]. fold r. rewrite Rabs_pos_eq; lra. }
  assert (Et : t = (1 - P / r) / (d / r * (b / (P * d)))). { assert (TT : r - P = t * (b / P)) by (rewrite <- T1 at 1; ring). replace (1 - P / r) with (t * (b / P) / r) by (rewrite <- TT; field; lra). field. repeat split; lra. }
  assert (Ek : k = P / r * (d / r) * (b / (P * d)) - P / r * (1 - P / r)). { apply Rmult_eq_reg_r with (r ^ 2); [|apply pow_nonzero; lra]. rewrite K1. field. repeat split; lra. }
  set (xr := n64 (map back l)) in *. set (xd := n64 (map snd l)) in *. set (xb := inner l) in *.
  assert (HA : 4 * u64 <= A) by lra. assert (HC : 0 < c <= 1) by lra. assert (HdA : 32 * A * r <= d) by (rewrite <- Ee; exact De).
  assert (Lr : ap xr P r (4 * A)) by (apply (L_r (ci_size s) l Fl HN HR ltac:(apply HP) HD)).
  assert (Ldr : ap xd d d A) by (apply (L_dr (ci_size s) l Fl HN HR HD)).
  assert (Lb : ap xb b (r * d) (7 * A)) by (apply (L_b (ci_size s) l Fl HN HR ltac:(apply HP) HD)).
  assert (S1 : ap (fac1 (fst_k (ci_size s) xr xd xb)) (1 - 2 * k) 5 (100 * (A / c))) by (rewrite Ek; eapply x_f1; eassumption).
  assert (S2 : ap (fac2 (fst_k (ci_size s) xr xd xb) (fst_t (ci_size s) xr xd xb)) (1 - 2 * k * t) (10 * (1 / c)) (130 * (A / c))) by (rewrite Ek, Et; eapply x_f2; eassumption).
  assert (Tb : 0 <= t <= 1 / c) by (rewrite Et; eapply f_t; eassumption).
  assert (Kb : Rabs k <= 2) by (rewrite Ek; eapply f_k; eassumption).
  assert (C20 : / 2 ^ 20 <= c) by (eapply f_c; eassumption).
  destruct (AB c A HA HC HAc) as (B1 & B2' & B3 & B4). set (B := A / c) in *. set (xk := fst_k _ _ _ _) in *. set (xt := fst_t _ _ _ _) in *. set (im := image (fac1 xk) (fac2 xk xt)).
  set (q := 1 / c) in *. assert (q1 : 1 <= q). { unfold q. apply Rmult_le_reg_r with c; [lra|]. unfold Rdiv. rewrite Rmult_assoc, Rinv_l; lra. }
  assert (q20 : q <= 2 ^ 20). { unfold q, Rdiv. rewrite Rmult_1_l, <- (Rinv_inv (2 ^ 20)). apply Rinv_le_contravar; [apply i2|exact C20]. }
  assert (q50 : q <= 2 ^ 50) by (apply Rle_trans with (1 := q20), Rle_pow; [lra|lia]).
  assert (G : forall a, In a l -> good a /\ size a * 2 ^ 50 <= 2 ^ 800) by (intros a I; apply (in_good (ci_size s) l Fl HR ltac:(apply HP) HD a I)).
  assert (K : forall a, In a l -> fin (im a) = true /\ Rabs (B2 (im a) - ((1 - 2 * k) * rp a + (1 - 2 * k * t) * rd a)) <= 520 * B * Rabs (rp a) + 1340 * B * q * Rabs (rd a) + 4 * eta64).
  { intros a I. destruct (G a I) as (G1 & S). exact (image_ok _ _ _ _ q B a G1 ltac:(lra) ltac:(lra) S S1 S2). }
  assert (Bq0 : 0 < B * q) by (apply Rmult_lt_0_compat; lra). set (D := B * q) in *. assert (Br : 0 < D * r) by (apply Rmult_lt_0_compat; lra).
  assert (BD : B <= D). { unfold D. rewrite <- (Rmult_1_r B) at 1. apply Rmult_le_compat_l; lra. }
  assert (NI : euclid_norm (map (fun a => B2 (im a) - ((1 - 2 * k) * rp a + (1 - 2 * k * t) * rd a)) l) <= 3204 * (D * r)).
  { apply Rle_trans with (520 * B * P + 1340 * B * q * d + INR (length l) * (4 * eta64)).
    - apply norm_dom; [lra|fold D; rewrite Rmult_assoc; fold D; lra|pose proof eta64_pos; lra|]. intros a I. apply K, I.
    - rewrite (Rmult_assoc 1340 B q). fold D. assert (520 * B * P <= 520 * D * r) by (apply Rmult_le_compat; lra). assert (1340 * D * d <= 1340 * D * (2 * r)) by (apply Rmult_le_compat_l; lra).
      destruct (eta_T n HN) as (ET & _). fold n. assert (U2 : u64 * T410 ^ 2 <= u64 * r). { apply Rmult_le_compat_l; [lra|]. pose proof (T_small r HR). pose proof T410_pos. pose proof u64_tiny. assert (u64 * r <= 1 * r) by (apply Rmult_le_compat_r; lra). assert (T410 <= 1). { unfold T410. rewrite <- Rinv_1. apply Rinv_le_contravar; [lra|]. apply pow_R1_Rle. lra. } assert (T410 * T410 <= 1 * T410) by (apply Rmult_le_compat_r; lra). simpl. lra. }
      assert (u64 * r <= D * r) by (apply Rmult_le_compat_r; lra). lra. }
  (* the first test *)
  assert (O1 : Bltb (ci_size s) (n64 (map fwd l)) = true).
  { set (m := euclid_norm (map (fun a => B2 (fwd a)) l)). set (M := euclid_norm (map (fun a => rp a + 1 * rd a) l)) in *. assert (E : euclid_norm (reals (map fwd l)) = m) by (unfold reals; rewrite map_map; reflexivity).
    assert (MC : Rabs (m - M) <= u64 * M).
    { apply Rle_trans with (1 := norm_close l (fun a => B2 (fwd a)) (fun a => rp a + 1 * rd a)). apply Rle_trans with (u64 * M + 0 * M + INR (length l) * 0); [|lra]. apply norm_dom; try lra. intros a I. destruct (fwd_ok a (proj1 (G a I))) as (_ & Q). fold (rp a) (rd a) in Q. replace (rp a + 1 * rd a) with (rp a + rd a) by ring. lra. }
    assert (M3 : M <= 3 * r). { pose proof (norm_add l rp (fun a => 1 * rd a)) as T. rewrite (norm_ext l (fun a => 1 * rd a) rd) in T by (intros; ring). fold P d M in T. lra. }
    apply Rabs_le_inv in MC. assert (M0 : 0 < M) by (apply Rlt_le_trans with (2 := Out); apply Rmult_lt_0_compat; lra). assert (u64 * M <= / 1000 * M) by (apply Rmult_le_compat_r; lra).
    destruct (norm_near (map fwd l)) as (Fm & _ & N1 & _).
    - unfold few. rewrite map_length. exact HN.
    - unfold finite_pos. rewrite Forall_map, Forall_forall. intros a I. apply (fwd_ok a (proj1 (G a I))).
    - rewrite E. destruct Hr as (_ & Hr2). fold r in Hr2. apply Rle_trans with (2 ^ 3 * 2 ^ 200); [replace (2 ^ 3) with 8 by (simpl; lra); lra|]. rewrite <- pow_add. apply Rle_pow; [lra|lia].
    - rewrite E, map_length in N1. fold n in N1. fold A in N1. apply ltb_lt; [exact Fr|exact Fm|]. fold r.
      assert (T : T410 <= m). { pose proof (T_small r HR). pose proof T410_pos. assert (u64 * r <= 1 / 2 * r) by (apply Rmult_le_compat_r; lra). assert (r * 1 <= r * (1 + e)) by (apply Rmult_le_compat_l; lra). lra. }
      destruct (N1 T) as (N1' & _). apply Rlt_le_trans with (2 := N1'). apply Rlt_le_trans with (r * (1 + e) * (1 - u64) * (1 - A)).
      + rewrite Ee. assert (1 < (1 + 32 * A) * (1 - u64) * (1 - A)). { clear - AS U0. assert (1 + 31 * A <= (1 + 32 * A) * (1 - u64)) by nra. assert (1 < (1 + 31 * A) * (1 - A)) by nra. assert ((1 + 31 * A) * (1 - A) <= (1 + 32 * A) * (1 - u64) * (1 - A)) by (apply Rmult_le_compat_r; lra). lra. }
        replace (r * (1 + 32 * A) * (1 - u64) * (1 - A)) with (r * ((1 + 32 * A) * (1 - u64) * (1 - A))) by ring. rewrite <- (Rmult_1_r r) at 1. apply Rmult_lt_compat_l; lra.
      + apply Rmult_le_compat_r; [lra|]. apply Rle_trans with (M * (1 - u64)); [apply Rmult_le_compat_r; lra|lra]. }
  pose proof (first_64 s l Ll O1) as EX. cbv zeta in EX. fold xr xd xb in EX. fold xt xk in EX. fold im in EX.
  exists (map im l). eexists. eexists. split; [exact EX|]. rewrite (combine_along l t (2 * k)).
  assert (NI' : euclid_norm (map (fun a => B2 (im a) - (rp a + 1 * rd a + - (2 * k) * (rp a + t * rd a))) l) <= 3204 * (D * r)).
  { rewrite (norm_ext l _ (fun a => B2 (im a) - ((1 - 2 * k) * rp a + (1 - 2 * k * t) * rd a))); [exact NI|]. intros a _. ring. }
  set (Q0 := fun a => rp a + 1 * rd a + - (2 * k) * (rp a + t * rd a)) in *.
  assert (FQ : finite_pos (map im l)) by (unfold finite_pos; rewrite Forall_map, Forall_forall; intros a I; apply K, I). split; [exact FQ|]. split; [now rewrite map_length|].
  assert (E64 : 128 * e / c ^ 2 = 4096 * D) by (rewrite Ee; unfold D, B, q; field; lra). rewrite E64.
  split.
  { rewrite euclid_sq by (unfold reals; now rewrite !map_length). unfold vsub, reals. rewrite !map_map, combine_maps, map_map. cbn [fst snd]. apply Rle_trans with (1 := NI'). lra. }
  split; [match goal with |- context [if ?z then _ else _] => destruct z end; auto|].
  set (N := euclid_norm (map Q0 l)). set (m := euclid_norm (map (fun a => B2 (im a)) l)). assert (NC : Rabs (m - N) <= 3204 * (D * r)) by (apply Rle_trans with (1 := norm_close l (fun a => B2 (im a)) Q0); exact NI').
  apply Rabs_le_inv in NC. assert (Em : euclid_norm (reals (map im l)) = m) by (unfold reals; rewrite map_map; reflexivity). assert (m0 : 0 <= m) by apply euclid_norm_nonneg.
  assert (Dq : D <= / 2048 * q) by (unfold D; apply Rmult_le_compat_r; lra).
  assert (Bd : m <= 2 ^ 410).
  { assert (NB : N <= 16 * q * r).
    { pose proof (norm_add l (fun a => rp a * (1 - 2 * k)) (fun a => rd a * (1 - 2 * k * t))) as T. rewrite (norm_scale l rp), (norm_scale l rd) in T. fold P d in T.
      rewrite (norm_ext l (fun a => rp a * (1 - 2 * k) + rd a * (1 - 2 * k * t)) Q0) in T by (intros; unfold Q0; ring). fold N in T. destruct S1 as (_ & S1 & _). destruct (Rabs_le_inv _ _ Kb) as (k1 & k2).
      assert (KT : Rabs (2 * k * t) <= 4 * q). { rewrite !Rabs_mult, (Rabs_pos_eq 2), (Rabs_pos_eq t) by lra. apply Rmult_le_compat; [pose proof (Rabs_pos k); lra|lra|lra|lra]. }
      assert (S2' : Rabs (1 - 2 * k * t) <= 5 * q). { apply Rabs_le_inv in KT. apply Rabs_le. lra. }
      assert (P * Rabs (1 - 2 * k) <= r * 5) by (apply Rmult_le_compat; [lra|apply Rabs_pos|lra|exact S1]). assert (d * Rabs (1 - 2 * k * t) <= 2 * r * (5 * q)) by (apply Rmult_le_compat; [lra|apply Rabs_pos|lra|exact S2']). assert (r * 1 <= r * q) by (apply Rmult_le_compat_l; lra). lra. }
    assert (D * r <= / 2048 * q * r) by (apply Rmult_le_compat_r; lra). assert (qr : q * r <= 2 ^ 20 * 2 ^ 200). { destruct Hr as (_ & Hr2). fold r in Hr2. apply Rmult_le_compat; lra. }
    rewrite <- pow_add in qr. change (20 + 200)%nat with 220%nat in qr. apply Rle_trans with (2 ^ 5 * 2 ^ 220); [replace (2 ^ 5) with 32 by (simpl; lra); lra|]. rewrite <- pow_add. apply Rle_pow; [lra|lia]. }
  destruct (norm_near (map im l)) as (Fm & N0 & N1 & N2); [unfold few; rewrite map_length; exact HN|exact FQ|rewrite Em; exact Bd|]. rewrite Em, map_length in N1. rewrite Em in N2. fold n in N1. fold A in N1.
  pose proof (T_small r HR) as TS. pose proof T410_pos as T0. assert (u1 : u64 * r <= / 4 * r) by (apply Rmult_le_compat_r; lra).
  split; intros H.
  - rewrite ltb_ge; [reflexivity|exact Fr|exact Fm|]. fold r. destruct (Rle_or_lt T410 m) as [T|T].
    + destruct (N1 T) as (_ & Q). apply Rle_trans with (1 := Q). apply Rle_trans with ((r * (1 - 892 * D)) * (1 + A)); [apply Rmult_le_compat_r; lra|]. assert (0 <= A * D) by (apply Rmult_le_pos; lra). assert ((1 - 892 * D) * (1 + A) <= 1) by lra.
      rewrite Rmult_assoc. rewrite <- (Rmult_1_r r) at 2. apply Rmult_le_compat_l; lra.
    + pose proof (N2 ltac:(lra)). lra.
  - rewrite ltb_lt; [reflexivity|exact Fr|exact Fm|]. fold r. destruct N1 as (Q & _); [lra|]. apply Rlt_le_trans with (2 := Q). apply Rlt_le_trans with ((r * (1 + 892 * D)) * (1 - A)); [|apply Rmult_le_compat_r; lra].
    assert (A * D <= / 1000 * D) by (apply Rmult_le_compat_r; lra). rewrite Rmult_assoc. rewrite <- (Rmult_1_r r) at 1. apply Rmult_lt_compat_l; lra.
Qed.
End F.
