(** Exact reflection at a sphere in double precision: the function. *)
From Coq Require Import Reals ZArith List Lra Lia.
From Flocq Require Import Core.
From Flocq.IEEE754 Require Import BinarySingleNaN.
From Verif Require Import Base Scalar Float64 Model_Position Spec_Position Proof_Position Proof_Norm64 Proof_Sum64 Proof_Inner64 Model_System Spec_System Proof_System Proof_System2 Proof_System4 Proof_System5 Proof_System9
  Spec_Wall64 Proof_Wall64b Proof_Refl64 Proof_Refl64b Proof_Refl64c Proof_Refl64d Spec_Refl64.
Import ListNotations.
Local Open Scope R_scope.

Lemma combine_maps {T A B : Type} (f : T -> A) (g : T -> B) (l : list T) : combine (map f l) (map g l) = map (fun a => (f a, g a)) l.
Proof. induction l as [|a l IH]; [reflexivity|]. cbn [map combine]. now f_equal. Qed.
Lemma split_pairs {A B : Type} (p : list A) (q : list B) : length p = length q -> p = map fst (combine p q) /\ q = map snd (combine p q).
Proof. revert q. induction p as [|x p IH]; intros [|y q] L; try discriminate; [split; reflexivity|]. injection L as L. destruct (IH q L) as (E1 & E2). cbn [combine map fst snd]. split; f_equal; assumption. Qed.

Section Generic.
Context {S : scalar} {T : Type}.
Lemma zip_maps (op : S -> S -> S) (f g : T -> S) (l : list T) : mut_zip op (map f l) (map g l) = Ok (map (fun a => op (f a) (g a)) l).
Proof. rewrite mut_zip_same by now rewrite !map_length. now rewrite combine_maps, map_map. Qed.
Lemma inner_maps (f g : T -> S) (l : list T) : inner_product (map f l) (map g l) = Ok (fold_left (fun r xy => add r (mul (fst xy) (snd xy))) (map (fun a => (f a, g a)) l) s0).
Proof. unfold inner_product, dim. rewrite !map_length, Nat.eqb_refl. cbn [negb]. now rewrite combine_maps. Qed.
End Generic.
Section Generic2.
Context {S : scalar}.
Lemma exact_maps (s : circ S) (l : list (S * S)) : length l = ci_dim s ->
  let fw := fun a : S * S => add (fst a) (snd a) in let bk := fun a : S * S => sub (add (fst a) (snd a)) (snd a) in
  ltb (ci_size s) (norm (map fw l)) = true ->
  let r0 := ci_size s in let r := norm (map bk l) in let dr := norm (map snd l) in
  let rdr := fold_left (fun r xy => add r (mul (fst xy) (snd xy))) (map (fun a => (bk a, snd a)) l) s0 in
  let t := div (add (opp rdr) (fsqrt (add (mul rdr rdr) (mul (mul dr dr) (sub (mul r0 r0) (mul r r)))))) (mul dr dr) in
  let k := div (mul (sub s1 t) (add rdr (mul (mul t dr) dr))) (mul r0 r0) in
  let f1 := sub s1 (mul s2 k) in let f2 := sub s1 (mul (mul s2 k) t) in
  let q := map (fun a => add (mul (bk a) f1) (mul (snd a) f2)) l in
  circ_check_bc_exact s (map fst l) (map snd l) = (q, map (fun a => mul (snd a) f2) l, if ltb r0 (norm q) then Err TooLargeTimeStep else Ok tt).
Proof.
  intros Ld fw bk Out r0 r dr rdr t k f1 f2 q. unfold circ_check_bc_exact, mut_add, mut_sub. rewrite zip_maps. fold fw.
  rewrite circ_inclusion_eq by now rewrite map_length. rewrite Out. rewrite zip_maps. change (map (fun a : S * S => sub (fw a) (snd a)) l) with (map bk l). rewrite inner_maps. cbv zeta. fold rdr r0 r dr.
  unfold mut_scalar_mul. rewrite !map_map. fold t. fold k. fold f1 f2. rewrite zip_maps. fold q. rewrite circ_inclusion_eq by (unfold q; now rewrite map_length).
  change (@ci_size S s) with r0. now destruct (ltb r0 (norm q)).
Qed.
End Generic2.

Lemma ltb_lt (x y : b64) : fin x = true -> fin y = true -> B2 x < B2 y -> Bltb x y = true.
Proof. intros Fx Fy H. apply ltb_val; [now destruct x|now destruct y|]. now rewrite !val_fin. Qed.
Lemma ltb_ge (x y : b64) : fin x = true -> fin y = true -> B2 y <= B2 x -> Bltb x y = false.
Proof. intros Fx Fy H. destruct (Bltb x y) eqn:E; [|reflexivity]. apply ltb_val in E; [|now destruct x|now destruct y]. rewrite !val_fin in E by assumption. lra. Qed.

Lemma along_maps (l : list (b64 * b64)) t : along (reals (map fst l)) (reals (map snd l)) t = map (fun a => rp a + t * rd a) l.
Proof. unfold along, reals. rewrite !map_map, combine_maps, map_map. reflexivity. Qed.

Lemma combine_along (l : list (b64 * b64)) t c : along (map (fun a => rp a + 1 * rd a) l) (map (fun a => rp a + t * rd a) l) (- c) = map (fun a => rp a + 1 * rd a + - c * (rp a + t * rd a)) l.
Proof. unfold along. rewrite combine_maps, map_map. reflexivity. Qed.

Section F.
Variable lm : libm.
Local Notation F := (F64 lm).

Lemma exact_64 (s : circ F) (l : list (b64 * b64)) : length l = ci_dim s -> Bltb (ci_size s) (n64 (map fwd l)) = true ->
  let xt := refl_t (ci_size s) (n64 (map back l)) (n64 (map snd l)) (inner l) in let xk := refl_k (ci_size s) (n64 (map snd l)) (inner l) xt in
  exists dq, circ_check_bc_exact s (map fst l) (map snd l) =
    (map (image (fac1 xk) (fac2 xk xt)) l, dq, if Bltb (ci_size s) (n64 (map (image (fac1 xk) (fac2 xk xt)) l)) then Err TooLargeTimeStep else Ok tt).
Proof.
  intros L Out xt xk. eexists. pose proof (exact_maps (S := F) s l L) as E. cbv zeta in E. specialize (E Out).
  assert (I : fold_left (fun r xy => Bplus mode_NE r (Bmult mode_NE (fst xy) (snd xy))) (map (fun a => (back a, snd a)) l) (b64_of_Z 0) = inner l) by apply fold_prods.
  refine (eq_trans E _). clear E. unfold xk, xt. rewrite <- I. clear.
  change (@add F) with (@Bplus 53 1024 _ _ mode_NE). change (@sub F) with (@Bminus 53 1024 _ _ mode_NE). change (@mul F) with (@Bmult 53 1024 _ _ mode_NE). change (@div F) with (@Bdiv 53 1024 _ _ mode_NE).
  change (@fsqrt F) with (@Bsqrt 53 1024 _ _ mode_NE). change (@opp F) with (@Bopp 53 1024). change (@ltb F) with (@Bltb 53 1024). change (@s1 F) with one. change (@s2 F) with two. change (@s0 F) with (b64_of_Z 0).
  change (@norm F) with n64. unfold image, fac1, fac2, refl_k, refl_t, back, fwd. reflexivity.
Qed.

Lemma exact_near (s : circ F) (p dp : list b64) (c t : R) (q0 : list R) : moderate_radius (ci_size s) -> INR (ci_dim s) <= 2 ^ 40 ->
  length p = ci_dim s -> length dp = ci_dim s -> finite_pos p -> finite_pos dp ->
  let r := B2 (ci_size s) in let e := slack (ci_dim s) in
  euclid_norm (reals p) <= r -> euclid_norm (reals dp) <= 2 * r -> r * (1 + e) <= euclid_norm (along (reals p) (reals dp) 1) ->
  leaves_at r (reals p) (reals dp) t -> mirror_image (along (reals p) (reals dp) t) (along (reals p) (reals dp) 1) q0 ->
  meets_at_angle c r (along (reals p) (reals dp) t) (reals dp) -> 64 * e <= c ^ 2 ->
  exists q dq o, circ_check_bc_exact s p dp = (q, dq, o) /\ finite_pos q /\ length q = ci_dim s /\ euclid (reals q) q0 <= 64 * e / c * r /\
    (o = Ok tt \/ o = Err TooLargeTimeStep) /\ (euclid_norm q0 <= r * (1 - 64 * e / c) -> o = Ok tt) /\ (r * (1 + 64 * e / c) <= euclid_norm q0 -> o = Err TooLargeTimeStep).
Proof.
  intros (Fr & Hr) HN Lp Ld Fp Fd. remember (combine p dp) as l eqn:El. destruct (split_pairs p dp ltac:(congruence)) as (Ep & Ed). rewrite <- El in Ep, Ed.
  assert (Ll : length l = ci_dim s) by (rewrite <- Lp, Ep; symmetry; apply map_length). clear El. subst p dp. intros r e HP Hd Out (Ht & Hh & _) (k & K1 & ->) (c0 & Hang) Hc.
  rewrite !along_maps in *. unfold reals in HP, Hd, Hang. rewrite !map_map in HP, Hd, Hang. change (map (fun x => B2 (fst x)) l) with (map rp l) in HP. change (map (fun x => B2 (snd x)) l) with (map rd l) in Hd, Hang.
  rewrite <- Ll in *. set (n := length l) in *. set (A := al n). assert (Ee : e = 32 * A) by (unfold e; rewrite <- Ll; apply slack_al).
  set (P := euclid_norm (map rp l)) in *. set (d := euclid_norm (map rd l)) in *. set (b := rsum (map (fun a => rp a * rd a) l)). set (w := b + t * (d * d)).
  assert (HR : rg 200 r) by exact Hr. pose proof (rg_pos _ _ HR) as r0. assert (AS : 4 * u64 <= A <= / 1000) by (split; [apply al_pos|apply al_small; exact HN]). pose proof u64_pos as U0.
  assert (P0 : 0 <= P) by apply euclid_norm_nonneg. assert (d0 : 0 <= d) by apply euclid_norm_nonneg.
  assert (PP : P * P = rsum (map (fun a => rp a * rp a) l)). { unfold P. rewrite <- (dot_maps l rp rp), dot_self, <- norm_sq. ring. }
  assert (DD : d * d = rsum (map (fun a => rd a * rd a) l)). { unfold d. rewrite <- (dot_maps l rd rd), dot_self, <- norm_sq. ring. }
  assert (LIN : forall x y, rsum (map (fun a => (rp a + x * rd a) * (rp a + y * rd a)) l) = P * P + (x + y) * b + x * y * (d * d)).
  { intros x y. rewrite PP, DD. unfold b. clear. induction l as [|a l IH]; cbn [map rsum fold_right]; [ring|]. unfold rsum in IH. rewrite IH. ring. }
  assert (LIND : forall x, rsum (map (fun a => (rp a + x * rd a) * rd a) l) = b + x * (d * d)).
  { intros x. rewrite DD. unfold b. clear. induction l as [|a l IH]; cbn [map rsum fold_right]; [ring|]. unfold rsum in IH. rewrite IH. ring. }
  rewrite (dot_maps l (fun a => rp a + t * rd a) rd), LIND in Hang. fold w in Hang.
  assert (NR : r * r = P * P + (t + t) * b + t * t * (d * d)). { rewrite <- (LIN t t), <- (dot_maps l (fun a => rp a + t * rd a) (fun a => rp a + t * rd a)), dot_self, <- norm_sq, Hh. unfold r. ring. }
  (* the size of the displacement *)
  assert (De : e * r <= d).
  { pose proof (norm_add l rp (fun a => 1 * rd a)) as T. rewrite (norm_ext l (fun a => 1 * rd a) rd) in T by (intros; ring). fold P d in T. lra. }
  assert (U46 : / 2 ^ 46 = 128 * u64). { unfold u64. replace (2 ^ 53) with (128 * 2 ^ 46) by (replace 128 with (2 ^ 7) by (simpl; lra); rewrite <- pow_add; reflexivity). field. }
  assert (HD : / 2 ^ 46 * r <= d <= 2 * r). { split; [|exact Hd]. apply Rle_trans with (2 := De). rewrite U46, Ee. apply Rmult_le_compat_r; lra. }
  assert (dpos : 0 < d). { apply Rlt_le_trans with (2 := De). apply Rmult_lt_0_compat; lra. }
  assert (w0 : 0 < w). { apply Rlt_le_trans with (2 := Hang). repeat apply Rmult_lt_0_compat; lra. }
  assert (c1 : c <= 1). { assert (Q : w <= r * d). { apply Rle_trans with (Rabs w); [apply Rle_abs|]. unfold w. rewrite <- LIND. apply Rle_trans with (1 := dot_cs l (fun a => rp a + t * rd a) rd). rewrite Hh. apply Rle_refl. }
    apply Rmult_le_reg_r with (r * d); [apply Rmult_lt_0_compat; lra|]. lra. }
  assert (W2 : w * w = b * b + d * d * (r * r - P * P)). { rewrite NR. unfold w. ring. }
  assert (Hw : w = sqrt (b * b + d * d * (r * r - P * P))). { rewrite <- W2. symmetry. apply sqrt_square. lra. }
  assert (Hk : k * (r * r) = (1 - t) * w).
  { rewrite dot_self, <- norm_sq, Hh in K1. rewrite (combine_along l t k) in K1. rewrite dot_maps in K1. 
    assert (E : rsum (map (fun a => (rp a + t * rd a) * (rp a + 1 * rd a + - k * (rp a + t * rd a))) l) = (P * P + (t + 1) * b + t * 1 * (d * d)) - k * (P * P + (t + t) * b + t * t * (d * d))).
    { rewrite <- (LIN t 1), <- (LIN t t). clear. induction l as [|a l IH]; cbn [map rsum fold_right]; [ring|]. unfold rsum in IH. rewrite IH. ring. }
    rewrite E, <- NR in K1. fold r in K1. unfold w. lra. }
  assert (HAc : 2048 * A <= c * c) by (rewrite Ee in Hc; lra).
  assert (Fl : Forall (fun a => fin (fst a) = true /\ fin (snd a) = true) l).
  { unfold finite_pos in Fp, Fd. rewrite Forall_map in Fp, Fd. rewrite Forall_forall in *. intros a I. split; auto. }
  destruct (image_all (ci_size s) l Fr Fl HN HR HP HD c w t k ltac:(lra) HAc Hw Hang ltac:(unfold w, d, b; ring) Ht Hk) as (FI & NI). fold n in NI. fold A in NI. fold r in NI.
  (* the first test *)
  assert (G : forall a, In a l -> good a) by (intros a I; apply (in_good (ci_size s) l Fl HR HP HD a I)).
  assert (O1 : Bltb (ci_size s) (n64 (map fwd l)) = true).
  { set (m := euclid_norm (map (fun a => B2 (fwd a)) l)). set (M := euclid_norm (map (fun a => rp a + 1 * rd a) l)) in *. assert (E : euclid_norm (reals (map fwd l)) = m) by (unfold reals; rewrite map_map; reflexivity).
    assert (MC : Rabs (m - M) <= u64 * M).
    { apply Rle_trans with (1 := norm_close l (fun a => B2 (fwd a)) (fun a => rp a + 1 * rd a)). apply Rle_trans with (u64 * M + 0 * M + INR (length l) * 0); [|lra]. apply norm_dom; try lra. intros a I. destruct (fwd_ok a (G a I)) as (_ & Q). fold (rp a) (rd a) in Q. replace (rp a + 1 * rd a) with (rp a + rd a) by ring. lra. }
    assert (M3 : M <= 3 * r). { pose proof (norm_add l rp (fun a => 1 * rd a)) as T. rewrite (norm_ext l (fun a => 1 * rd a) rd) in T by (intros; ring). fold P d M in T. lra. }
    apply Rabs_le_inv in MC. assert (M0 : 0 < M) by (apply Rlt_le_trans with (2 := Out); apply Rmult_lt_0_compat; lra). assert (u64 * M <= / 1000 * M) by (apply Rmult_le_compat_r; lra).
    destruct (norm_near (map fwd l)) as (Fm & _ & N1 & _).
    - unfold few. rewrite map_length. exact HN.
    - unfold finite_pos. rewrite Forall_map, Forall_forall. intros a I. apply (fwd_ok a (G a I)).
    - rewrite E. destruct Hr as (_ & Hr2). fold r in Hr2. apply Rle_trans with (2 ^ 3 * 2 ^ 200); [replace (2 ^ 3) with 8 by (simpl; lra); lra|]. rewrite <- pow_add. apply Rle_pow; [lra|lia].
    - rewrite E, map_length in N1. fold n in N1. fold A in N1. apply ltb_lt; [exact Fr|exact Fm|]. fold r.
      assert (T : T410 <= m). { pose proof (T_small r HR). pose proof T410_pos. assert (u64 * r <= 1 / 2 * r) by (apply Rmult_le_compat_r; lra). assert (r * 1 <= r * (1 + e)) by (apply Rmult_le_compat_l; lra). lra. }
      destruct (N1 T) as (N1' & _). apply Rlt_le_trans with (2 := N1'). apply Rlt_le_trans with (r * (1 + e) * (1 - u64) * (1 - A)).
      + rewrite Ee. assert (1 < (1 + 32 * A) * (1 - u64) * (1 - A)). { assert (1 + 31 * A <= (1 + 32 * A) * (1 - u64)) by nra. assert (1 < (1 + 31 * A) * (1 - A)) by nra. assert ((1 + 31 * A) * (1 - A) <= (1 + 32 * A) * (1 - u64) * (1 - A)) by (apply Rmult_le_compat_r; lra). lra. }
        replace (r * (1 + 32 * A) * (1 - u64) * (1 - A)) with (r * ((1 + 32 * A) * (1 - u64) * (1 - A))) by ring. rewrite <- (Rmult_1_r r) at 1. apply Rmult_lt_compat_l; lra.
      + apply Rmult_le_compat_r; [lra|]. apply Rle_trans with (M * (1 - u64)); [apply Rmult_le_compat_r; lra|lra]. }
  destruct (exact_64 s l Ll O1) as (dq & EX). set (xt := refl_t _ _ _ _) in *. set (xk := refl_k _ _ _ xt) in *. set (im := image (fac1 xk) (fac2 xk xt)) in *.
  exists (map im l), dq. eexists. split; [exact EX|]. rewrite (combine_along l t (2 * k)).
  assert (NI' : euclid_norm (map (fun a => B2 (im a) - (rp a + 1 * rd a + - (2 * k) * (rp a + t * rd a))) l) <= 1900 * (A / c) * r).
  { rewrite (norm_ext l _ (fun a => B2 (im a) - ((1 - 2 * k) * rp a + (1 - 2 * k * t) * rd a))); [exact NI|]. intros a _. ring. }
  set (Q0 := fun a => rp a + 1 * rd a + - (2 * k) * (rp a + t * rd a)) in *. clear NI.
  assert (FQ : finite_pos (map im l)) by (unfold finite_pos; rewrite Forall_map; exact FI). split; [exact FQ|]. split; [now rewrite map_length|].
  destruct (AB c A ltac:(lra) ltac:(lra) HAc) as (B1 & B2' & B3 & B4). set (B := A / c) in *. assert (E64 : 64 * e / c = 2048 * B) by (rewrite Ee; unfold B; field; lra). rewrite E64.
  assert (Br : 0 < B * r) by (apply Rmult_lt_0_compat; lra).
  split.
  { rewrite euclid_sq by (unfold reals; now rewrite !map_length). unfold vsub, reals. rewrite !map_map, combine_maps, map_map. cbn [fst snd]. apply Rle_trans with (1 := NI'). lra. }
  split; [match goal with |- context [if ?z then _ else _] => destruct z end; auto|].
  set (N := euclid_norm (map Q0 l)). set (m := euclid_norm (map (fun a => B2 (im a)) l)). assert (NC : Rabs (m - N) <= 1900 * B * r) by (apply Rle_trans with (1 := norm_close l (fun a => B2 (im a)) Q0); exact NI').
  apply Rabs_le_inv in NC. assert (Em : euclid_norm (reals (map im l)) = m) by (unfold reals; rewrite map_map; reflexivity). assert (m0 : 0 <= m) by apply euclid_norm_nonneg.
  assert (k0 : 0 <= k <= 2).
  { assert (Q : w <= r * d). { apply Rle_trans with (Rabs w); [apply Rle_abs|]. unfold w. rewrite <- LIND. apply Rle_trans with (1 := dot_cs l (fun a => rp a + t * rd a) rd). rewrite Hh. apply Rle_refl. }
    assert (r2 : 0 < r * r) by (apply Rmult_lt_0_compat; lra). assert (Q1 : 0 <= (1 - t) * w <= 1 * (r * d)) by (split; [apply Rmult_le_pos; lra|apply Rmult_le_compat; lra]). assert (Q2 : r * d <= r * (2 * r)) by (apply Rmult_le_compat_l; lra).
    split; [apply Rmult_le_reg_r with (r * r); lra|apply Rmult_le_reg_r with (r * r); lra]. }
  assert (Bd : m <= 2 ^ 410).
  { assert (NB : N <= 7 * r).
    { pose proof (norm_add l (fun a => rp a + 1 * rd a) (fun a => (rp a + t * rd a) * (- (2 * k)))) as T. rewrite (norm_scale l (fun a => rp a + t * rd a)), Hh, Rabs_Ropp, (Rabs_pos_eq (2 * k)) in T by lra.
      pose proof (norm_add l rp (fun a => 1 * rd a)) as T2. rewrite (norm_ext l (fun a => 1 * rd a) rd) in T2 by (intros; ring). fold P d in T2. cbv beta in T.
      rewrite (norm_ext l (fun a => rp a + 1 * rd a + (rp a + t * rd a) * - (2 * k)) Q0) in T by (intros; unfold Q0; ring). fold N r in T. assert (2 * k * r <= 4 * r) by (apply Rmult_le_compat_r; lra). lra. }
    assert (B * r <= / 2048 * r) by (apply Rmult_le_compat_r; lra). destruct Hr as (_ & Hr2). fold r in Hr2. apply Rle_trans with (2 ^ 3 * 2 ^ 200); [replace (2 ^ 3) with 8 by (simpl; lra); lra|]. rewrite <- pow_add. apply Rle_pow; [lra|lia]. }
  destruct (norm_near (map im l)) as (Fm & N0 & N1 & N2); [unfold few; rewrite map_length; exact HN|exact FQ|rewrite Em; exact Bd|]. rewrite Em, map_length in N1. rewrite Em in N2. fold n in N1. fold A in N1.
  pose proof (T_small r HR) as TS. pose proof T410_pos as T0. assert (u1 : u64 * r <= / 4 * r) by (apply Rmult_le_compat_r; lra).
  split; intros H.
  - rewrite ltb_ge; [reflexivity|exact Fr|exact Fm|]. fold r. destruct (Rle_or_lt T410 m) as [T|T].
    + destruct (N1 T) as (_ & Q). apply Rle_trans with (1 := Q). apply Rle_trans with ((r * (1 - 148 * B)) * (1 + A)); [apply Rmult_le_compat_r; lra|]. assert (0 <= A * B) by (apply Rmult_le_pos; lra). assert ((1 - 148 * B) * (1 + A) <= 1) by lra.
      rewrite Rmult_assoc. rewrite <- (Rmult_1_r r) at 2. apply Rmult_le_compat_l; lra.
    + pose proof (N2 ltac:(lra)). lra.
  - rewrite ltb_lt; [reflexivity|exact Fr|exact Fm|]. fold r. destruct N1 as (Q & _); [lra|]. apply Rlt_le_trans with (2 := Q). apply Rlt_le_trans with ((r * (1 + 148 * B)) * (1 - A)); [|apply Rmult_le_compat_r; lra].
    assert (A * B <= / 1000 * B) by (apply Rmult_le_compat_r; lra). rewrite Rmult_assoc. rewrite <- (Rmult_1_r r) at 1. apply Rmult_lt_compat_l; lra.
Qed.
End F.

Lemma exact_inside (lm : libm) (s : circ (F64 lm)) (p dp : list b64) : moderate_radius (ci_size s) -> INR (ci_dim s) <= 2 ^ 40 ->
  length p = ci_dim s -> length dp = ci_dim s -> finite_pos p -> finite_pos dp ->
  let r := B2 (ci_size s) in let e := slack (ci_dim s) in
  euclid_norm (reals p) <= r -> euclid_norm (along (reals p) (reals dp) 1) <= r * (1 - e) ->
  circ_check_bc_exact s p dp = (Spec_System.vsum (S := F64 lm) p dp, dp, Ok tt) /\ circ_check_bc_first_order s p dp = (Spec_System.vsum (S := F64 lm) p dp, dp, Ok tt).
Proof.
  intros (Fr & Hr) HN Lp Ld Fp Fd. remember (combine p dp) as l eqn:El. destruct (split_pairs p dp ltac:(congruence)) as (Ep & Ed). rewrite <- El in Ep, Ed.
  assert (Ll : length l = ci_dim s) by (rewrite <- Lp, Ep; symmetry; apply map_length). intros r e HP Out.
  assert (Vs : Spec_System.vsum (S := F64 lm) p dp = map fwd l) by (rewrite El; reflexivity).
  assert (In : circ_inclusion s (Spec_System.vsum (S := F64 lm) p dp) = Ok true).
  { rewrite (circ_inclusion_eq (S := F64 lm)) by (rewrite Vs, map_length; exact Ll). rewrite Vs. change (@ltb (F64 lm) (ci_size s) (norm (S := F64 lm) (map fwd l))) with (Bltb (ci_size s) (n64 (map fwd l))).
    rewrite Ep, Ed, along_maps in Out. rewrite Ep in HP. unfold reals in HP. rewrite map_map in HP. change (map (fun x => B2 (fst x)) l) with (map rp l) in HP.
    assert (HR : rg 200 r) by exact Hr. pose proof (rg_pos _ _ HR) as r0. rewrite <- Ll in *. set (n := length l) in *. set (A := al n). assert (Ee : e = 32 * A) by (unfold e; rewrite <- Ll; apply slack_al).
    assert (AS : 4 * u64 <= A <= / 1000) by (split; [apply al_pos|apply al_small; exact HN]). pose proof u64_pos as U0.
    set (M := euclid_norm (map (fun a => rp a + 1 * rd a) l)) in *. assert (M0 : 0 <= M) by apply euclid_norm_nonneg. assert (Ar : 0 <= A * r) by (apply Rmult_le_pos; lra).
    assert (Out2 : M <= r - 32 * (A * r)) by (apply Rle_trans with (1 := Out); rewrite Ee; apply Req_le; ring). assert (Mr : M <= r) by lra.
    assert (P0 : forall a, In a l -> good a).
    { intros a I. subst p dp. unfold finite_pos in Fp, Fd. rewrite Forall_map in Fp, Fd. rewrite Forall_forall in Fp, Fd. split; [now apply Fp|]. split; [now apply Fd|]. unfold size.
      assert (C1 : Rabs (rp a) <= r) by (apply Rle_trans with (2 := HP); apply coord_le, (in_map rp), I). assert (C2 : Rabs (rp a + 1 * rd a) <= M) by (apply coord_le; exact (in_map (fun a => rp a + 1 * rd a) l a I)).
      fold (rp a) (rd a). pose proof (Rabs_triang (rp a + 1 * rd a) (- rp a)) as T. replace (rp a + 1 * rd a + - rp a) with (rd a) in T by ring. rewrite Rabs_Ropp in T. destruct Hr as (_ & Hr2). fold r in Hr2.
      apply Rle_trans with (2 ^ 3 * 2 ^ 200); [replace (2 ^ 3) with 8 by (simpl; lra); lra|]. rewrite <- pow_add. apply Rle_pow; [lra|lia]. }
    set (m := euclid_norm (map (fun a => B2 (fwd a)) l)). assert (E : euclid_norm (reals (map fwd l)) = m) by (unfold reals; rewrite map_map; reflexivity).
    assert (MC : Rabs (m - M) <= u64 * M).
    { apply Rle_trans with (1 := norm_close l (fun a => B2 (fwd a)) (fun a => rp a + 1 * rd a)). apply Rle_trans with (u64 * M + 0 * M + INR (length l) * 0); [|lra]. apply norm_dom; try lra. intros a I. destruct (fwd_ok a (P0 a I)) as (_ & Q). fold (rp a) (rd a) in Q. replace (rp a + 1 * rd a) with (rp a + rd a) by ring. lra. }
    apply Rabs_le_inv in MC. assert (uM : u64 * M <= / 4 * (A * r)). { apply Rle_trans with (u64 * r); [apply Rmult_le_compat_l; lra|]. replace (/ 4 * (A * r)) with (/ 4 * A * r) by ring. apply Rmult_le_compat_r; lra. }
    assert (m0 : 0 <= m) by apply euclid_norm_nonneg.
    destruct (norm_near (map fwd l)) as (Fm & _ & N1 & N2).
    - unfold few. rewrite map_length. exact HN.
    - unfold finite_pos. rewrite Forall_map, Forall_forall. intros a I. apply (fwd_ok a (P0 a I)).
    - rewrite E. destruct Hr as (_ & Hr2). fold r in Hr2. assert (A * r <= / 1000 * r) by (apply Rmult_le_compat_r; lra). apply Rle_trans with (2 ^ 3 * 2 ^ 200); [replace (2 ^ 3) with 8 by (simpl; lra); lra|]. rewrite <- pow_add. apply Rle_pow; [lra|lia].
    - rewrite E, map_length in N1. rewrite E in N2. fold n in N1. fold A in N1. rewrite ltb_ge; [reflexivity|exact Fr|exact Fm|]. fold r. destruct (Rle_or_lt T410 m) as [T|T].
      + destruct (N1 T) as (_ & Q). apply Rle_trans with (1 := Q). assert (A * m <= A * (2 * r)) by (apply Rmult_le_compat_l; [lra|]; assert (A * r <= / 1000 * r) by (apply Rmult_le_compat_r; lra); lra). lra.
      + pose proof (N2 ltac:(lra)). pose proof (T_small r HR). assert (u64 * r <= 1 / 2 * r) by (apply Rmult_le_compat_r; [lra|pose proof u64_lt1; lra]). lra. }
  exact (circ_exact_interior (S := F64 lm) s p dp (eq_trans Lp (eq_sym Ld)) In).
Qed.
