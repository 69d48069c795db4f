(** The reflection along the ray in double precision against the true mirror image. *)
From Coq Require Import Reals ZArith List Lra Lia.
From Flocq Require Import Core.
From Flocq.IEEE754 Require Import BinarySingleNaN.
From Verif Require Import Base Scalar Float64 Model_Position Spec_Position Proof_Position Proof_Norm64 Proof_Force64 Model_System Spec_System Proof_System Proof_System2 Proof_System4 Proof_System5 Proof_System9
  Spec_Wall64 Proof_Wall64b Proof_Wall64c Proof_Refl64 Proof_Refl64c Proof_Refl64d Proof_Refl64e Proof_Mirror.
Import ListNotations.
Local Open Scope R_scope.

Lemma leaves_once r p d t t' : leaves_at r p d t -> leaves_at r p d t' -> t = t'.
Proof.
  intros (T1 & T2 & T3 & T4) (U1 & U2 & U3 & U4). destruct (Rtotal_order t t') as [H|[H|H]]; [|exact H|].
  - specialize (T4 t' ltac:(lra)). lra.
  - specialize (U4 t ltac:(lra)). lra.
Qed.
Lemma mirror_once (h m q q' : list R) : length h = length m -> 0 < sq h -> mirror_image h m q -> mirror_image h m q' -> q = q'.
Proof.
  intros L P (c & C1 & C2) (c' & C1' & C2'). rewrite dot_along in C1, C1' by congruence. rewrite dot_self in C1, C1'.
  assert (c = c') by nra. subst. reflexivity.
Qed.
Lemma coord_euclid {T : Type} (l : list T) (f g : T -> R) a : In a l -> Rabs (f a - g a) <= euclid (map f l) (map g l).
Proof.
  intros I. rewrite euclid_sq by now rewrite !map_length. rewrite <- euclid_norm_sq. apply Proof_Wall64b.coord_le.
  unfold vsub. rewrite combine_maps, map_map. cbn [fst snd]. apply in_map_iff. now exists a.
Qed.

(** What the mirror image is, and how far the radial point is from it. *)
Lemma ray_vs_mirror (l : list (b64 * b64)) (r t : R) (q0 : list R) : 0 < r -> (0 < length l)%nat ->
  let z := fun a => rp a + 1 * rd a in let N := euclid_norm (map z l) in
  euclid_norm (map rp l) <= r -> r < N -> leaves_at r (map rp l) (map rd l) t ->
  mirror_image (along (map rp l) (map rd l) t) (along (map rp l) (map rd l) 1) q0 ->
  exists w, q0 = map w l /\ forall a, In a l -> Rabs ((2 * r - N) / N * z a - w a) <= 2 * ((1 - t) * euclid_norm (map rd l)) ^ 2 / r.
Proof.
  intros Pr Ll z N Hp Out HL HM. set (s := Circ (S := RR) ContinuousCircular Reflection (r : RR) (length l)). assert (Bu : built_circ s) by now apply built_ball.
  set (p := map rp l) in *. set (d := map rd l) in *.
  assert (Lp : length p = ci_dim s) by (unfold p; now rewrite map_length). assert (Ld : length d = ci_dim s) by (unfold d; now rewrite map_length).
  assert (Az : forall u, along p d u = map (fun a => rp a + u * rd a) l) by (intros u; unfold along, p, d; rewrite combine_maps, map_map; reflexivity).
  assert (Ez : along p d 1 = map z l) by apply Az.
  assert (Out' : ci_size s < euclid_norm (along p d 1)) by (rewrite Ez; exact Out).
  destruct (circ_check_bc s p d) as (qr, o) eqn:Er. 
  destruct (circ_exact_R s p d Bu Lp Ld Hp Out') as (t' & q' & d' & HL' & HM' & Q1 & Q2).
  assert (exists oe, circ_check_bc_exact s p d = (q', d', oe)) as (oe & Ee).
  { destruct (Rle_lt_dec (euclid_norm q') (ci_size s)) as [H|H]; [exists (Ok tt); exact (Q1 H)|exists (Err TooLargeTimeStep); exact (Q2 H)]. }
  destruct (radial_parts s p d qr o Bu Lp Ld Out' Er) as (Eq & _).
  destruct (radial_exact_close s p d qr q' d' o oe Bu Lp Ld Hp Out' Er Ee) as (t2 & HL2 & Cl).
  assert (t' = t) by exact (leaves_once r p d t' t HL' HL). assert (t2 = t) by exact (leaves_once r p d t2 t HL2 HL). subst t' t2.
  assert (q' = q0).
  { apply (mirror_once (along p d t) (along p d 1)); [rewrite !Az, !map_length; reflexivity| |exact HM'|exact HM]. rewrite <- Proof_Mirror.norm_sq, (proj1 (proj2 HL)). now apply pow_lt. }
  subst q'. destruct HM as (c & _ & ->). rewrite !Az in *. rewrite combine_along in *. exists (fun a => rp a + 1 * rd a + - (2 * c) * (rp a + t * rd a)). split; [reflexivity|].
  intros a Ia. rewrite Eq, map_map in Cl. apply Rle_trans with (2 := Cl). 
  change (ci_size s) with r. fold z. change (map (fun a0 => z a0) l) with (map z l).
  exact (coord_euclid l (fun a => (2 * r - N) / N * z a) (fun a => rp a + 1 * rd a + - (2 * c) * (rp a + t * rd a)) a Ia).
Qed.

(** The scalars of the wall: the factor at the rounded distance against the factor at the true one. *)
Lemma factor_close (u r n N k f g : R) : 0 < u <= / 8 -> 0 < r -> r < N -> Rabs (n - N) <= u * N -> 0 <= n -> wall_factor r n k -> Rabs (f - g) <= u * Rabs g -> Rabs g <= N ->
  Rabs (k * f - (2 * r - N) / N * g) <= 3 * u * N.
Proof.
  intros Hu Pr Out Hn n0 (W1 & W2) Hf Hg. apply Rabs_le_inv in Hn. assert (g0 := Rabs_pos g).
  replace (k * f - (2 * r - N) / N * g) with (k * (f - g) + (k - (2 * r - N) / N) * g) by ring.
  assert (K : Rabs k <= 1 /\ Rabs (k - (2 * r - N) / N) <= 2 * u).
  { destruct (Rle_lt_dec n r) as [H|H].
    - rewrite (W1 H). split; [rewrite Rabs_pos_eq; lra|]. replace (1 - (2 * r - N) / N) with (2 * ((N - r) / N)) by (field; lra).
      assert (0 <= (N - r) / N). { apply Rmult_le_pos; [lra|]. left. apply Rinv_0_lt_compat. lra. }
      assert ((N - r) / N <= u). { apply Rmult_le_reg_r with N; [lra|]. unfold Rdiv. rewrite Rmult_assoc, Rinv_l, Rmult_1_r by lra. lra. }
      rewrite Rabs_pos_eq; lra.
    - rewrite (W2 H). assert (n1 : 0 < n) by lra. assert (Q : 0 < r / n < 1). { split; [now apply Rdiv_lt_0_compat|]. apply Rmult_lt_reg_r with n; [exact n1|]. unfold Rdiv. rewrite Rmult_assoc, Rinv_l, Rmult_1_r by lra. lra. }
      split. { replace ((2 * r - n) / n) with (2 * (r / n) - 1) by (field; lra). apply Rabs_le. lra. }
      replace ((2 * r - n) / n - (2 * r - N) / N) with (2 * (r / n) * ((N - n) / N)) by (field; lra).
      rewrite Rabs_mult, (Rabs_pos_eq (2 * (r / n))) by lra.
      assert (Rabs ((N - n) / N) <= u). { unfold Rdiv. rewrite Rabs_mult, Rabs_inv, (Rabs_pos_eq N) by lra. apply Rmult_le_reg_r with N; [lra|]. rewrite Rmult_assoc, Rinv_l, Rmult_1_r by lra. apply Rabs_le. lra. }
      replace (2 * u) with (2 * 1 * u) by ring. apply Rmult_le_compat; [lra|apply Rabs_pos|lra|assumption]. }
  destruct K as (K1 & K2). apply Rle_trans with (1 := Rabs_triang _ _). rewrite !Rabs_mult.
  assert (A : Rabs k * Rabs (f - g) <= 1 * (u * N)). { apply Rmult_le_compat; try apply Rabs_pos; [exact K1|]. apply Rle_trans with (1 := Hf). apply Rmult_le_compat_l; lra. }
  assert (B : Rabs (k - (2 * r - N) / N) * Rabs g <= 2 * u * N) by (apply Rmult_le_compat; try apply Rabs_pos; assumption). lra.
Qed.

Section F.
Variable lm : libm.
Local Notation F := (F64 lm).

Lemma vsum_fwd (l : list (b64 * b64)) : vsum (S := F) (map fst l) (map snd l) = map fwd l.
Proof. unfold vsum. rewrite combine_maps, map_map. reflexivity. Qed.

Lemma wall_factor_some r n : exists k, wall_factor r n k.
Proof. destruct (Rle_lt_dec n r) as [H|H]; [exists 1|exists ((2 * r - n) / n)]; split; intros; lra. Qed.

Lemma forall2_from_map {A B C : Type} (P : B -> C -> Prop) (Q : C -> A -> Prop) (f : A -> B) : forall (l : list A) (q : list C),
  Forall2 P (map f l) q -> (forall a c, In a l -> P (f a) c -> Q c a) -> Forall2 (fun c a => Q c a) q l.
Proof.
  induction l as [|a l IH]; intros q H X; cbn [map] in H; inversion H; subst; constructor; [apply X; [now left|assumption]|]. apply IH; [assumption|]. intros b c Ib. apply X. now right.
Qed.
Lemma forall2_to_map {A B C : Type} (P : C -> B -> Prop) (w : A -> B) : forall (q : list C) (l : list A), Forall2 (fun c a => P c (w a)) q l -> Forall2 P q (map w l).
Proof. induction 1; cbn [map]; constructor; assumption. Qed.

Lemma ray_mirror64 (s : circ F) (l : list (b64 * b64)) (t : R) (q0 : list R) : middling (ci_size s) -> INR (ci_dim s) <= 2 ^ 40 -> length l = ci_dim s -> 
  finite_pos (map fst l) -> finite_pos (map snd l) -> let r := B2 (ci_size s) in
  let z := fun a => rp a + 1 * rd a in let N := euclid_norm (map z l) in
  euclid_norm (map rp l) <= r -> r < N -> N <= 2 ^ 399 -> leaves_at r (map rp l) (map rd l) t ->
  mirror_image (along (map rp l) (map rd l) t) (along (map rp l) (map rd l) 1) q0 ->
  exists q o, circ_check_bc s (map fst l) (map snd l) = (q, o) /\ finite_pos q /\
    Forall2 (fun (y : b64) (x : R) => Rabs (B2 y - x) <= 2 * ((1 - t) * euclid_norm (map rd l)) ^ 2 / r + 2 * slack (ci_dim s) * N) q q0.
Proof.
  intros Md Dm Ll Fp Fd r z N Hp Out HN HL HM.
  assert (Pr : 0 < r). { destruct Md as (_ & Md & _). apply Rlt_le_trans with (2 := Md). apply Rinv_0_lt_compat, pow_lt. lra. }
  assert (L0 : (0 < length l)%nat). { destruct l; [|cbn [length]; lia]. exfalso. unfold N in Out. cbn [map] in Out. change (euclid_norm (@nil R)) with (sqrt 0) in Out. rewrite sqrt_0 in Out. lra. }
  destruct (ray_vs_mirror l r t q0 Pr L0 Hp Out HL HM) as (w & -> & W). fold z N in W.
  assert (R400 : r <= 2 ^ 400) by apply Md. assert (P4 : 0 < 2 ^ 399) by (apply pow_lt; lra). assert (P40 : 2 ^ 400 = 2 * 2 ^ 399) by (change 400%nat with (S 399); cbn [pow]; reflexivity).
  assert (P8 : 8 * 2 ^ 399 <= 2 ^ 800). { replace 8 with (2 ^ 3) by (simpl; lra). rewrite <- pow_add. apply Rle_pow; [lra|lia]. }
  assert (Cz : forall a, In a l -> Rabs (z a) <= N) by (intros a Ia; apply Proof_Wall64b.coord_le; now apply in_map).
  assert (Cp : forall a, In a l -> Rabs (rp a) <= r) by (intros a Ia; apply Rle_trans with (2 := Hp); apply Proof_Wall64b.coord_le; now apply in_map).
  assert (G : forall a, In a l -> good a).
  { intros a Ia. unfold finite_pos in Fp, Fd. rewrite Forall_map, Forall_forall in Fp, Fd. split; [exact (Fp a Ia)|]. split; [exact (Fd a Ia)|].
    unfold size. specialize (Cz a Ia). specialize (Cp a Ia). change (B2 (fst a)) with (rp a). change (B2 (snd a)) with (rd a).
    assert (Rabs (rd a) <= N + r). { replace (rd a) with (z a + - rp a) by (unfold z; ring). apply Rle_trans with (1 := Rabs_triang _ _). rewrite Rabs_Ropp. lra. } lra. }
  set (f := fun a => B2 (fwd a)).
  assert (Hf : forall a, In a l -> fin (fwd a) = true /\ Rabs (f a - z a) <= u64 * Rabs (z a)).
  { intros a Ia. destruct (fwd_ok a (G a Ia)) as (Ff & E). split; [exact Ff|]. replace (z a) with (B2 (fst a) + B2 (snd a)) by (unfold z, rp, rd; ring). exact E. }
  pose proof u64_pos as U0. pose proof u64_tiny as U1. pose proof u64_lt1 as U2. assert (N0 : 0 < N) by lra.
  set (n := euclid_norm (map f l)). assert (n0 : 0 <= n) by apply euclid_norm_nonneg.
  assert (Hn : Rabs (n - N) <= u64 * N).
  { unfold n, N. apply Rle_trans with (1 := norm_close l f z). apply Rle_trans with (euclid_norm (map (fun a => z a * u64) l)).
    - apply norm_mono. intros a Ia. rewrite Rabs_mult, (Rabs_pos_eq u64) by lra. rewrite Rmult_comm. apply Hf. exact Ia.
    - rewrite norm_scale, Rabs_pos_eq by lra. lra. }
  assert (En : euclid_norm (reals (map fwd l)) = n) by (unfold reals; rewrite map_map; reflexivity).
  pose proof (circ_near lm s (map fst l) (map snd l) Md Dm) as CN. rewrite !map_length in CN. specialize (CN Ll Ll). cbv zeta in CN. rewrite (vsum_fwd l) in CN.
  rewrite En in CN. fold r in CN. assert (HF : u64 * N <= N). { rewrite <- (Rmult_1_l N) at 2. apply Rmult_le_compat_r; lra. }
  destruct CN as (q & o & E & Fq & Lq & Sc & _).
  { unfold finite_pos. rewrite Forall_map, Forall_forall. intros a Ia. apply Hf. exact Ia. }
  { apply Rabs_le_inv in Hn. lra. }
  exists q, o. split; [exact E|]. split; [exact Fq|]. destruct (wall_factor_some r n) as (k & Wk). specialize (Sc k Wk). unfold scaled_near in Sc.
  apply forall2_to_map. apply (forall2_from_map _ (fun y a => Rabs (B2 y - w a) <= 2 * ((1 - t) * euclid_norm (map rd l)) ^ 2 / r + 2 * slack (ci_dim s) * N)) with (1 := Sc).
  intros a y Ia Hy. specialize (W a Ia). change (B2 (fwd a)) with (f a) in Hy.
  assert (X : Rabs (k * f a - (2 * r - N) / N * z a) <= 3 * u64 * N).
  { apply (factor_close u64 r n N k (f a) (z a)); [|exact Pr|exact Out|exact Hn|exact n0|exact Wk|apply Hf; exact Ia|now apply Cz]. split; [exact U0|]. assert (T := U1). lra. }
  assert (S1 : 128 * u64 <= slack (ci_dim s)). { rewrite slack_al. pose proof (al_pos (ci_dim s)). lra. }
  set (sl := slack (ci_dim s)) in *. set (b := 2 * ((1 - t) * euclid_norm (map rd l)) ^ 2 / r) in *.
  assert (S2 : sl * n + 3 * u64 * N <= 2 * sl * N).
  { apply Rabs_le_inv in Hn. assert (n <= (1 + u64) * N) by lra. apply Rle_trans with (sl * ((1 + u64) * N) + 3 * u64 * N); [apply Rplus_le_compat_r, Rmult_le_compat_l; lra|].
    replace (sl * ((1 + u64) * N) + 3 * u64 * N) with ((sl * (1 + u64) + 3 * u64) * N) by ring. apply Rmult_le_compat_r; [lra|].
    assert (sl * u64 <= sl * (1 / 2)) by (apply Rmult_le_compat_l; lra). lra. }
  replace (B2 y - w a) with ((B2 y - k * f a) + ((k * f a - (2 * r - N) / N * z a) + ((2 * r - N) / N * z a - w a))) by ring.
  apply Rle_trans with (1 := Rabs_triang _ _). assert (T := Rabs_triang (k * f a - (2 * r - N) / N * z a) ((2 * r - N) / N * z a - w a)). apply Rle_trans with (sl * n + (3 * u64 * N + b)); [|clear - S2; lra]. apply Rplus_le_compat; [exact Hy|]. apply Rle_trans with (1 := T). apply Rplus_le_compat; [exact X|exact W].
Qed.

Lemma ray_mirror64_pos (s : circ F) (p dp : list b64) (t : R) (q0 : list R) : middling (ci_size s) -> INR (ci_dim s) <= 2 ^ 40 -> length p = ci_dim s -> length dp = ci_dim s ->
  finite_pos p -> finite_pos dp -> let r := B2 (ci_size s) in let N := euclid_norm (along (reals p) (reals dp) 1) in
  euclid_norm (reals p) <= r -> r < N -> N <= 2 ^ 399 -> leaves_at r (reals p) (reals dp) t ->
  mirror_image (along (reals p) (reals dp) t) (along (reals p) (reals dp) 1) q0 ->
  exists q o, circ_check_bc s p dp = (q, o) /\ finite_pos q /\
    Forall2 (fun (y : b64) (x : R) => Rabs (B2 y - x) <= 2 * ((1 - t) * euclid_norm (reals dp)) ^ 2 / r + 2 * slack (ci_dim s) * N) q q0.
Proof.
  intros Md Dm Lp Ld Fp Fd. cbv zeta. destruct (split_pairs p dp) as (E1 & E2); [congruence|]. set (l := combine p dp) in *.
  assert (Ll : length l = ci_dim s) by (unfold l; rewrite combine_length; lia). clearbody l. rewrite E1, E2 in *.
  intros Hp Out HN HL HM. rewrite !along_maps in *. unfold reals in *. rewrite !map_map in *.
  refine (ray_mirror64 s l t q0 Md Dm Ll Fp Fd Hp Out HN HL _). unfold along. rewrite !combine_maps, !map_map. exact HM.
Qed.
End F.
