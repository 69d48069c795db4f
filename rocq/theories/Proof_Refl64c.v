(** The vector part of the exact reflection at a sphere in double precision. *)
From Coq Require Import Reals ZArith List Lra Lia.
From Flocq Require Import Core.
From Flocq.IEEE754 Require Import BinarySingleNaN.
From Verif Require Import Base Scalar Float64 Model_Position Spec_Position Proof_Position Proof_Norm64 Proof_Sum64 Proof_Force64 Proof_Walk64 Proof_Inner64 Proof_System2 Proof_System4 Proof_System5
  Spec_Wall64 Proof_Wall64b Proof_Refl64 Proof_Refl64b.
Import ListNotations.
Local Open Scope R_scope.

(** Norms of lists given by functions. *)
Section Maps.
Context {T : Type}.
Implicit Types (l : list T) (f g h : T -> R).
Lemma norm_mono l f g : (forall a, In a l -> Rabs (f a) <= Rabs (g a)) -> euclid_norm (map f l) <= euclid_norm (map g l).
Proof.
  intros H. apply sqrt_le_1_alt. induction l as [|a l IH]; cbn [map rsum fold_right]; [lra|].
  assert (f a ^ 2 <= g a ^ 2). { rewrite <- (pow2_abs (f a)), <- (pow2_abs (g a)). apply pow_incr. split; [apply Rabs_pos|apply H; now left]. }
  assert (I := IH ltac:(intros b Hb; apply H; now right)). unfold rsum in I. lra.
Qed.
Lemma norm_add l f g : euclid_norm (map (fun a => f a + g a) l) <= euclid_norm (map f l) + euclid_norm (map g l).
Proof.
  rewrite !euclid_norm_sq. replace (map (fun a => f a + g a) l) with (vadd (map f l) (map g l)); [apply minkowski; now rewrite !map_length|].
  unfold vadd. induction l as [|a l IH]; [reflexivity|]. cbn [map combine fst snd]. now f_equal.
Qed.
Lemma norm_scale l f c : euclid_norm (map (fun a => f a * c) l) = Rabs c * euclid_norm (map f l).
Proof. rewrite <- (map_map f (fun x => x * c)). apply euclid_norm_scale. Qed.
Lemma norm_const l c : 0 <= c -> euclid_norm (map (fun _ => c) l) <= INR (length l) * c.
Proof.
  intros H. apply sq_le_le; [apply Rmult_le_pos; [apply pos_INR|exact H]|]. rewrite norm_sq. induction l as [|a l IH]; [unfold sq; cbn [map rsum fold_right]; apply pow2_ge_0|].
  cbn [map length]. change (sq (c :: map (fun _ => c) l)) with (c ^ 2 + sq (map (fun _ => c) l)). rewrite S_INR. pose proof (pos_INR (length l)). nra.
Qed.
Lemma norm_ext l f g : (forall a, In a l -> f a = g a) -> euclid_norm (map f l) = euclid_norm (map g l).
Proof. intros H. f_equal. now apply map_ext_in. Qed.
Lemma norm_dom l f g h al' be ga : 0 <= al' -> 0 <= be -> 0 <= ga -> (forall a, In a l -> Rabs (f a) <= al' * Rabs (g a) + be * Rabs (h a) + ga) ->
  euclid_norm (map f l) <= al' * euclid_norm (map g l) + be * euclid_norm (map h l) + INR (length l) * ga.
Proof.
  intros A B C H. apply Rle_trans with (euclid_norm (map (fun a => (Rabs (g a) * al' + Rabs (h a) * be) + ga) l)).
  - apply norm_mono. intros a Ia. rewrite (Rabs_pos_eq (_ + ga)); [specialize (H a Ia); lra|]. pose proof (Rabs_pos (g a)). pose proof (Rabs_pos (h a)). assert (0 <= Rabs (g a) * al') by (apply Rmult_le_pos; lra). assert (0 <= Rabs (h a) * be) by (apply Rmult_le_pos; lra). lra.
  - apply Rle_trans with (1 := norm_add _ _ _). apply Rplus_le_compat; [|now apply norm_const]. apply Rle_trans with (1 := norm_add _ _ _). rewrite !norm_scale, (Rabs_pos_eq al'), (Rabs_pos_eq be) by lra.
    assert (E : forall k, euclid_norm (map (fun a => Rabs (k a)) l) = euclid_norm (map k l)).
    { intros k. apply Rle_antisym; apply norm_mono; intros a _; rewrite Rabs_Rabsolu; lra. }
    rewrite !E. lra.
Qed.
Lemma norm_close l f g : Rabs (euclid_norm (map f l) - euclid_norm (map g l)) <= euclid_norm (map (fun a => f a - g a) l).
Proof.
  assert (A := norm_add l g (fun a => f a - g a)). assert (B := norm_add l f (fun a => (f a - g a) * (-1))). rewrite norm_scale, (Rabs_left (-1)) in B by lra. cbv beta in A, B.
  rewrite (norm_ext l (fun a => g a + (f a - g a)) f) in A by (intros; ring). rewrite (norm_ext l (fun a => f a + (f a - g a) * -1) g) in B by (intros; ring). apply Rabs_le. lra.
Qed.
Lemma dot_maps l f g : Spec_System.dot (map f l) (map g l) = rsum (map (fun a => f a * g a) l).
Proof. unfold Spec_System.dot. f_equal. induction l as [|a l IH]; [reflexivity|]. cbn [map combine fst snd]. now f_equal. Qed.
Lemma dot_cs l f g : Rabs (rsum (map (fun a => f a * g a) l)) <= euclid_norm (map f l) * euclid_norm (map g l).
Proof.
  apply sq_le_le; [apply Rmult_le_pos; apply euclid_norm_nonneg|]. rewrite pow2_abs, Rpow_mult_distr, !norm_sq, <- dot_maps. apply cauchy. now rewrite !map_length.
Qed.
Lemma rsum_minus l f g : rsum (map f l) - rsum (map g l) = rsum (map (fun a => f a - g a) l).
Proof. induction l as [|a l IH]; cbn [map rsum fold_right]; [lra|]. unfold rsum in IH. lra. Qed.
Lemma norm_abs l f : euclid_norm (map (fun a => Rabs (f a)) l) = euclid_norm (map f l).
Proof. apply Rle_antisym; apply norm_mono; intros a _; rewrite Rabs_Rabsolu; lra. Qed.
End Maps.

Lemma mult_any (x y : b64) : fin x = true -> fin y = true -> Rabs (B2 x * B2 y) <= 2 ^ 900 -> fin (Bmult mode_NE x y) = true /\ Rabs (B2 (Bmult mode_NE x y) - B2 x * B2 y) <= u64 * Rabs (B2 x * B2 y) + eta64.
Proof.
  intros Fx Fy H. pose proof (rnd64_err (B2 x * B2 y)) as E. assert (T : Rabs (rnd64 (B2 x * B2 y)) < top).
  { apply (rnd_near (B2 x * B2 y) (2 ^ 900)); [assert (0 < 2 ^ 900) by (apply pow_lt; lra); lra|]. split; [|lra]. apply Rle_trans with 1; [|apply pow_R1_Rle; lra]. rewrite <- Rinv_1. apply Rinv_le_contravar; [lra|]. apply pow_R1_Rle. lra. }
  destruct (mult_val x y Fx Fy) as (NN & V). assert (Fz := rnd64_lt_fin _ _ NN V T). split; [exact Fz|]. now rewrite (fin_mult_eq _ _ Fz).
Qed.

(** One coordinate: going there and back. *)
Definition fwd (a : b64 * b64) : b64 := Bplus mode_NE (fst a) (snd a).
Definition back (a : b64 * b64) : b64 := Bminus mode_NE (fwd a) (snd a).
Definition size (a : b64 * b64) : R := Rabs (B2 (fst a)) + Rabs (B2 (snd a)).
Definition good (a : b64 * b64) : Prop := fin (fst a) = true /\ fin (snd a) = true /\ size a <= 2 ^ 800.
Lemma pow89 : 16 * 2 ^ 800 <= 2 ^ 900.
Proof. replace 16 with (2 ^ 4) by (simpl; lra). rewrite <- pow_add. apply Rle_pow; [lra|lia]. Qed.
Lemma fwd_ok a : good a -> fin (fwd a) = true /\ Rabs (B2 (fwd a) - (B2 (fst a) + B2 (snd a))) <= u64 * Rabs (B2 (fst a) + B2 (snd a)).
Proof.
  intros (F1 & F2 & H). unfold size in H. assert (0 <= Rabs (B2 (fst a))) by apply Rabs_pos. assert (0 <= Rabs (B2 (snd a))) by apply Rabs_pos. pose proof pow89. pose proof u64_lt1. pose proof u64_pos.
  pose proof (Rabs_triang (B2 (fst a)) (B2 (snd a))) as T.
  destruct (ap_plus (fst a) (B2 (fst a)) (size a) 0 (snd a) (B2 (snd a)) (size a) 0 (size a) u64) as (F & _ & _); unfold size.
  - apply ap_exact; [exact F1|unfold size; lra].
  - apply ap_exact; [exact F2|unfold size; lra].
  - exact T.
  - lra.
  - lra.
  - assert (0 < 2 ^ 800) by (apply pow_lt; lra). lra.
  - split; [exact F|]. unfold fwd. rewrite (fin_plus_eq _ _ F). apply rnd64_plus.
Qed.
Lemma back_ok a : good a -> fin (back a) = true /\ Rabs (B2 (back a) - B2 (fst a)) <= 3 * u64 * size a.
Proof.
  intros G. pose proof (fwd_ok a G) as (F & E). destruct G as (F1 & F2 & H). pose proof pow89. pose proof u64_lt1. pose proof u64_pos. pose proof u64_tiny.
  assert (0 <= Rabs (B2 (fst a))) by apply Rabs_pos. assert (0 <= Rabs (B2 (snd a))) by apply Rabs_pos. pose proof (Rabs_triang (B2 (fst a)) (B2 (snd a))) as T. fold (size a) in T.
  assert (S0 : 0 <= size a) by (unfold size; lra).
  assert (X : ap (fwd a) (B2 (fst a) + B2 (snd a)) (size a) u64). { split; [exact F|]. split; [exact T|]. apply Rle_trans with (1 := E). apply Rmult_le_compat_l; lra. }
  assert (Y : ap (snd a) (B2 (snd a)) (size a) 0) by (apply ap_exact; [exact F2|unfold size; lra]).
  destruct (ap_minus _ _ _ _ _ _ _ _ (size a) (3 * u64) X Y) as (Fb & _ & Eb).
  - replace (B2 (fst a) + B2 (snd a) - B2 (snd a)) with (B2 (fst a)) by ring. unfold size. lra.
  - assert (u64 * (u64 * size a) <= 1 * (u64 * size a)) by (apply Rmult_le_compat_r; [apply Rmult_le_pos|]; lra). lra.
  - lra.
  - assert (0 < 2 ^ 800) by (apply pow_lt; lra). lra.
  - split; [exact Fb|]. replace (B2 (fst a) + B2 (snd a) - B2 (snd a)) with (B2 (fst a)) in Eb by ring. exact Eb.
Qed.

(** One coordinate of the image. *)
Definition image (f1 f2 : b64) (a : b64 * b64) : b64 := Bplus mode_NE (Bmult mode_NE (back a) f1) (Bmult mode_NE (snd a) f2).
Lemma image_ok (f1 f2 : b64) (g1 g2 q B : R) a : good a -> 4 * u64 <= B <= / 2048 -> 1 / 2 <= q <= 2 ^ 50 -> size a * 2 ^ 50 <= 2 ^ 800 ->
  ap f1 g1 5 (100 * B) -> ap f2 g2 (10 * q) (130 * B) ->
  fin (image f1 f2 a) = true /\ Rabs (B2 (image f1 f2 a) - (g1 * B2 (fst a) + g2 * B2 (snd a))) <= 520 * B * Rabs (B2 (fst a)) + 1340 * B * q * Rabs (B2 (snd a)) + 4 * eta64.
Proof.
  intros G HB Hq Hs A1 A2. pose proof (back_ok a G) as (Fb & Eb). destruct G as (F1 & F2 & H). pose proof pow89 as P89. pose proof u64_lt1. pose proof u64_pos as U. pose proof u64_tiny.
  pose proof (ap_abs _ _ _ _ A1) as B1. pose proof (ap_abs _ _ _ _ A2) as B2'. destruct A1 as (Ff1 & G1 & D1), A2 as (Ff2 & G2 & D2).
  set (x := B2 (fst a)) in *. set (y := B2 (snd a)) in *. set (z := B2 (back a)) in *. set (v1 := B2 f1) in *. set (v2 := B2 f2) in *.
  assert (X0 := Rabs_pos x). assert (Y0 := Rabs_pos y). assert (S0 : 0 <= size a) by (unfold size; fold x y; lra). unfold size in Eb, H, Hs. fold x y in Eb, H, Hs.
  set (X := Rabs x) in *. set (Y := Rabs y) in *.
  assert (V1 : Rabs v1 <= 6). { apply Rle_trans with (1 := B1). lra. }
  assert (V2 : Rabs v2 <= 11 * q). { apply Rle_trans with (1 := B2'). replace ((1 + 130 * B) * (10 * q)) with ((10 + 1300 * B) * q) by ring. apply Rmult_le_compat_r; lra. }
  assert (Z1 : Rabs z <= 2 * X + Y). { pose proof (Rabs_triang (z - x) x) as T. replace (z - x + x) with z in T by ring. fold X in T. assert (3 * u64 * (X + Y) <= 1 * (X + Y)) by (apply Rmult_le_compat_r; lra). lra. }
  assert (P50 : 1 <= 2 ^ 50) by (apply pow_R1_Rle; lra). assert (P8 : 0 < 2 ^ 800) by (apply pow_lt; lra).
  assert (M1 : Rabs (z * v1) <= 6 * (2 * X + Y)). { rewrite Rabs_mult, Rmult_comm. apply Rmult_le_compat; try apply Rabs_pos; assumption. }
  assert (M2 : Rabs (y * v2) <= 11 * q * Y). { rewrite Rabs_mult, Rmult_comm. fold Y. apply Rmult_le_compat_r; assumption. }
  assert (Q50 : q * Y <= 2 ^ 800). { apply Rle_trans with (2 ^ 50 * Y); [apply Rmult_le_compat_r; lra|]. apply Rle_trans with (2 := Hs). rewrite Rmult_comm. apply Rmult_le_compat_r; lra. }
  destruct (mult_any (back a) f1 Fb Ff1) as (Fm1 & Em1); [fold z v1; lra|]. destruct (mult_any (snd a) f2 F2 Ff2) as (Fm2 & Em2); [fold y v2; lra|].
  fold z v1 in Em1. fold y v2 in Em2. set (m1 := Bmult mode_NE (back a) f1) in *. set (m2 := Bmult mode_NE (snd a) f2) in *.
  assert (et : 0 < eta64) by apply eta64_pos. assert (et1 : eta64 <= 1). { unfold eta64. rewrite <- Rinv_1. apply Rinv_le_contravar; [lra|]. apply pow_R1_Rle. lra. }
  assert (P81 : 1 <= 2 ^ 800) by (apply pow_R1_Rle; lra).
  assert (UM1 : u64 * Rabs (z * v1) <= u64 * (6 * (2 * X + Y))) by (apply Rmult_le_compat_l; lra).
  assert (UM2 : u64 * Rabs (y * v2) <= u64 * (11 * q * Y)) by (apply Rmult_le_compat_l; lra).
  assert (N1 : Rabs (B2 m1) <= 7 * (2 * X + Y) + eta64).
  { pose proof (Rabs_triang (B2 m1 - z * v1) (z * v1)) as T. replace (B2 m1 - z * v1 + z * v1) with (B2 m1) in T by ring. assert (u64 * (6 * (2 * X + Y)) <= / 6 * (6 * (2 * X + Y))) by (apply Rmult_le_compat_r; lra). lra. }
  assert (N2 : Rabs (B2 m2) <= 12 * q * Y + eta64).
  { pose proof (Rabs_triang (B2 m2 - y * v2) (y * v2)) as T. replace (B2 m2 - y * v2 + y * v2) with (B2 m2) in T by ring. assert (u64 * (11 * q * Y) <= / 11 * (11 * q * Y)) by (apply Rmult_le_compat_r; [apply Rmult_le_pos; lra|lra]). lra. }
  assert (qY : 0 <= q * Y) by (apply Rmult_le_pos; lra). assert (Yq : Y <= 2 * (q * Y)) by (assert (1 / 2 * Y <= q * Y) by (apply Rmult_le_compat_r; lra); lra).
  destruct (ap_plus m1 (B2 m1) (2 ^ 804) 0 m2 (B2 m2) (2 ^ 804) 0 (2 ^ 805) u64) as (Fi & _ & _).
  { apply ap_exact; [exact Fm1|]. replace (2 ^ 804) with (16 * 2 ^ 800) by (replace 16 with (2 ^ 4) by (simpl; lra); rewrite <- pow_add; reflexivity). lra. }
  { apply ap_exact; [exact Fm2|]. replace (2 ^ 804) with (16 * 2 ^ 800) by (replace 16 with (2 ^ 4) by (simpl; lra); rewrite <- pow_add; reflexivity). lra. }
  { replace (2 ^ 805) with (32 * 2 ^ 800) by (replace 32 with (2 ^ 5) by (simpl; lra); rewrite <- pow_add; reflexivity). apply Rle_trans with (1 := Rabs_triang _ _). lra. }
  { lra. } { lra. } { split; [apply Rlt_le, pow_lt; lra|]. apply Rle_pow; [lra|lia]. }
  split; [exact Fi|]. unfold image. fold m1 m2. rewrite (fin_plus_eq _ _ Fi). pose proof (rnd64_plus m1 m2) as Ep.
  assert (UP : u64 * Rabs (B2 m1 + B2 m2) <= u64 * (7 * (2 * X + Y) + 12 * q * Y + 2 * eta64)). { apply Rmult_le_compat_l; [lra|]. apply Rle_trans with (1 := Rabs_triang _ _). lra. }
  assert (T1 : Rabs (z * v1 - g1 * x) <= 18 * u64 * (X + Y) + 500 * B * X).
  { replace (z * v1 - g1 * x) with ((z - x) * v1 + (v1 - g1) * x) by ring. apply Rle_trans with (1 := Rabs_triang _ _). rewrite !Rabs_mult. fold X.
    pose proof (Rmult_le_compat _ _ _ _ (Rabs_pos (z - x)) (Rabs_pos v1) Eb V1). assert (Rabs (v1 - g1) * X <= 100 * B * 5 * X) by (apply Rmult_le_compat_r; assumption). lra. }
  assert (T2 : Rabs (y * v2 - g2 * y) <= 1300 * B * (q * Y)).
  { replace (y * v2 - g2 * y) with ((v2 - g2) * y) by ring. rewrite Rabs_mult. fold Y. apply Rle_trans with (130 * B * (10 * q) * Y); [apply Rmult_le_compat_r; assumption|]. lra. }
  replace (rnd64 (B2 m1 + B2 m2) - (g1 * x + g2 * y)) with ((rnd64 (B2 m1 + B2 m2) - (B2 m1 + B2 m2)) + ((B2 m1 - z * v1) + ((B2 m2 - y * v2) + ((z * v1 - g1 * x) + (y * v2 - g2 * y))))) by ring.
  apply Rle_trans with (1 := Rabs_triang _ _).
  assert (TT := Rabs_triang (B2 m1 - z * v1) ((B2 m2 - y * v2) + ((z * v1 - g1 * x) + (y * v2 - g2 * y)))).
  assert (TT2 := Rabs_triang (B2 m2 - y * v2) ((z * v1 - g1 * x) + (y * v2 - g2 * y))).
  assert (TT3 := Rabs_triang (z * v1 - g1 * x) (y * v2 - g2 * y)).
  assert (UX : u64 * X <= / 4 * B * X) by (apply Rmult_le_compat_r; lra). assert (UY : u64 * (q * Y) <= / 4 * B * (q * Y)) by (apply Rmult_le_compat_r; lra). assert (UYY : u64 * Y <= u64 * (2 * (q * Y))) by (apply Rmult_le_compat_l; lra).
  assert (UE : u64 * eta64 <= / 1000000 * eta64) by (apply Rmult_le_compat_r; lra). assert (0 <= B * X) by (apply Rmult_le_pos; lra). assert (0 <= B * (q * Y)) by (apply Rmult_le_pos; lra). lra.
Qed.
