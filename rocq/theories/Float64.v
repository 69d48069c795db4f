(** Facts about binary64 arithmetic: every operation on finite operands is the correctly rounded exact
    result, clamped to the infinities; the clamped rounding is monotone. *)
From Coq Require Import ZArith Reals Lra Lia.
From Flocq Require Import Core.
From Flocq.IEEE754 Require Import BinarySingleNaN.
From Verif Require Import Base Scalar.
Open Scope R_scope.

Notation fexp64 := (SpecFloat.fexp 53 1024).
Notation rnd64 := (round radix2 fexp64 (round_mode mode_NE)).
Notation fin := (@is_finite 53 1024).
Notation nan := (@is_nan 53 1024).
Notation B2 := (@B2R 53 1024).
Notation top := (bpow radix2 1024).

Global Instance fexp64_valid : Valid_exp fexp64.
Proof. apply (fexp_correct 53 1024). exact prec53. Qed.

Lemma top_pos : 0 < top. Proof. apply bpow_gt_0. Qed.

(** Infinities are placed at [+-2^1024], above every finite double; NaN at 0 (never used). *)
Definition val (x : b64) : R :=
  match x with
  | B754_infinity false => top
  | B754_infinity true => - top
  | _ => B2 x
  end.

Definition clamp (r : R) : R := if Rle_dec top r then top else if Rle_dec r (- top) then - top else r.
Definition rnd (r : R) : R := clamp (rnd64 r).

Lemma clamp_le x y : x <= y -> clamp x <= clamp y.
Proof.
  pose proof top_pos. unfold clamp. intros.
  repeat destruct Rle_dec; lra.
Qed.

Lemma rnd_le x y : x <= y -> rnd x <= rnd y.
Proof. intros. apply clamp_le. apply round_le; auto with typeclass_instances. Qed.

Lemma clamp_opp x : clamp (- x) = - clamp x.
Proof. pose proof top_pos. unfold clamp. repeat destruct Rle_dec; lra. Qed.

Lemma rnd_opp x : rnd (- x) = - rnd x.
Proof. unfold rnd. cbn [round_mode]. rewrite round_NE_opp. apply clamp_opp. Qed.

Lemma rnd_0 : rnd 0 = 0.
Proof.
  unfold rnd. rewrite round_0 by auto with typeclass_instances.
  pose proof top_pos. unfold clamp. repeat destruct Rle_dec; lra.
Qed.

Lemma rnd_pos x : 0 <= x -> 0 <= rnd x.
Proof. intros. rewrite <- rnd_0. now apply rnd_le. Qed.

Lemma rnd_bound x : - top <= rnd x <= top.
Proof. pose proof top_pos. unfold rnd, clamp. repeat destruct Rle_dec; lra. Qed.

Lemma B2_bound (x : b64) : - top < B2 x < top.
Proof. pose proof (abs_B2R_lt_emax 53 1024 x) as A. apply Rabs_def2 in A. lra. Qed.

Lemma val_fin x : fin x = true -> val x = B2 x.
Proof. destruct x as [| [|] | |]; easy. Qed.

Lemma val_bound x : - top <= val x <= top.
Proof. pose proof top_pos. pose proof (B2_bound x). destruct x as [| [|] | |]; simpl in *; lra. Qed.

Lemma rnd_B2 x : rnd (B2 x) = B2 x.
Proof.
  unfold rnd. rewrite round_generic; auto with typeclass_instances.
  - pose proof (B2_bound x). unfold clamp. repeat destruct Rle_dec; lra.
  - apply generic_format_B2R.
Qed.

(** Comparison is comparison of values. *)
Lemma leb_val x y : nan x = false -> nan y = false -> Bleb x y = true <-> val x <= val y.
Proof.
  intros Nx Ny. pose proof (B2_bound x) as Bx. pose proof (B2_bound y) as By. pose proof top_pos.
  destruct (fin x) eqn:Fx, (fin y) eqn:Fy.
  - rewrite Bleb_correct, !val_fin by auto. destruct (Rle_bool_spec (B2 x) (B2 y)); split; intros; auto; lra || easy.
  - destruct y as [| [|] | |]; try easy; destruct x as [| [|] | |[|]]; try easy; unfold Bleb; simpl in *;
      split; intros; try easy; try lra.
  - destruct x as [| [|] | |]; try easy; destruct y as [| [|] | |[|]]; try easy; unfold Bleb; simpl in *;
      split; intros; try easy; try lra.
  - destruct x as [| [|] | |]; try easy; destruct y as [| [|] | |[|]]; try easy; unfold Bleb; simpl in *;
      split; intros; try easy; try lra.
Qed.

Lemma leb_nan (x y : b64) : Bleb x y = true -> nan x = false /\ nan y = false.
Proof. destruct x as [| [|] | |[|]], y as [| [|] | |[|]]; easy. Qed.

Lemma ltb_val x y : nan x = false -> nan y = false -> Bltb x y = true <-> val x < val y.
Proof.
  intros Nx Ny. pose proof (leb_val y x Ny Nx) as E.
  assert (Q : Bltb x y = negb (Bleb y x)).
  { unfold Bltb, Bleb, SpecFloat.SFltb, SpecFloat.SFleb. change (SpecFloat.SFcompare (B2SF x) (B2SF y)) with (Bcompare x y).
    change (SpecFloat.SFcompare (B2SF y) (B2SF x)) with (Bcompare y x). rewrite (Bcompare_swap _ _ y x).
    destruct (Bcompare y x) as [[]|] eqn:C; try reflexivity.
    exfalso. clear -Nx Ny C. destruct x as [| [|] | |[|]], y as [| [|] | |[|]]; try easy; unfold Bcompare in C; simpl in C;
      repeat destruct Z.compare in C; easy. }
  rewrite Q. destruct (Bleb y x); simpl; split; intros; try easy.
  - destruct E as [E _]. specialize (E eq_refl). lra.
  - apply Rnot_le_lt. intros V. apply E in V. easy.
Qed.

Lemma ltb_nan (x y : b64) : Bltb x y = true -> nan x = false /\ nan y = false.
Proof. destruct x as [| [|] | |[|]], y as [| [|] | |[|]]; easy. Qed.

Lemma ltb_leb (x y : b64) : Bltb x y = true -> Bleb x y = true.
Proof. intros E. destruct (ltb_nan _ _ E). apply leb_val; auto. apply ltb_val in E; auto. lra. Qed.

Lemma leb_refl x : nan x = false -> Bleb x x = true.
Proof. intros. apply leb_val; auto; lra. Qed.

Lemma leb_trans (x y z : b64) : Bleb x y = true -> Bleb y z = true -> Bleb x z = true.
Proof.
  intros A B. destruct (leb_nan _ _ A), (leb_nan _ _ B).
  apply leb_val in A, B; auto. apply leb_val; auto. lra.
Qed.

Lemma nltb_leb x y : nan x = false -> nan y = false -> Bltb x y = false -> Bleb y x = true.
Proof.
  intros Nx Ny E. apply leb_val; auto. apply Rnot_lt_le. intros V. apply (ltb_val x y) in V; auto. congruence.
Qed.

Lemma nleb_ltb x y : nan x = false -> nan y = false -> Bleb x y = false -> Bltb y x = true.
Proof.
  intros Nx Ny E. apply ltb_val; auto. apply Rnot_le_lt. intros V. apply (leb_val x y) in V; auto. congruence.
Qed.

Lemma overflow_val (z : b64) s : B2SF z = binary_overflow 53 1024 mode_NE s ->
  nan z = false /\ val z = if s then - top else top.
Proof. destruct z, s; simpl; intros E; inversion E; easy. Qed.

Lemma rnd_small r : Rabs (rnd64 r) < top -> rnd r = rnd64 r.
Proof. intros A. apply Rabs_def2 in A. unfold rnd, clamp. repeat destruct Rle_dec; lra. Qed.

Lemma rnd64_pos r : 0 <= r -> 0 <= rnd64 r.
Proof. intros. rewrite <- (round_0 radix2 fexp64 (round_mode mode_NE)). apply round_le; auto with typeclass_instances. Qed.
Lemma rnd64_neg r : r <= 0 -> rnd64 r <= 0.
Proof. intros. rewrite <- (round_0 radix2 fexp64 (round_mode mode_NE)). apply round_le; auto with typeclass_instances. Qed.

Lemma rnd_big_pos r : ~ Rabs (rnd64 r) < top -> 0 <= r -> rnd r = top.
Proof.
  intros A B. apply rnd64_pos in B. rewrite Rabs_pos_eq in A by auto.
  unfold rnd, clamp. repeat destruct Rle_dec; lra.
Qed.
Lemma rnd_big_neg r : ~ Rabs (rnd64 r) < top -> r <= 0 -> rnd r = - top.
Proof.
  intros A B. apply rnd64_neg in B. rewrite Rabs_left1 in A by auto. pose proof top_pos.
  unfold rnd, clamp. repeat destruct Rle_dec; lra.
Qed.

Lemma sign_neg (x : b64) : Bsign x = true -> B2 x <= 0.
Proof.
  destruct x as [| | |s m e B]; simpl; try lra. intros ->.
  apply Rlt_le. now apply F2R_lt_0.
Qed.
Lemma sign_pos (x : b64) : Bsign x = false -> 0 <= B2 x.
Proof.
  destruct x as [| | |s m e B]; simpl; try lra. intros ->.
  apply Rlt_le. now apply F2R_gt_0.
Qed.

Lemma plus_val x y : fin x = true -> fin y = true ->
  nan (Bplus mode_NE x y) = false /\ val (Bplus mode_NE x y) = rnd (B2 x + B2 y).
Proof.
  intros Fx Fy. pose proof (Bplus_correct 53 1024 _ _ mode_NE x y Fx Fy) as C.
  destruct (Rlt_bool_spec (Rabs (rnd64 (B2 x + B2 y))) top) as [L|L].
  - destruct C as (C1 & C2 & _). split; [destruct (Bplus mode_NE x y); easy|].
    rewrite val_fin, C1, rnd_small; auto.
  - destruct C as (C1 & C2). apply overflow_val in C1 as (N & V). split; auto. rewrite V.
    destruct (Bsign x) eqn:Sx; symmetry in C2; symmetry; [apply rnd_big_neg | apply rnd_big_pos]; try lra;
      [apply sign_neg in Sx, C2 | apply sign_pos in Sx, C2]; lra.
Qed.

Lemma minus_val x y : fin x = true -> fin y = true ->
  nan (Bminus mode_NE x y) = false /\ val (Bminus mode_NE x y) = rnd (B2 x - B2 y).
Proof.
  intros Fx Fy. pose proof (Bminus_correct 53 1024 _ _ mode_NE x y Fx Fy) as C.
  destruct (Rlt_bool_spec (Rabs (rnd64 (B2 x - B2 y))) top) as [L|L].
  - destruct C as (C1 & C2 & _). split; [destruct (Bminus mode_NE x y); easy|].
    rewrite val_fin, C1, rnd_small; auto.
  - destruct C as (C1 & C2). apply overflow_val in C1 as (N & V). split; auto. rewrite V.
    destruct (Bsign x) eqn:Sx; destruct (Bsign y) eqn:Sy; try easy; symmetry; [apply rnd_big_neg | apply rnd_big_pos]; try lra.
    + apply sign_neg in Sx. apply sign_pos in Sy. lra.
    + apply sign_pos in Sx. apply sign_neg in Sy. lra.
Qed.

Lemma mult_val x y : fin x = true -> fin y = true ->
  nan (Bmult mode_NE x y) = false /\ val (Bmult mode_NE x y) = rnd (B2 x * B2 y).
Proof.
  intros Fx Fy. pose proof (Bmult_correct 53 1024 _ _ mode_NE x y) as C.
  destruct (Rlt_bool_spec (Rabs (rnd64 (B2 x * B2 y))) top) as [L|L].
  - destruct C as (C1 & C2 & _). rewrite Fx, Fy in C2. split; [destruct (Bmult mode_NE x y); easy|].
    rewrite val_fin, C1, rnd_small; auto.
  - apply overflow_val in C as (N & V). split; auto. rewrite V. symmetry.
    destruct (Bsign x) eqn:Sx; destruct (Bsign y) eqn:Sy; simpl;
      (apply sign_neg in Sx || apply sign_pos in Sx); (apply sign_neg in Sy || apply sign_pos in Sy);
      (apply rnd_big_neg; [lra|nra]) || (apply rnd_big_pos; [lra|nra]).
Qed.

Lemma div_val x y : fin x = true -> fin y = true -> B2 y <> 0 ->
  nan (Bdiv mode_NE x y) = false /\ val (Bdiv mode_NE x y) = rnd (B2 x / B2 y).
Proof.
  intros Fx Fy Zy. pose proof (Bdiv_correct 53 1024 _ _ mode_NE x y Zy) as C.
  destruct (Rlt_bool_spec (Rabs (rnd64 (B2 x / B2 y))) top) as [L|L].
  - destruct C as (C1 & C2 & _). rewrite Fx in C2. split; [destruct (Bdiv mode_NE x y); easy|].
    rewrite val_fin, C1, rnd_small; auto.
  - apply overflow_val in C as (N & V). split; auto. rewrite V. symmetry.
    assert (I : B2 x / B2 y = B2 x * / B2 y) by reflexivity.
    destruct (Bsign x) eqn:Sx; destruct (Bsign y) eqn:Sy; simpl;
      (apply sign_neg in Sx || apply sign_pos in Sx); (apply sign_neg in Sy || apply sign_pos in Sy).
    + apply rnd_big_pos; [lra|]. rewrite I. assert (/ B2 y < 0) by (apply Rinv_lt_0_compat; lra). nra.
    + apply rnd_big_neg; [lra|]. rewrite I. assert (0 < / B2 y) by (apply Rinv_0_lt_compat; lra). nra.
    + apply rnd_big_neg; [lra|]. rewrite I. assert (/ B2 y < 0) by (apply Rinv_lt_0_compat; lra). nra.
    + apply rnd_big_pos; [lra|]. rewrite I. assert (0 < / B2 y) by (apply Rinv_0_lt_compat; lra). nra.
Qed.

Lemma sqrt_val x : fin x = true -> 0 <= B2 x ->
  fin (Bsqrt mode_NE x) = true /\ B2 (Bsqrt mode_NE x) = rnd64 (sqrt (B2 x)).
Proof.
  intros Fx Px. destruct (Bsqrt_correct 53 1024 _ _ mode_NE x) as (C1 & C2 & _). split; auto.
  rewrite C2. destruct x as [| | |[|]]; try easy.
  exfalso. simpl in Px. assert (F2R (beta := radix2) (Float radix2 (cond_Zopp true (Zpos m)) e) < 0) by now apply F2R_lt_0.
  simpl in H. lra.
Qed.

Lemma opp_val x : val (Bopp x) = - val x.
Proof. destruct x as [| [|] | |]; simpl; try lra. rewrite F2R_cond_Zopp, F2R_cond_Zopp. destruct s; simpl; lra. Qed.
Lemma abs_val x : val (Babs x) = Rabs (val x).
Proof.
  pose proof top_pos.
  destruct x as [| [|] | |]; simpl; rewrite ?Rabs_R0; try easy.
  - rewrite Rabs_Ropp. symmetry. apply Rabs_pos_eq. lra.
  - symmetry. apply Rabs_pos_eq. lra.
  - rewrite <- F2R_Zabs. f_equal. destruct s; reflexivity.
Qed.

(** Adding a non-negative double never decreases, whatever the rounding. *)
Lemma plus_ge x y : nan x = false -> Bleb (B754_zero false) y = true -> x <> B754_infinity true ->
  Bleb x (Bplus mode_NE x y) = true.
Proof.
  intros Nx Py Ix. destruct (leb_nan _ _ Py) as (_ & Ny).
  apply leb_val in Py; auto. simpl in Py.
  destruct (fin x) eqn:Fx.
  - destruct (fin y) eqn:Fy.
    + destruct (plus_val x y Fx Fy) as (N & V). apply leb_val; auto. rewrite V, val_fin by auto.
      rewrite <- (rnd_B2 x) at 1. apply rnd_le. rewrite val_fin in Py by auto. lra.
    + destruct y as [| [|] | |]; try easy; simpl in *; [pose proof top_pos; lra|].
      destruct x as [| [|] | |[|]]; easy.
  - destruct x as [| [|] | |]; try easy. destruct y as [| [|] | |]; try easy.
    simpl in Py. pose proof top_pos. lra.
Qed.

Lemma of_Z_exact z : (Z.abs z <= 2 ^ 53)%Z -> fin (b64_of_Z z) = true /\ B2 (b64_of_Z z) = IZR z.
Proof.
  intros Hz. pose proof (binary_normalize_correct 53 1024 _ _ mode_NE z 0 false) as C. cbv zeta in C.
  assert (E : F2R (Float radix2 z 0) = IZR z) by (unfold F2R; simpl; lra).
  assert (G : generic_format radix2 fexp64 (IZR z)).
  { rewrite <- E. apply generic_format_FLT.
    destruct (Z.eq_dec (Z.abs z) (2^53)) as [Q|Q].
    - assert (z = 2^53 \/ z = - 2^53)%Z as [-> | ->] by lia.
      + apply FLT_spec with (Float radix2 (2^52) 1); [unfold F2R; simpl; lra|reflexivity|discriminate].
      + apply FLT_spec with (Float radix2 (- 2^52) 1); [unfold F2R; simpl; lra|reflexivity|discriminate].
    - apply FLT_spec with (Float radix2 z 0); [reflexivity| |]; cbn [Fnum Fexp]; [|unfold SpecFloat.emin; lia].
      change (Z.pow radix2 53) with (2 ^ 53)%Z. lia. }
  assert (H : rnd64 (F2R (Float radix2 z 0)) = IZR z).
  { rewrite E. apply round_generic; auto with typeclass_instances. }
  assert (BB : Rabs (IZR z) < top).
  { rewrite <- abs_IZR. apply Rle_lt_trans with (IZR (2^53)); [apply IZR_le; lia|].
    change (IZR (2^53)) with (bpow radix2 53). apply bpow_lt. lia. }
  fold (b64_of_Z z) in C. rewrite H in C. rewrite Rlt_bool_true in C; auto. destruct C as (C1 & C2 & _). auto.
Qed.

Lemma val_lt_fin (z : b64) : nan z = false -> - top < val z < top -> fin z = true.
Proof. destruct z as [|[|]| |]; simpl; try easy; intros; lra. Qed.

Lemma rnd_IZR z : (Z.abs z <= 2 ^ 53)%Z -> rnd (IZR z) = IZR z.
Proof. intros H. destruct (of_Z_exact z H) as (_ & E). rewrite <- E. apply rnd_B2. Qed.

Lemma IZR_lt_top z : (Z.abs z <= 2 ^ 53)%Z -> - top < IZR z < top.
Proof. intros H. destruct (of_Z_exact z H) as (_ & E). rewrite <- E. apply B2_bound. Qed.

(** Small integers are added and multiplied exactly. *)
Lemma plus_int x y a b : fin x = true -> fin y = true -> B2 x = IZR a -> B2 y = IZR b -> (Z.abs (a + b) <= 2 ^ 53)%Z ->
  fin (Bplus mode_NE x y) = true /\ B2 (Bplus mode_NE x y) = IZR (a + b).
Proof.
  intros Fx Fy Ex Ey H. destruct (plus_val x y Fx Fy) as (N & V). rewrite Ex, Ey, <- plus_IZR, rnd_IZR in V by auto.
  assert (Q : fin (Bplus mode_NE x y) = true) by (apply val_lt_fin; auto; rewrite V; apply IZR_lt_top; auto).
  split; auto. now rewrite <- val_fin.
Qed.
Lemma mult_int x y a b : fin x = true -> fin y = true -> B2 x = IZR a -> B2 y = IZR b -> (Z.abs (a * b) <= 2 ^ 53)%Z ->
  fin (Bmult mode_NE x y) = true /\ B2 (Bmult mode_NE x y) = IZR (a * b).
Proof.
  intros Fx Fy Ex Ey H. destruct (mult_val x y Fx Fy) as (N & V). rewrite Ex, Ey, <- mult_IZR, rnd_IZR in V by auto.
  assert (Q : fin (Bmult mode_NE x y) = true) by (apply val_lt_fin; auto; rewrite V; apply IZR_lt_top; auto).
  split; auto. now rewrite <- val_fin.
Qed.
