From Coq Require Import Reals ZArith List Lra Lia.
From Flocq Require Import Core.
From Flocq.IEEE754 Require Import BinarySingleNaN.
From Verif Require Import Base Scalar Float64 Model_Position Spec_Position Proof_Position Proof_Norm64
  Model_System Spec_System Proof_System Proof_System2 Proof_System3.
Local Open Scope R_scope.

(** ** Binary64 *)
Section F.
Variable lm : libm.
Local Notation F := (F64 lm).

Lemma two64 : fin (b64_of_Z 2) = true /\ B2 (b64_of_Z 2) = 2.
Proof. apply (of_Z_exact 2). simpl. lia. Qed.

Lemma double_format x : generic_format radix2 fexp64 x -> generic_format radix2 fexp64 (2 * x).
Proof.
  intros H. change (generic_format radix2 (FLT_exp (-1074) 53) x) in H.
  apply FLT_format_generic in H; [|reflexivity]. destruct H as [[m e] E1 E2 E3]. cbn [Fexp Fnum] in *.
  change (generic_format radix2 (FLT_exp (-1074) 53) (2 * x)). apply generic_format_FLT.
  apply FLT_spec with (Float radix2 m (e + 1)); cbn [Fexp Fnum]; auto; [|lia].
  rewrite E1. unfold F2R. cbn [Fexp Fnum]. rewrite bpow_plus_1. change (IZR radix2) with 2. ring.
Qed.

Lemma bpow_pow n : bpow radix2 (Z.of_nat n) = 2 ^ n.
Proof.
  induction n as [|n IH]; [reflexivity|]. rewrite Nat2Z.inj_succ. unfold Z.succ. rewrite bpow_plus_1, IH. reflexivity.
Qed.
Lemma pow1023_top : 2 * 2 ^ 1022 < top.
Proof.
  rewrite <- (bpow_pow 1022). change (Z.of_nat 1022) with 1022%Z.
  apply Rle_lt_trans with (bpow radix2 1023); [|apply bpow_lt; lia].
  change 1023%Z with (1022 + 1)%Z. rewrite (bpow_plus_1 radix2 1022). apply Req_le. reflexivity.
Qed.

Lemma rnd_double (l : b64) : fit l -> rnd (2 * B2 l) = 2 * B2 l /\ rnd (- (2 * B2 l)) = - (2 * B2 l).
Proof.
  intros (Fl & B). pose proof pow1023_top. assert (A : rnd (2 * B2 l) = 2 * B2 l).
  { assert (E : rnd64 (2 * B2 l) = 2 * B2 l).
    { apply round_generic; auto with typeclass_instances. apply double_format. apply (generic_format_B2R 53 1024). }
    rewrite rnd_small, E; auto. rewrite E. apply Rabs_def1; lra. }
  split; auto. now rewrite rnd_opp, A.
Qed.

Lemma dbl (l : b64) : fit l -> fin (Bmult mode_NE (b64_of_Z 2) l) = true /\ B2 (Bmult mode_NE (b64_of_Z 2) l) = 2 * B2 l.
Proof.
  intros H. pose proof H as (Fl & B). destruct two64 as (F2 & E2). destruct (mult_val _ _ F2 Fl) as (N & V).
  rewrite E2, (proj1 (rnd_double l H)) in V. pose proof pow1023_top.
  assert (Q : fin (Bmult mode_NE (b64_of_Z 2) l) = true) by (apply val_lt_fin; auto; rewrite V; lra).
  split; auto. now rewrite <- val_fin.
Qed.
Lemma dbl_neg (l : b64) : fit l -> fin (Bmult mode_NE (Bopp (b64_of_Z 2)) l) = true /\ B2 (Bmult mode_NE (Bopp (b64_of_Z 2)) l) = - (2 * B2 l).
Proof.
  intros H. pose proof H as (Fl & B). destruct two64 as (F2 & E2).
  assert (F2' : fin (Bopp (b64_of_Z 2)) = true) by (now rewrite is_finite_Bopp).
  destruct (mult_val _ _ F2' Fl) as (N & V). rewrite B2R_Bopp, E2 in V.
  replace (- (2) * B2 l) with (- (2 * B2 l)) in V by ring. rewrite (proj2 (rnd_double l H)) in V. pose proof pow1023_top.
  assert (Q : fin (Bmult mode_NE (Bopp (b64_of_Z 2)) l) = true) by (apply val_lt_fin; auto; rewrite V; lra).
  split; auto. now rewrite <- val_fin.
Qed.

(** NaN can only come from NaN or infinities of opposite sign. *)
Lemma minus_nonan (a b : b64) : fin a = true -> nan b = false -> nan (Bminus mode_NE a b) = false.
Proof.
  intros Fa Nb. destruct (fin b) eqn:Fb; [apply minus_val; auto|].
  destruct a as [|[|]| |], b as [|[|]| |]; easy.
Qed.
Lemma plus_nonan2 (a b : b64) : fin a = true -> nan b = false -> nan (Bplus mode_NE a b) = false.
Proof.
  intros Fa Nb. destruct (fin b) eqn:Fb; [apply plus_val; auto|].
  destruct a as [|[|]| |], b as [|[|]| |]; easy.
Qed.

Lemma abs_leb_bounded (l x : b64) : nan x = false -> fin l = true -> Bltb l (Babs x) = false -> bounded64 l x.
Proof.
  intros Nx Fl H. assert (Na : nan (Babs x) = false) by (destruct x; easy). assert (Nl : nan l = false) by (destruct l; easy).
  apply nltb_leb in H; auto. apply leb_val in H; auto. rewrite abs_val, (val_fin l) in H by auto.
  pose proof (B2_bound l) as Bl. assert (Fx : fin x = true). { apply val_lt_fin; auto. split.
    - pose proof (Rle_abs (- val x)) as Q1. rewrite Rabs_Ropp in Q1. lra.
    - pose proof (Rle_abs (val x)). lra. }
  split; auto. now rewrite <- val_fin.
Qed.
Lemma bounded_abs_leb (l x : b64) : fin l = true -> bounded64 l x -> Bltb l (Babs x) = false.
Proof.
  intros Fl (Fx & B). destruct (Bltb l (Babs x)) eqn:E; auto. exfalso.
  destruct (ltb_nan _ _ E) as (N1 & N2). apply ltb_val in E; auto. rewrite abs_val, !val_fin in E by auto. lra.
Qed.

Lemma within_bounded (l : b64) (p : list b64) : fin l = true -> Forall (fun x => nan x = false) p ->
  within (S := F) l p = true -> Forall (bounded64 l) p.
Proof.
  intros Fl. induction 1 as [|x p Nx _ IH]; intros W; constructor; cbn [within] in W.
  - change (@ltb F) with (@Bltb 53 1024) in W. change (@fabs F) with (@Babs 53 1024) in W.
    destruct (Bltb l (Babs x)) eqn:E; [discriminate|]. now apply abs_leb_bounded.
  - apply IH. destruct (ltb _ _); [discriminate|exact W].
Qed.
Lemma bounded_within (l : b64) (p : list b64) : fin l = true -> Forall (bounded64 l) p -> within (S := F) l p = true.
Proof.
  intros Fl. induction 1 as [|x p B _ IH]; [reflexivity|]. cbn [within].
  change (@ltb F) with (@Bltb 53 1024). change (@fabs F) with (@Babs 53 1024). now rewrite bounded_abs_leb.
Qed.

Lemma cubic_inclusion_64 (s : cubic F) (p : list b64) : length p = cu_dim s -> fin (cu_size s : b64) = true ->
  Forall (fun x => nan x = false) p -> (cubic_inclusion s p = Ok true <-> Forall (bounded64 (cu_size s)) p).
Proof.
  intros L Fl N. rewrite (cubic_inclusion_eq s p L). split.
  - intros E. apply within_bounded; auto. now inversion E.
  - intros B. f_equal. now apply bounded_within.
Qed.

Lemma vsum_nonan (p dp : list b64) : finite_pos p -> finite_pos dp -> Forall (fun x => nan x = false) (vsum (S := F) p dp).
Proof.
  unfold vsum. intros A. revert dp. induction A as [|x p Fx _ IH]; intros [|y dp] B; simpl; try constructor.
  - inversion B; subst. now apply plus_val.
  - inversion B; subst. now apply IH.
Qed.

Lemma reflect1_nonan (l x : b64) : fit l -> nan x = false -> nan (reflect1 (S := F) l x : b64) = false.
Proof.
  intros H N. unfold reflect1. destruct (leb _ _); auto. destruct (ltb _ _).
  - apply minus_nonan; auto. apply (dbl_neg l H).
  - apply minus_nonan; auto. apply (dbl l H).
Qed.
Lemma period1_nonan (l x : b64) : fit l -> nan x = false -> nan (period1 (S := F) l x : b64) = false.
Proof.
  intros H N. unfold period1. destruct (leb _ _); auto. destruct (ltb _ _).
  - apply plus_nonan2; auto. apply (dbl l H).
  - apply plus_nonan2; auto. apply (dbl_neg l H).
Qed.

Lemma Forall_map_imp {A B} (P : A -> Prop) (Q : B -> Prop) (f : A -> B) l : (forall x, P x -> Q (f x)) -> Forall P l -> Forall Q (map f l).
Proof. intros H. induction 1; constructor; auto. Qed.
Lemma Forall_firstn' {A} (P : A -> Prop) d l : Forall P l -> Forall P (firstn d l).
Proof. intros H. now apply Forall_firstn_skipn with (d := d) in H. Qed.
Lemma Forall_skipn' {A} (P : A -> Prop) d l : Forall P l -> Forall P (skipn d l).
Proof. intros H. now apply Forall_firstn_skipn with (d := d) in H. Qed.

Lemma inclusion_dim (s : cubic F) q b : cubic_inclusion s q = Ok b -> length q = cu_dim s.
Proof. unfold cubic_inclusion. destruct (Nat.eqb_spec (cu_dim s) (length q)); simpl; [intros _; symmetry; assumption|discriminate]. Qed.

Lemma cubic_ok_bounded (s : cubic F) (p dp q : list b64) : fit (cu_size s) -> finite_pos p -> finite_pos dp -> length p = length dp ->
  cubic_check_bc s p dp = (q, Ok tt) -> length q = cu_dim s /\ Forall (bounded64 (cu_size s)) q.
Proof.
  intros Ft Fp Fd L H. pose proof (cubic_ok_inside s p dp q H) as I. pose proof (inclusion_dim _ _ _ I) as D. split; auto.
  apply (cubic_inclusion_64 s q D (proj1 Ft)); auto.
  pose proof (vsum_nonan p dp Fp Fd) as NV.
  unfold cubic_check_bc in H. rewrite (move_eq (S := F) p dp _ L) in H. apply (if_inside_ok (S := F)) in H as [[-> _]|[_ H]]; auto.
  cbv zeta in H.
  assert (R1 : forall l, Forall (fun x => nan x = false) l -> Forall (fun x => nan x = false) (map (reflect1 (S := F) (cu_size s)) l)).
  { intros l. apply Forall_map_imp. intros x. now apply reflect1_nonan. }
  assert (P1 : forall l, Forall (fun x => nan x = false) l -> Forall (fun x => nan x = false) (map (period1 (S := F) (cu_size s)) l)).
  { intros l. apply Forall_map_imp. intros x. now apply period1_nonan. }
  destruct (cu_bc s) as [| |d].
  - apply (if_inside_last (S := F)) in H as [-> _]. now apply P1.
  - apply (if_inside_last (S := F)) in H as [-> _]. now apply R1.
  - destruct (_ <? d)%nat; [discriminate|]. apply (if_inside_last (S := F)) in H as [-> _]. apply Forall_app. split.
    + apply R1. now apply Forall_firstn'.
    + apply P1. now apply Forall_skipn'.
Qed.

(** Norms. *)
Lemma norm64 (p : list b64) : norm (S := F) p = n64 p.
Proof. reflexivity. Qed.
Lemma slice_norm64 (p : list b64) : slice_norm (S := F) p = n64 p.
Proof. reflexivity. Qed.

Lemma n64_finite p : fin (n64 p) = true -> finite_pos p.
Proof. intros H. apply sqrt_fin_inv in H. now apply ss_fin in H. Qed.

(** Scaling by (2R-n)/n keeps finite coordinates finite. *)
Lemma shrink_fin (r n x : b64) : fit r -> fin n = true -> B2 r < B2 n -> fin x = true ->
  fin (Bmult mode_NE x (Bdiv mode_NE (Bminus mode_NE (Bmult mode_NE (b64_of_Z 2) r) n) n)) = true.
Proof.
  intros Ft Fn Lt Fx. destruct (dbl r Ft) as (F2 & E2). pose proof Ft as (Fr & Br).
  destruct (minus_val _ _ F2 Fn) as (N1 & V1). rewrite E2 in V1.
  assert (Up : rnd (2 * B2 r - B2 n) <= B2 n). { eapply Rle_trans; [apply rnd_le with (y := B2 n); lra|]. rewrite rnd_B2. lra. }
  assert (Lo : - B2 n <= rnd (2 * B2 r - B2 n)). { eapply Rle_trans; [|apply rnd_le with (x := - B2 n); lra]. rewrite rnd_opp, rnd_B2. lra. }
  pose proof (B2_bound n) as Bn.
  assert (F1 : fin (Bminus mode_NE (Bmult mode_NE (b64_of_Z 2) r) n) = true) by (apply val_lt_fin; auto; lra).
  rewrite val_fin in V1 by auto. set (m := Bminus mode_NE (Bmult mode_NE (b64_of_Z 2) r) n) in *.
  destruct (div_val m n F1 Fn ltac:(lra)) as (N3 & V3).
  assert (Q : -1 <= B2 m / B2 n <= 1).
  { rewrite V1. split; [apply Rmult_le_reg_r with (B2 n)|apply Rmult_le_reg_r with (B2 n)]; try lra; unfold Rdiv; rewrite Rmult_assoc, Rinv_l; lra. }
  assert (T1 : -1 <= rnd (B2 m / B2 n) <= 1).
  { pose proof (rnd_IZR 1 ltac:(simpl; lia)) as O. split; [apply Rle_trans with (rnd (- (1))); [rewrite rnd_opp; lra|]|apply Rle_trans with (rnd 1); [|lra]]; apply rnd_le; lra. }
  assert (B1 : 1 < top) by (change 1 with (bpow radix2 0); apply bpow_lt; lia).
  assert (F3 : fin (Bdiv mode_NE m n) = true) by (apply val_lt_fin; auto; lra).
  rewrite val_fin in V3 by auto.
  destruct (mult_val x (Bdiv mode_NE m n) Fx F3) as (N4 & V4). apply val_lt_fin; auto. rewrite V4.
  pose proof (B2_bound x) as Bx. rewrite <- V3 in T1.
  assert (A : Rabs (B2 x * B2 (Bdiv mode_NE m n)) <= Rabs (B2 x)).
  { rewrite Rabs_mult. rewrite <- (Rmult_1_r (Rabs (B2 x))) at 2. apply Rmult_le_compat_l; [apply Rabs_pos|]. apply Rabs_le. lra. }
  apply Rabs_le_inv in A. assert (RA : rnd (Rabs (B2 x)) = Rabs (B2 x)).
  { replace (Rabs (B2 x)) with (B2 (Babs x)) by apply B2R_Babs. apply rnd_B2. }
  assert (AX : Rabs (B2 x) < top) by (apply Rabs_def1; lra).
  split.
  - apply Rlt_le_trans with (- rnd (Rabs (B2 x))); [lra|]. rewrite <- rnd_opp. apply rnd_le. lra.
  - apply Rle_lt_trans with (rnd (Rabs (B2 x))); [|lra]. apply rnd_le. lra.
Qed.

Lemma circ_inc_dim (s : circ F) q b : circ_inclusion s q = Ok b -> length q = ci_dim s.
Proof. unfold circ_inclusion. destruct (Nat.eqb_spec (ci_dim s) (length q)); simpl; [intros _; symmetry; assumption|discriminate]. Qed.

Lemma ltb64 (x y : b64) : fin x = true -> fin y = true -> (Bltb x y = true <-> B2 x < B2 y) /\ (Bltb x y = false <-> B2 y <= B2 x).
Proof.
  intros Fx Fy. assert (Nx : nan x = false) by (destruct x; easy). assert (Ny : nan y = false) by (destruct y; easy).
  pose proof (ltb_val x y Nx Ny) as E. rewrite !val_fin in E by auto. split; auto.
  destruct (Bltb x y) eqn:B; split; intros; try discriminate; auto.
  - apply proj1 in E. specialize (E eq_refl). lra.
  - apply Rnot_lt_le. intros C. apply E in C. discriminate.
Qed.

Lemma circ_ok_finite (s : circ F) (p dp q : list b64) : fit (ci_size s) -> length p = length dp ->
  fin (n64 (vsum (S := F) p dp)) = true ->
  circ_check_bc s p dp = (q, Ok tt) -> length q = ci_dim s /\ finite_pos q /\ circ_inclusion s q = Ok true.
Proof.
  intros Ft L Fn H. pose proof (circ_ok_inside s p dp q H) as I. pose proof (circ_inc_dim _ _ _ I) as D.
  split; auto. split; auto. pose proof (n64_finite _ Fn) as FV.
  unfold circ_check_bc in H. rewrite (move_eq (S := F) p dp _ L) in H.
  apply (if_inside_ok (S := F)) in H as [[-> _]|[I0 H]]; auto.
  cbv zeta in H. apply (if_inside_last (S := F)) in H as [-> _]. unfold mut_scalar_mul.
  rewrite norm64. apply Forall_map_imp with (P := fun x => fin x = true); auto.
  intros x Fx. apply shrink_fin; auto.
  pose proof (circ_inc_dim _ _ _ I0) as D0. rewrite (circ_inclusion_eq s _ D0), norm64 in I0.
  change (@ltb F) with (@Bltb 53 1024) in I0.
  destruct (Bltb (ci_size s) (n64 (vsum (S := F) p dp))) eqn:E; [|discriminate]. apply (ltb64 _ _ (proj1 Ft) Fn). exact E.
Qed.

(** Inclusion in a ball, against the exact norm. *)
Lemma rss_reals p : rss p = euclid_norm (reals p) ^ 2.
Proof.
  unfold euclid_norm, reals. rewrite map_map. rewrite <- Rsqr_pow2, Rsqr_sqrt; [reflexivity|]. apply rss_nonneg.
Qed.

Lemma n64_fin_or_inf_aux d : forall a, Forall (fun x => fin x = true) d -> (fin a = true /\ 0 <= B2 a) \/ a = B754_infinity false ->
  (fin (ss a d) = true /\ 0 <= B2 (ss a d)) \/ ss a d = B754_infinity false.
Proof.
  induction d as [|x d IH]; intros a Fd H; [exact H|]. inversion Fd as [|? ? Fx Fd']; subst. apply IH; auto.
  assert (Q : (fin (Bmult mode_NE x x) = true /\ 0 <= B2 (Bmult mode_NE x x)) \/ Bmult mode_NE x x = B754_infinity false).
  { destruct (mult_val x x Fx Fx) as (N & V). destruct (fin (Bmult mode_NE x x)) eqn:Fm.
    - left. split; auto. now apply square_bounds.
    - right. assert (0 <= val (Bmult mode_NE x x)) by (rewrite V; apply rnd_pos; nra). pose proof top_pos.
      destruct (Bmult mode_NE x x) as [|[|]| |]; simpl in *; try discriminate; auto; lra. }
  destruct H as [[Fa Pa]| ->], Q as [[Fq Pq]|Q].
  - destruct (plus_val a _ Fa Fq) as (N & V). destruct (fin (Bplus mode_NE a (Bmult mode_NE x x))) eqn:Fp.
    + left. split; auto. rewrite fin_plus_eq by auto. apply rnd64_pos. lra.
    + right. assert (0 <= val (Bplus mode_NE a (Bmult mode_NE x x))) by (rewrite V; apply rnd_pos; lra). pose proof top_pos.
      destruct (Bplus mode_NE a (Bmult mode_NE x x)) as [|[|]| |]; simpl in *; try discriminate; auto; lra.
  - right. rewrite Q. destruct a as [|[|]| |]; easy.
  - right. destruct (Bmult mode_NE x x) as [|[|]| |]; easy.
  - right. rewrite Q. reflexivity.
Qed.

Lemma n64_cases d : finite_pos d -> fin (n64 d) = true \/ n64 d = B754_infinity false.
Proof.
  intros Fd. destruct zero64 as (F0 & Z0). destruct (n64_fin_or_inf_aux d (b64_of_Z 0) Fd) as [[A B]|A]; [left; split; auto; lra|left|right].
  - now apply sqrt_val.
  - unfold n64. rewrite A. reflexivity.
Qed.

Lemma ltb_inf_false (r : b64) : fin r = true -> Bltb r (B754_infinity false) = true.
Proof. destruct r as [|[|]| |[|]]; easy. Qed.

Lemma norm_le_bounds (r : b64) (p : list b64) : fin r = true -> 0 <= B2 r -> finite_pos p ->
  (Bltb r (n64 p) = false -> (1 - u64) ^ (length p + 3) * euclid_norm (reals p) ^ 2 <= B2 r ^ 2 + INR (length p) * eta64) /\
  (B2 r <= 2 ^ 511 ->
   (1 + u64) ^ (length p + 3) * euclid_norm (reals p) ^ 2 + (1 + u64) ^ (length p + 2) * (INR (length p) * eta64) <= B2 r ^ 2 ->
   Bltb r (n64 p) = false).
Proof.
  intros Fr Pr Fp. rewrite <- rss_reals. split.
  - intros H. destruct (n64_cases p Fp) as [Fn|Fn]; [|rewrite Fn, ltb_inf_false in H by auto; discriminate].
    apply (ltb64 r (n64 p) Fr Fn) in H. destruct (n64_bounds p Fn) as (P & L & _).
    assert (B2 (n64 p) ^ 2 <= B2 r ^ 2) by (apply pow_incr; auto). lra.
  - intros Sm H. pose proof u64_pos as U0. pose proof eta64_pos as E0. pose proof (rss_nonneg p) as RN. pose proof (pos_INR (length p)) as N0.
    assert (Fn : fin (n64 p) = true).
    { apply n64_fin_intro; auto.
      assert (Hi : 1 <= (1 + u64) ^ 2) by (apply pow_R1_Rle; lra).
      assert (P0 : 0 < (1 + u64) ^ length p) by (apply pow_lt; lra).
      assert (S0 : 0 <= (1 + u64) ^ length p * ((1 + u64) * rss p + INR (length p) * eta64)).
      { apply Rmult_le_pos; [lra|]. apply Rplus_le_le_0_compat; apply Rmult_le_pos; lra. }
      apply Rle_lt_trans with (B2 r ^ 2).
      - eapply Rle_trans; [|exact H]. rewrite !pow_add.
        replace ((1 + u64) ^ length p * (1 + u64) ^ 3 * rss p + (1 + u64) ^ length p * (1 + u64) ^ 2 * (INR (length p) * eta64)) with
          ((1 + u64) ^ 2 * ((1 + u64) ^ length p * ((1 + u64) * rss p + INR (length p) * eta64))) by ring.
        rewrite <- (Rmult_1_l ((1 + u64) ^ length p * _)) at 1. apply Rmult_le_compat_r; auto.
      - apply Rle_lt_trans with ((2 ^ 511) ^ 2); [apply pow_incr; auto|].
        replace ((2 ^ 511) ^ 2) with (2 ^ 1022) by (rewrite <- pow_mult; reflexivity). pose proof pow1023_top. pose proof (pow_lt 2 1022). lra. }
    apply (ltb64 r (n64 p) Fr Fn). destruct (n64_bounds p Fn) as (P & _ & U).
    apply Rnot_lt_le. intros C. assert (B2 r ^ 2 < B2 (n64 p) ^ 2) by (simpl; rewrite !Rmult_1_r; apply Rmult_le_0_lt_compat; auto).
    lra.
Qed.

Lemma circ_inclusion_64 (s : circ F) (p : list b64) : length p = ci_dim s -> fin (ci_size s : b64) = true -> 0 <= B2 (ci_size s) -> finite_pos p ->
  (circ_inclusion s p = Ok true -> (1 - u64) ^ (length p + 3) * euclid_norm (reals p) ^ 2 <= B2 (ci_size s) ^ 2 + INR (length p) * eta64) /\
  (B2 (ci_size s) <= 2 ^ 511 ->
   (1 + u64) ^ (length p + 3) * euclid_norm (reals p) ^ 2 + (1 + u64) ^ (length p + 2) * (INR (length p) * eta64) <= B2 (ci_size s) ^ 2 ->
   circ_inclusion s p = Ok true).
Proof.
  intros L Fr Pr Fp. rewrite (circ_inclusion_eq s p L), norm64. change (@ltb F) with (@Bltb 53 1024).
  destruct (norm_le_bounds (ci_size s) p Fr Pr Fp) as (A & B).
  destruct (Bltb (ci_size s) (n64 p)) eqn:E; split; intros; auto; try discriminate. specialize (B H H0). discriminate.
Qed.

(** Cylinders. *)
Lemma cyl_inc_dim (s : cyl F) q b : cyl_inclusion s q = Ok b -> length q = cy_dim s.
Proof. unfold cyl_inclusion. destruct (Nat.eqb_spec (cy_dim s) (length q)); simpl; [intros _; symmetry; assumption|discriminate]. Qed.

Lemma vsum_finite_part (p dp : list b64) : finite_pos p -> finite_pos dp -> Forall (fun x => nan x = false) (vsum (S := F) p dp).
Proof. apply vsum_nonan. Qed.

Lemma if_ok_true (b w : bool) : (if b then Ok false else Ok w) = Ok true -> b = false /\ w = true.
Proof. destruct b, w; intros H; inversion H; auto. Qed.

Lemma cyl_ok_bounded (s : cyl F) d (p dp q : list b64) : cy_type s = ContinuousCylindrical d -> cy_bc s = Mixed d -> (d <= cy_dim s)%nat ->
  fit (cy_radius s) -> fit (cy_length s) -> finite_pos p -> finite_pos dp -> length p = length dp ->
  fin (n64 (firstn d (vsum (S := F) p dp))) = true ->
  cyl_check_bc s p dp = (q, Ok tt) ->
  length q = cy_dim s /\ finite_pos q /\ Forall (bounded64 (cy_length s)) (skipn d q) /\ Bltb (cy_radius s) (n64 (firstn d q)) = false.
Proof.
  intros T M D Ftr Ftl Fp Fd L Fn H. pose proof (cyl_ok_inside s p dp q H) as I. pose proof (cyl_inc_dim _ _ _ I) as Dq.
  split; auto. rewrite (cyl_inclusion_eq s d q T D Dq) in I. rewrite slice_norm64 in I. change (@ltb F) with (@Bltb 53 1024) in I.
  assert (Key : finite_pos (firstn d q) /\ Forall (fun x => nan x = false) (skipn d q)).
  { pose proof (vsum_nonan p dp Fp Fd) as NV. pose proof (n64_finite _ Fn) as FV.
    unfold cyl_check_bc in H. rewrite (move_eq (S := F) p dp _ L) in H.
    apply (if_inside_ok (S := F)) in H as [[-> _]|[I0 H]]; [split; auto; now apply Forall_skipn'|].
    rewrite M in H. destruct (Nat.ltb_spec (length (vsum (S := F) p dp)) d) as [|Ld]; [discriminate|].
    cbv zeta in H. apply (if_inside_last (S := F)) in H as [-> _]. rewrite slice_norm64.
    set (h := if ltb _ _ then _ else _).
    assert (Hh : length h = d /\ finite_pos h).
    { unfold h. change (@ltb F) with (@Bltb 53 1024). destruct (Bltb (cy_radius s) (n64 (firstn d (vsum (S := F) p dp)))) eqn:E.
      - rewrite map_length, firstn_length. split; [lia|]. apply Forall_map_imp with (P := fun x => fin x = true); auto.
        intros x Fx. apply shrink_fin; auto. apply (ltb64 _ _ (proj1 Ftr) Fn). exact E.
      - rewrite firstn_length. split; [lia|]. exact FV. }
    destruct Hh as (H1 & H2). clearbody h.
    destruct (split_app h (map (period1 (S:=F) (cy_length s)) (skipn d (vsum (S := F) p dp))) d H1) as (Qf & Qs).
    split; [exact (eq_ind_r (fun z => finite_pos z) H2 Qf)|].
    refine (eq_ind_r (fun z => Forall (fun x => nan x = false) z) _ Qs).
    apply Forall_map_imp with (P := fun x => nan x = false); [intros x; now apply period1_nonan|]. now apply Forall_skipn'. }
  destruct Key as (K1 & K2).
  apply if_ok_true in I as (E & W).
  assert (K3 : Forall (bounded64 (cy_length s)) (skipn d q)).
  { apply within_bounded; auto. apply Ftl. }
  split; [|split; auto]. apply (Forall_firstn_skipn _ d). split; auto.
  rewrite Forall_forall in *. intros x Hx. apply K3 in Hx. apply Hx.
Qed.
End F.
