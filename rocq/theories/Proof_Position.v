From Coq Require Import Reals ZArith List Lra Lia.
From Flocq Require Import Core.
From Flocq.IEEE754 Require Import BinarySingleNaN.
From Verif Require Import Base Scalar Float64 Model_Position Spec_Position.

(** ** Generic facts *)
Section Gen.
Context {S : scalar}.

Lemma combine_nth_error {A B} (p : list A) (q : list B) i x y :
  nth_error p i = Some x -> nth_error q i = Some y -> nth_error (combine p q) i = Some (x, y).
Proof.
  revert q i. induction p as [|a p IH]; intros [|b q] [|i]; simpl; try discriminate; auto; congruence.
Qed.

Lemma add_like (op : S -> S -> S) (p q : pos S) i x y :
  nth_error p i = Some x -> nth_error q i = Some y ->
  nth_error (map (fun xy => op (fst xy) (snd xy)) (combine p q)) i = Some (op x y).
Proof. intros A B. erewrite map_nth_error; [|eapply combine_nth_error; eauto]. reflexivity. Qed.

Lemma mut_zip_same op (p q : pos S) : length p = length q ->
  mut_zip op p q = Ok (map (fun xy => op (fst xy) (snd xy)) (combine p q)).
Proof.
  revert q. induction p as [|x p IH]; intros [|y q]; simpl; try discriminate; intros; auto.
  rewrite IH by lia. reflexivity.
Qed.

Lemma mut_zip_short op (p q : pos S) : (length q < length p)%nat -> mut_zip op p q = Panic.
Proof.
  revert q. induction p as [|x p IH]; intros [|y q]; simpl; intros; try lia; auto.
  rewrite IH by lia. reflexivity.
Qed.

Lemma mut_zip_long op (p q : pos S) : (length p <= length q)%nat ->
  mut_zip op p q = Ok (map (fun xy => op (fst xy) (snd xy)) (combine p q)).
Proof.
  revert q. induction p as [|x p IH]; intros [|y q]; simpl; intros; try lia; auto.
  rewrite IH by lia. reflexivity.
Qed.

Lemma mut_zip_length op (p q r : pos S) : mut_zip op p q = Ok r -> length r = length p.
Proof.
  revert q r. induction p as [|x p IH]; intros [|y q] r; simpl; intros E; inversion E; auto.
  destruct (mut_zip op p q) as [r'| | |] eqn:M; simpl in *; try discriminate.
  inversion E. simpl. erewrite IH; eauto.
Qed.

Lemma combine_len {A B} (p : list A) (q : list B) : length p = length q -> length (combine p q) = length p.
Proof. intros. rewrite combine_length. lia. Qed.

Lemma distance_cases (p q : pos S) :
  (length p <> length q -> distance p q = Err InvalidDimension) /\
  (length p = length q -> exists d, distance p q = Ok d).
Proof.
  unfold distance, dim. split; intros H.
  - apply Nat.eqb_neq in H. rewrite H. reflexivity.
  - apply Nat.eqb_eq in H. rewrite H. simpl. eauto.
Qed.

Lemma add_cases (p q : pos S) :
  (length p <> length q -> pos_add p q = Panic /\ pos_sub p q = Panic) /\
  (length p = length q -> exists a s, pos_add p q = Ok a /\ pos_sub p q = Ok s /\
     mut_add p q = Ok a /\ mut_sub p q = Ok s /\ length a = length p /\ length s = length p /\
     forall i x y, nth_error p i = Some x -> nth_error q i = Some y ->
       nth_error a i = Some (add x y) /\ nth_error s i = Some (sub x y)).
Proof.
  unfold pos_add, pos_sub, dim. split; intros H.
  - apply Nat.eqb_neq in H. rewrite H. auto.
  - pose proof H as H'. apply Nat.eqb_eq in H. rewrite H. simpl. do 2 eexists. do 2 (split; [reflexivity|]).
    unfold mut_add, mut_sub. rewrite !mut_zip_same by auto. do 2 (split; [reflexivity|]).
    rewrite !map_length, combine_len by auto. do 2 (split; auto). intros. split; apply add_like; auto.
Qed.

Lemma mut_add_shape (p q : pos S) :
  ((length q < length p)%nat -> mut_add p q = Panic /\ mut_sub p q = Panic) /\
  ((length p <= length q)%nat -> mut_add p q = pos_add p (firstn (length p) q) /\ mut_sub p q = pos_sub p (firstn (length p) q)).
Proof.
  split; intros H.
  - unfold mut_add, mut_sub. rewrite !mut_zip_short by auto. auto.
  - unfold mut_add, mut_sub, pos_add, pos_sub, dim. rewrite firstn_length, Nat.min_l, Nat.eqb_refl by auto. simpl.
    rewrite !mut_zip_long by auto.
    replace (combine p (firstn (length p) q)) with (combine p q); auto.
    clear H. revert q. induction p; intros [|y q]; simpl; auto. f_equal. auto.
Qed.

Lemma scalar_mul_nth (p : pos S) c :
  length (scalar_mul p c) = length p /\ mut_scalar_mul p c = scalar_mul p c /\
  forall i x, nth_error p i = Some x -> nth_error (scalar_mul p c) i = Some (mul x c).
Proof.
  unfold scalar_mul, mut_scalar_mul. rewrite map_length. do 2 (split; auto). intros.
  erewrite map_nth_error; eauto.
Qed.

Lemma inner_cases (p q : pos S) :
  (length p <> length q -> inner_product p q = Err InvalidDimension) /\
  (length p = length q -> exists d, inner_product p q = Ok d).
Proof.
  unfold inner_product, dim. destruct (Nat.eqb_spec (length p) (length q)) as [E|E]; cbn [negb]; split; intros H; try contradiction; eauto.
Qed.
Lemma fold_self (p : pos S) a :
  fold_left (fun r xy => add r (mul (fst xy) (snd xy))) (combine p p) a = fold_left (fun r x => add r (mul x x)) p a.
Proof. revert a. induction p as [|x p IH]; intros a; [reflexivity|]. cbn [combine fold_left fst snd]. apply IH. Qed.
Lemma norm_inner (p : pos S) : exists d, inner_product p p = Ok d /\ norm p = fsqrt d.
Proof.
  unfold inner_product, dim. rewrite Nat.eqb_refl. cbn [negb]. eexists. split; [reflexivity|]. unfold norm. f_equal. symmetry. apply fold_self.
Qed.
Lemma bench_spec (p q : pos S) :
  length (mut_add_bench p q) = length p /\
  (forall i x y, nth_error p i = Some x -> nth_error q i = Some y -> nth_error (mut_add_bench p q) i = Some (add x y)) /\
  (forall i x, nth_error p i = Some x -> nth_error q i = None -> nth_error (mut_add_bench p q) i = Some x).
Proof.
  revert q. induction p as [|a p IH]; intros q; [repeat split; intros [|i]; discriminate|].
  destruct q as [|b q].
  - repeat split; [intros [|i] x y _ H; discriminate|]. intros i x H _. exact H.
  - destruct (IH q) as (A & B & C). cbn [mut_add_bench length]. split; [now rewrite A|]. split.
    + intros [|i] x y Hx Hy; cbn [nth_error] in *; [congruence|]. now apply B.
    + intros [|i] x Hx Hy; cbn [nth_error] in *; [discriminate|]. now apply C.
Qed.

Lemma extend_app (p xs : pos S) : pos_extend p xs = p ++ xs.
Proof.
  revert p. unfold pos_extend, pos_push. induction xs as [|x xs IH]; intros p; simpl; [now rewrite app_nil_r|].
  rewrite IH, <- app_assoc. reflexivity.
Qed.

Lemma clear_all (p : pos S) : pos_clear p = repeat s0 (length p).
Proof. induction p; simpl; f_equal; auto. Qed.

Context {G : rng S}.

Lemma draws_length {X : Type} (draw : X -> S * X) n g : length (fst (draws draw n g)) = n.
Proof.
  revert g. induction n as [|n IH]; intros g; simpl; auto. destruct (draw g) as [r g1].
  specialize (IH g1). destruct (draws draw n g1). simpl in *. auto.
Qed.

Lemma sample_map_spec (draw : rstate G -> S * rstate G) f (p : pos S) g :
  sample_map draw f p g =
  (map (fun xr => f (fst xr) (snd xr)) (combine p (fst (draws draw (length p) g))), snd (draws draw (length p) g)).
Proof.
  revert g. induction p as [|x p IH]; intros g; simpl; auto.
  destruct (draw g) as [r g1]. rewrite IH. destruct (draws draw (length p) g1) as [l g2]. reflexivity.
Qed.

Lemma map_combine_snd (p : list S) (l : list S) : length p = length l ->
  map (fun xr : S * S => snd xr) (combine p l) = l.
Proof. revert l. induction p; intros [|y l]; simpl; try discriminate; intros; f_equal; auto. Qed.
End Gen.

(** ** Reals *)
Section Re.
Open Scope R_scope.

Lemma fold_rsum {A} (f : A -> R) (l : list A) (a : R) :
  fold_left (fun r x => r + f x) l a = a + rsum (map f l).
Proof. revert a. induction l as [|x l IH]; intros a; simpl; [unfold rsum; simpl; lra|]. rewrite IH. unfold rsum; simpl. lra. Qed.

Lemma rsum_nonneg l : Forall (fun x => 0 <= x) l -> 0 <= rsum l.
Proof. induction 1; unfold rsum in *; simpl in *; lra. Qed.

Lemma rsum_app a b : rsum (a ++ b) = rsum a + rsum b.
Proof. induction a; unfold rsum in *; simpl in *; lra. Qed.

Definition sq (l : list R) := rsum (map (fun x => x ^ 2) l).
Lemma sq_nonneg l : 0 <= sq l.
Proof. apply rsum_nonneg. induction l; simpl; constructor; auto; nra. Qed.
Lemma sq_zero l : sq l = 0 -> Forall (fun x => x = 0) l.
Proof.
  induction l as [|x l IH]; intros H; constructor; pose proof (sq_nonneg l) as P; unfold sq, rsum in *; simpl in *; [nra|].
  apply IH. nra.
Qed.

Definition vsub (p q : list R) := map (fun xy => fst xy - snd xy) (combine p q).
Definition dotp (p q : list R) := rsum (map (fun xy => fst xy * snd xy) (combine p q)).
Definition vadd (p q : list R) := map (fun xy => fst xy + snd xy) (combine p q).

Lemma cauchy p q : length p = length q -> (dotp p q) ^ 2 <= sq p * sq q.
Proof.
  revert q. induction p as [|a p IH]; intros [|b q]; simpl; try discriminate; intros L.
  - unfold dotp, sq, rsum; simpl; lra.
  - specialize (IH q ltac:(lia)). pose proof (sq_nonneg p) as PA. pose proof (sq_nonneg q) as PB.
    assert (E1 : dotp (a :: p) (b :: q) = a * b + dotp p q) by reflexivity.
    assert (E2 : sq (a :: p) = a ^ 2 + sq p) by reflexivity.
    assert (E3 : sq (b :: q) = b ^ 2 + sq q) by reflexivity.
    rewrite E1, E2, E3. set (s := dotp p q) in *. set (A := sq p) in *. set (B := sq q) in *.
    assert (K : 2 * s * a * b <= A * b ^ 2 + B * a ^ 2).
    { apply Rsqr_incr_0_var; [|nra]. unfold Rsqr.
      apply Rle_trans with (4 * (A * B) * (a * b) ^ 2).
      - assert (0 <= (a * b) ^ 2) by nra. nra.
      - assert (0 <= (A * b ^ 2 - B * a ^ 2) ^ 2) by apply pow2_ge_0. nra. }
    nra.
Qed.

Lemma sq_vadd p q : length p = length q -> sq (vadd p q) = sq p + 2 * dotp p q + sq q.
Proof.
  revert q. induction p as [|a p IH]; intros [|b q]; simpl; try discriminate; intros L.
  - unfold sq, dotp, vadd, rsum; simpl; lra.
  - assert (E : sq (vadd (a :: p) (b :: q)) = (a + b) ^ 2 + sq (vadd p q)) by reflexivity. rewrite E, IH by lia.
    unfold sq, dotp, rsum; simpl. lra.
Qed.

Lemma minkowski p q : length p = length q -> sqrt (sq (vadd p q)) <= sqrt (sq p) + sqrt (sq q).
Proof.
  intros L. pose proof (sq_nonneg p). pose proof (sq_nonneg q). pose proof (sqrt_pos (sq p)). pose proof (sqrt_pos (sq q)).
  apply Rsqr_incr_0_var; [|lra]. rewrite Rsqr_sqrt by apply sq_nonneg.
  rewrite sq_vadd by auto. unfold Rsqr.
  assert (D : dotp p q <= sqrt (sq p) * sqrt (sq q)).
  { rewrite <- sqrt_mult by auto. apply Rle_trans with (Rabs (dotp p q)); [apply Rle_abs|].
    rewrite <- sqrt_Rsqr_abs. apply sqrt_le_1_alt. unfold Rsqr. pose proof (cauchy p q L). nra. }
  pose proof (sqrt_sqrt _ H). pose proof (sqrt_sqrt _ H0). nra.
Qed.

Lemma rr_distance (p q : pos RR) : length p = length q -> distance p q = Ok (sqrt (sq (vsub p q))).
Proof.
  intros L. unfold distance, dim. apply Nat.eqb_eq in L. rewrite L. simpl negb. cbn iota. f_equal. cbn [fsqrt RR].
  f_equal.
  etransitivity; [exact (fold_rsum (fun xy => (fst xy - snd xy) * (fst xy - snd xy)) (combine p q) 0)|].
  rewrite Rplus_0_l. unfold sq, vsub. rewrite map_map. f_equal. apply map_ext. intros. ring.
Qed.

Lemma euclid_sq p q : length p = length q -> euclid p q = sqrt (sq (vsub p q)).
Proof.
  intros L. unfold euclid, sq, vsub. do 2 f_equal. rewrite map_map.
  revert q L. induction p as [|x p IH]; intros [|y q] L; try discriminate L; [reflexivity|].
  cbn [length seq map combine]. f_equal. rewrite <- seq_shift, map_map. apply IH. simpl in L; lia.
Qed.

Lemma rr_norm (p : pos RR) : norm p = sqrt (sq p).
Proof.
  unfold norm. cbn [fsqrt RR]. f_equal.
  etransitivity; [exact (fold_rsum (fun x => x * x) p 0)|]. rewrite Rplus_0_l. unfold sq. f_equal. apply map_ext.
  intros; ring.
Qed.

Lemma rr_norm_euclid (p : pos RR) : norm p = euclid_norm p.
Proof. apply rr_norm. Qed.

Lemma rr_distance_euclid (p q : pos RR) : length p = length q -> distance p q = Ok (euclid p q).
Proof. intros. rewrite rr_distance, euclid_sq; auto. Qed.

Lemma dot_index (p q : list R) : length p = length q ->
  map (fun xy => fst xy * snd xy) (combine p q) = map (fun i => nth i p 0 * nth i q 0) (seq 0 (length p)).
Proof.
  revert q. induction p as [|x p IH]; intros [|y q] L; try discriminate; [reflexivity|].
  cbn [length seq map combine]. f_equal. rewrite <- seq_shift, map_map. apply IH. simpl in L; lia.
Qed.
Lemma rr_inner (p q : list R) : length p = length q ->
  inner_product (S := RR) p q = Ok (rsum (map (fun i => nth i p 0 * nth i q 0) (seq 0 (length p)))).
Proof.
  intros L. unfold inner_product, dim. pose proof (L : @length (car RR) p = @length (car RR) q) as L'. rewrite L', Nat.eqb_refl. cbn [negb].
  f_equal. change (fold_left (fun (r : R) (xy : R * R) => r + fst xy * snd xy) (combine p q) 0 = rsum (map (fun i => nth i p 0 * nth i q 0) (seq 0 (length p)))).
  rewrite (fold_rsum (fun xy : R * R => fst xy * snd xy)), dot_index by auto. ring.
Qed.

Lemma vsub_split p q r : length p = length q -> length q = length r -> vsub p r = vadd (vsub p q) (vsub q r).
Proof.
  revert q r. induction p as [|x p IH]; intros [|y q] [|z r]; simpl; try discriminate; intros; auto.
  unfold vsub, vadd in *. simpl. rewrite <- IH by lia. f_equal. lra.
Qed.

Lemma vsub_len p q : length p = length q -> length (vsub p q) = length p.
Proof. intros. unfold vsub. rewrite map_length, combine_length. lia. Qed.

Lemma sq_vsub_sym p q : sq (vsub p q) = sq (vsub q p).
Proof.
  revert q. induction p as [|x p IH]; intros [|y q]; auto.
  assert (E : forall a b l m, sq (vsub (a :: l) (b :: m)) = (a - b) ^ 2 + sq (vsub l m)) by reflexivity.
  rewrite !E, IH. lra.
Qed.

Lemma vsub_zero p q : length p = length q -> Forall (fun x => x = 0) (vsub p q) -> p = q.
Proof.
  revert q. induction p as [|x p IH]; intros [|y q]; simpl; try discriminate; intros L H; auto.
  inversion H; subst. simpl in *. f_equal; [lra|]. apply IH; auto.
Qed.
Lemma vsub_refl p : sq (vsub p p) = 0.
Proof.
  induction p as [|x p IH]; [reflexivity|]. assert (E : sq (vsub (x :: p) (x :: p)) = (x - x) ^ 2 + sq (vsub p p)) by reflexivity.
  rewrite E, IH. lra.
Qed.

Lemma euclid_metric (p q r : list R) : length p = length q -> length q = length r ->
  0 <= euclid p q /\ euclid p q = euclid q p /\ (euclid p q = 0 <-> p = q) /\ euclid p r <= euclid p q + euclid q r.
Proof.
  intros L1 L2. rewrite !euclid_sq by congruence. split; [apply sqrt_pos|]. split; [now rewrite sq_vsub_sym|].
  split; [split|].
  - intros H. apply sqrt_eq_0 in H; [|apply sq_nonneg]. apply vsub_zero; auto. now apply sq_zero.
  - intros ->. rewrite vsub_refl. apply sqrt_0.
  - rewrite (vsub_split p q r) by auto. apply minkowski. rewrite !vsub_len; auto.
Qed.

Lemma rr_metric (p q r : pos RR) : length p = length q -> length q = length r ->
  exists pq qp qr pr : R, distance p q = Ok pq /\ distance q p = Ok qp /\ distance q r = Ok qr /\ distance p r = Ok pr /\
    0 <= pq /\ pq = qp /\ (pq = 0 <-> p = q) /\ pr <= pq + qr.
Proof.
  intros L1 L2. destruct (euclid_metric p q r L1 L2) as (A & B & C & D).
  exists (euclid p q), (euclid q p), (euclid q r), (euclid p r).
  rewrite !rr_distance_euclid by congruence. tauto.
Qed.
End Re.

(** ** Binary64 *)
Section Fl.
Variable lm : libm.
Open Scope R_scope.
Local Notation F := (F64 lm).

Lemma round64_opp_val r : rnd64 (- r) = - rnd64 r.
Proof. cbn [round_mode]. apply round_NE_opp. Qed.

(** x - y and y - x are opposite, except that both are +0 when x = y. *)
Lemma minus_anti (x y : b64) :
  Bminus mode_NE y x = Bopp (Bminus mode_NE x y) \/
  (exists s t, Bminus mode_NE x y = B754_zero s /\ Bminus mode_NE y x = B754_zero t).
Proof.
  destruct (fin x) eqn:Fx, (fin y) eqn:Fy.
  - pose proof (Bminus_correct 53 1024 _ _ mode_NE x y Fx Fy) as C1.
    pose proof (Bminus_correct 53 1024 _ _ mode_NE y x Fy Fx) as C2.
    replace (B2 y - B2 x) with (- (B2 x - B2 y)) in C2 by lra.
    rewrite round64_opp_val, Rabs_Ropp in C2.
    destruct (Rlt_bool (Rabs (rnd64 (B2 x - B2 y))) top) eqn:Q.
    + destruct C1 as (R1 & F1 & S1), C2 as (R2 & F2 & S2).
      destruct (Req_dec (B2 x - B2 y) 0) as [Z|NZ].
      * right. rewrite Z, ?Ropp_0, round_0 in R1 by auto with typeclass_instances.
        rewrite Z, round_0, Ropp_0 in R2 by auto with typeclass_instances.
        destruct (Bminus mode_NE x y) as [s| | |s m e Q1]; try easy.
        2:{ exfalso. destruct s; simpl in R1; [assert (F2R (Float radix2 (Zneg m) e) < 0) by now apply F2R_lt_0 | assert (0 < F2R (Float radix2 (Zpos m) e)) by now apply F2R_gt_0]; lra. }
        destruct (Bminus mode_NE y x) as [t| | |t m e Q1]; try easy.
        2:{ exfalso. destruct t; simpl in R2; [assert (F2R (Float radix2 (Zneg m) e) < 0) by now apply F2R_lt_0 | assert (0 < F2R (Float radix2 (Zpos m) e)) by now apply F2R_gt_0]; lra. }
        eauto.
      * left. apply B2R_Bsign_inj; auto.
        -- now rewrite is_finite_Bopp.
        -- rewrite B2R_Bopp, R1, R2. reflexivity.
        -- rewrite Bsign_Bopp, S1, S2 by (destruct (Bminus mode_NE x y); easy).
           destruct (Rcompare_spec (B2 x - B2 y) 0) as [L|L|L]; [|easy|].
           ++ rewrite Rcompare_Gt by lra. reflexivity.
           ++ rewrite Rcompare_Lt by lra. reflexivity.
    + destruct C1 as (R1 & S1), C2 as (R2 & S2). left. apply B2SF_inj. rewrite R2.
      destruct (Bminus mode_NE x y) as [s| [|] | |s m e Q1] eqn:M; simpl in R1; rewrite S1 in R1;
        destruct (Bsign y); simpl in *; inversion R1; reflexivity.
  - left. destruct x, y as [|[|]| |]; try easy; reflexivity.
  - left. destruct y, x as [|[|]| |]; try easy; reflexivity.
  - left. destruct x as [|[|]| |], y as [|[|]| |]; try easy; reflexivity.
Qed.

Lemma mult_opp_opp (a b : b64) : Bmult mode_NE (Bopp a) (Bopp b) = Bmult mode_NE a b.
Proof.
  destruct a as [[|]|[|]| |[|] ma ea Ha], b as [[|]|[|]| |[|] mb eb Hb]; try reflexivity;
  apply B2SF_inj; unfold Bmult, Bopp; rewrite !B2SF_SF2B; reflexivity.
Qed.

Lemma diff_square_sym (x y : b64) :
  Bmult mode_NE (Bminus mode_NE x y) (Bminus mode_NE x y) = Bmult mode_NE (Bminus mode_NE y x) (Bminus mode_NE y x).
Proof.
  destruct (minus_anti x y) as [-> | (s & t & -> & ->)].
  - now rewrite mult_opp_opp.
  - destruct s, t; reflexivity.
Qed.

Lemma fold_diff_sym (p q : list b64) (a : b64) :
  fold_left (fun r xy => Bplus mode_NE r (Bmult mode_NE (Bminus mode_NE (fst xy) (snd xy)) (Bminus mode_NE (fst xy) (snd xy)))) (combine p q) a =
  fold_left (fun r xy => Bplus mode_NE r (Bmult mode_NE (Bminus mode_NE (fst xy) (snd xy)) (Bminus mode_NE (fst xy) (snd xy)))) (combine q p) a.
Proof.
  revert q a. induction p as [|x p IH]; intros [|y q] a; try reflexivity. cbn [combine fold_left fst snd].
  rewrite IH, (diff_square_sym x y). reflexivity.
Qed.

Lemma f64_distance_sym (p q : pos F) : distance p q = distance q p.
Proof.
  unfold distance, dim. rewrite (Nat.eqb_sym (length q)). destruct (Nat.eqb_spec (length p) (length q)); cbn [negb]; auto.
  f_equal. exact (f_equal (Bsqrt mode_NE) (fold_diff_sym p q (b64_of_Z 0))).
Qed.

Lemma minus_self (x : b64) : fin x = true -> Bminus mode_NE x x = B754_zero false.
Proof.
  intros Fx. pose proof (Bminus_correct 53 1024 _ _ mode_NE x x Fx Fx) as C.
  replace (B2 x - B2 x) with 0 in C by lra. rewrite round_0, Rabs_R0, Rlt_bool_true in C; auto with typeclass_instances; [|apply top_pos].
  destruct C as (R1 & F1 & S1). rewrite Rcompare_Eq in S1 by auto.
  destruct (Bminus mode_NE x x) as [s| | |s m e Q1]; try easy.
  - simpl in S1. rewrite S1. destruct (Bsign x); reflexivity.
  - exfalso. destruct s; simpl in R1; [assert (F2R (Float radix2 (Zneg m) e) < 0) by now apply F2R_lt_0 | assert (0 < F2R (Float radix2 (Zpos m) e)) by now apply F2R_gt_0]; lra.
Qed.

Lemma f64_distance_self (p : pos F) : finite_pos p -> distance p p = Ok (B754_zero false).
Proof.
  intros H. unfold distance, dim. rewrite Nat.eqb_refl. cbn [negb]. f_equal.
  assert (E : fold_left (fun r xy => Bplus mode_NE r (Bmult mode_NE (Bminus mode_NE (fst xy) (snd xy)) (Bminus mode_NE (fst xy) (snd xy)))) (combine p p) (B754_zero false) = (B754_zero false : b64)).
  { induction H as [|x p Hx Hp IH]; [reflexivity|]. cbn [combine fold_left fst snd].
    rewrite minus_self by auto. exact IH. }
  exact (f_equal (Bsqrt mode_NE) E).
Qed.

(** Sums of squares are never negative. *)
Definition okpos (x : b64) := Bleb (B754_zero false) x = true \/ nan x = true.

Lemma square_okpos (x : b64) : nan (Bmult mode_NE x x) = true \/ Bleb (B754_zero false) (Bmult mode_NE x x) = true.
Proof.
  destruct (fin x) eqn:Fx.
  - right. destruct (mult_val x x Fx Fx) as (N & V). apply leb_val; auto. rewrite V. simpl. apply rnd_pos. nra.
  - destruct x as [|[|]| |]; try easy; auto.
Qed.

Lemma plus_okpos (x y : b64) : Bleb (B754_zero false) x = true -> Bleb (B754_zero false) y = true ->
  Bleb (B754_zero false) (Bplus mode_NE x y) = true.
Proof.
  intros A B. apply leb_trans with x; auto. apply plus_ge; auto.
  - now destruct (leb_nan _ _ A).
  - intros ->. easy.
Qed.

Lemma plus_nan_l (x y : b64) : nan x = true -> nan (Bplus mode_NE x y) = true.
Proof. destruct x as [|[|]| |], y as [|[|]| |]; easy. Qed.
Lemma plus_nan_r (x y : b64) : nan y = true -> nan (Bplus mode_NE x y) = true.
Proof. destruct x as [|[|]| |], y as [|[|]| |]; easy. Qed.

Lemma plus_okpos' (x y : b64) : okpos x -> okpos y -> okpos (Bplus mode_NE x y).
Proof.
  intros [A|A] [B|B]; [left; now apply plus_okpos|right|right|right]; auto using plus_nan_l, plus_nan_r.
Qed.

Lemma sqrt_okpos (x : b64) : okpos x -> okpos (Bsqrt mode_NE x).
Proof.
  intros [A|A].
  - destruct x as [s|[|]| |[|] m e Hx]; try easy; [destruct s; now left | now left | ].
    left. apply leb_val; auto.
    + destruct (sqrt_val (B754_finite false m e Hx) eq_refl) as (Q & _).
      { simpl. apply Rlt_le. now apply F2R_gt_0. }
      destruct (Bsqrt mode_NE _); easy.
    + destruct (sqrt_val (B754_finite false m e Hx) eq_refl) as (Q & V).
      { simpl. apply Rlt_le. now apply F2R_gt_0. }
      rewrite (val_fin _ Q), V. change (val (B754_zero false)) with 0. apply rnd64_pos. apply sqrt_pos.
  - right. destruct x; easy.
Qed.

Lemma fold_okpos {A} (f : A -> b64) (l : list A) (a : b64) : okpos a -> (forall x, okpos (f x)) ->
  okpos (fold_left (fun r x => Bplus mode_NE r (f x)) l a).
Proof. intros H K. revert a H. induction l; simpl; auto. intros. apply IHl. apply plus_okpos'; auto. Qed.

Lemma f64_distance_nonneg (p q : pos F) (d : b64) : distance p q = Ok (d : F) -> okpos d.
Proof.
  unfold distance. destruct negb; [discriminate|]. intros E. injection E as <-. simpl.
  apply sqrt_okpos. apply (fold_okpos (fun xy : b64 * b64 => Bmult mode_NE (Bminus mode_NE (fst xy) (snd xy)) (Bminus mode_NE (fst xy) (snd xy)))).
  - now left.
  - intros. destruct (square_okpos (Bminus mode_NE (fst x) (snd x))); [right|left]; auto.
Qed.

Lemma f64_norm_nonneg (p : pos F) : okpos (norm p).
Proof.
  unfold norm. simpl. apply sqrt_okpos. apply (fold_okpos (fun x : b64 => Bmult mode_NE x x)).
  - now left.
  - intros. destruct (square_okpos x); [right|left]; auto.
Qed.

(** With finite coordinates there is no NaN (it may overflow to infinity). *)
Lemma plus_nonan (x y : b64) : Bleb (B754_zero false) x = true -> Bleb (B754_zero false) y = true -> nan (Bplus mode_NE x y) = false.
Proof. intros A B. pose proof (plus_okpos x y A B) as C. now destruct (leb_nan _ _ C). Qed.

Lemma minus_sq_nonan (x y : b64) : fin x = true -> fin y = true ->
  Bleb (B754_zero false) (Bmult mode_NE (Bminus mode_NE x y) (Bminus mode_NE x y)) = true.
Proof.
  intros Fx Fy. destruct (square_okpos (Bminus mode_NE x y)) as [N|]; auto.
  exfalso. destruct (minus_val x y Fx Fy) as (M & _). destruct (Bminus mode_NE x y) as [|[|]| |s m e H] eqn:Q; try easy.
  destruct (mult_val (B754_finite s m e H) (B754_finite s m e H) eq_refl eq_refl) as (M' & _). congruence.
Qed.

Lemma f64_distance_finite (p q : pos F) (d : b64) : finite_pos p -> finite_pos q -> distance p q = Ok (d : F) ->
  Bleb (B754_zero false) d = true.
Proof.
  intros Hp Hq E. destruct (f64_distance_nonneg p q d E) as [|N]; auto. exfalso.
  unfold distance in E. destruct negb; [discriminate|]. injection E as <-.
  assert (P : forall a : b64, Bleb (B754_zero false) a = true ->
    Bleb (B754_zero false) (fold_left (fun (r : F) (xy : F * F) => add r (mul (sub (fst xy) (snd xy)) (sub (fst xy) (snd xy)))) (combine p q) (a : F) : b64) = true).
  { clear N. revert q Hq. induction Hp as [|x p Hx Hp IH]; intros q Hq a Ha; [exact Ha|]. destruct Hq as [|y q Hy Hq]; [exact Ha|].
    simpl combine. cbn [fold_left]. apply IH; auto. simpl. apply plus_okpos; auto. now apply minus_sq_nonan. }
  specialize (P (B754_zero false) eq_refl).
  assert (K : forall x : b64, Bleb (B754_zero false) x = true -> nan (Bsqrt mode_NE x) = true -> False).
  { clear. intros [s|[|]| |[|] m e H] A B; try easy.
    destruct (Bsqrt_correct 53 1024 _ _ mode_NE (B754_finite false m e H)) as (_ & Q & _).
    destruct (Bsqrt mode_NE (B754_finite false m e H)); easy. }
  exact (K _ P N).
Qed.

End Fl.
