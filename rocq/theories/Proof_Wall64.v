(** Boundary steps in double precision: the walls of a cube are exact. *)
From Coq Require Import Reals ZArith List Lra Lia.
From Flocq Require Import Core Sterbenz.
From Flocq.IEEE754 Require Import BinarySingleNaN.
From Verif Require Import Base Scalar Float64 Model_Position Spec_Position Proof_Position Proof_Norm64
  Model_System Spec_System Proof_System Proof_System2 Proof_System3 Proof_System4 Proof_System6 Proof_System8 Spec_Wall64.
Import ListNotations.
Local Open Scope R_scope.

Lemma fmt (x : b64) : generic_format radix2 fexp64 (B2 x). Proof. apply (generic_format_B2R 53 1024). Qed.
Lemma rnd64_fmt r : generic_format radix2 fexp64 r -> rnd64 r = r.
Proof. intros H. apply round_generic; auto with typeclass_instances. Qed.

(** Going from [x] in [l, 4l] to [2l - x] is exact. *)
Lemma fold_format (x l : R) : generic_format radix2 fexp64 x -> generic_format radix2 fexp64 l -> l <= x <= 4 * l -> generic_format radix2 fexp64 (2 * l - x).
Proof.
  intros Fx Fl H. replace (2 * l - x) with (- (x - 2 * l)) by ring. apply generic_format_opp.
  apply sterbenz; auto with typeclass_instances; try lra.
  - intros a b. change (fexp64 a) with (FLT_exp (-1074) 53 a). change (fexp64 b) with (FLT_exp (-1074) 53 b). unfold FLT_exp. lia.
  - now apply double_format.
Qed.
Lemma fold_rnd (x l : b64) : B2 l <= Rabs (B2 x) <= 4 * B2 l ->
  rnd64 (2 * B2 l - B2 x) = 2 * B2 l - B2 x \/ B2 x < 0.
Proof.
  intros H. destruct (Rlt_or_le (B2 x) 0); auto. left. rewrite Rabs_pos_eq in H by lra. apply rnd64_fmt, fold_format; auto using fmt.
Qed.
Lemma fold_rnd_neg (x l : b64) : B2 l <= Rabs (B2 x) <= 4 * B2 l -> B2 x < 0 -> rnd64 (2 * B2 l + B2 x) = 2 * B2 l + B2 x.
Proof.
  intros H N. rewrite Rabs_left in H by auto. replace (2 * B2 l + B2 x) with (2 * B2 l - - B2 x) by ring.
  apply rnd64_fmt, fold_format; auto using fmt. apply generic_format_opp, fmt.
Qed.

Lemma exact_image (ex : R -> R -> R -> Prop) (l x : b64) e : ex = mirrored \/ ex = translated -> 0 <= B2 l -> Rabs (B2 x) <= 3 * B2 l ->
  ex (B2 l) (B2 x) e -> rnd64 e = e.
Proof.
  intros Hx L0 B. assert (G : B2 l <= Rabs (B2 x) -> B2 l <= Rabs (B2 x) <= 4 * B2 l) by lra.
  destruct Hx as [-> | ->]; intros [(A & ->)|[(A & ->)|(A & ->)]]; try apply rnd64_fmt, fmt.
  - rewrite Rabs_pos_eq in G by lra. replace (B2 l - (B2 x - B2 l)) with (2 * B2 l - B2 x) by ring. apply rnd64_fmt, fold_format; auto using fmt; lra.
  - rewrite Rabs_left in G by lra. replace (- B2 l + (- B2 l - B2 x)) with (- (2 * B2 l - - B2 x)) by ring.
    apply rnd64_fmt, generic_format_opp, fold_format; auto using fmt; try lra. apply generic_format_opp, fmt.
  - replace (B2 x - 2 * B2 l) with (- (2 * B2 l - B2 x)) by ring. rewrite Rabs_pos_eq in G by lra. apply rnd64_fmt, generic_format_opp, fold_format; auto using fmt; lra.
  - rewrite Rabs_left in G by lra. replace (B2 x + 2 * B2 l) with (2 * B2 l - - B2 x) by ring.
    apply rnd64_fmt, fold_format; auto using fmt; try lra. apply generic_format_opp, fmt.
Qed.

Lemma wall_64_exact ex (l x y : b64) : ex = mirrored \/ ex = translated -> 0 <= B2 l -> Rabs (B2 x) <= 3 * B2 l -> wall_64 ex l x y -> ex (B2 l) (B2 x) (B2 y) /\ fin y = true.
Proof. intros Hx L0 B (e & E & Ey & Fy & _). split; auto. rewrite Ey, (exact_image ex l x e); auto. Qed.

Lemma Forall2_reals (ex : R -> R -> R -> Prop) (l : b64) p q : ex = mirrored \/ ex = translated -> 0 <= B2 l ->
  Forall (fun x : b64 => fin x = true /\ Rabs (B2 x) <= 3 * B2 l) p -> Forall2 (wall_64 ex l) p q -> Forall2 (ex (B2 l)) (reals p) (reals q).
Proof.
  intros Hx L0 Fp W. induction W as [|x y p q H W IH]; [constructor|]. inversion Fp as [|? ? (Fx & B) Fp']; subst.
  constructor; auto. now apply wall_64_exact.
Qed.
Lemma walls_exact b (l : b64) p q : 0 <= B2 l -> Forall (fun x : b64 => fin x = true /\ Rabs (B2 x) <= 3 * B2 l) p -> walls_64 b l p q ->
  walls b (B2 l) (reals p) (reals q) /\ finite_pos q.
Proof.
  intros L0 Fp W. split.
  - destruct b as [| |d]; cbn [walls walls_64] in *; [now apply Forall2_reals; auto|now apply Forall2_reals; auto|].
    unfold reals in *. rewrite !firstn_map, !skipn_map. apply (Forall_firstn_skipn _ d) in Fp as (F1 & F2). destruct W as (W1 & W2).
    split; apply (Forall2_reals _ l); auto.
  - pose proof (walls_bounded _ _ _ _ W) as Bd. eapply Forall_impl; [|exact Bd]. now intros y (Fy & _).
Qed.

Section F.
Variable lm : libm.
Local Notation F := (F64 lm).

Lemma rnd_far (l x : b64) : fit l -> 0 < B2 l -> 3 * B2 l < B2 x -> B2 l < - rnd (2 * B2 l - B2 x).
Proof.
  intros Ft L0 Hx. destruct (Rle_or_lt (B2 x) (4 * B2 l)) as [C|C].
  - rewrite rnd_small; rewrite rnd64_fmt by (apply fold_format; auto using fmt; lra); [lra|].
    pose proof (B2_bound x). rewrite Rabs_left by lra. lra.
  - assert (A : rnd (2 * B2 l - B2 x) <= rnd (- (2 * B2 l))) by (apply rnd_le; lra). rewrite (proj2 (rnd_double l Ft)) in A. lra.
Qed.
Lemma rnd_far_neg (l x : b64) : fit l -> 0 < B2 l -> B2 x < - (3 * B2 l) -> B2 l < - rnd (2 * B2 l + B2 x).
Proof.
  intros Ft L0 Hx. replace (2 * B2 l + B2 x) with (2 * B2 l - B2 (Bopp x)) by (rewrite B2R_Bopp; ring).
  apply rnd_far; auto. rewrite B2R_Bopp. lra.
Qed.
Lemma abs_val (y : b64) : val (Babs y) = Rabs (val y).
Proof.
  destruct y as [s|[|]| |s m e H]; cbn [val Babs].
  - cbn. now rewrite Rabs_R0.
  - pose proof top_pos. rewrite Rabs_left by lra. ring.
  - pose proof top_pos. rewrite Rabs_pos_eq by lra. reflexivity.
  - cbn. now rewrite Rabs_R0.
  - exact (B2R_Babs 53 1024 (B754_finite s m e H)).
Qed.
Lemma nan_abs (y : b64) : nan y = false -> nan (Babs y) = false. Proof. now destruct y. Qed.

Lemma far_test (l y : b64) : fin l = true -> nan y = false -> B2 l < Rabs (val y) -> Bltb l (Babs y) = true.
Proof.
  intros Fl Ny H. apply ltb_val; [now destruct l|now apply nan_abs|]. rewrite abs_val, val_fin by auto. exact H.
Qed.

Lemma reflect1_far (l x : b64) : fit l -> 0 < B2 l -> fin x = true -> 3 * B2 l < Rabs (B2 x) -> Bltb l (Babs (reflect1 (S := F) l x)) = true.
Proof.
  intros Ft L0 Fx H. pose proof Ft as (Fl & Bl). destruct zero64 as (F0 & E0). unfold reflect1.
  change (@ltb F) with (@Bltb 53 1024). change (@leb F) with (@Bleb 53 1024). change (@fabs F) with (@Babs 53 1024).
  change (@sub F) with (Bminus (prec := 53) (emax := 1024) mode_NE). change (@mul F) with (Bmult (prec := 53) (emax := 1024) mode_NE). change (@opp F) with (@Bopp 53 1024).
  change (@s2 F) with (b64_of_Z 2). change (@s0 F) with (b64_of_Z 0).
  assert (Fa : fin (Babs x) = true) by (destruct x; easy). destruct (leb64 (Babs x) l Fa Fl) as (_ & L2).
  assert (Ea : B2 (Babs x) = Rabs (B2 x)) by apply B2R_Babs. rewrite Ea in L2. rewrite (proj2 L2) by lra.
  destruct (ltb64 x (b64_of_Z 0) Fx F0) as (M1 & M2). rewrite E0 in M1, M2. destruct (Bltb x (b64_of_Z 0)) eqn:Es.
  - pose proof (proj1 M1 eq_refl) as Nx. rewrite Rabs_left in H by auto. destruct (dbl_neg l Ft) as (F2 & E2). destruct (minus_val _ _ F2 Fx) as (N & V). rewrite E2 in V.
    apply far_test; auto. rewrite V. replace (- (2 * B2 l) - B2 x) with (- (2 * B2 l + B2 x)) by ring. rewrite rnd_opp, Rabs_Ropp.
    pose proof (rnd_far_neg l x Ft L0 ltac:(lra)) as Q. rewrite Rabs_left; lra.
  - pose proof (proj1 M2 eq_refl) as Nx. rewrite Rabs_pos_eq in H by auto. destruct (dbl l Ft) as (F2 & E2). destruct (minus_val _ _ F2 Fx) as (N & V). rewrite E2 in V.
    apply far_test; auto. rewrite V. pose proof (rnd_far l x Ft L0 ltac:(lra)) as Q. rewrite Rabs_left; lra.
Qed.
Lemma period1_far (l x : b64) : fit l -> 0 < B2 l -> fin x = true -> 3 * B2 l < Rabs (B2 x) -> Bltb l (Babs (period1 (S := F) l x)) = true.
Proof.
  intros Ft L0 Fx H. pose proof Ft as (Fl & Bl). destruct zero64 as (F0 & E0). unfold period1.
  change (@ltb F) with (@Bltb 53 1024). change (@leb F) with (@Bleb 53 1024). change (@fabs F) with (@Babs 53 1024).
  change (@add F) with (Bplus (prec := 53) (emax := 1024) mode_NE). change (@mul F) with (Bmult (prec := 53) (emax := 1024) mode_NE). change (@opp F) with (@Bopp 53 1024).
  change (@s2 F) with (b64_of_Z 2). change (@s0 F) with (b64_of_Z 0).
  assert (Fa : fin (Babs x) = true) by (destruct x; easy). destruct (leb64 (Babs x) l Fa Fl) as (_ & L2).
  assert (Ea : B2 (Babs x) = Rabs (B2 x)) by apply B2R_Babs. rewrite Ea in L2. rewrite (proj2 L2) by lra.
  destruct (ltb64 x (b64_of_Z 0) Fx F0) as (M1 & M2). rewrite E0 in M1, M2. destruct (Bltb x (b64_of_Z 0)) eqn:Es.
  - pose proof (proj1 M1 eq_refl) as Nx. rewrite Rabs_left in H by auto. destruct (dbl l Ft) as (F2 & E2). destruct (plus_val _ _ F2 Fx) as (N & V). rewrite E2 in V.
    apply far_test; auto. rewrite V. pose proof (rnd_far_neg l x Ft L0 ltac:(lra)) as Q. rewrite Rabs_left; lra.
  - pose proof (proj1 M2 eq_refl) as Nx. rewrite Rabs_pos_eq in H by auto. destruct (dbl_neg l Ft) as (F2 & E2). destruct (plus_val _ _ F2 Fx) as (N & V). rewrite E2 in V.
    apply far_test; auto. rewrite V. replace (- (2 * B2 l) + B2 x) with (- (2 * B2 l - B2 x)) by ring. rewrite rnd_opp, Rabs_Ropp.
    pose proof (rnd_far l x Ft L0 ltac:(lra)) as Q. rewrite Rabs_left; lra.
Qed.

Lemma within_false (l : b64) (q : list b64) : Exists (fun y => Bltb l (Babs y) = true) q -> within (S := F) l q = false.
Proof.
  induction q as [|x q IH]; intros H; [inversion H|]. cbn [within].
  change (@ltb F) with (@Bltb 53 1024). change (@fabs F) with (@Babs 53 1024). destruct (Bltb l (Babs x)) eqn:E; auto.
  inversion H; subst; [congruence|auto].
Qed.
Lemma Exists_map_imp {A B} (P : A -> Prop) (Q : B -> Prop) (f : A -> B) l : (forall x, In x l -> P x -> Q (f x)) -> Exists P l -> Exists Q (map f l).
Proof. intros H E. apply Exists_exists in E as (x & I & Hx). apply Exists_exists. exists (f x). split; [now apply in_map|auto]. Qed.

(** The cube: which moves are accepted, and where they end, exactly. *)
Lemma cubic_far (s : cubic F) (p dp : list b64) : built_cubic s -> fit (cu_size s) -> length p = cu_dim s -> length dp = cu_dim s ->
  finite_pos (vsum (S := F) p dp) -> Exists (fun x : b64 => 3 * B2 (cu_size s) < Rabs (B2 x)) (vsum (S := F) p dp) ->
  exists q, cubic_check_bc s p dp = (q, Err TooLargeTimeStep).
Proof.
  intros B Ft Lp Ld Fm Far. apply built_cubic_inv in B as (L0 & _ & BM).
  assert (Pl : 0 < B2 (cu_size s)).
  { change (@leb F) with (@Bleb 53 1024) in L0. change (@s0 F) with (b64_of_Z 0) in L0. destruct zero64 as (F0 & E0).
    destruct (leb64 (cu_size s) (b64_of_Z 0) (proj1 Ft) F0) as (_ & Q). rewrite E0 in Q. now apply Q. }
  unfold cubic_check_bc. rewrite (move_eq2 (S := F) p dp _ _ Lp Ld).
  pose proof (vsum_len2 (S := F) p dp _ Lp Ld) as Lm. set (m := vsum (S := F) p dp) in *.
  pose proof (Lm : @length b64 m = cu_dim s) as Lm'. clearbody m.
  assert (R1 : forall l, Forall (fun x => fin x = true) l -> Exists (fun x : b64 => 3 * B2 (cu_size s) < Rabs (B2 x)) l ->
    Exists (fun y => Bltb (cu_size s) (Babs y) = true) (map (reflect1 (S := F) (cu_size s)) l)).
  { intros l Fl. rewrite Forall_forall in Fl. apply Exists_map_imp. intros x Ix. apply reflect1_far; auto. }
  assert (P1 : forall l, Forall (fun x => fin x = true) l -> Exists (fun x : b64 => 3 * B2 (cu_size s) < Rabs (B2 x)) l ->
    Exists (fun y => Bltb (cu_size s) (Babs y) = true) (map (period1 (S := F) (cu_size s)) l)).
  { intros l Fl. rewrite Forall_forall in Fl. apply Exists_map_imp. intros x Ix. apply period1_far; auto. }
  assert (Last : forall q : list b64, length q = cu_dim s -> Exists (fun y => Bltb (cu_size s) (Babs y) = true) q ->
     exists q', if_inside (S := F) (cubic_inclusion s) q (q, Err TooLargeTimeStep) = (q', Err TooLargeTimeStep)).
  { intros q Lq W. exists q. apply (if_inside_false (S := F)). rewrite (cubic_inclusion_eq (S := F) s q Lq). f_equal. now apply within_false. }
  rewrite (if_inside_false (S := F)).
  2:{ rewrite (cubic_inclusion_eq (S := F) s m Lm). f_equal. apply within_false. apply Exists_exists in Far as (x & Ix & Hx). apply Exists_exists.
      exists x. split; auto. unfold finite_pos in Fm. rewrite Forall_forall in Fm. specialize (Fm x Ix). apply far_test; [apply Ft|now destruct x|]. rewrite val_fin by auto. lra. }
  cbv zeta. destruct (cu_bc s) as [| |d] eqn:Eb.
  + apply Last; [rewrite map_length; exact Lm|]. now apply P1.
  + apply Last; [rewrite map_length; exact Lm|]. now apply R1.
  + specialize (BM d eq_refl). destruct (Nat.ltb_spec (@length (car F) m) d) as [C|_]; [change (@length b64 m < d)%nat in C; lia|].
    apply Last.
    * rewrite app_length, !map_length, <- app_length, firstn_skipn. exact Lm.
    * pose proof (Forall_firstn' _ d _ Fm) as H1. pose proof (Forall_skipn' _ d _ Fm) as H2.
      apply Exists_app. rewrite <- (firstn_skipn d m) in Far. apply Exists_app in Far as [Far|Far]; [left; now apply R1|right; now apply P1].
Qed.

Lemma not_all_near (c : R) (m : list b64) : ~ Forall (fun x => Rabs (B2 x) <= c) m -> Exists (fun x : b64 => c < Rabs (B2 x)) m.
Proof.
  induction m as [|x m IH]; intros H; [destruct H; constructor|]. destruct (Rle_or_lt (Rabs (B2 x)) c) as [A|A]; [|now left].
  right. apply IH. intros Q. apply H. now constructor.
Qed.
Lemma cubic_exact (s : cubic F) (p dp : list b64) : built_cubic s -> fit (cu_size s) -> length p = cu_dim s -> length dp = cu_dim s ->
  let m := vsum (S := F) p dp in let L := B2 (cu_size s) in finite_pos m ->
  (Forall (fun x : b64 => Rabs (B2 x) <= 3 * L) m ->
     exists q, cubic_check_bc s p dp = (q, Ok tt) /\ finite_pos q /\ walls (cu_bc s) L (reals m) (reals q)) /\
  (~ Forall (fun x : b64 => Rabs (B2 x) <= 3 * L) m -> exists q, cubic_check_bc s p dp = (q, Err TooLargeTimeStep)).
Proof.
  intros B Ft Lp Ld m L Fm. split; intros H.
  - assert (Q : Forall (fun x : b64 => fin x = true /\ Rabs (B2 x) <= 3 * B2 (cu_size s)) m).
    { unfold finite_pos in Fm. rewrite Forall_forall in *. intros x Ix. split; [now apply Fm|now apply H]. }
    destruct (cubic_bc_64 lm s p dp B Ft Lp Ld Q) as (q & E & W). exists q. split; auto.
    destruct (walls_exact _ _ _ _ (proj1 (proj2 Ft)) Q W). split; auto.
  - apply cubic_far; auto. now apply not_all_near.
Qed.
End F.
