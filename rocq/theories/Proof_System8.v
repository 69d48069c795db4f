From Coq Require Import Reals ZArith List Lra Lia.
From Flocq Require Import Core.
From Flocq.IEEE754 Require Import BinarySingleNaN.
From Verif Require Import Base Scalar Float64 Model_Position Spec_Position Proof_Position Proof_Norm64
  Model_System Spec_System Proof_System Proof_System2 Proof_System3 Proof_System4 Proof_System6.
Local Open Scope R_scope.

(** ** Exact reals: Ok means inside *)
Lemma circ_ok_R (s : circ RR) (p dp q : list R) : circ_check_bc s p dp = (q, Ok tt) -> in_ball (ci_dim s) (ci_size s) q.
Proof.
  intros H. apply (circ_ok_inside (S := RR)) in H.
  assert (L : length q = ci_dim s) by (destruct (Nat.eq_dec (length q) (ci_dim s)); auto; rewrite (proj1 (circ_inclusion_cases (S := RR) s q)) in H; [discriminate|auto]).
  split; auto. destruct (circ_inclusion_R s q L) as [[_ A]|[A _]]; auto. rewrite A in H. discriminate.
Qed.
Lemma cubic_ok_R (s : cubic RR) (p dp q : list R) : cubic_check_bc s p dp = (q, Ok tt) -> in_cube (cu_dim s) (cu_size s) q.
Proof.
  intros H. apply (cubic_ok_inside (S := RR)) in H.
  assert (L : length q = cu_dim s) by (destruct (Nat.eq_dec (length q) (cu_dim s)); auto; rewrite (proj1 (cubic_inclusion_cases (S := RR) s q)) in H; [discriminate|auto]).
  split; auto. destruct (cubic_inclusion_R s q L) as [[_ A]|[A _]]; auto. rewrite A in H. discriminate.
Qed.
Lemma cyl_ok_R (s : cyl RR) d (p dp q : list R) : built_cyl s -> cy_type s = ContinuousCylindrical d ->
  cyl_check_bc s p dp = (q, Ok tt) -> in_cylinder (cy_dim s) d (cy_radius s) (cy_length s) q.
Proof.
  intros B T H. apply (cyl_ok_inside (S := RR)) in H.
  assert (L : length q = cy_dim s) by (destruct (Nat.eq_dec (length q) (cy_dim s)); auto; rewrite (proj1 (cyl_inclusion_cases (S := RR) s q B)) in H; [discriminate|auto]).
  destruct (cyl_inv_R s B) as (d' & T' & _ & D & _). rewrite T in T'. injection T' as <-.
  destruct (cyl_inclusion_R s d q T D L) as [[_ [A1 A2]]|[A _]]; [split; auto|]. rewrite A in H. discriminate.
Qed.

(** ** Binary64: each wall operation is the exact one, rounded once *)
Section F.
Variable lm : libm.
Local Notation F := (F64 lm).

Lemma leb64 (x y : b64) : fin x = true -> fin y = true -> (Bleb x y = true <-> B2 x <= B2 y) /\ (Bleb x y = false <-> B2 y < B2 x).
Proof.
  intros Fx Fy. assert (Nx : nan x = false) by (destruct x; easy). assert (Ny : nan y = false) by (destruct y; easy).
  pose proof (leb_val x y Nx Ny) as E. rewrite !val_fin in E by auto. split; auto.
  destruct (Bleb x y) eqn:B; split; intros; try discriminate; auto.
  - apply proj1 in E. specialize (E eq_refl). lra.
  - apply Rnot_le_lt. intros C. apply E in C. discriminate.
Qed.

Lemma fin_minus_eq (x y : b64) : fin x = true -> fin y = true -> fin (Bminus mode_NE x y) = true -> B2 (Bminus mode_NE x y) = rnd64 (B2 x - B2 y).
Proof.
  intros Fx Fy Fm. destruct (minus_val x y Fx Fy) as (_ & V). rewrite val_fin in V by auto. rewrite V.
  pose proof (B2_bound (Bminus mode_NE x y)) as Bd. rewrite V in Bd. unfold rnd, clamp in *. repeat destruct Rle_dec; lra.
Qed.

Lemma rnd64_B2 (x : b64) : rnd64 (B2 x) = B2 x.
Proof. apply round_generic; auto with typeclass_instances. apply (generic_format_B2R 53 1024). Qed.

Lemma near_exact (e : R) (l z : b64) : nan z = false -> val z = rnd e -> Rabs e <= B2 l -> bounded64 l z /\ B2 z = rnd64 e.
Proof.
  intros N V H. pose proof (res_bounded z l e N V H) as Bd. split; auto. destruct Bd as (Fz & Bz). rewrite val_fin in V by auto. rewrite V.
  pose proof (B2_bound z) as Bd. rewrite V in Bd. unfold rnd, clamp in *. repeat destruct Rle_dec; lra.
Qed.

Lemma abs_pos_cases x l : Rabs x > l -> 0 <= l -> x > l \/ x < - l.
Proof. unfold Rabs. destruct (Rcase_abs x); intros; lra. Qed.

Lemma reflect1_64 (l x : b64) : fit l -> fin x = true -> Rabs (B2 x) <= 3 * B2 l -> wall_64 mirrored l x (reflect1 (S := F) l x).
Proof.
  intros Ft Fx H. pose proof Ft as (Fl & Bl). destruct zero64 as (F0 & E0). unfold reflect1.
  change (@ltb F) with (@Bltb 53 1024). change (@leb F) with (@Bleb 53 1024). change (@fabs F) with (@Babs 53 1024).
  change (@sub F) with (Bminus (prec := 53) (emax := 1024) mode_NE). change (@mul F) with (Bmult (prec := 53) (emax := 1024) mode_NE). change (@opp F) with (@Bopp 53 1024).
  change (@s2 F) with (b64_of_Z 2). change (@s0 F) with (b64_of_Z 0).
  assert (Fa : fin (Babs x) = true) by (destruct x; easy). destruct (leb64 (Babs x) l Fa Fl) as (L1 & L2).
  assert (Ea : B2 (Babs x) = Rabs (B2 x)) by apply B2R_Babs. rewrite Ea in L1, L2.
  destruct (Bleb (Babs x) l) eqn:E.
  - pose proof (proj1 L1 eq_refl) as K. exists (B2 x). split; [left; apply Rabs_le_inv in K; lra|]. split; [symmetry; apply rnd64_B2|]. now split.
  - pose proof (proj1 L2 eq_refl) as K. clear L1 L2. apply abs_pos_cases in K; [|lra]. apply Rabs_le_inv in H.
    destruct (ltb64 x (b64_of_Z 0) Fx F0) as (M1 & M2). rewrite E0 in M1, M2. destruct (Bltb x (b64_of_Z 0)) eqn:Es.
    + pose proof (proj1 M1 eq_refl). destruct (dbl_neg l Ft) as (F2 & E2). destruct (minus_val _ _ F2 Fx) as (N & V). rewrite E2 in V.
      destruct (near_exact (- (2 * B2 l) - B2 x) l _ N V) as (A & B); [apply Rabs_le; lra|].
      exists (- (2 * B2 l) - B2 x). split; [|now split]. right; right. lra.
    + pose proof (proj1 M2 eq_refl). destruct (dbl l Ft) as (F2 & E2). destruct (minus_val _ _ F2 Fx) as (N & V). rewrite E2 in V.
      destruct (near_exact (2 * B2 l - B2 x) l _ N V) as (A & B); [apply Rabs_le; lra|].
      exists (2 * B2 l - B2 x). split; [|now split]. right; left. lra.
Qed.
Lemma period1_64 (l x : b64) : fit l -> fin x = true -> Rabs (B2 x) <= 3 * B2 l -> wall_64 translated l x (period1 (S := F) l x).
Proof.
  intros Ft Fx H. pose proof Ft as (Fl & Bl). destruct zero64 as (F0 & E0). unfold period1.
  change (@ltb F) with (@Bltb 53 1024). change (@leb F) with (@Bleb 53 1024). change (@fabs F) with (@Babs 53 1024).
  change (@add F) with (Bplus (prec := 53) (emax := 1024) mode_NE). change (@mul F) with (Bmult (prec := 53) (emax := 1024) mode_NE). change (@opp F) with (@Bopp 53 1024).
  change (@s2 F) with (b64_of_Z 2). change (@s0 F) with (b64_of_Z 0).
  assert (Fa : fin (Babs x) = true) by (destruct x; easy). destruct (leb64 (Babs x) l Fa Fl) as (L1 & L2).
  assert (Ea : B2 (Babs x) = Rabs (B2 x)) by apply B2R_Babs. rewrite Ea in L1, L2.
  destruct (Bleb (Babs x) l) eqn:E.
  - pose proof (proj1 L1 eq_refl) as K. exists (B2 x). split; [left; apply Rabs_le_inv in K; lra|]. split; [symmetry; apply rnd64_B2|]. now split.
  - pose proof (proj1 L2 eq_refl) as K. clear L1 L2. apply abs_pos_cases in K; [|lra]. apply Rabs_le_inv in H.
    destruct (ltb64 x (b64_of_Z 0) Fx F0) as (M1 & M2). rewrite E0 in M1, M2. destruct (Bltb x (b64_of_Z 0)) eqn:Es.
    + pose proof (proj1 M1 eq_refl). destruct (dbl l Ft) as (F2 & E2). destruct (plus_val _ _ F2 Fx) as (N & V). rewrite E2 in V.
      destruct (near_exact (2 * B2 l + B2 x) l _ N V) as (A & B); [apply Rabs_le; lra|].
      exists (2 * B2 l + B2 x). split; [|now split]. right; right. lra.
    + pose proof (proj1 M2 eq_refl). destruct (dbl_neg l Ft) as (F2 & E2). destruct (plus_val _ _ F2 Fx) as (N & V). rewrite E2 in V.
      destruct (near_exact (- (2 * B2 l) + B2 x) l _ N V) as (A & B); [apply Rabs_le; lra|].
      exists (- (2 * B2 l) + B2 x). split; [|now split]. right; left. lra.
Qed.

Lemma Forall2_map_r {A B} (P : A -> B -> Prop) (Q : A -> Prop) (f : A -> B) l : (forall x, Q x -> P x (f x)) -> Forall Q l -> Forall2 P l (map f l).
Proof. intros H. induction 1; constructor; auto. Qed.
Lemma Forall2_right {A B} (P : A -> B -> Prop) (Q : B -> Prop) l m : (forall x y, P x y -> Q y) -> Forall2 P l m -> Forall Q m.
Proof. intros H. induction 1; constructor; eauto. Qed.

Lemma walls_bounded b l p q : walls_64 b l p q -> Forall (bounded64 l) q.
Proof.
  assert (K : forall ex x y, wall_64 ex l x y -> bounded64 l y) by (intros ex x y (e & _ & _ & H); exact H).
  destruct b as [| |d]; cbn [walls_64].
  - apply Forall2_right. intros x y. apply K.
  - apply Forall2_right. intros x y. apply K.
  - intros (A & B). apply (Forall_firstn_skipn _ d). split; (eapply Forall2_right; [|eassumption]); intros x y; apply K.
Qed.

Lemma wall_id (ex : R -> R -> R -> Prop) l x : (forall L X, - L <= X <= L -> ex L X X) -> bounded64 l x -> wall_64 ex l x x.
Proof. intros H (Fx & Bx). exists (B2 x). split; [apply H; apply Rabs_le_inv in Bx; lra|]. split; [symmetry; apply rnd64_B2|now split]. Qed.
Lemma walls_64_id b l p : Forall (bounded64 l) p -> walls_64 b l p p.
Proof.
  assert (G : forall (ex : R -> R -> R -> Prop) p, (forall L X, - L <= X <= L -> ex L X X) -> Forall (bounded64 l) p -> Forall2 (wall_64 ex l) p p).
  { intros ex' p' H. induction 1; constructor; auto. now apply wall_id. }
  intros B. destruct b as [| |d]; cbn [walls_64].
  - apply G; auto. intros; now left.
  - apply G; auto. intros; now left.
  - apply (Forall_firstn_skipn _ d) in B. destruct B. split; apply G; auto; intros; now left.
Qed.

Lemma cubic_bc_64 (s : cubic F) (p dp : list b64) : built_cubic s -> fit (cu_size s) -> length p = cu_dim s -> length dp = cu_dim s ->
  Forall (fun x : b64 => fin x = true /\ Rabs (B2 x) <= 3 * B2 (cu_size s)) (vsum (S := F) p dp) ->
  exists q, cubic_check_bc s p dp = (q, Ok tt) /\ walls_64 (cu_bc s) (cu_size s) (vsum (S := F) p dp) q.
Proof.
  intros B Ft Lp Ld Hm. apply built_cubic_inv in B as (_ & _ & BM).
  unfold cubic_check_bc. rewrite (move_eq2 (S := F) p dp _ _ Lp Ld).
  pose proof (vsum_len2 (S := F) p dp _ Lp Ld) as Lm. set (m := vsum (S := F) p dp) in *.
  pose proof (Lm : @length b64 m = cu_dim s) as Lm'. clearbody m.
  assert (R1 : forall l, Forall (fun x : b64 => fin x = true /\ Rabs (B2 x) <= 3 * B2 (cu_size s)) l ->
    Forall2 (wall_64 mirrored (cu_size s)) l (map (reflect1 (S := F) (cu_size s)) l)).
  { intros l. apply Forall2_map_r. intros x (Fx & Hx). now apply reflect1_64. }
  assert (P1 : forall l, Forall (fun x : b64 => fin x = true /\ Rabs (B2 x) <= 3 * B2 (cu_size s)) l ->
    Forall2 (wall_64 translated (cu_size s)) l (map (period1 (S := F) (cu_size s)) l)).
  { intros l. apply Forall2_map_r. intros x (Fx & Hx). now apply period1_64. }
  assert (Fin : Forall (fun x => nan x = false) m).
  { eapply Forall_impl; [|exact Hm]. intros x (Fx & _). destruct x; easy. }
  assert (Last : forall q, length q = cu_dim s -> walls_64 (cu_bc s) (cu_size s) m q ->
     exists q', if_inside (cubic_inclusion s) q (q, Err TooLargeTimeStep) = (q', Ok tt) /\ walls_64 (cu_bc s) (cu_size s) m q').
  { intros q Lq W. exists q. split; auto. apply if_inside_true. rewrite (cubic_inclusion_eq s q Lq). f_equal. apply bounded_within; [apply Ft|]. eapply walls_bounded; eauto. }
  destruct (within (S := F) (cu_size s) m) eqn:Ew.
  - exists m. split; [apply if_inside_true; rewrite (cubic_inclusion_eq s m Lm); f_equal; exact Ew|].
    apply walls_64_id. apply (within_bounded lm); auto. apply Ft.
  - rewrite (if_inside_false (S := F)) by (rewrite (cubic_inclusion_eq s m Lm); f_equal; exact Ew). cbv zeta.
    destruct (cu_bc s) as [| |d] eqn:Eb.
    + apply Last; [rewrite map_length; exact Lm|]. now apply P1.
    + apply Last; [rewrite map_length; exact Lm|]. now apply R1.
    + specialize (BM d eq_refl). destruct (Nat.ltb_spec (@length (car F) m) d) as [C|_]; [change (@length b64 m < d)%nat in C; lia|].
      apply Last.
      * rewrite app_length, !map_length, <- app_length, firstn_skipn. exact Lm.
      * apply (Forall_firstn_skipn _ d) in Hm. destruct Hm as (H1 & H2).
        assert (Ln : length (map (reflect1 (S := F) (cu_size s)) (firstn d m)) = d) by (rewrite map_length, firstn_length; change (car F) with b64; lia).
        destruct (split_app _ (map (period1 (S := F) (cu_size s)) (skipn d m)) d Ln) as (Qf & Qs). cbn [walls_64]. split.
        -- refine (eq_ind_r (fun z => Forall2 _ _ z) _ Qf). now apply R1.
        -- refine (eq_ind_r (fun z => Forall2 _ _ z) _ Qs). now apply P1.
Qed.
End F.

Lemma inclusion_iff_R :
  (forall (s : circ RR) (p : list R), length p = ci_dim s ->
     (circ_inclusion s p = Ok true <-> in_ball (ci_dim s) (ci_size s) p)) /\
  (forall (s : cubic RR) (p : list R), length p = cu_dim s ->
     (cubic_inclusion s p = Ok true <-> in_cube (cu_dim s) (cu_size s) p)) /\
  (forall (s : cyl RR) d (p : list R), built_cyl s -> cy_type s = ContinuousCylindrical d -> length p = cy_dim s ->
     (cyl_inclusion s p = Ok true <-> in_cylinder (cy_dim s) d (cy_radius s) (cy_length s) p)).
Proof.
  split; [|split].
  - intros s p L. unfold in_ball. destruct (circ_inclusion_R s p L) as [[E H]|[E H]]; rewrite E; split; try discriminate; try tauto.
  - intros s p L. unfold in_cube. destruct (cubic_inclusion_R s p L) as [[E H]|[E H]]; rewrite E; split; try discriminate; try tauto.
  - intros s d p B T L. destruct (cyl_inv_R s B) as (d' & T' & _ & D & _). rewrite T in T'. injection T' as <-. unfold in_cylinder.
    destruct (cyl_inclusion_R s d p T D L) as [[E H]|[E H]]; rewrite E; split; try discriminate; try tauto.
Qed.

Lemma map_const_repeat {A B} (c : B) (v : list A) : map (fun _ => c) v = repeat c (length v).
Proof. induction v; simpl; congruence. Qed.
Lemma out_to_agree (S : scalar) :
  (forall (s : circ S) v, (length v = ci_dim s -> circ_out_to s v = (circ_out s, Ok tt)) /\ (length v <> ci_dim s -> circ_out_to s v = (v, Err InvalidDimension))) /\
  (forall (s : cubic S) v, (length v = cu_dim s -> cubic_out_to s v = (cubic_out s, Ok tt)) /\ (length v <> cu_dim s -> cubic_out_to s v = (v, Err InvalidDimension))) /\
  (forall (s : cyl S) v, (length v = cy_dim s -> cyl_out_to s v = (cyl_out s, Ok tt)) /\ (length v <> cy_dim s -> cyl_out_to s v = (v, Err InvalidDimension))).
Proof.
  split; [|split]; intros s v; unfold circ_out_to, cubic_out_to, cyl_out_to, circ_out, cubic_out, cyl_out, dim; split; intros L.
  1,3,5: rewrite <- L, Nat.eqb_refl, map_const_repeat; reflexivity.
  all: assert (L' := L); apply not_eq_sym in L'; apply Nat.eqb_neq in L'; rewrite L'; reflexivity.
Qed.
