From Coq Require Import Reals ZArith List Lra Lia.
From Verif Require Import Base Scalar Float64 Model_Position Spec_Position Proof_Position Model_System Spec_System.

(** ** Facts for every scalar *)
Section Gen.
Context {S : scalar}.

Lemma if_inside_true incl (p : pos S) k : incl p = Ok true -> if_inside incl p k = (p, Ok tt).
Proof. intros E. unfold if_inside. rewrite E. reflexivity. Qed.
Lemma if_inside_false incl (p : pos S) k : incl p = Ok false -> if_inside incl p k = k.
Proof. intros E. unfold if_inside. rewrite E. reflexivity. Qed.

Lemma if_inside_ok incl (p q : pos S) k : if_inside incl p k = (q, Ok tt) ->
  (q = p /\ incl q = Ok true) \/ (incl p = Ok false /\ k = (q, Ok tt)).
Proof. unfold if_inside. destruct (incl p) as [[|]| | |] eqn:E; intros H; try (inversion H; subst); auto. Qed.

Lemma if_inside_last incl (p q : pos S) e : if_inside incl p (p, Err e) = (q, Ok tt) -> q = p /\ incl q = Ok true.
Proof. intros H. apply if_inside_ok in H as [H|[_ H]]; auto. discriminate. Qed.

Lemma after_move_ok (p dp q : pos S) k : after_move p dp k = (q, Ok tt) ->
  exists p1, mut_add p dp = Ok p1 /\ k p1 = (q, Ok tt).
Proof. unfold after_move. destruct (mut_add p dp); intros H; try discriminate. eauto. Qed.

Lemma circ_ok_inside (s : circ S) p dp q : circ_check_bc s p dp = (q, Ok tt) -> circ_inclusion s q = Ok true.
Proof.
  unfold circ_check_bc. intros H. apply after_move_ok in H as (p1 & _ & H).
  apply if_inside_ok in H as [[_ H]|[_ H]]; auto. cbv zeta in H. apply if_inside_last in H. tauto.
Qed.

Lemma cubic_ok_inside (s : cubic S) p dp q : cubic_check_bc s p dp = (q, Ok tt) -> cubic_inclusion s q = Ok true.
Proof.
  unfold cubic_check_bc. intros H. apply after_move_ok in H as (p1 & _ & H).
  apply if_inside_ok in H as [[_ H]|[_ H]]; auto. cbv zeta in H.
  destruct (cu_bc s); [apply if_inside_last in H; tauto..|].
  destruct (length p1 <? d)%nat; [discriminate|]. apply if_inside_last in H; tauto.
Qed.

Lemma cyl_ok_inside (s : cyl S) p dp q : cyl_check_bc s p dp = (q, Ok tt) -> cyl_inclusion s q = Ok true.
Proof.
  unfold cyl_check_bc. intros H. apply after_move_ok in H as (p1 & _ & H).
  apply if_inside_ok in H as [[_ H]|[_ H]]; auto. cbv zeta in H.
  destruct (cy_bc s); try discriminate.
  destruct (length p1 <? d)%nat; [discriminate|]. apply if_inside_last in H; tauto.
Qed.

Lemma move_eq (p dp : pos S) k : length p = length dp -> after_move p dp k = k (vsum p dp).
Proof. intros E. unfold after_move, mut_add, vsum. rewrite mut_zip_same by auto. reflexivity. Qed.

Lemma vsum_length (p dp : pos S) : length p = length dp -> length (vsum p dp) = length p.
Proof. intros. unfold vsum. rewrite map_length, combine_len; auto. Qed.

Lemma vsum_len2 (p dp : pos S) n : length p = n -> length dp = n -> length (vsum p dp) = n.
Proof. intros. rewrite vsum_length; congruence. Qed.
Lemma move_eq2 (p dp : pos S) n k : length p = n -> length dp = n -> after_move p dp k = k (vsum p dp).
Proof. intros. apply move_eq. congruence. Qed.

Lemma circ_interior (s : circ S) p dp : length p = length dp -> circ_inclusion s (vsum p dp) = Ok true ->
  circ_check_bc s p dp = (vsum p dp, Ok tt).
Proof. intros E I. unfold circ_check_bc. rewrite move_eq by auto. unfold if_inside at 1. rewrite I. reflexivity. Qed.
Lemma cubic_interior (s : cubic S) p dp : length p = length dp -> cubic_inclusion s (vsum p dp) = Ok true ->
  cubic_check_bc s p dp = (vsum p dp, Ok tt).
Proof. intros E I. unfold cubic_check_bc. rewrite move_eq by auto. unfold if_inside at 1. rewrite I. reflexivity. Qed.
Lemma cyl_interior (s : cyl S) p dp : length p = length dp -> cyl_inclusion s (vsum p dp) = Ok true ->
  cyl_check_bc s p dp = (vsum p dp, Ok tt).
Proof. intros E I. unfold cyl_check_bc. rewrite move_eq by auto. unfold if_inside at 1. rewrite I. reflexivity. Qed.

(** What the constructors guarantee. *)
Lemma built_circ_inv (s : circ S) : built_circ s -> leb (ci_size s) s0 = false /\ (0 < ci_dim s)%nat.
Proof.
  intros [(r & n & H)|(a & H)]; [unfold circ_new in H|unfold circ_convert_from in H].
  - destruct (leb r s0) eqn:E; simpl in H; [discriminate|]. destruct (n =? 0)%nat eqn:N; [discriminate|].
    inversion H; subst; simpl. apply Nat.eqb_neq in N. split; auto; lia.
  - destruct (leb (ci_size a) s0) eqn:E; simpl in H; [discriminate|]. destruct (ci_dim a =? 0)%nat eqn:N; [discriminate|].
    inversion H; subst; simpl. apply Nat.eqb_neq in N. split; auto; lia.
Qed.

Lemma built_cubic_inv (s : cubic S) : built_cubic s ->
  leb (cu_size s) s0 = false /\ (0 < cu_dim s)%nat /\ (forall d, cu_bc s = Mixed d -> (d <= cu_dim s)%nat).
Proof.
  intros [(b & r & n & H)|(a & H)]; [unfold cubic_new in H|unfold cubic_convert_from in H].
  - destruct (leb r s0) eqn:E; simpl in H; [discriminate|]. destruct (n =? 0)%nat eqn:N; [discriminate|].
    apply Nat.eqb_neq in N. destruct b as [| |m]; [| |destruct (n <? m)%nat eqn:M; [discriminate|apply Nat.ltb_ge in M]];
    inversion H; subst; simpl; (split; [auto|split; [lia|intros d D; inversion D; subst; lia]]).
  - destruct (leb (cu_size a) s0) eqn:E; simpl in H; [discriminate|]. destruct (cu_dim a =? 0)%nat eqn:N; [discriminate|].
    apply Nat.eqb_neq in N. destruct (cu_bc a) as [| |m] eqn:B; [| |destruct (cu_dim a <? m)%nat eqn:M; [discriminate|apply Nat.ltb_ge in M]];
    inversion H; subst; simpl; (split; [auto|split; [lia|intros d D; inversion D; subst; lia]]).
Qed.

Lemma built_cyl_inv (s : cyl S) : built_cyl s -> exists d,
  cy_type s = ContinuousCylindrical d /\ cy_bc s = Mixed d /\ (d <= cy_dim s)%nat /\ (0 < cy_dim s)%nat /\
  leb (cy_length s) s0 = false /\ (ltb (cy_radius s) s0 = false \/ leb (cy_radius s) s0 = false).
Proof.
  intros [(c & r & l & n & H)|(a & H)]; [unfold cyl_new in H|unfold cyl_convert_from in H].
  - destruct (n <? c)%nat eqn:E1; simpl in H; [discriminate|]. destruct (leb r s0) eqn:E2; simpl in H; [discriminate|].
    destruct (leb l s0) eqn:E3; simpl in H; [discriminate|]. destruct (n =? 0)%nat eqn:E4; [discriminate|].
    inversion H; subst; simpl. exists c. apply Nat.ltb_ge in E1. apply Nat.eqb_neq in E4. repeat split; auto; lia.
  - destruct (cy_type a) as [| |c1| |]; try discriminate. destruct (cy_bc a) as [| |c2]; try discriminate.
    destruct (c1 =? c2)%nat eqn:E0; simpl in H; [|discriminate].
    destruct (cy_dim a <? c1)%nat eqn:E1; simpl in H; [discriminate|]. destruct (ltb (cy_radius a) s0) eqn:E2; simpl in H; [discriminate|].
    destruct (leb (cy_length a) s0) eqn:E3; simpl in H; [discriminate|]. destruct (cy_dim a =? 0)%nat eqn:E4; [discriminate|].
    inversion H; subst; simpl. apply Nat.eqb_eq in E0. subst. exists c2. apply Nat.ltb_ge in E1. apply Nat.eqb_neq in E4. repeat split; auto; lia.
Qed.

(** Dimension errors. *)
Lemma circ_inclusion_cases (s : circ S) (p : pos S) :
  (length p <> ci_dim s -> circ_inclusion s p = Err InvalidDimension) /\
  (length p = ci_dim s -> exists b, circ_inclusion s p = Ok b).
Proof.
  unfold circ_inclusion. split; intros H.
  - destruct (Nat.eqb_spec (ci_dim s) (length p)); [congruence|reflexivity].
  - destruct (Nat.eqb_spec (ci_dim s) (length p)); [simpl|congruence]. destruct (ltb (ci_size s) (norm p)); eauto.
Qed.
Lemma cubic_inclusion_cases (s : cubic S) (p : pos S) :
  (length p <> cu_dim s -> cubic_inclusion s p = Err InvalidDimension) /\
  (length p = cu_dim s -> exists b, cubic_inclusion s p = Ok b).
Proof.
  unfold cubic_inclusion. split; intros H.
  - destruct (Nat.eqb_spec (cu_dim s) (length p)); [congruence|reflexivity].
  - destruct (Nat.eqb_spec (cu_dim s) (length p)); [simpl|congruence]. eauto.
Qed.
Lemma cyl_inclusion_cases (s : cyl S) (p : pos S) : built_cyl s ->
  (length p <> cy_dim s -> cyl_inclusion s p = Err InvalidDimension) /\
  (length p = cy_dim s -> exists b, cyl_inclusion s p = Ok b).
Proof.
  intros B. apply built_cyl_inv in B as (d & T & _ & D & _). unfold cyl_inclusion. split; intros H.
  - destruct (Nat.eqb_spec (cy_dim s) (length p)); [congruence|reflexivity].
  - destruct (Nat.eqb_spec (cy_dim s) (length p)); [simpl|congruence]. rewrite T.
    destruct (Nat.ltb_spec (length p) d); [lia|]. destruct (ltb (cy_radius s) (slice_norm (firstn d p))); eauto.
Qed.

Lemma circ_inclusion_eq (s : circ S) (p : pos S) : length p = ci_dim s ->
  circ_inclusion s p = if ltb (ci_size s) (norm p) then Ok false else Ok true.
Proof. intros L. unfold circ_inclusion. rewrite L, Nat.eqb_refl. reflexivity. Qed.
Lemma cubic_inclusion_eq (s : cubic S) (p : pos S) : length p = cu_dim s -> cubic_inclusion s p = Ok (within (cu_size s) p).
Proof. intros L. unfold cubic_inclusion. rewrite L, Nat.eqb_refl. reflexivity. Qed.
Lemma cyl_inclusion_eq (s : cyl S) d (p : pos S) : cy_type s = ContinuousCylindrical d -> (d <= cy_dim s)%nat -> length p = cy_dim s ->
  cyl_inclusion s p = if ltb (cy_radius s) (slice_norm (firstn d p)) then Ok false else Ok (within (cy_length s) (skipn d p)).
Proof.
  intros T D L. unfold cyl_inclusion. rewrite L, Nat.eqb_refl, T. destruct (Nat.ltb_spec (cy_dim s) d); [lia|]. reflexivity.
Qed.

(** [check_bc] when the dimensions do not fit, and the absence of panics when they do. *)
Lemma move_long (p dp : pos S) k : (length p <= length dp)%nat -> after_move p dp k = k (vsum p dp).
Proof. intros E. unfold after_move, mut_add, vsum. rewrite mut_zip_long by auto. reflexivity. Qed.
Lemma move_short (p dp : pos S) k : (length dp < length p)%nat -> after_move p dp k = (p, Panic).
Proof. intros E. unfold after_move, mut_add. rewrite mut_zip_short by auto. reflexivity. Qed.
Lemma vsum_long (p dp : pos S) : (length p <= length dp)%nat -> length (vsum p dp) = length p.
Proof. intros. unfold vsum. rewrite map_length, combine_length. lia. Qed.

Lemma if_inside_last_cases incl (p : pos S) n : length p = n -> (exists b, incl p = Ok b) ->
  exists q, length q = n /\ (if_inside incl p (p, Err TooLargeTimeStep) = (q, Ok tt) \/
    if_inside incl p (p, Err TooLargeTimeStep) = (q, Err TooLargeTimeStep)).
Proof. intros L ([|] & E); unfold if_inside; rewrite E; exists p; auto. Qed.

Lemma circ_shape (s : circ S) : bc_shape (ci_dim s) (circ_check_bc s).
Proof.
  intros p dp. unfold circ_check_bc. split; [|split]; intros L; [now rewrite move_short| |]; intros D; rewrite move_long by auto;
    pose proof (vsum_long p dp L) as V.
  - unfold if_inside at 1. rewrite (proj1 (circ_inclusion_cases s _)) by lia. reflexivity.
  - destruct (proj2 (circ_inclusion_cases s (vsum p dp))) as ([|] & E); [lia|..].
    + exists (vsum p dp). rewrite (if_inside_true _ _ _ E). split; [lia|auto].
    + rewrite (if_inside_false _ _ _ E). cbv zeta. apply if_inside_last_cases; [|apply circ_inclusion_cases]; unfold mut_scalar_mul; rewrite map_length; lia.
Qed.

Lemma cubic_shape (s : cubic S) : built_cubic s -> bc_shape (cu_dim s) (cubic_check_bc s).
Proof.
  intros B p dp. apply built_cubic_inv in B as (_ & _ & BM). unfold cubic_check_bc. split; [|split]; intros L; [now rewrite move_short| |]; intros D; rewrite move_long by auto;
    pose proof (vsum_long p dp L) as V.
  - unfold if_inside at 1. rewrite (proj1 (cubic_inclusion_cases s _)) by lia. reflexivity.
  - destruct (proj2 (cubic_inclusion_cases s (vsum p dp))) as ([|] & E); [lia|..].
    + exists (vsum p dp). rewrite (if_inside_true _ _ _ E). split; [lia|auto].
    + rewrite (if_inside_false _ _ _ E). cbv zeta. destruct (cu_bc s) as [| |d].
      1,2: apply if_inside_last_cases; [|apply cubic_inclusion_cases]; rewrite map_length; lia.
      specialize (BM d eq_refl). destruct (Nat.ltb_spec (length (vsum p dp)) d); [lia|].
      apply if_inside_last_cases; [|apply cubic_inclusion_cases]; rewrite app_length, !map_length, firstn_length, skipn_length; lia.
Qed.

Lemma cyl_shape (s : cyl S) : built_cyl s -> bc_shape (cy_dim s) (cyl_check_bc s).
Proof.
  intros B p dp. pose proof B as B'. apply built_cyl_inv in B' as (c & BT & BB & BD & _).
  unfold cyl_check_bc. split; [|split]; intros L; [now rewrite move_short| |]; intros D; rewrite move_long by auto;
    pose proof (vsum_long p dp L) as V.
  - unfold if_inside at 1. rewrite (proj1 (cyl_inclusion_cases s _ B)) by lia. reflexivity.
  - destruct (proj2 (cyl_inclusion_cases s (vsum p dp) B)) as ([|] & E); [lia|..].
    + exists (vsum p dp). rewrite (if_inside_true _ _ _ E). split; [lia|auto].
    + rewrite (if_inside_false _ _ _ E). rewrite BB. cbv zeta. destruct (Nat.ltb_spec (length (vsum p dp)) c); [lia|].
      assert (Q : forall h : pos S, length h = c -> length (h ++ map (period1 (cy_length s)) (skipn c (vsum p dp))) = cy_dim s)
        by (intros h Hh; rewrite app_length, map_length, skipn_length; lia).
      assert (F : length (firstn c (vsum p dp)) = c) by (rewrite firstn_length; lia).
      destruct (ltb (cy_radius s) (slice_norm (firstn c (vsum p dp)))).
      * apply if_inside_last_cases; [|apply cyl_inclusion_cases; auto]; apply Q; rewrite map_length; auto.
      * apply if_inside_last_cases; [|apply cyl_inclusion_cases; auto]; apply Q; auto.
Qed.
End Gen.
