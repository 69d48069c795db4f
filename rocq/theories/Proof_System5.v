From Coq Require Import Reals ZArith List Lra Lia.
From Verif Require Import Base Scalar Float64 Model_Position Spec_Position Proof_Position Proof_Time
  Model_System Spec_System Proof_System Proof_System2 Proof_System3.
Local Open Scope R_scope.

(** ** Exact reals: random positions, outside positions, targets *)
Section R.
Context {G : rng RR}.
Notation gen := (rstate G).

Lemma half_R : (@half RR : R) = / 2.
Proof. unfold half, lit. cbn [of_Z RR div]. change (1 / 2 = / 2). lra. Qed.

Lemma shifted_R (w : R) (u : list R) : shifted (S := RR) (2 * w) u = map (fun x => (2 * x - 1) * w) u.
Proof.
  unfold shifted. apply map_ext. intros x. change ((x + - (@half RR : R)) * (2 * w) = (2 * x - 1) * w). rewrite half_R. lra.
Qed.
Lemma spread_R (w : R) (u : list R) : spread (S := RR) w u = map (fun x => (2 * x - 1) * w) u.
Proof.
  unfold spread. apply map_ext. intros x. change (0 + x * (w - - w) + - w = (2 * x - 1) * w). lra.
Qed.
Lemma spread_norm (w : R) (u : list R) : 0 <= w ->
  euclid_norm (map (fun x => (2 * x - 1) * w) u) = w * euclid_norm (map (fun x => 2 * x - 1) u).
Proof.
  intros P. rewrite <- (map_map (fun x => 2 * x - 1) (fun x => x * w)), euclid_norm_scale, Rabs_pos_eq; auto.
Qed.
Lemma in_scaled_ball (w : R) (u : list R) : 0 < w -> (Rltb w (euclid_norm (map (fun x => (2 * x - 1) * w) u)) = false <-> in_unit_ball u).
Proof.
  intros P. rewrite spread_norm by lra. unfold in_unit_ball. set (n := euclid_norm _).
  destruct (Rltb w (w * n)) eqn:E; [apply Rltb_spec in E|apply Rltb_false in E]; split; intros H; auto; try discriminate.
  - exfalso. assert (w * n <= w * 1) by (apply Rmult_le_compat_l; lra). lra.
  - apply Rmult_le_reg_l with w; lra.
Qed.

Lemma draws_len (n : nat) (g : gen) : @length R (fst (draws (unif G) n g)) = n.
Proof. exact (draws_length (unif G) n g). Qed.

(** What [random_pos] and [random_pos_to_vec] of the circular system return: the first block in the ball. *)
Lemma circ_random_R fuel (s : circ RR) (g : gen) : built_circ s ->
  ((forall k, (k < fuel)%nat -> ~ in_unit_ball (nth_block (unif G) (ci_dim s) k g)) -> circ_random_pos fuel s g = Fuel) /\
  (forall k, (k < fuel)%nat -> in_unit_ball (nth_block (unif G) (ci_dim s) k g) -> exists q g', circ_random_pos fuel s g = Ok (q, g')) /\
  (forall q g', circ_random_pos fuel s g = Ok (q, g') -> in_ball (ci_dim s) (ci_size s) q).
Proof.
  intros B. pose proof (circ_pos_R s B) as P.
  assert (Q : forall u : list R, ltb (ci_size s) (norm (S := RR) (shifted (S := RR) (mul s2 (ci_size s)) u)) = false <-> in_unit_ball u).
  { intros u. rewrite <- (in_scaled_ball (ci_size s) u P). rewrite <- shifted_R. change (@ltb RR) with Rltb. rewrite rr_norm_euclid. reflexivity. }
  destruct (circ_random_result fuel s g) as [[E N]|(k & K & E & N)].
  - rewrite E. split; [auto|split].
    + intros k K U. apply Q in U. specialize (N k K). unfold nth_block in U. congruence.
    + intros q g'. discriminate.
  - cbv zeta in E, N. split; [|split].
    + intros H. exfalso. apply (H k K). apply Q. exact N.
    + intros _ _ _. eauto.
    + intros q g' H. rewrite E in H. injection H as <- <-. split.
      * unfold shifted. rewrite map_length. apply draws_len.
      * change (@ltb RR) with Rltb in N. apply Rltb_false in N. rewrite rr_norm_euclid in N. exact N.
Qed.

Lemma circ_random_to_R fuel (s : circ RR) (g : gen) (v : list R) : built_circ s ->
  (length v <> ci_dim s -> circ_random_to fuel s g v = (v, g, Err InvalidDimension)) /\
  (length v = ci_dim s ->
   ((forall k, (k < fuel)%nat -> ~ in_unit_ball (nth_block (unif G) (ci_dim s) k g)) -> snd (circ_random_to fuel s g v) = Fuel) /\
   (forall k, (k < fuel)%nat -> in_unit_ball (nth_block (unif G) (ci_dim s) k g) -> snd (circ_random_to fuel s g v) = Ok tt) /\
   (snd (circ_random_to fuel s g v) = Ok tt -> in_ball (ci_dim s) (ci_size s) (fst (fst (circ_random_to fuel s g v))))).
Proof.
  intros B. pose proof (circ_pos_R s B) as P. destruct (circ_random_to_dim fuel s g v) as (E1 & E2).
  split; intros L; [exact (E1 L)|]. rewrite (E2 L). clear E1 E2.
  assert (Q : forall u : list R, ltb (ci_size s) (norm (S := RR) (spread (S := RR) (ci_size s) u)) = false <-> in_unit_ball u).
  { intros u. rewrite <- (in_scaled_ball (ci_size s) u P). rewrite <- spread_R. change (@ltb RR) with Rltb. rewrite rr_norm_euclid. reflexivity. }
  destruct (circ_random_to_result fuel s g v L) as [[E N]|(k & K & E & N)].
  - rewrite E. split; [auto|split].
    + intros k K U. apply Q in U. specialize (N k K). unfold nth_block in U. congruence.
    + discriminate.
  - cbv zeta in E, N. rewrite E. cbn [fst snd]. split; [|split]; auto.
    + intros H. exfalso. apply (H k K). apply Q. exact N.
    + intros _. split.
      * unfold spread. rewrite map_length. apply draws_len.
      * change (@ltb RR) with Rltb in N. apply Rltb_false in N. rewrite rr_norm_euclid in N. exact N.
Qed.

Lemma uniforms_R n (g : gen) : unif_R G -> Forall (fun x : R => 0 < x < 1) (fst (draws (unif G) n g)).
Proof. intros U. exact (draws_forall (S := RR) (fun x => 0 < x < 1) U n g). Qed.

Lemma spread_in (w : R) (u : list R) : 0 <= w -> Forall (fun x : R => 0 < x < 1) u -> Forall (fun x => - w <= x <= w) (map (fun x => (2 * x - 1) * w) u).
Proof. intros P. induction 1; constructor; auto. nra. Qed.

Lemma cubic_random_R fuel (s : cubic RR) (g : gen) : built_cubic s -> unif_R G ->
  exists q g', cubic_random_pos fuel s g = Ok (q, g') /\ in_cube (cu_dim s) (cu_size s) q.
Proof.
  intros B U. pose proof (cubic_pos_R s B) as P. rewrite cubic_random_eq. do 2 eexists. split; [reflexivity|].
  change (mul s2 (cu_size s)) with (2 * (cu_size s : R)). rewrite shifted_R. split.
  - rewrite map_length. apply draws_len.
  - apply spread_in; [lra|]. apply uniforms_R; auto.
Qed.

Lemma cubic_random_to_R fuel (s : cubic RR) (g : gen) (v : list R) : built_cubic s -> unif_R G ->
  (length v <> cu_dim s -> cubic_random_to fuel s g v = (v, g, Err InvalidDimension)) /\
  (length v = cu_dim s -> exists q g', cubic_random_to fuel s g v = (q, g', Ok tt) /\ in_cube (cu_dim s) (cu_size s) q).
Proof.
  intros B U. pose proof (cubic_pos_R s B) as P. destruct (cubic_random_to_eq fuel s g v) as (E1 & E2). split; auto.
  intros L. rewrite (E2 L). do 2 eexists. split; [reflexivity|].
  rewrite spread_R. split.
  - rewrite map_length. apply draws_len.
  - apply spread_in; [lra|]. apply uniforms_R; auto.
Qed.

(** Cylinders. *)
Lemma cyl_cand_R (s : cyl RR) d (u : list R) :
  cyl_cand s d u = map (fun x => (2 * x - 1) * (cy_radius s : R)) (firstn d u) ++ map (fun x => (2 * x - 1) * (cy_length s : R)) (skipn d u).
Proof.
  unfold cyl_cand, cyl_scale. rewrite firstn_map, skipn_map, !map_map. f_equal; apply map_ext; intros x.
  - change ((x + - (@half RR : R)) * (2 * (cy_radius s : R)) = (2 * x - 1) * (cy_radius s : R)). rewrite half_R. lra.
  - change ((x + - (@half RR : R)) * (2 * (cy_length s : R)) = (2 * x - 1) * (cy_length s : R)). rewrite half_R. lra.
Qed.
Lemma cyl_cand_to_R (s : cyl RR) d (u : list R) :
  cyl_cand_to s d u = map (fun x => (2 * x - 1) * (2 * (cy_radius s : R))) (firstn d u) ++ map (fun x => (2 * x - 1) * (2 * (cy_length s : R))) (skipn d u).
Proof.
  unfold cyl_cand_to, cyl_scale. rewrite firstn_map, skipn_map, !map_map. f_equal; apply map_ext; intros x.
  - change ((0 + x * (1 - - (1)) + - (1)) * (2 * (cy_radius s : R)) = (2 * x - 1) * (2 * (cy_radius s : R))). lra.
  - change ((0 + x * (1 - - (1)) + - (1)) * (2 * (cy_length s : R)) = (2 * x - 1) * (2 * (cy_length s : R))). lra.
Qed.

Lemma firstn_len {A} d n (u : list A) : length u = n -> (d <= n)%nat -> length (firstn d u) = d.
Proof. intros. rewrite firstn_length. lia. Qed.

Lemma cyl_random_R fuel (s : cyl RR) d (g : gen) : built_cyl s -> cy_type s = ContinuousCylindrical d -> unif_R G ->
  (exists q g', cyl_random_pos fuel s g = Ok (q, g') /\ in_cylinder (cy_dim s) d (cy_radius s) (cy_length s) q) \/
  (cyl_random_pos fuel s g = Fuel /\
   (0 < (cy_radius s : R) -> forall k, (k < fuel)%nat -> ~ radially_inside d (nth_block (unif G) (cy_dim s) k g))).
Proof.
  intros B T U. destruct (cyl_inv_R s B) as (d' & T' & _ & D & Pl & Pr). rewrite T in T'. injection T' as <-.
  unfold cyl_random_pos. rewrite T. destruct (cyl_random_result fuel s d g D) as [[E N]|(k & K & E & N)]; [right; split; [exact E|]|left].
  { intros Pr' k K H. specialize (N k K). rewrite cyl_cand_R in N. fold (nth_block (unif G) (cy_dim s) k g) in N.
    pose proof (draws_len (cy_dim s) (after_blocks (unif G) (cy_dim s) k g)) as Lu. fold (nth_block (unif G) (cy_dim s) k g) in Lu.
    set (u := nth_block (unif G) (cy_dim s) k g) in *. clearbody u.
    assert (Ln : length (map (fun x : R => (2 * x - 1) * (cy_radius s : R)) (firstn d u)) = d) by (rewrite map_length; eapply firstn_len; eauto).
    destruct (split_app _ (map (fun x => (2 * x - 1) * (cy_length s : R)) (skipn d u)) d Ln) as (Qf & _).
    change (@ltb RR) with Rltb in N. apply Rltb_false in N. rewrite slice_norm_R in N.
    assert (N1 : cy_radius s <= euclid_norm (map (fun x : R => (2 * x - 1) * (cy_radius s : R)) (firstn d u))) by (rewrite <- Qf; exact N).
    rewrite spread_norm in N1 by lra. unfold radially_inside in H.
    assert ((cy_radius s : R) * euclid_norm (map (fun x => 2 * x - 1) (firstn d u)) < (cy_radius s : R) * 1) by (apply Rmult_lt_compat_l; auto). lra. }
  cbv zeta in E, N. do 2 eexists. split; [exact E|]. rewrite cyl_cand_R. rewrite cyl_cand_R in N.
  set (u := fst (draws (unif G) (cy_dim s) _)) in *.
  assert (Lu : @length R u = cy_dim s) by apply draws_len. assert (Fu : Forall (fun x : R => 0 < x < 1) u) by (apply uniforms_R; auto).
  change (@ltb RR) with Rltb in N. apply Rltb_spec in N. rewrite slice_norm_R in N. clearbody u. clear E.
  assert (Ln : length (map (fun x : R => (2 * x - 1) * (cy_radius s : R)) (firstn d u)) = d) by (rewrite map_length; eapply firstn_len; eauto).
  destruct (split_app _ (map (fun x => (2 * x - 1) * (cy_length s : R)) (skipn d u)) d Ln) as (Qf & Qs).
  split; [|split].
  - rewrite app_length, !map_length, <- app_length, firstn_skipn. exact Lu.
  - apply Rlt_le. exact N.
  - refine (eq_ind_r (fun z => Forall _ z) _ Qs). apply spread_in; [lra|]. apply (Forall_firstn_skipn _ d) in Fu. tauto.
Qed.

(** The in-place version keeps the radial part inside but lets the axial coordinates reach twice the length. *)
Lemma cyl_random_to_R fuel (s : cyl RR) d (g : gen) (v : list R) : built_cyl s -> cy_type s = ContinuousCylindrical d -> unif_R G ->
  (length v <> cy_dim s -> cyl_random_to fuel s g v = (v, g, Err InvalidDimension)) /\
  (length v = cy_dim s ->
   (exists q g', cyl_random_to fuel s g v = (q, g', Ok tt) /\ in_cylinder (cy_dim s) d (cy_radius s) (2 * (cy_length s : R)) q) \/
   snd (cyl_random_to fuel s g v) = Fuel).
Proof.
  intros B T U. destruct (cyl_inv_R s B) as (d' & T' & _ & D & Pl & Pr). rewrite T in T'. injection T' as <-.
  destruct (cyl_random_to_dim fuel s d g v T) as (E1 & E2). split; intros L; [exact (E1 L)|]. rewrite (E2 L). clear E1 E2.
  destruct (cyl_random_to_result fuel s d g v D L) as [[E N]|(k & K & E & N)]; [now right|left].
  cbv zeta in E, N. do 2 eexists. split; [exact E|]. rewrite cyl_cand_to_R. rewrite cyl_cand_to_R in N.
  set (u := fst (draws (unif G) (cy_dim s) _)) in *.
  assert (Lu : @length R u = cy_dim s) by apply draws_len. assert (Fu : Forall (fun x : R => 0 < x < 1) u) by (apply uniforms_R; auto).
  change (@ltb RR) with Rltb in N. apply Rltb_spec in N. rewrite slice_norm_R in N. clearbody u. clear E.
  assert (Ln : length (map (fun x : R => (2 * x - 1) * (2 * (cy_radius s : R))) (firstn d u)) = d) by (rewrite map_length; eapply firstn_len; eauto).
  destruct (split_app _ (map (fun x => (2 * x - 1) * (2 * (cy_length s : R))) (skipn d u)) d Ln) as (Qf & Qs).
  split; [|split].
  - rewrite app_length, !map_length, <- app_length, firstn_skipn. exact Lu.
  - apply Rlt_le. exact N.
  - refine (eq_ind_r (fun z => Forall _ z) _ Qs). apply spread_in; [lra|]. apply (Forall_firstn_skipn _ d) in Fu. tauto.
Qed.

(** A cylinder of radius 0, which [convert_from] lets through: the rejection loop never accepts. *)
Lemma cyl_zero_radius fuel (s : cyl RR) d (g : gen) : cy_type s = ContinuousCylindrical d -> (d <= cy_dim s)%nat -> (cy_radius s : R) = 0 ->
  cyl_random_pos fuel s g = Fuel.
Proof.
  intros T D Z. unfold cyl_random_pos. rewrite T. destruct (cyl_random_result fuel s d g D) as [[E N]|(k & K & E & N)]; auto.
  exfalso. cbv zeta in N. change (@ltb RR) with Rltb in N. apply Rltb_spec in N. rewrite slice_norm_R, Z in N.
  match type of N with ?x < 0 => assert (0 <= x) by apply euclid_norm_nonneg end. lra.
Qed.
End R.

(** Positions outside. *)
Lemma sq_repeat (x : R) n : sq (repeat x n) = INR n * x ^ 2.
Proof.
  unfold sq. induction n as [|n IH]; [simpl; lra|]. cbn [repeat map rsum fold_right]. change (fold_right Rplus 0 (map (fun x => x ^ 2) (repeat x n))) with (rsum (map (fun x => x ^ 2) (repeat x n))).
  rewrite S_INR. rewrite IH. ring.
Qed.
Lemma euclid_norm_sq p : euclid_norm p = sqrt (sq p).
Proof. reflexivity. Qed.

Lemma circ_out_R (s : circ RR) : built_circ s -> length (circ_out s) = ci_dim s /\ circ_inclusion s (circ_out s) = Ok false.
Proof.
  intros B. pose proof (circ_pos_R s B) as P. apply built_circ_inv in B as (_ & N). unfold circ_out. rewrite repeat_length. split; auto.
  destruct (circ_inclusion_R s (repeat (2 * (ci_size s : R)) (ci_dim s))) as [[_ H]|[H _]]; [now rewrite repeat_length| |exact H].
  exfalso. rewrite euclid_norm_sq, sq_repeat in H. assert (1 <= INR (ci_dim s)) by (apply (le_INR 1); lia).
  assert (sqrt ((2 * (ci_size s : R)) ^ 2) <= sqrt (INR (ci_dim s) * (2 * (ci_size s : R)) ^ 2)).
  { apply sqrt_le_1_alt. rewrite <- (Rmult_1_l ((2 * (ci_size s : R)) ^ 2)) at 1. apply Rmult_le_compat_r; auto. apply pow2_ge_0. }
  rewrite sqrt_pow2 in H1 by lra. lra.
Qed.
Lemma cubic_out_R (s : cubic RR) : built_cubic s -> length (cubic_out s) = cu_dim s /\ cubic_inclusion s (cubic_out s) = Ok false.
Proof.
  intros B. pose proof (cubic_pos_R s B) as P. apply built_cubic_inv in B as (_ & N & _). unfold cubic_out. rewrite repeat_length. split; auto.
  destruct (cubic_inclusion_R s (repeat (2 * (cu_size s : R)) (cu_dim s))) as [[_ H]|[H _]]; [now rewrite repeat_length| |exact H].
  exfalso. destruct (cu_dim s); [lia|]. inversion H. lra.
Qed.
Lemma cyl_out_R (s : cyl RR) d : built_cyl s -> cy_type s = ContinuousCylindrical d -> (d < cy_dim s)%nat ->
  length (cyl_out s) = cy_dim s /\ cyl_inclusion s (cyl_out s) = Ok false.
Proof.
  intros B T D. destruct (cyl_inv_R s B) as (_ & _ & _ & _ & P & _). unfold cyl_out. rewrite repeat_length. split; auto.
  destruct (cyl_inclusion_R s d (repeat (2 * (cy_length s : R)) (cy_dim s)) T) as [[_ [_ H]]|[H _]]; [lia|now rewrite repeat_length| |exact H].
  exfalso. rewrite Forall_forall in H. specialize (H (2 * (cy_length s : R))).
  assert (In (2 * (cy_length s : R)) (skipn d (repeat (2 * (cy_length s : R)) (cy_dim s)))).
  { replace (cy_dim s) with (d + (cy_dim s - d))%nat by lia. rewrite repeat_app, skipn_app, skipn_all2, repeat_length by (rewrite repeat_length; lia).
    rewrite Nat.sub_diag. simpl. destruct (cy_dim s - d)%nat eqn:E; [lia|]. now left. }
  apply H in H0. lra.
Qed.

(** Targets. *)
Lemma check_find_cases {S : scalar} (t : target S) p :
  (length (tg_pos t) <> length p -> check_find t p = Err InvalidDimension) /\
  (length (tg_pos t) = length p -> exists b, check_find t p = Ok b).
Proof.
  unfold check_find, target_distance. destruct (distance_cases (tg_pos t) p) as (A & B). split; intros H.
  - now rewrite (A H).
  - destruct (B H) as (d & ->). simpl. destruct (ltb d (tg_size t)); eauto.
Qed.
Lemma check_find_R (t : target RR) (p : list R) : length (tg_pos t) = length p ->
  (check_find t p = Ok true <-> (euclid (tg_pos t) p < tg_size t)) /\
  (check_find t p = Ok false <-> (tg_size t <= euclid (tg_pos t) p)).
Proof.
  intros H. unfold check_find, target_distance. rewrite (rr_distance_euclid (tg_pos t) p H). cbn [bind].
  change (@ltb RR) with Rltb. destruct (Rltb (euclid (tg_pos t) p) (tg_size t)) eqn:E; [apply Rltb_spec in E|apply Rltb_false in E];
    (split; split; intros; auto; try discriminate; lra).
Qed.
