(** Exact rejection sampling: which uniform samples make the random position. *)
From Coq Require Import Reals ZArith List Lra Lia.
From Verif Require Import Base Scalar Float64 Model_Position Spec_Position Proof_Position Proof_Time
  Model_System Spec_System Proof_System Proof_System2 Proof_System3 Proof_System5.
Local Open Scope R_scope.

Section R.
Context {G : rng RR}.
Notation gen := (rstate G).
Notation blk := (after_blocks (unif G)).

Lemma blk_S n k (g : gen) : blk n (Datatypes.S k) g = snd (draws (unif G) n (blk n k g)).
Proof. revert g. induction k as [|k IH]; intros g; [reflexivity|]. exact (IH (snd (draws (unif G) n g))). Qed.

Lemma rejection (X V : Type) n (acc : list R -> bool) (f : nat -> gen -> V -> X) (ok : list R -> gen -> X) (fu : X -> Prop) (P : V -> Prop) (next : list R -> V) :
  (forall g v, fu (f 0%nat g v)) ->
  (forall u, length u = n -> P (next u)) ->
  (forall k g v, P v -> f (Datatypes.S k) g v = if acc (fst (draws (unif G) n g)) then ok (fst (draws (unif G) n g)) (snd (draws (unif G) n g))
     else f k (snd (draws (unif G) n g)) (next (fst (draws (unif G) n g)))) ->
  forall fuel g v, P v ->
  (exists k, (k < fuel)%nat /\ acc (nth_block (unif G) n k g) = true /\ (forall j : nat, (j < k)%nat -> acc (nth_block (unif G) n j g) = false) /\
     f fuel g v = ok (nth_block (unif G) n k g) (blk n (Datatypes.S k) g)) \/
  ((forall j : nat, (j < fuel)%nat -> acc (nth_block (unif G) n j g) = false) /\ fu (f fuel g v)).
Proof.
  intros H0 HP HS. induction fuel as [|fuel IH]; intros g v Pv.
  - right. split; [intros; lia|apply H0].
  - rewrite HS by auto. destruct (acc (fst (draws (unif G) n g))) eqn:E.
    + left. exists 0%nat. split; [lia|]. split; [exact E|]. split; [intros; lia|]. reflexivity.
    + destruct (IH (snd (draws (unif G) n g)) (next (fst (draws (unif G) n g)))) as [(k & K & A & B & C)|(A & B)].
      { apply HP. exact (draws_len n g). }
      * left. exists (Datatypes.S k). split; [lia|]. split; [exact A|]. split; [|exact C].
        intros [|j] J; [exact E|]. apply (B j). lia.
      * right. split; auto. intros [|j] J; [exact E|]. apply (A j). lia.
Qed.

Lemma nb_len n k (g : gen) : @length R (nth_block (unif G) n k g) = n.
Proof. unfold nth_block. apply draws_len. Qed.

Lemma to_accept (acc : list R -> bool) (accept : list R -> Prop) n fuel (g : gen) :
  (forall u, length u = n -> (acc u = true <-> accept u)) ->
  (forall k, (k < fuel)%nat /\ acc (nth_block (unif G) n k g) = true /\ (forall j : nat, (j < k)%nat -> acc (nth_block (unif G) n j g) = false) ->
     first_block accept n fuel g k) /\
  ((forall j : nat, (j < fuel)%nat -> acc (nth_block (unif G) n j g) = false) -> no_block accept n fuel g).
Proof.
  intros H. split.
  - intros k (K & A & B). split; [auto|]. split; [apply H; auto; apply nb_len|]. intros j J N. apply H in N; [|apply nb_len].
    specialize (B j J). congruence.
  - intros B j J N. apply H in N; [|apply nb_len]. specialize (B j J). congruence.
Qed.

Lemma map_box0 (w b : R) n (u : list R) : length u = n -> map (fun x => (2 * x - 1) * w) u = to_box n w b u.
Proof. intros <-. unfold to_box. rewrite firstn_all, skipn_all. simpl. now rewrite app_nil_r. Qed.

Lemma circ_random_exact fuel (s : circ RR) (g : gen) : built_circ s ->
  rej_ok (ci_dim s) in_unit_ball fuel g (circ_random_pos fuel s g) (map (fun x => (2 * x - 1) * (ci_size s : R))).
Proof.
  intros B. pose proof (circ_pos_R s B) as P.
  pose (acc := fun u : list R => negb (Rltb (ci_size s) (euclid_norm (map (fun x => (2 * x - 1) * (ci_size s : R)) u)))).
  assert (HA : forall u, length u = ci_dim s -> (acc u = true <-> in_unit_ball u)).
  { intros u _. unfold acc. rewrite Bool.negb_true_iff. apply in_scaled_ball; auto. }
  destruct (to_accept acc in_unit_ball (ci_dim s) fuel g HA) as (T1 & T2).
  destruct (rejection _ unit (ci_dim s) acc (fun k g _ => circ_random_pos k s g)
    (fun u g' => Ok (map (fun x => (2 * x - 1) * (ci_size s : R)) u, g')) (fun x => x = Fuel) (fun _ => True) (fun _ => tt)) with (fuel := fuel) (g := g) (v := tt)
    as [(k & K & A & C & D)|(A & D)]; auto.
  - intros k g0 _ _. refine (eq_trans (circ_random_step k s g0) _). cbv zeta. unfold acc.
    change (mul s2 (ci_size s)) with (2 * (ci_size s : R)). rewrite (shifted_R (ci_size s) (fst (draws (unif G) (ci_dim s) g0))). rewrite rr_norm_euclid. change (@ltb RR) with Rltb.
    destruct (Rltb _ _); reflexivity.
  - left. exists k. split; auto.
  - right. split; auto.
Qed.
Lemma circ_random_to_exact fuel (s : circ RR) (g : gen) (v : list R) : built_circ s -> length v = ci_dim s ->
  rej_to (ci_dim s) in_unit_ball fuel g (circ_random_to fuel s g v) (map (fun x => (2 * x - 1) * (ci_size s : R))).
Proof.
  intros B L. pose proof (circ_pos_R s B) as P.
  pose (acc := fun u : list R => negb (Rltb (ci_size s) (euclid_norm (map (fun x => (2 * x - 1) * (ci_size s : R)) u)))).
  assert (HA : forall u, length u = ci_dim s -> (acc u = true <-> in_unit_ball u)).
  { intros u _. unfold acc. rewrite Bool.negb_true_iff. apply in_scaled_ball; auto. }
  destruct (to_accept acc in_unit_ball (ci_dim s) fuel g HA) as (T1 & T2).
  assert (E : circ_random_to fuel s g v = circ_random_loop fuel s g v).
  { unfold circ_random_to, dim. pose proof (L : @length (car RR) v = ci_dim s) as L'. rewrite L', Nat.eqb_refl. reflexivity. }
  rewrite E. clear E.
  destruct (rejection _ (list R) (ci_dim s) acc (fun k g v => circ_random_loop k s g v)
    (fun u g' => (map (fun x => (2 * x - 1) * (ci_size s : R)) u, g', Ok tt)) (fun x => snd x = Fuel) (fun v => length v = ci_dim s)
    (map (fun x => (2 * x - 1) * (ci_size s : R)))) with (fuel := fuel) (g := g) (v := v)
    as [(k & K & A & C & D)|(A & D)]; auto.
  - intros u Lu. now rewrite map_length.
  - intros k g0 v0 L0. refine (eq_trans (circ_random_to_step k s g0 v0 L0) _). cbv zeta. unfold acc.
    rewrite (spread_R (ci_size s) (fst (draws (unif G) (ci_dim s) g0))). rewrite rr_norm_euclid. change (@ltb RR) with Rltb.
    destruct (Rltb _ _); reflexivity.
  - left. exists k. split; auto.
  - right. split; auto.
Qed.
Lemma cubic_random_exact fuel (s : cubic RR) (g : gen) :
  cubic_random_pos fuel s g = Ok (map (fun x => (2 * x - 1) * (cu_size s : R)) (nth_block (unif G) (cu_dim s) 0 g), blk (cu_dim s) 1 g) /\
  forall v, length v = cu_dim s ->
  cubic_random_to fuel s g v = (map (fun x => (2 * x - 1) * (cu_size s : R)) (nth_block (unif G) (cu_dim s) 0 g), blk (cu_dim s) 1 g, Ok tt).
Proof.
  split.
  - rewrite cubic_random_eq. change (mul s2 (cu_size s)) with (2 * (cu_size s : R)). rewrite shifted_R. reflexivity.
  - intros v L. destruct (cubic_random_to_eq fuel s g v) as (_ & E). rewrite (E L), spread_R. reflexivity.
Qed.

(** Cylinders: acceptance of the radial part. *)
Lemma cyl_radial (w b R0 : R) d n (u : list R) : length u = n -> (d <= n)%nat -> 0 <= w ->
  slice_norm (S := RR) (firstn d (to_box d w b u)) = w * euclid_norm (map (fun x => 2 * x - 1) (firstn d u)).
Proof.
  intros L D W. assert (Ln : length (map (fun x : R => (2 * x - 1) * w) (firstn d u)) = d) by (rewrite map_length; eapply firstn_len; eauto).
  destruct (split_app _ (map (fun x => (2 * x - 1) * b) (skipn d u)) d Ln) as (Qf & _).
  rewrite slice_norm_R. unfold to_box. rewrite Qf. apply spread_norm; auto.
Qed.
Lemma cyl_random_exact fuel (s : cyl RR) d (g : gen) : built_cyl s -> cy_type s = ContinuousCylindrical d -> 0 < (cy_radius s : R) ->
  rej_ok (cy_dim s) (radially_inside d) fuel g (cyl_random_pos fuel s g) (to_box d (cy_radius s) (cy_length s)).
Proof.
  intros B T Pr. destruct (cyl_inv_R s B) as (d' & T' & _ & D & Pl & _). rewrite T in T'. injection T' as <-.
  pose (acc := fun u : list R => Rltb (slice_norm (S := RR) (firstn d (to_box d (cy_radius s) (cy_length s) u))) (cy_radius s)).
  assert (HA : forall u, length u = cy_dim s -> (acc u = true <-> radially_inside d u)).
  { intros u Lu. unfold acc. rewrite (cyl_radial _ _ 0 d _ u Lu D) by lra. unfold radially_inside.
    split; intros H; [apply Rltb_spec in H|apply Rltb_spec]; set (n := euclid_norm _) in *; nra. }
  destruct (to_accept acc _ (cy_dim s) fuel g HA) as (T1 & T2).
  unfold cyl_random_pos. rewrite T.
  destruct (rejection _ unit (cy_dim s) acc (fun k g _ => cyl_random_loop k s d g)
    (fun u g' => Ok (to_box d (cy_radius s) (cy_length s) u, g')) (fun x => x = Fuel) (fun _ => True) (fun _ => tt)) with (fuel := fuel) (g := g) (v := tt)
    as [(k & K & A & C & E)|(A & E)]; auto.
  - intros k g0 _ _. refine (eq_trans (cyl_random_step k s d g0 D) _). cbv zeta. unfold acc, to_box.
    rewrite (cyl_cand_R s d (fst (draws (unif G) (cy_dim s) g0))). reflexivity.
  - left. exists k. split; auto.
  - right. split; auto.
Qed.
Lemma cyl_random_to_exact fuel (s : cyl RR) d (g : gen) (v : list R) : built_cyl s -> cy_type s = ContinuousCylindrical d -> 0 < (cy_radius s : R) ->
  length v = cy_dim s ->
  rej_to (cy_dim s) (fun u => 2 * euclid_norm (map (fun x => 2 * x - 1) (firstn d u)) < 1) fuel g (cyl_random_to fuel s g v)
    (to_box d (2 * (cy_radius s : R)) (2 * (cy_length s : R))).
Proof.
  intros B T Pr L. destruct (cyl_inv_R s B) as (d' & T' & _ & D & Pl & _). rewrite T in T'. injection T' as <-.
  pose (acc := fun u : list R => Rltb (slice_norm (S := RR) (firstn d (to_box d (2 * (cy_radius s : R)) (2 * (cy_length s : R)) u))) (cy_radius s)).
  assert (HA : forall u, length u = cy_dim s -> (acc u = true <-> 2 * euclid_norm (map (fun x => 2 * x - 1) (firstn d u)) < 1)).
  { intros u Lu. unfold acc. rewrite (cyl_radial _ _ 0 d _ u Lu D) by lra.
    split; intros H; [apply Rltb_spec in H|apply Rltb_spec]; set (n := euclid_norm _) in *; nra. }
  destruct (to_accept acc _ (cy_dim s) fuel g HA) as (T1 & T2).
  destruct (cyl_random_to_dim fuel s d g v T) as (_ & E2). rewrite (E2 L). clear E2.
  destruct (rejection _ (list R) (cy_dim s) acc (fun k g v => cyl_random_to_loop k s d g v)
    (fun u g' => (to_box d (2 * (cy_radius s : R)) (2 * (cy_length s : R)) u, g', Ok tt)) (fun x => snd x = Fuel) (fun v => length v = cy_dim s)
    (to_box d (2 * (cy_radius s : R)) (2 * (cy_length s : R)))) with (fuel := fuel) (g := g) (v := v)
    as [(k & K & A & C & E)|(A & E)]; auto.
  - intros u Lu. unfold to_box. now rewrite app_length, !map_length, <- app_length, firstn_skipn.
  - intros k g0 v0 L0. refine (eq_trans (cyl_random_to_step k s d g0 v0 D L0) _). cbv zeta. unfold acc, to_box.
    rewrite (cyl_cand_to_R s d (fst (draws (unif G) (cy_dim s) g0))). reflexivity.
  - left. exists k. split; auto.
  - right. split; auto.
Qed.
(** When is the position of the in-place version inside the cylinder? *)
Lemma to_box_inside (s : cyl RR) d (u : list R) : built_cyl s -> cy_type s = ContinuousCylindrical d -> 0 < (cy_radius s : R) -> length u = cy_dim s ->
  2 * euclid_norm (map (fun x => 2 * x - 1) (firstn d u)) < 1 ->
  (in_cylinder (cy_dim s) d (cy_radius s) (cy_length s) (to_box d (2 * (cy_radius s : R)) (2 * (cy_length s : R)) u) <->
   Forall (fun x => / 4 <= x <= 3 / 4) (skipn d u)).
Proof.
  intros B T Pr Lu Hr. destruct (cyl_inv_R s B) as (d' & T' & _ & D & Pl & _). rewrite T in T'. injection T' as <-.
  assert (Ln : length (map (fun x : R => (2 * x - 1) * (2 * (cy_radius s : R))) (firstn d u)) = d) by (rewrite map_length; eapply firstn_len; eauto).
  destruct (split_app _ (map (fun x => (2 * x - 1) * (2 * (cy_length s : R))) (skipn d u)) d Ln) as (Qf & Qs).
  unfold in_cylinder, to_box.
  assert (Q : Forall (fun x => - (cy_length s : R) <= x <= (cy_length s : R)) (map (fun x => (2 * x - 1) * (2 * (cy_length s : R))) (skipn d u)) <->
              Forall (fun x => / 4 <= x <= 3 / 4) (skipn d u)).
  { rewrite Forall_map. rewrite !Forall_forall. split; intros H x Hx; specialize (H x Hx); split; nra. }
  split.
  - intros (_ & _ & H). apply Q. refine (eq_ind _ (fun z => Forall _ z) H _ Qs).
  - intros H. split; [now rewrite app_length, !map_length, <- app_length, firstn_skipn|]. split.
    + rewrite Qf, spread_norm by lra. set (n := euclid_norm _) in *. nra.
    + refine (eq_ind_r (fun z => Forall _ z) _ Qs). apply Q; auto.
Qed.
End R.

(** A failed boundary step. *)
Section Fail.
Context {S : scalar}.
Lemma if_inside_err incl (p q : pos S) k e : if_inside incl p k = (q, Err e) -> (incl p = Ok false /\ k = (q, Err e)) \/ (incl p = Err e /\ q = p).
Proof. unfold if_inside. destruct (incl p) as [[|]|e'| |]; intros H; try discriminate; [left; auto|injection H as <- <-; auto]. Qed.
Lemma if_inside_err_last incl (p q : pos S) : (forall z, incl z <> Err TooLargeTimeStep) ->
  if_inside incl p (p, Err TooLargeTimeStep) = (q, Err TooLargeTimeStep) -> incl q = Ok false.
Proof. intros N H. apply if_inside_err in H as [[A H]|[A _]]; [injection H as <-; exact A|]. now apply N in A. Qed.
Lemma circ_incl_err (s : circ S) z : circ_inclusion s z <> Err TooLargeTimeStep.
Proof. unfold circ_inclusion. destruct (negb _); [discriminate|]. destruct (ltb _ _); discriminate. Qed.
Lemma cubic_incl_err (s : cubic S) z : cubic_inclusion s z <> Err TooLargeTimeStep.
Proof. unfold cubic_inclusion. destruct (negb _); [discriminate|]. discriminate. Qed.
Lemma cyl_incl_err (s : cyl S) z : cyl_inclusion s z <> Err TooLargeTimeStep.
Proof. unfold cyl_inclusion. destruct (negb _); [discriminate|]. destruct (cy_type s); try discriminate. destruct (_ <? _)%nat; [discriminate|]. destruct (ltb _ _); discriminate. Qed.
Lemma after_move_err (p dp q : pos S) k e : after_move p dp k = (q, Err e) -> (length p <= length dp)%nat /\ k (vsum p dp) = (q, Err e).
Proof.
  intros H. destruct (Nat.le_gt_cases (length p) (length dp)) as [L|L]; [|rewrite move_short in H by auto; discriminate].
  split; auto. now rewrite move_long in H by auto.
Qed.
Lemma circ_too_large (s : circ S) p dp q : circ_check_bc s p dp = (q, Err TooLargeTimeStep) ->
  circ_inclusion s (vsum p dp) = Ok false /\ circ_inclusion s q = Ok false.
Proof.
  unfold circ_check_bc. intros H. apply after_move_err in H as (_ & H). apply if_inside_err in H as [[A H]|[A _]]; [|now apply circ_incl_err in A].
  split; auto. cbv zeta in H. exact (if_inside_err_last _ _ _ (circ_incl_err s) H).
Qed.
Lemma cubic_too_large (s : cubic S) p dp q : cubic_check_bc s p dp = (q, Err TooLargeTimeStep) ->
  cubic_inclusion s (vsum p dp) = Ok false /\ cubic_inclusion s q = Ok false.
Proof.
  unfold cubic_check_bc. intros H. apply after_move_err in H as (_ & H). apply if_inside_err in H as [[A H]|[A _]]; [|now apply cubic_incl_err in A].
  split; auto. cbv zeta in H. destruct (cu_bc s) as [| |d]; [exact (if_inside_err_last _ _ _ (cubic_incl_err s) H)..|].
  destruct (_ <? _)%nat; [discriminate|]. exact (if_inside_err_last _ _ _ (cubic_incl_err s) H).
Qed.
Lemma cyl_too_large (s : cyl S) p dp q : cyl_check_bc s p dp = (q, Err TooLargeTimeStep) ->
  cyl_inclusion s (vsum p dp) = Ok false /\ cyl_inclusion s q = Ok false.
Proof.
  unfold cyl_check_bc. intros H. apply after_move_err in H as (_ & H). apply if_inside_err in H as [[A H]|[A _]]; [|now apply cyl_incl_err in A].
  split; auto. cbv zeta in H. destruct (cy_bc s) as [| |d]; try discriminate.
  destruct (_ <? _)%nat; [discriminate|]. exact (if_inside_err_last _ _ _ (cyl_incl_err s) H).
Qed.
Lemma too_large_moves : (forall s : circ S, loses_place (circ_inclusion s) (circ_check_bc s)) /\
  (forall s : cubic S, loses_place (cubic_inclusion s) (cubic_check_bc s)) /\ (forall s : cyl S, loses_place (cyl_inclusion s) (cyl_check_bc s)).
Proof.
  split; [|split]; intros s p dp q H; [apply circ_too_large in H as (A & B)|apply cubic_too_large in H as (A & B)|apply cyl_too_large in H as (A & B)];
    (split; [exact A|split; [exact B|]]; intros I ->; congruence).
Qed.
End Fail.

(** A cylinder without axial coordinates. *)
Lemma cyl_axisless_out (s : cyl RR) : built_cyl s -> cy_type s = ContinuousCylindrical (cy_dim s) ->
  length (cyl_out s) = cy_dim s /\
  (cyl_inclusion s (cyl_out s) = Ok true <-> 2 * (cy_length s : R) * sqrt (INR (cy_dim s)) <= (cy_radius s : R)) /\
  (cyl_inclusion s (cyl_out s) = Ok false <-> (cy_radius s : R) < 2 * (cy_length s : R) * sqrt (INR (cy_dim s))).
Proof.
  intros B T. destruct (cyl_inv_R s B) as (_ & _ & _ & _ & P & _). unfold cyl_out. rewrite repeat_length. split; auto.
  assert (E : euclid_norm (firstn (cy_dim s) (repeat (2 * (cy_length s : R)) (cy_dim s))) = 2 * (cy_length s : R) * sqrt (INR (cy_dim s))).
  { rewrite firstn_all2 by (rewrite repeat_length; lia). rewrite euclid_norm_sq, sq_repeat. rewrite sqrt_mult_alt by apply pos_INR.
    rewrite sqrt_pow2 by lra. ring. }
  destruct (cyl_inclusion_R s (cy_dim s) (repeat (2 * (cy_length s : R)) (cy_dim s)) T) as [[A [H _]]|[A H]]; [lia|now rewrite repeat_length| |].
  - rewrite E in H. change (repeat (mul s2 (cy_length s)) (cy_dim s)) with (repeat (2 * (cy_length s : R)) (cy_dim s)).
    rewrite A. split; split; intros; try discriminate; try lra; auto.
  - assert (H' : (cy_radius s : R) < 2 * (cy_length s : R) * sqrt (INR (cy_dim s))).
    { rewrite <- E. apply Rnot_le_lt. intros Q. apply H. split; [exact Q|]. rewrite skipn_all2 by (rewrite repeat_length; lia). constructor. }
    change (repeat (mul s2 (cy_length s)) (cy_dim s)) with (repeat (2 * (cy_length s : R)) (cy_dim s)).
    rewrite A. split; split; intros; try discriminate; try lra; auto.
Qed.
