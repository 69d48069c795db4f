From Coq Require Import Reals ZArith List Lra Lia.
From Verif Require Import Base Scalar Float64 Model_Position Spec_Position Proof_Position Proof_Time Model_System Spec_System Proof_System.
Local Open Scope R_scope.
Local Open Scope nat_scope.

(** ** Exact reals *)

Lemma within_R (l : R) (p : list R) : within (S := RR) l p = true <-> Forall (fun x => - l <= x <= l)%R p.
Proof.
  induction p as [|x p IH]; [split; constructor|]. cbn [within]. change (@ltb RR) with Rltb. change (@fabs RR) with Rabs.
  destruct (Rltb l (Rabs x)) eqn:E.
  - apply Rltb_spec in E. split; [discriminate|]. intros F. inversion F; subst. unfold Rabs in E. destruct (Rcase_abs x); lra.
  - apply Rltb_false in E. rewrite IH. split; intros F; [constructor; auto|now inversion F].
    unfold Rabs in E. destruct (Rcase_abs x); lra.
Qed.

Lemma reflect1_R (l x : R) : (0 < l)%R -> mirrored l x (reflect1 (S := RR) l x).
Proof.
  intros P. unfold reflect1, mirrored, s0, s2. cbn [of_Z RR]. change (@ltb RR) with Rltb. change (@leb RR) with Rleb. change (@fabs RR) with Rabs.
  change (@opp RR) with Ropp. change (@mul RR) with Rmult. change (@sub RR) with Rminus.
  destruct (Rleb (Rabs x) l) eqn:E.
  - apply Rleb_spec in E. left. unfold Rabs in E. destruct (Rcase_abs x); lra.
  - apply Rleb_false in E. destruct (Rltb x 0) eqn:E1; [apply Rltb_spec in E1|apply Rltb_false in E1];
    unfold Rabs in E; destruct (Rcase_abs x); lra.
Qed.
Lemma period1_R (l x : R) : (0 < l)%R -> translated l x (period1 (S := RR) l x).
Proof.
  intros P. unfold period1, translated, s0, s2. cbn [of_Z RR]. change (@ltb RR) with Rltb. change (@leb RR) with Rleb. change (@fabs RR) with Rabs.
  change (@opp RR) with Ropp. change (@mul RR) with Rmult. change (@add RR) with Rplus.
  destruct (Rleb (Rabs x) l) eqn:E.
  - apply Rleb_spec in E. left. unfold Rabs in E. destruct (Rcase_abs x); lra.
  - apply Rleb_false in E. destruct (Rltb x 0) eqn:E1; [apply Rltb_spec in E1|apply Rltb_false in E1];
    unfold Rabs in E; destruct (Rcase_abs x); lra.
Qed.

Lemma mirrored_map (l : R) (p : list R) : (0 < l)%R -> Forall2 (mirrored l) p (map (reflect1 (S := RR) l) p).
Proof. intros. induction p; constructor; auto using reflect1_R. Qed.
Lemma translated_map (l : R) (p : list R) : (0 < l)%R -> Forall2 (translated l) p (map (period1 (S := RR) l) p).
Proof. intros. induction p; constructor; auto using period1_R. Qed.

Lemma mirrored_in (l : R) (p q : list R) : (0 < l)%R -> Forall2 (mirrored l) p q ->
  (Forall (fun x => - l <= x <= l)%R q <-> Forall (fun x => - (3 * l) <= x <= 3 * l)%R p).
Proof.
  intros P. induction 1 as [|x y p q M _ IH]; [split; constructor|]. unfold mirrored in M.
  split; intros F; inversion F; subst; constructor; try tauto; lra.
Qed.
Lemma translated_in (l : R) (p q : list R) : (0 < l)%R -> Forall2 (translated l) p q ->
  (Forall (fun x => - l <= x <= l)%R q <-> Forall (fun x => - (3 * l) <= x <= 3 * l)%R p).
Proof.
  intros P. induction 1 as [|x y p q M _ IH]; [split; constructor|]. unfold translated in M.
  split; intros F; inversion F; subst; constructor; try tauto; lra.
Qed.

Lemma mirrored_id (l : R) (p : list R) : Forall (fun x => - l <= x <= l)%R p -> Forall2 (mirrored l) p p.
Proof. induction 1; constructor; auto. left; auto. Qed.
Lemma translated_id (l : R) (p : list R) : Forall (fun x => - l <= x <= l)%R p -> Forall2 (translated l) p p.
Proof. induction 1; constructor; auto. left; auto. Qed.

Lemma Forall_firstn_skipn {A} (P : A -> Prop) d l : Forall P l <-> Forall P (firstn d l) /\ Forall P (skipn d l).
Proof. rewrite <- Forall_app, firstn_skipn. tauto. Qed.

Lemma walls_in b (l : R) (p q : list R) : (0 < l)%R -> walls b l p q ->
  (Forall (fun x => - l <= x <= l)%R q <-> Forall (fun x => - (3 * l) <= x <= 3 * l)%R p).
Proof.
  intros P. destruct b as [| |d]; cbn [walls]; intros W.
  - now apply translated_in.
  - now apply mirrored_in.
  - destruct W as (W1 & W2). apply mirrored_in in W1; auto. apply translated_in in W2; auto.
    rewrite (Forall_firstn_skipn _ d q), (Forall_firstn_skipn _ d p). tauto.
Qed.

Lemma walls_id b (l : R) (p : list R) : Forall (fun x => - l <= x <= l)%R p -> walls b l p p.
Proof.
  intros F. destruct b as [| |d]; cbn [walls]; auto using mirrored_id, translated_id.
  apply (Forall_firstn_skipn _ d) in F. destruct F. auto using mirrored_id, translated_id.
Qed.

Lemma split_app {A} (a b : list A) d : length a = d -> firstn d (a ++ b) = a /\ skipn d (a ++ b) = b.
Proof.
  intros H. rewrite firstn_app, skipn_app, H, Nat.sub_diag. cbn [firstn skipn].
  rewrite app_nil_r, firstn_all2, skipn_all2 by lia. auto.
Qed.
Lemma F2_len {A B} (P : A -> B -> Prop) l m : Forall2 P l m -> length l = length m.
Proof. induction 1; simpl; congruence. Qed.
Lemma walls_length b l p q : walls b l p q -> length p = length q.
Proof.
  destruct b as [| |d]; cbn [walls]; intros W; [exact (F2_len _ _ _ W)..|].
  destruct W as (W1 & W2). apply F2_len in W1, W2.
  rewrite <- (firstn_skipn d p), <- (firstn_skipn d q), !app_length. congruence.
Qed.

Lemma cubic_pos_R (s : cubic RR) : built_cubic s -> (0 < (cu_size s : R))%R.
Proof. intros B. apply built_cubic_inv in B as (E & _). change (Rleb (cu_size s) 0 = false) in E. now apply Rleb_false in E. Qed.
Lemma circ_pos_R (s : circ RR) : built_circ s -> (0 < (ci_size s : R))%R.
Proof. intros B. apply built_circ_inv in B as (E & _). change (Rleb (ci_size s) 0 = false) in E. now apply Rleb_false in E. Qed.

Lemma cubic_inclusion_R (s : cubic RR) (p : list R) : length p = cu_dim s ->
  (cubic_inclusion s p = Ok true /\ Forall (fun x => - (cu_size s : R) <= x <= (cu_size s : R))%R p) \/
  (cubic_inclusion s p = Ok false /\ ~ Forall (fun x => - (cu_size s : R) <= x <= (cu_size s : R))%R p).
Proof.
  intros L. rewrite (cubic_inclusion_eq s p L).
  destruct (within (cu_size s) p) eqn:E.
  - left. split; auto. now apply within_R.
  - right. split; auto. intros F. apply within_R in F. congruence.
Qed.

(** The decision [if_inside ... Err] in terms of a proposition. *)
Lemma last_decides (incl : list R -> outcome bool) (q : list R) (P : Prop) :
  ((incl q = Ok true /\ P) \/ (incl q = Ok false /\ ~ P)) ->
  (P -> if_inside (S := RR) incl q (q, Err TooLargeTimeStep) = (q, Ok tt)) /\
  (~ P -> if_inside (S := RR) incl q (q, Err TooLargeTimeStep) = (q, Err TooLargeTimeStep)).
Proof. intros [[E H]|[E H]]; unfold if_inside; rewrite E; split; intros; tauto. Qed.

Lemma cubic_bc_R (s : cubic RR) (p dp : list R) : built_cubic s -> length p = cu_dim s -> length dp = cu_dim s ->
  exists q, walls (cu_bc s) (cu_size s) (vsum (S := RR) p dp) q /\
    (Forall (fun x => - (3 * (cu_size s : R)) <= x <= 3 * (cu_size s : R))%R (vsum (S := RR) p dp) ->
       cubic_check_bc s p dp = (q, Ok tt)) /\
    (~ Forall (fun x => - (3 * (cu_size s : R)) <= x <= 3 * (cu_size s : R))%R (vsum (S := RR) p dp) ->
       cubic_check_bc s p dp = (q, Err TooLargeTimeStep)).
Proof.
  intros B Lp Ld. pose proof (cubic_pos_R s B) as P. apply built_cubic_inv in B as (_ & _ & BM).
  unfold cubic_check_bc. rewrite (move_eq2 (S := RR) p dp _ _ Lp Ld).
  set (m := vsum (S := RR) p dp). assert (Lm : @length R m = cu_dim s) by (exact (vsum_len2 (S := RR) p dp _ Lp Ld)). pose proof (Lm : @length (car RR) m = cu_dim s) as Lm'.
  destruct (cubic_inclusion_R s m Lm) as [[E I]|[E I]].
  { exists m. pose proof (walls_id (cu_bc s) _ _ I) as W. split; [exact W|].
    rewrite (if_inside_true _ _ _ E). split; intros H; auto. exfalso. apply H. apply (walls_in _ _ _ _ P W). auto. }
  rewrite (if_inside_false _ _ _ E). cbv zeta.
  assert (K : forall q, walls (cu_bc s) (cu_size s) m q ->
    (Forall (fun x => - (3 * (cu_size s : R)) <= x <= 3 * (cu_size s : R))%R m ->
       if_inside (S:=RR) (cubic_inclusion s) q (q, Err TooLargeTimeStep) = (q, Ok tt)) /\
    (~ Forall (fun x => - (3 * (cu_size s : R)) <= x <= 3 * (cu_size s : R))%R m ->
       if_inside (S:=RR) (cubic_inclusion s) q (q, Err TooLargeTimeStep) = (q, Err TooLargeTimeStep))).
  { intros q W. pose proof (walls_length _ _ _ _ W) as LQ. apply last_decides.
    rewrite <- (walls_in _ _ _ _ P W). apply cubic_inclusion_R. exact (eq_trans (eq_sym LQ) Lm). }
  destruct (cu_bc s) as [| |d] eqn:Bc.
  - exists (map (period1 (S := RR) (cu_size s)) m). split; [now apply translated_map|]. apply K. now apply translated_map.
  - exists (map (reflect1 (S := RR) (cu_size s)) m). split; [now apply mirrored_map|]. apply K. now apply mirrored_map.
  - specialize (BM d eq_refl). destruct (Nat.ltb_spec (length m) d) as [|_]; [lia|].
    assert (W : walls (Mixed d) (cu_size s) m (map (reflect1 (S := RR) (cu_size s)) (firstn d m) ++ map (period1 (S := RR) (cu_size s)) (skipn d m))).
    { cbn [walls].
      assert (Lf : length (map (reflect1 (S := RR) (cu_size s)) (firstn d m)) = d) by (rewrite map_length, firstn_length; lia).
      destruct (split_app _ (map (period1 (S := RR) (cu_size s)) (skipn d m)) d Lf) as (E1 & E2).
      split; [refine (eq_ind_r (fun z => Forall2 _ _ z) _ E1)|refine (eq_ind_r (fun z => Forall2 _ _ z) _ E2)].
      all: first [now apply mirrored_map|now apply translated_map]. }
    eexists. split; [exact W|]. apply K. exact W.
Qed.

(** Spheres *)
Lemma circ_inclusion_R (s : circ RR) (p : list R) : length p = ci_dim s ->
  (circ_inclusion s p = Ok true /\ (euclid_norm p <= ci_size s)%R) \/
  (circ_inclusion s p = Ok false /\ ~ (euclid_norm p <= ci_size s)%R).
Proof.
  intros L. rewrite (circ_inclusion_eq s p L). rewrite rr_norm_euclid.
  change (@ltb RR) with Rltb. destruct (Rltb (ci_size s) (euclid_norm p)) eqn:E.
  - right. apply Rltb_spec in E. split; auto. lra.
  - left. apply Rltb_false in E. auto.
Qed.

Lemma sq_scale (t : R) (p : list R) : sq (map (fun x => x * t)%R p) = (t ^ 2 * sq p)%R.
Proof. unfold sq. induction p as [|x p IH]; simpl in *; [ring|]. rewrite IH. ring. Qed.
Lemma euclid_norm_scale (t : R) (p : list R) : euclid_norm (map (fun x => x * t)%R p) = (Rabs t * euclid_norm p)%R.
Proof.
  unfold euclid_norm. change (rsum (map (fun x => x ^ 2)%R (map (fun x => x * t)%R p))) with (sq (map (fun x => x * t)%R p)).
  rewrite sq_scale. rewrite sqrt_mult; [|apply pow2_ge_0|apply sq_nonneg].
  rewrite <- Rsqr_pow2, sqrt_Rsqr_abs. reflexivity.
Qed.
Lemma scaled_map t p : scaled t p (map (fun x => x * t)%R p).
Proof. unfold scaled. induction p; constructor; auto. lra. Qed.

Lemma euclid_norm_nonneg p : (0 <= euclid_norm p)%R.
Proof. apply sqrt_pos. Qed.

Lemma shrink_norm (r n : R) : (0 <= r)%R -> (r < n)%R -> (Rabs ((2 * r - n) / n) * n = Rabs (2 * r - n))%R.
Proof.
  intros A B. unfold Rdiv. rewrite Rabs_mult, (Rabs_pos_eq (/ n)); [field; lra|].
  apply Rlt_le, Rinv_0_lt_compat. lra.
Qed.

Lemma shrink_in (r n : R) : (0 <= r)%R -> (r < n)%R -> (Rabs (2 * r - n) <= r <-> n <= 3 * r)%R.
Proof. intros A B. unfold Rabs. destruct (Rcase_abs (2 * r - n)); lra. Qed.

Lemma circ_bc_R (s : circ RR) (p dp : list R) : built_circ s -> length p = ci_dim s -> length dp = ci_dim s ->
  (ci_size s < euclid_norm (vsum (S := RR) p dp))%R ->
  exists q, scaled ((2 * (ci_size s : R) - euclid_norm (vsum (S := RR) p dp)) / euclid_norm (vsum (S := RR) p dp)) (vsum (S := RR) p dp) q /\
    euclid_norm q = Rabs (2 * (ci_size s : R) - euclid_norm (vsum (S := RR) p dp)) /\
    ((euclid_norm (vsum (S := RR) p dp) <= 3 * (ci_size s : R))%R -> circ_check_bc s p dp = (q, Ok tt)) /\
    ((euclid_norm (vsum (S := RR) p dp) > 3 * (ci_size s : R))%R -> circ_check_bc s p dp = (q, Err TooLargeTimeStep)).
Proof.
  intros B Lp Ld Out. pose proof (circ_pos_R s B) as P.
  unfold circ_check_bc. rewrite (move_eq2 (S := RR) p dp _ _ Lp Ld).
  set (m := vsum (S := RR) p dp) in *. assert (Lm : @length R m = ci_dim s) by (exact (vsum_len2 (S := RR) p dp _ Lp Ld)). pose proof (Lm : @length (car RR) m = ci_dim s) as Lm'.
  destruct (circ_inclusion_R s m Lm) as [[E I]|[E I]]; [lra|].
  rewrite (if_inside_false _ _ _ E). cbv zeta.
  set (t := ((2 * (ci_size s : R) - euclid_norm m) / euclid_norm m)%R).
  assert (Q : mut_scalar_mul (S := RR) m (div (sub (mul s2 (ci_size s)) (norm m)) (norm m)) = map (fun x => x * t)%R m).
  { rewrite rr_norm_euclid. reflexivity. }
  rewrite Q. exists (map (fun x => x * t)%R m).
  assert (N : euclid_norm (map (fun x => x * t)%R m) = Rabs (2 * (ci_size s : R) - euclid_norm m)).
  { rewrite euclid_norm_scale. unfold t. apply shrink_norm; lra. }
  split; [apply scaled_map|]. split; [exact N|].
  destruct (last_decides (circ_inclusion s) (map (fun x => x * t)%R m) (euclid_norm m <= 3 * (ci_size s : R))%R) as (D1 & D2).
  { rewrite <- shrink_in by lra. rewrite <- N. apply circ_inclusion_R. now rewrite map_length. }
  split; auto. intros H. apply D2. lra.
Qed.

(** Cylinders *)
Lemma cyl_inv_R (s : cyl RR) : built_cyl s -> exists d, cy_type s = ContinuousCylindrical d /\ cy_bc s = Mixed d /\
  (d <= cy_dim s)%nat /\ (0 < (cy_length s : R))%R /\ (0 <= (cy_radius s : R))%R.
Proof.
  intros B. apply built_cyl_inv in B as (d & T & M & D & _ & L & Rd). exists d. do 3 (split; auto). split.
  - change (Rleb (cy_length s) 0 = false) in L. now apply Rleb_false in L.
  - destruct Rd as [Rd|Rd].
    + change (Rltb (cy_radius s) 0 = false) in Rd. now apply Rltb_false in Rd.
    + change (Rleb (cy_radius s) 0 = false) in Rd. apply Rleb_false in Rd. lra.
Qed.

Lemma slice_norm_R (p : list R) : slice_norm (S := RR) p = euclid_norm p.
Proof. exact (rr_norm_euclid p). Qed.

Lemma cyl_inclusion_R (s : cyl RR) d (p : list R) : cy_type s = ContinuousCylindrical d -> (d <= cy_dim s)%nat -> length p = cy_dim s ->
  (cyl_inclusion s p = Ok true /\ ((euclid_norm (firstn d p) <= cy_radius s)%R /\ Forall (fun x => - (cy_length s : R) <= x <= (cy_length s : R))%R (skipn d p))) \/
  (cyl_inclusion s p = Ok false /\ ~ ((euclid_norm (firstn d p) <= cy_radius s)%R /\ Forall (fun x => - (cy_length s : R) <= x <= (cy_length s : R))%R (skipn d p))).
Proof.
  intros T D L. rewrite (cyl_inclusion_eq s d p T D L).
  rewrite slice_norm_R. change (@ltb RR) with Rltb.
  change (firstn d p) with (@firstn R d p). change (skipn d p) with (@skipn R d p).
  match goal with |- context [Rltb ?a ?b] => destruct (Rltb a b) eqn:E end.
  - right. apply Rltb_spec in E. split; [reflexivity|]. intros [A _]. change (cy_radius s < euclid_norm (firstn d p))%R in E. lra.
  - apply Rltb_false in E. destruct (within (cy_length s) (skipn d p)) eqn:W.
    + left. apply within_R in W. split; auto.
    + right. split; auto. intros [_ F]. apply within_R in F. change (within (S := RR) (cy_length s) (skipn d p) = true) in F. congruence.
Qed.

Lemma cyl_bc_R (s : cyl RR) d (p dp : list R) : built_cyl s -> cy_type s = ContinuousCylindrical d ->
  length p = cy_dim s -> length dp = cy_dim s ->
  let m := vsum (S := RR) p dp in
  let n := euclid_norm (firstn d m) in
  let Rd := cy_radius s : R in let L := cy_length s : R in
  exists q, length q = cy_dim s /\
    ((n <= Rd)%R -> firstn d q = firstn d m) /\
    ((n > Rd)%R -> scaled ((2 * Rd - n) / n) (firstn d m) (firstn d q) /\ euclid_norm (firstn d q) = Rabs (2 * Rd - n)) /\
    Forall2 (translated L) (skipn d m) (skipn d q) /\
    ((n <= 3 * Rd)%R /\ Forall (fun x => - (3 * L) <= x <= 3 * L)%R (skipn d m) -> cyl_check_bc s p dp = (q, Ok tt)) /\
    (~ ((n <= 3 * Rd)%R /\ Forall (fun x => - (3 * L) <= x <= 3 * L)%R (skipn d m)) -> cyl_check_bc s p dp = (q, Err TooLargeTimeStep)).
Proof.
  intros B T Lp Ld m n Rd L. apply cyl_inv_R in B as (d' & T' & M & D & PL & PR).
  rewrite T in T'. inversion T'; subst d'. fold L in PL. fold Rd in PR.
  unfold cyl_check_bc. rewrite (move_eq2 (S := RR) p dp _ _ Lp Ld). fold m.
  assert (Lm : @length R m = cy_dim s) by (exact (vsum_len2 (S := RR) p dp _ Lp Ld)). pose proof (Lm : @length (car RR) m = cy_dim s) as Lm'.
  destruct (cyl_inclusion_R s d m T D Lm) as [[E I]|[E I]].
  { exists m. rewrite (if_inside_true _ _ _ E). destruct I as (I1 & I2). change (n <= Rd)%R in I1. change (Forall (fun x => - L <= x <= L)%R (@skipn R d m)) in I2.
    pose proof (translated_id _ _ I2) as W. split; auto. split; auto. split; [intros; lra|]. split; [exact W|]. split; auto.
    intros H. exfalso. apply H. split; [lra|]. now apply (translated_in L _ _ PL W). }
  rewrite (if_inside_false _ _ _ E), M. destruct (Nat.ltb_spec (length m) d) as [|_]; [lia|]. cbv zeta.
  rewrite slice_norm_R. change (@ltb RR) with Rltb.
  set (h := if Rltb (cy_radius s) (euclid_norm (firstn d m)) then _ else _).
  assert (Hh : length h = d /\ ((n <= Rd)%R -> h = firstn d m) /\
    ((n > Rd)%R -> scaled ((2 * Rd - n) / n) (firstn d m) h /\ euclid_norm h = Rabs (2 * Rd - n)) /\ (euclid_norm h <= Rd <-> n <= 3 * Rd)%R).
  { unfold h. fold n. destruct (Rltb (cy_radius s) n) eqn:C; [apply Rltb_spec in C|apply Rltb_false in C].
    - rewrite map_length, firstn_length. split; [lia|]. split; [intros; unfold Rd in *; lra|].
      change (map (fun x : RR => mul x (div (sub (mul s2 (cy_radius s)) n) n)) (firstn d m)) with
             (map (fun x => x * ((2 * Rd - n) / n))%R (firstn d m)).
      rewrite euclid_norm_scale. fold n. rewrite (shrink_norm Rd n) by auto.
      split; [intros _; split; [apply scaled_map|reflexivity]|]. apply shrink_in; auto.
    - rewrite firstn_length. split; [lia|]. fold Rd in C. split; auto. split; [intros; lra|]. fold n. lra. }
  clearbody h. destruct Hh as (H1 & H2 & H3 & H4).
  set (q := h ++ map (period1 (S:=RR) (cy_length s)) (skipn d m)).
  destruct (split_app h (map (period1 (S:=RR) (cy_length s)) (skipn d m)) d H1) as (Qf & Qs). fold q in Qf, Qs. fold L in Qs.
  assert (Ql : length q = cy_dim s) by (unfold q; rewrite app_length, map_length, skipn_length, H1; lia).
  pose proof (translated_in L _ _ PL (translated_map L (skipn d m) PL)) as TI.
  exists q. split; [exact Ql|].
  assert (EqP : ((euclid_norm (firstn d q) <= cy_radius s)%R /\ Forall (fun x => - (cy_length s : R) <= x <= (cy_length s : R))%R (skipn d q)) <->
    ((n <= 3 * Rd)%R /\ Forall (fun x => - (3 * L) <= x <= 3 * L)%R (skipn d m))).
  { pose proof (eq_ind_r (fun z => (euclid_norm z <= Rd <-> n <= 3 * Rd)%R) H4 Qf) as H4'.
    pose proof (eq_ind_r (fun z => (Forall (fun x => - L <= x <= L)%R z <-> Forall (fun x => - (3 * L) <= x <= 3 * L)%R (skipn d m))) TI Qs) as TI'.
    split; intros [A1 A2]; split; first [apply H4'; exact A1|apply TI'; exact A2]. }
  split; [intros A; exact (eq_trans Qf (H2 A))|].
  split; [intros A; exact (eq_ind_r (fun z => scaled ((2 * Rd - n) / n) (firstn d m) z /\ euclid_norm z = Rabs (2 * Rd - n)) (H3 A) Qf)|].
  split; [exact (eq_ind_r (fun z => Forall2 (translated L) (skipn d m) z) (translated_map L (skipn d m) PL) Qs)|].
  apply last_decides.
  destruct (cyl_inclusion_R s d q T D Ql) as [[A1 A2]|[A1 A2]]; [left|right]; (split; [exact A1|]); [now apply EqP|].
  intros X. apply A2. now apply EqP.
Qed.
