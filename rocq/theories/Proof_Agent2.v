(** Agents: placement in doubles, pair displacements, random moves, growth, forces (C31-C35). *)
From Coq Require Import Reals ZArith List Lra Lia Psatz.
From Flocq Require Import Core.
From Flocq.IEEE754 Require Import BinarySingleNaN.
From Verif Require Import Base Scalar Float64 Model_Position Spec_Position Proof_Position Proof_Time Proof_Norm64 Model_System Spec_System
  Proof_System Proof_System2 Proof_System3 Proof_System4 Proof_System5 Proof_System6 Proof_System7 Proof_System8 Model_Agent Spec_Agent Proof_Agent.
Import ListNotations.
Local Open Scope nat_scope.

(** ** Placement *)
Section Gen.
Context {S : scalar} {G : rng S}.
Notation gen := (rstate G).

Lemma place_ok n (P : pos S -> Prop) (sys : syscore S G) (t : target S) inner :
  (forall g v q g', length v = n -> sc_random_to sys inner g v = (q, g', Ok tt) -> P q /\ length q = n) ->
  forall fuel g v q g', length v = n -> place inner fuel sys t g v = (q, g', Ok tt) -> P q /\ length q = n /\ check_find t q = Ok false.
Proof.
  intros H. induction fuel as [|fuel IH]; intros g v q g' Lv E; [discriminate|]. cbn [place] in E.
  destruct (sc_random_to sys inner g v) as ((v1, g1), r) eqn:R. destruct r as [[]|e| |]; try discriminate.
  destruct (H g v v1 g1 Lv R) as (P1 & L1). destruct (check_find t v1) as [[|]|e| |] eqn:F; try discriminate.
  - exact (IH g1 v1 q g' L1 E).
  - injection E as <- <-. auto.
Qed.

(** A target of the wrong dimension: the first position drawn makes [check_find] fail. *)
Lemma place_wrong_target n (sys : syscore S G) (t : target S) inner fuel g v :
  (forall q g', sc_random_to sys inner g v = (q, g', Ok tt) -> length q = n) -> length (tg_pos t) <> n ->
  forall q g', place inner fuel sys t g v <> (q, g', Ok tt).
Proof.
  intros H LT q g' E. destruct fuel as [|fuel]; [discriminate|]. cbn [place] in E.
  destruct (sc_random_to sys inner g v) as ((v1, g1), r) eqn:R. destruct r as [[]|e| |]; try discriminate.
  destruct (check_find_cases t v1) as (F & _). rewrite F in E; [discriminate|]. rewrite (H v1 g1 eq_refl). exact LT.
Qed.
End Gen.

Lemma place_64 {lm} {G : rng (F64 lm)} (a : anysys (F64 lm)) (t : target (F64 lm)) inner fuel (g : rstate G) v q g' :
  fits a -> ~ is_cyl a -> unif_64 G -> length v = sysdim a ->
  place inner fuel (core a) t g v = (q, g', Ok tt) -> inside64 a q /\ check_find t q = Ok false.
Proof.
  intros Fi NC U Lv E.
  destruct a as [s|s|s]; [| |exfalso; apply NC; exact I].
  - refine (match place_ok (S := F64 lm) (ci_dim s) (inside64 (ACirc s)) (core (ACirc s)) t inner _ fuel g v q g' Lv E with conj A (conj _ B) => conj A B end).
    clear g v q g' Lv E. intros g v q g' Lv E. cbn [core circ_core sc_random_to] in E.
    destruct (circ_random_to_64 lm inner s g v Fi U Lv) as [(q' & g'' & E' & L & Bd & I)|N].
    + rewrite E in E'. injection E' as <- <-. cbn [inside64]. auto.
    + rewrite E in N. discriminate.
  - refine (match place_ok (S := F64 lm) (cu_dim s) (inside64 (ACubic s)) (core (ACubic s)) t inner _ fuel g v q g' Lv E with conj A (conj _ B) => conj A B end).
    clear g v q g' Lv E. intros g v q g' Lv E. cbn [core cubic_core sc_random_to] in E.
    destruct (cubic_random_to_64 lm inner s g v Fi U Lv) as (q' & g'' & E' & L & Bd & I).
    rewrite E in E'. injection E' as <- <-. cbn [inside64]. auto.
Qed.

Lemma place_cyl_R {G : rng RR} (s : cyl RR) d (t : target RR) inner fuel (g : rstate G) (v q : list R) g' :
  built_cyl s -> cy_type s = ContinuousCylindrical d -> unif_R G -> length v = cy_dim s ->
  place inner fuel (cyl_core s) t g v = (q, g', Ok tt) ->
  in_cylinder (cy_dim s) d (cy_radius s) (2 * (cy_length s : R)) q /\ check_find t q = Ok false.
Proof.
  intros B T U Lv E.
  refine (match place_ok (S := RR) (cy_dim s) (in_cylinder (cy_dim s) d (cy_radius s) (2 * (cy_length s : R))) (cyl_core s) t inner _ fuel g v q g' Lv E with conj A (conj _ B0) => conj A B0 end).
  clear g v q g' Lv E. intros g v q g' Lv E. cbn [cyl_core sc_random_to] in E.
  destruct (cyl_random_to_R inner s d g v B T U) as (_ & H). destruct (H Lv) as [(q' & g'' & E' & C)|N].
  - rewrite E in E'. injection E' as <- <-. split; [exact C|exact (proj1 C)].
  - rewrite E in N. discriminate.
Qed.

(** ** Pair displacements *)
Section Pairs.
Context {S : scalar}.
Lemma md_form (a b : anyagent S) : same_kind a b -> a_mutual_displacement a b = mut_displacement (a_dim a) (a_pos a) (a_dim b) (a_pos b) /\
  (forall v, a_mutual_displacement_to_vec a b v = mut_displacement_to_vec (a_dim a) (a_pos a) (a_dim b) (a_pos b) v) /\
  a_mutual_distance a b = distance (a_pos a) (a_pos b).
Proof. destruct a, b; intros []; repeat split; reflexivity. Qed.

Definition dvec (p q : list S) : list S := map (fun xy => sub (fst xy) (snd xy)) (combine q p).

Lemma dvec_length (p q : list S) : length p = length q -> length (dvec p q) = length p.
Proof. intros L. unfold dvec. rewrite map_length, combine_length. lia. Qed.

Lemma md_eq d1 d2 (p1 p2 : pos S) : length p1 = d1 -> length p2 = d2 ->
  (d1 <> d2 -> mut_displacement d1 p1 d2 p2 = Err InvalidDimension) /\
  (d1 = d2 -> mut_displacement d1 p1 d2 p2 = Ok (map (fun x => mul x (div s1 (norm (dvec p1 p2)))) (dvec p1 p2), norm (dvec p1 p2))).
Proof.
  intros L1 L2. unfold mut_displacement. split; intros H.
  - apply Nat.eqb_neq in H. rewrite H. reflexivity.
  - rewrite H, Nat.eqb_refl. cbn [negb]. unfold pos_sub, dim. rewrite L1, L2, H, Nat.eqb_refl. reflexivity.
Qed.

(** The index loop writes the differences one by one. *)
Lemma upd_mid {A} (a : list A) x b f : upd (length a) f (a ++ x :: b) = Ok (a ++ f x :: b).
Proof. induction a as [|y a IH]; simpl; [reflexivity|]. rewrite IH. reflexivity. Qed.
Lemma idx_mid {A} (a : list A) x b : idx (a ++ x :: b) (length a) = Ok x.
Proof. unfold idx. rewrite nth_error_app2 by lia. rewrite Nat.sub_diag. reflexivity. Qed.

Lemma disp_loop_eq (p1b p2b vb : pos S) : length p1b = length p2b -> length p1b = length vb ->
  forall (p1a p2a va : pos S) s, length p1a = length p2a -> length p1a = length va ->
  disp_loop (seq (length p1a) (length p1b)) (p1a ++ p1b) (p2a ++ p2b) (va ++ vb) s =
  Ok (va ++ dvec p1b p2b, fold_left (fun r x => add r (mul x x)) (dvec p1b p2b) s).
Proof.
  revert p2b vb. induction p1b as [|x p1b IH]; intros [|y p2b] [|z vb] L1 L2; try discriminate; intros p1a p2a va s L3 L4; [reflexivity|].
  cbn [length seq disp_loop]. rewrite idx_mid. cbn [bind]. rewrite L3 at 1. rewrite idx_mid. cbn [bind].
  rewrite L4 at 1. rewrite upd_mid. cbn [bind].
  replace (Datatypes.S (length p1a)) with (length (p1a ++ [x])) by (rewrite app_length; simpl; lia).
  replace (p1a ++ x :: p1b) with ((p1a ++ [x]) ++ p1b) by (rewrite <- app_assoc; reflexivity).
  replace (p2a ++ y :: p2b) with ((p2a ++ [y]) ++ p2b) by (rewrite <- app_assoc; reflexivity).
  replace (va ++ sub y x :: vb) with ((va ++ [sub y x]) ++ vb) by (rewrite <- app_assoc; reflexivity).
  injection L1 as L1. injection L2 as L2. rewrite IH; auto; [|rewrite !app_length; simpl; lia..].
  rewrite <- app_assoc. reflexivity.
Qed.

Lemma mdv_eq d1 d2 (p1 p2 v : pos S) : length p1 = d1 -> length p2 = d2 ->
  (d1 <> d2 \/ d1 <> length v -> mut_displacement_to_vec d1 p1 d2 p2 v = (v, Err InvalidDimension)) /\
  (d1 = d2 -> d1 = length v -> forall e d, mut_displacement d1 p1 d2 p2 = Ok (e, d) -> mut_displacement_to_vec d1 p1 d2 p2 v = (e, Ok d)).
Proof.
  intros L1 L2. unfold mut_displacement_to_vec, dim. split.
  - intros H. destruct (Nat.eqb_spec d1 d2); cbn [negb orb]; [|reflexivity]. destruct (Nat.eqb_spec d1 (length v)); [lia|reflexivity].
  - intros H H' e d E. rewrite (proj2 (md_eq d1 d2 p1 p2 L1 L2) H) in E. injection E as <- <-.
    subst d2. rewrite H, <- H, H', !Nat.eqb_refl. cbn [negb orb].
    pose proof (disp_loop_eq p1 p2 v ltac:(lia) ltac:(lia) [] [] [] s0 eq_refl eq_refl) as K. cbn [length app] in K.
    rewrite <- H', <- L1. rewrite K. reflexivity.
Qed.
End Pairs.

Lemma dvec_anti_R (p q : list R) : dvec (S := RR) q p = map Ropp (dvec (S := RR) p q).
Proof.
  unfold dvec. revert q. induction p as [|x p IH]; intros [|y q]; try reflexivity.
  cbn [combine map fst snd]. f_equal; [|apply IH]. change (x - y = - (y - x))%R. ring.
Qed.
Lemma norm_opp_R (e : list R) : euclid_norm (map Ropp e) = euclid_norm e.
Proof. unfold euclid_norm. f_equal. rewrite map_map. f_equal. apply map_ext. intros x. ring. Qed.
Lemma norm_dvec_R (p q : list R) : length p = length q -> norm (S := RR) (dvec (S := RR) p q) = euclid p q.
Proof.
  intros L. rewrite rr_norm_euclid. rewrite euclid_sq by exact L.
  change (euclid_norm (dvec (S := RR) p q)) with (sqrt (sq (vsub q p))). now rewrite sq_vsub_sym.
Qed.

Lemma md_R (a b : anyagent RR) : same_kind a b -> coherent a -> coherent b ->
  (a_dim a <> a_dim b -> a_mutual_displacement a b = Err InvalidDimension) /\
  (a_dim a = a_dim b -> exists e d, a_mutual_displacement a b = Ok (e, d) /\ d = euclid (a_pos a) (a_pos b) /\
     a_mutual_displacement b a = Ok (map Ropp e, d) /\ a_mutual_distance a b = Ok d /\
     (a_pos a <> a_pos b -> direction (a_pos a) (a_pos b) e d /\ euclid_norm e = 1%R)).
Proof.
  intros K Ca Cb. assert (K' : same_kind b a) by (destruct a, b; exact K).
  destruct (md_form a b K) as (E1 & _ & E3). destruct (md_form b a K') as (E2 & _). rewrite E1, E2, E3.
  destruct (md_eq (S := RR) _ _ _ _ (eq_sym Ca) (eq_sym Cb)) as (M1 & M2). split; [exact M1|]. intros H.
  destruct (md_eq (S := RR) _ _ _ _ (eq_sym Cb) (eq_sym Ca)) as (_ & M3). rewrite (M2 H), (M3 (eq_sym H)).
  set (p := a_pos a) in *. set (q := a_pos b) in *.
  assert (L : @length R p = @length R q) by exact (eq_trans (eq_sym Ca) (eq_trans H Cb)).
  do 2 eexists. split; [reflexivity|]. split; [apply norm_dvec_R; exact L|]. split; [|split].
  - rewrite (dvec_anti_R p q). f_equal. f_equal.
    + rewrite !map_map. apply map_ext. intros x. rewrite !rr_norm_euclid, norm_opp_R.
      change (- x * (1 / euclid_norm (dvec (S := RR) p q)) = - (x * (1 / euclid_norm (dvec (S := RR) p q))))%R. ring.
    + rewrite !rr_norm_euclid. apply norm_opp_R.
  - rewrite (rr_distance_euclid p q L). exact (f_equal Ok (eq_sym (norm_dvec_R p q L))).
  - intros NE. rewrite (norm_dvec_R p q L). split.
    + unfold direction, dvec. rewrite map_map. 
      assert (Z : forall (D : R) (p q : list R), map (fun x : R * R => (fst x - snd x) * (1 / D))%R (combine q p) = map (fun xy => (snd xy - fst xy) / D)%R (combine p q)).
      { intros D p0. induction p0 as [|x p0 IH]; intros [|y q0]; try reflexivity. cbn [combine map fst snd]. f_equal; [|apply IH].
        unfold Rdiv. ring. }
      exact (Z _ p q).
    + assert (P : (0 < euclid p q)%R).
      { destruct (euclid_metric p q q L eq_refl) as (N0 & _ & N1 & _). destruct N0 as [N0|N0]; [exact N0|]. exfalso. apply NE. apply N1. symmetry. exact N0. }
      change (euclid_norm (map (fun x : R => x * (1 / euclid p q))%R (dvec (S := RR) p q)) = 1%R).
      rewrite euclid_norm_scale. rewrite Rabs_pos_eq by (apply Rlt_le; unfold Rdiv; rewrite Rmult_1_l; now apply Rinv_0_lt_compat).
      pose proof (norm_dvec_R p q L) as N. rewrite rr_norm_euclid in N. rewrite N. field. lra.
Qed.
