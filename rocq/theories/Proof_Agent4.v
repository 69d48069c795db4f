(** Agents: pair displacement in doubles, random moves, growth and merging, forces (C08, C32-C35). *)
From Coq Require Import Reals ZArith List Lra Lia Psatz.
From Flocq Require Import Core.
From Flocq.IEEE754 Require Import BinarySingleNaN.
From Coquelicot Require Import Coquelicot.
From Verif Require Import Base Scalar Float64 Model_LinkedList Spec_LinkedList Refine_LinkedList Proof_LinkedList5 Model_Position Spec_Position Proof_Position Proof_Time
  Model_System Spec_System Proof_System Proof_System2 Proof_System3 Model_Agent Spec_Agent Proof_Agent Proof_Agent2.
Import ListNotations.
Local Open Scope nat_scope.

Lemma fold_left_map {A B C : Type} (f : C -> B -> C) (h : A -> B) l : forall a, fold_left f (map h l) a = fold_left (fun r x => f r (h x)) l a.
Proof. induction l as [|x l IH]; intros a; [reflexivity|apply IH]. Qed.

Lemma norm_dvec_distance_gen {S : scalar} (p q : list S) : length p = length q -> distance q p = Ok (norm (dvec p q)).
Proof.
  intros L. unfold distance, dim. rewrite L, Nat.eqb_refl. cbn [negb]. f_equal. unfold norm, dvec. rewrite fold_left_map. reflexivity.
Qed.

(** ** Pair displacements in doubles *)
Section F.
Variable lm : libm.
Local Notation F := (F64 lm).

Lemma dvec_opp64 (p q : list b64) : Forall2 opposite64 (dvec (S := F) p q) (dvec (S := F) q p).
Proof.
  unfold dvec. revert q. induction p as [|x p IH]; intros [|y q]; try constructor; [|apply IH].
  cbn [combine map fst snd]. change (opposite64 (Bminus mode_NE y x) (Bminus mode_NE x y)).
  destruct (minus_anti y x) as [E|(s & t & E1 & E2)]; [right; left; exact E|right; right; eauto].
Qed.

Lemma b2sf_opp (z : b64) : B2SF (Bopp z) = SpecFloat.SFopp (B2SF z).
Proof. destruct z; reflexivity. Qed.
Lemma round_flip s m e l : BinarySingleNaN.binary_round_aux 53 1024 mode_NE (negb s) m e l = SpecFloat.SFopp (BinarySingleNaN.binary_round_aux 53 1024 mode_NE s m e l).
Proof.
  unfold BinarySingleNaN.binary_round_aux. destruct (SpecFloat.shr_fexp 53 1024 m e l) as (r1, e1).
  change (choice_mode mode_NE (negb s)) with (choice_mode mode_NE s).
  destruct (SpecFloat.shr_fexp 53 1024 (choice_mode mode_NE s (SpecFloat.shr_m r1) (SpecFloat.loc_of_shr_record r1)) e1 SpecFloat.loc_Exact) as (r2, e2).
  destruct (SpecFloat.shr_m r2); try reflexivity. unfold binary_fit_aux. destruct (Zle_bool e2 (1024 - 53)); reflexivity.
Qed.

Lemma mul_opp64 (x y c : b64) : opposite64 x y -> opposite64 (Bmult mode_NE x c) (Bmult mode_NE y c).
Proof.
  intros [(A & B)|[->|(s & t & -> & ->)]].
  - left. destruct x, y; try discriminate; auto.
  - destruct x as [[|]|[|]| |[|] mx ex Hx], c as [[|]|[|]| |[|] mc ec Hc]; try (right; left; reflexivity); try (left; split; reflexivity);
    right; left; apply B2SF_inj; rewrite b2sf_opp; unfold Bmult, Bopp; try reflexivity; rewrite !B2SF_SF2B; cbn [negb xorb]; match goal with |- _ = SpecFloat.SFopp (_ _ _ _ ?s _ _ _) => exact (round_flip s _ _ _) end.
  - destruct c as [u|u| |u m e H]; [right; right|left; split; reflexivity|left; split; reflexivity|right; right]; cbn; eauto.
Qed.

Lemma norm_dvec_sym (p q : list b64) : norm (S := F) (dvec (S := F) p q) = norm (S := F) (dvec (S := F) q p).
Proof.
  unfold norm, dvec. rewrite !fold_left_map.
  exact (f_equal (Bsqrt mode_NE) (fold_diff_sym q p (b64_of_Z 0))).
Qed.
Lemma norm_dvec_distance (p q : list b64) : length p = length q -> distance (S := F) p q = Ok (norm (S := F) (dvec (S := F) p q) : F).
Proof.
  intros L. rewrite f64_distance_sym. exact (norm_dvec_distance_gen (S := F) p q L).
Qed.

Lemma md_64 (a b : anyagent F) : same_kind a b -> coherent a -> coherent b -> a_dim a = a_dim b ->
  exists e e' (d : F), a_mutual_displacement a b = Ok (e, d) /\ a_mutual_displacement b a = Ok (e', d) /\ Forall2 opposite64 e e' /\ a_mutual_distance a b = Ok d.
Proof.
  intros K Ca Cb H. assert (K' : same_kind b a) by (destruct a, b; exact K).
  destruct (md_form a b K) as (E1 & _ & E3). destruct (md_form b a K') as (E2 & _). rewrite E1, E2, E3.
  destruct (md_eq (S := F) _ _ _ _ (eq_sym Ca) (eq_sym Cb)) as (_ & M2).
  destruct (md_eq (S := F) _ _ _ _ (eq_sym Cb) (eq_sym Ca)) as (_ & M3). rewrite (M2 H), (M3 (eq_sym H)).
  assert (L : @length b64 (a_pos a) = @length b64 (a_pos b)) by exact (eq_trans (eq_sym Ca) (eq_trans H Cb)).
  rewrite (norm_dvec_sym (a_pos b) (a_pos a)).
  do 3 eexists. split; [reflexivity|]. split; [reflexivity|]. split; [|exact (norm_dvec_distance _ _ L)].
  generalize (div (s := F) s1 (norm (S := F) (dvec (S := F) (a_pos a) (a_pos b)))). intros c.
  generalize (dvec_opp64 (a_pos a) (a_pos b)). generalize (dvec (S := F) (a_pos a) (a_pos b)) (dvec (S := F) (a_pos b) (a_pos a)).
  intros l l' HF. induction HF as [|x y l l' O HF IH]; constructor; [|exact IH]. exact (mul_opp64 x y c O).
Qed.

(** Agents at the same place: every coordinate of the direction is NaN. *)
Lemma md_coincident (a b : anyagent F) : same_kind a b -> coherent a -> coherent b -> a_pos a = a_pos b -> finite_pos (a_pos a) ->
  exists e, a_mutual_displacement a b = Ok (e, B754_zero false : F) /\ length e = a_dim a /\ Forall (fun x : b64 => nan x = true) e.
Proof.
  intros K Ca Cb E FP. destruct (md_form a b K) as (E1 & _ & _). rewrite E1.
  destruct (md_eq (S := F) _ _ _ _ (eq_sym Ca) (eq_sym Cb)) as (_ & M2). rewrite M2 by (unfold coherent in *; rewrite Ca, Cb, E; reflexivity).
  rewrite <- E. set (p := a_pos a) in *.
  assert (N : norm (S := F) (dvec (S := F) p p) = (B754_zero false : F)).
  { pose proof (norm_dvec_distance p p eq_refl) as N. rewrite (f64_distance_self lm p FP) in N. injection N as N. exact (eq_sym N). }
  rewrite N. eexists. split; [reflexivity|]. split.
  - rewrite map_length. rewrite dvec_length by reflexivity. exact (eq_sym Ca).
  - unfold dvec. rewrite map_map. clear - FP. induction FP as [|x p Fx FP IH]; [constructor|]. cbn [combine map fst snd].
    constructor; [|exact IH]. change (nan (Bmult mode_NE (Bminus mode_NE x x) (Bdiv mode_NE (b64_of_Z 1) (B754_zero false))) = true).
    rewrite (minus_self x Fx). vm_compute. reflexivity.
Qed.
End F.

(** ** Random moves *)
Section Moves.
Context {S : scalar} {G : rng S}.
Lemma rm_form (a : anyagent S) (g : rstate G) dt v :
  a_random_move a g dt = rnd_move (a_mtype a) (a_dim a) g dt /\
  a_random_move_to_vec a g dt v = rnd_move_to_vec (a_mtype a) (a_dim a) g dt v.
Proof. destruct a; split; reflexivity. Qed.

Lemma random_move_draws (a : anyagent S) (g : rstate G) dt c : a_mtype a = Brownian c ->
  a_random_move a g dt = (snd (draws (gauss G) (a_dim a) g),
     Ok (map (fun z => mul z (fsqrt (mul (mul s2 c) dt))) (fst (draws (gauss G) (a_dim a) g)))).
Proof.
  intros M. rewrite (proj1 (rm_form a g dt [])), M. unfold rnd_move, get_gaussian_vec. rewrite sample_map_spec, repeat_length.
  destruct (draws (gauss G) (a_dim a) g) as (l, g1) eqn:E. cbn [fst snd].
  assert (L : length l = a_dim a) by (rewrite <- (draws_length (gauss G) (a_dim a) g), E; reflexivity).
  rewrite map_combine_snd by (rewrite repeat_length; auto). reflexivity.
Qed.

Lemma random_move_to_draws (a : anyagent S) (g : rstate G) dt c v : a_mtype a = Brownian c -> length v = a_dim a ->
  a_random_move_to_vec a g dt v =
  (map (fun xz => add (add (fst xz) (mul (snd xz) (fsqrt (mul (mul s2 c) dt)))) s0) (combine v (fst (draws (gauss G) (a_dim a) g))),
   snd (draws (gauss G) (a_dim a) g), Ok tt).
Proof.
  intros M L. rewrite (proj2 (rm_form a g dt v)), M. unfold rnd_move_to_vec, dim, get_gaussian_to_vec_nonstandard. rewrite L, Nat.eqb_refl. cbn [negb].
  rewrite sample_map_spec, L. reflexivity.
Qed.

Lemma random_move_errors (a : anyagent S) (g : rstate G) dt v :
  (length v <> a_dim a -> a_random_move_to_vec a g dt v = (v, g, Err InvalidDimension)) /\
  (a_mtype a = Levy -> a_random_move a g dt = (g, Err FeatureNotProvided) /\
     (length v = a_dim a -> a_random_move_to_vec a g dt v = (v, g, Err FeatureNotProvided))).
Proof.
  destruct (rm_form a g dt v) as (E1 & E2). rewrite E1, E2. unfold rnd_move_to_vec, dim. split.
  - intros H. destruct (Nat.eqb_spec (a_dim a) (length v)); [congruence|reflexivity].
  - intros ->. split; [reflexivity|]. intros ->. rewrite Nat.eqb_refl. reflexivity.
Qed.
End Moves.

(** ** Growth *)
Section Grow.
Context {S : scalar}.
Lemma add_size_form (a : merger S) k :
  let a' := fst (merger_add_size a k) in
  mg_size a' = mg_size a + k /\ mg_type a' = mg_type a /\ mg_itype a' = mg_itype a /\ mg_dim a' = mg_dim a /\ mg_pos a' = mg_pos a /\
  mg_radius a' = mg_radius a /\ mg_alpha a' = mg_alpha a /\
  (forall c, mg_mtype a = Brownian c -> snd (merger_add_size a k) = Ok tt /\
     mg_mtype a' = Brownian (fpow (of_Z (Z.of_nat (mg_size a + k))) (opp (mg_alpha a)))) /\
  (mg_mtype a = Levy -> snd (merger_add_size a k) = Err FeatureNotProvided /\ mg_mtype a' = Levy).
Proof.
  unfold merger_add_size, recoeff. cbn. destruct (mg_mtype a) eqn:E; cbn; repeat split; auto; try discriminate.
Qed.

Definition brownian (a : merger S) : Prop := exists c, mg_mtype a = Brownian c.
Lemma add_size_brownian (a : merger S) k : brownian a ->
  exists a', merger_add_size a k = (a', Ok tt) /\ merger_size a' = merger_size a + k /\ brownian a'.
Proof.
  intros (c & E). destruct (add_size_form a k) as (A & _ & _ & _ & _ & _ & _ & B & _). destruct (B c E) as (B1 & B2).
  exists (fst (merger_add_size a k)). split; [rewrite <- B1; apply surjective_pairing|]. split; [exact A|]. eexists. exact B2.
Qed.
End Grow.

Lemma pow_one_R (al : R) : Rpower 1 (- al) = 1%R.
Proof. unfold Rpower. rewrite ln_1, Rmult_0_r. apply exp_0. Qed.
Lemma pow_pos_R (x y : R) : (0 < Rpower x y)%R.
Proof. apply exp_pos. Qed.

(** ** Forces *)
Lemma exp_force_R (x : expag RR) (r : R) : exp_set x -> (ex_gamma x : R) <> 0%R ->
  (expag_potential x r : R) = (ex_strength x * exp (- r / ex_gamma x))%R /\
  (expag_force x r : R) = (ex_strength x / ex_gamma x * exp (- r / ex_gamma x))%R /\
  derivable_pt_lim (fun r => expag_potential x r) r (- (expag_force x r : R))%R.
Proof.
  intros (E1 & E2) G0. destruct x as [ty it m i d p ga st cp cf]. cbn in *. unfold expag_potential, expag_force. cbn. rewrite E1, E2. cbn.
  split; [reflexivity|]. split; [reflexivity|]. apply is_derive_Reals. auto_derive; [exact I|]. unfold Rdiv. ring.
Qed.

Lemma lj_force_R (x : ljag RR) (r : R) : lj_set x -> (lj_psize x : R) <> 0%R -> r <> 0%R ->
  (ljag_potential x r : R) = (4 * lj_strength x * ((lj_psize x / r) ^ 12 - (lj_psize x / r) ^ 6))%R /\
  (ljag_force x r : R) = (24 * lj_strength x / lj_psize x * (2 * (lj_psize x / r) ^ 13 - (lj_psize x / r) ^ 7))%R /\
  derivable_pt_lim (fun r => ljag_potential x r) r (- (ljag_force x r : R))%R.
Proof.
  intros (E1 & E2) P0 R0. destruct x as [ty it m i d p ps st cp cf]. cbn in *. unfold ljag_potential, ljag_force, powi6. cbn. rewrite E1, E2. cbn.
  split; [ring|]. split; [unfold Rdiv; ring|]. apply is_derive_Reals. auto_derive; [repeat split; exact R0|]. field. auto.
Qed.
