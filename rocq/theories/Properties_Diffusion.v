(** C52: the table of the free diffusion test (tests/single_ptl_rts.rs), if its displacement vector has the dimension of the space. *)
From Coq Require Import Reals List Bool Lra Lia ZArith.
From Verif Require Import Base Scalar Model_Position Spec_Position Proof_Position Model_System Spec_System Model_Agent Proof_Agent Spec_Run Proof_Run2 Model_Search Spec_Search Proof_Search Proof_Search2.
From Verif Require Proof_Analysis.
Import ListNotations.
Local Open Scope nat_scope.

Section D.
Context {G : rng RR}.
Notation gen := (rstate G).
(** Where a free particle is that starts at [p], after [k] displacements drawn from [g]. *)
Definition free_walk (c dt : R) (n : nat) (p : list R) (g : gen) (k : nat) : list R := fold_left (fun x d => vsum (S := RR) x d) (kicks (S := RR) c dt n k g) p.
Definition square_distance (p : list R) : R := Spec_Position.rsum (map (fun x => x ^ 2)%R p).

Lemma free_walk_S (c dt : R) n p (g : gen) k : free_walk c dt n p g (S k) = free_walk c dt n (vsum (S := RR) p (brownian_kick (S := RR) c dt (fst (draws (gauss G) n g)))) (snd (draws (gauss G) n g)) k.
Proof. unfold free_walk, kicks. cbn [seq map fold_left]. rewrite <- seq_shift, map_map. reflexivity. Qed.
Lemma norm_square (p : pos RR) : (mul (norm (S := RR) p) (norm (S := RR) p) : R) = square_distance p.
Proof.
  rewrite rr_norm_euclid. unfold euclid_norm. change (@mul RR) with Rmult. apply sqrt_sqrt. unfold square_distance, Spec_Position.rsum. induction p as [|x p IH]; cbn [map fold_right]; [lra|].
  pose proof (pow2_ge_0 x). lra.
Qed.
Lemma walk_table (c dt : RR) d m : forall i (a : indep RR) (v : pos RR) (data : list RR) (g : gen), in_mtype a = Brownian c -> in_dim a = d -> length (in_pos a) = d -> length v = d -> i + m < length data ->
  exists v' data', walk_loop (S := RR) (seq i m) dt a v data g = (v', data', after_blocks (gauss G) d m g, Ok tt) /\ length v' = d /\ length data' = length data /\
    forall k, (nth k data' 0%R : R) = (nth k data 0 + if (i <? k)%nat && (k <=? i + m)%nat then square_distance (free_walk c dt d (in_pos a) g (k - i)) else 0)%R.
Proof.
  induction m as [|m IH]; intros i a v data g Ma Da Lp Lv Ld.
  - exists v, data. split; [reflexivity|]. split; [exact Lv|]. split; [reflexivity|]. intros k. destruct (Nat.ltb_spec i k), (Nat.leb_spec k (i + 0)); cbn [andb]; try lia; lra.
  - cbn [seq walk_loop]. unfold indep_random_move_to_vec. rewrite Ma, Da, (to_vec_R c dt d v g Lv). set (dp := brownian_kick (S := RR) c dt _). set (g1 := snd _).
    assert (Ldp : length dp = d) by (unfold dp; rewrite kick_len; apply draws_len).
    unfold mut_add. rewrite mut_zip_same by congruence. fold (vsum (S := RR) (in_pos a) dp). set (p := vsum _ _). assert (Lq : length p = d) by (unfold p, vsum; rewrite map_length, combine_length, Lp, Ldp; lia).
    destruct (Proof_Analysis.upd_ok (i + 1) (fun x : RR => add x (mul (norm (S := RR) p) (norm (S := RR) p))) data ltac:(lia)) as (data1 & E1). rewrite E1.
    pose proof (Proof_Analysis.upd_len _ _ _ _ E1) as L1. 
    destruct (IH (S i) (in_set a d p) dp data1 g1) as (v' & data' & E & Lv' & Ld' & N); [exact Ma|reflexivity|exact Lq|exact Ldp|lia|].
    exists v', data'. split; [exact E|]. split; [exact Lv'|]. split; [congruence|]. intros k. rewrite N. pose proof (Proof_Analysis.upd_nth _ _ _ _ k (0%R : RR) E1) as U. change (@nth (car RR)) with (@nth R) in U |- *. rewrite U. clear U. rewrite Nat.add_1_r. cbn [in_set in_pos].
    destruct (Nat.eqb_spec k (S i)) as [->|K].
    + replace (S i <? S i) with false by (symmetry; apply Nat.ltb_ge; lia). replace (i <? S i) with true by (symmetry; apply Nat.ltb_lt; lia). replace (S i <=? i + S m) with true by (symmetry; apply Nat.leb_le; lia). cbn [andb].
      rewrite norm_square. replace (S i - i) with 1 by lia. change (@add RR) with Rplus. rewrite free_walk_S. fold dp. fold p. unfold free_walk. cbn [kicks seq map fold_left]. lra.
    + destruct (Nat.ltb_spec (S i) k) as [A|A].
      * replace (i <? k) with true by (symmetry; apply Nat.ltb_lt; lia). replace (i + S m) with (S i + m) by lia. cbn [andb]. destruct (k <=? S i + m); [|reflexivity].
        replace (k - i) with (S (k - S i)) by lia. rewrite free_walk_S. reflexivity.
      * replace (i <? k) with false by (symmetry; apply Nat.ltb_ge; lia). reflexivity.
Qed.
Lemma diffusion_table (c dt : RR) d steps num : forall (v : pos RR) (data : list RR) (g : gen), length v = d -> length data = steps + 1 ->
  exists data', diffusion_loop (S := RR) num steps d c dt v data g = (data', after_blocks (gauss G) d (num * steps) g, Ok tt) /\ length data' = steps + 1 /\
    forall k, k <= steps -> (nth k data' 0%R : R) = (nth k data 0 + Spec_Position.rsum (map (fun j => square_distance (free_walk c dt d (repeat 0%R d) (after_blocks (gauss G) d (j * steps) g) k)) (seq 0 num)))%R.
Proof.
  induction num as [|num IH]; intros v data g Lv Ld.
  - exists data. split; [reflexivity|]. split; [exact Ld|]. intros k _. cbn. lra.
  - cbn [diffusion_loop]. destruct (walk_table c dt d steps 0 (indep_new (S := RR) (Brownian c) (repeat s0 d)) v data g) as (v' & data1 & E & Lv' & Ld1 & N).
    { reflexivity. } { unfold indep_new, dim. cbn [in_dim]. apply repeat_length. } { unfold indep_new. cbn [in_pos]. apply repeat_length. } { exact Lv. } { lia. }
    rewrite E. destruct (IH v' data1 (after_blocks (gauss G) d steps g) Lv' ltac:(congruence)) as (data' & E2 & L2 & N2). exists data'.
    split; [rewrite E2; rewrite <- after_blocks_add; replace (S num * steps) with (steps + num * steps) by lia; reflexivity|]. split; [exact L2|].
    intros k K. rewrite (N2 k K), N. cbn [seq map]. unfold Spec_Position.rsum at 2. cbn [fold_right]. rewrite <- seq_shift, map_map. cbn [Nat.mul].
    assert (F : forall (j : nat), after_blocks (gauss G) d (j * steps) (after_blocks (gauss G) d steps g) = after_blocks (gauss G) d (steps + j * steps) g) by (intros j; rewrite <- after_blocks_add; reflexivity).
    rewrite (map_ext (fun j => square_distance (free_walk c dt d (repeat 0%R d) (after_blocks (gauss G) d (j * steps) (after_blocks (gauss G) d steps g)) k)) (fun j => square_distance (free_walk c dt d (repeat 0%R d) (after_blocks (gauss G) d (steps + j * steps) g) k))) by (intros j; now rewrite F).
    fold (Spec_Position.rsum (map (fun j : nat => square_distance (free_walk c dt d (repeat 0%R d) (after_blocks (gauss G) d (steps + j * steps) g) k)) (seq 0 num))).
    rewrite Nat.sub_0_r, Nat.add_0_l. cbn [after_blocks]. replace (k <=? steps) with true by (symmetry; apply Nat.leb_le; exact K). destruct (Nat.ltb_spec 0 k) as [P|P]; cbn [andb].
    + cbn [indep_new in_pos]. exact (Rplus_assoc _ _ _).
    + assert (k = 0) by lia. subst k. assert (Z : forall n, square_distance (repeat 0%R n) = 0%R) by (unfold square_distance, Spec_Position.rsum; induction n as [|n IHn]; cbn [repeat map fold_right]; [reflexivity|rewrite IHn; ring]).
      match goal with |- (_ = _ + (square_distance ?x + ?y))%R => change x with (repeat 0%R d) end. rewrite Z, Rplus_0_r, Rplus_0_l. reflexivity.
Qed.
End D.

(** Entry k of the table is the sum over the samples of the squared distance from the start after k steps; every sample uses its own draws, one block of normal samples for each step. *)
Theorem C52_matching_vector : forall (G : rng RR) num steps d (c dt : R) (v : list R) (g : rstate G), length v = d ->
  exists data, diffusion_loop (S := RR) num steps d c dt v (repeat 0%R (steps + 1)) g = (data, after_blocks (gauss G) d (num * steps) g, Ok tt) /\ length data = steps + 1 /\
    forall k, k <= steps -> nth k data 0%R = Spec_Position.rsum (map (fun j => square_distance (free_walk c dt d (repeat 0%R d) (after_blocks (gauss G) d (j * steps) g) k)) (seq 0 num)).
Proof.
  intros G num steps d c dt v g Lv. destruct (diffusion_table (G := G) c dt d steps num v (repeat 0%R (steps + 1)) g Lv (repeat_length _ _)) as (data & E & L & N).
  exists data. split; [exact E|]. split; [exact L|]. intros k K. rewrite (N k K). rewrite nth_repeat. lra.
Qed.
Print Assumptions C52_matching_vector.
(** A generator whose normal samples are all 1, one dimension, 2 c dt = 1: after k steps the particle is at k, so that two samples give 0, 2, 8. *)
Definition ones : rng RR := @Rng RR unit (fun u => (0%R, u)) (fun u => (1%R, u)).
Example C52_matching_vector_met : exists data g', diffusion_loop (S := RR) (G := ones) 2 2 1 (1 / 2)%R 1%R [5%R] (repeat 0%R 3) tt = (data, g', Ok tt) /\ data = [0%R; 2%R; 8%R].
Proof.
  destruct (C52_matching_vector ones 2 2 1 (1 / 2)%R 1%R [5%R] tt eq_refl) as (data & E & L & N). exists data. eexists. split; [exact E|].
  assert (Q : sqrt (2 * (1 / 2) * 1) = 1%R) by (replace (2 * (1 / 2) * 1)%R with 1%R by lra; apply sqrt_1).
  assert (W : forall k, free_walk (G := ones) (1 / 2)%R 1%R 1 (repeat 0%R 1) tt k = [INR k]).
  { assert (W : forall k x, free_walk (G := ones) (1 / 2)%R 1%R 1 [x] tt k = [(x + INR k)%R]).
    { induction k as [|k IH]; intros x; [unfold free_walk; cbn; f_equal; lra|]. rewrite free_walk_S. change (snd (draws (gauss ones) 1 tt)) with tt.
      change (vsum (S := RR) [x] (brownian_kick (S := RR) (1 / 2)%R 1%R (fst (draws (gauss ones) 1 tt)))) with [(x + 1 * sqrt (2 * (1 / 2) * 1))%R]. rewrite Q, IH, S_INR. f_equal. ring. }
    intros k. cbn [repeat]. rewrite W. f_equal. ring. }
  assert (V : forall k, k <= 2 -> nth k data 0%R = (2 * INR k ^ 2)%R).
  { intros k K. rewrite (N k K). cbn [seq map]. assert (U : forall u : rstate ones, u = tt) by (intros []; reflexivity). rewrite (U (after_blocks _ _ (0 * 2) tt)), (U (after_blocks _ _ (1 * 2) tt)), W. unfold square_distance, Spec_Position.rsum. cbn [map fold_right]. match goal with |- ?a = ?b => change (@eq R a b) end. ring. }
  destruct data as [|x [|y [|z [|]]]]; cbn in L; try lia. pose proof (V 0 ltac:(lia)) as V0. pose proof (V 1 ltac:(lia)) as V1. pose proof (V 2 ltac:(lia)) as V2. cbn in V0, V1, V2. f_equal; [lra|]. f_equal; [lra|]. f_equal. lra.
Qed.
