(** Binary64: the in-place random position of the cylinder. *)
From Coq Require Import Reals ZArith List Lra Lia.
From Flocq Require Import Core.
From Flocq.IEEE754 Require Import BinarySingleNaN.
From Verif Require Import Base Scalar Float64 Model_Position Spec_Position Proof_Position Proof_Norm64
  Model_System Spec_System Proof_System Proof_System2 Proof_System3 Proof_System4 Proof_System6.
Local Open Scope R_scope.

Section F.
Variable lm : libm.
Local Notation F := (F64 lm).
Context {G : rng F}.
Notation gen := (rstate G).

Lemma one_fit : fit (b64_of_Z 1) /\ B2 (b64_of_Z 1) = 1.
Proof.
  destruct (of_Z_exact 1 ltac:(simpl; lia)) as (F1 & E1). split; [|exact E1]. split; [exact F1|]. rewrite E1. split; [lra|].
  apply Rle_trans with (2 ^ 0); [simpl; lra|]. apply Rle_pow; [lra|lia].
Qed.
(** One coordinate of the in-place version: a uniform sample spread over [-1,1], times [2*l]. *)
Lemma twice1 (u l : b64) : fin u = true -> 0 <= B2 u <= 1 -> fit l ->
  bounded64 (Bmult mode_NE (b64_of_Z 2) l)
    (Bmult mode_NE (Bplus mode_NE (Bplus mode_NE (b64_of_Z 0) (Bmult mode_NE u (Bminus mode_NE (b64_of_Z 1) (Bopp (b64_of_Z 1))))) (Bopp (b64_of_Z 1)))
       (Bmult mode_NE (b64_of_Z 2) l)).
Proof.
  intros Fu Bu Ft. destruct one_fit as (O1 & O2). destruct (spread1 u (b64_of_Z 1) Fu Bu O1) as (Fx & Bx). rewrite O2 in Bx.
  destruct (dbl l Ft) as (F2 & E2). pose proof Ft as (_ & Bl). destruct (mult_val _ _ Fx F2) as (N2 & V2).
  eapply res_bounded; [exact N2|exact V2|]. rewrite Rabs_mult, E2, (Rabs_pos_eq (2 * B2 l)) by lra.
  apply Rle_trans with (1 * (2 * B2 l)); [|lra]. apply Rmult_le_compat_r; lra.
Qed.
Lemma twice_64 (l : b64) (u : list b64) : fit l -> Forall (fun x : b64 => fin x = true /\ 0 <= B2 x <= 1) u ->
  Forall (bounded64 (Bmult mode_NE (b64_of_Z 2) l))
   (map (fun u => Bmult mode_NE (Bplus mode_NE (Bplus mode_NE (b64_of_Z 0) (Bmult mode_NE u (Bminus mode_NE (b64_of_Z 1) (Bopp (b64_of_Z 1))))) (Bopp (b64_of_Z 1)))
       (Bmult mode_NE (b64_of_Z 2) l)) u).
Proof. intros Ft. apply Forall_map_imp. intros x (Fx & Bx). now apply twice1. Qed.

Lemma cyl_random_to_64 fuel (s : cyl F) d (g : gen) (v : list b64) : cy_type s = ContinuousCylindrical d -> (d <= cy_dim s)%nat ->
  fit (cy_radius s) -> fit (cy_length s) -> unif_64 G -> length v = cy_dim s ->
  (exists q g', cyl_random_to fuel s g v = (q, g', Ok tt) /\ length q = cy_dim s /\ finite_pos q /\
     Bltb (norm (S := F) (firstn d q)) (cy_radius s) = true /\ Forall (fun x : b64 => Rabs (B2 x) <= 2 * B2 (cy_length s)) (skipn d q)) \/
  snd (cyl_random_to fuel s g v) = Fuel.
Proof.
  intros T D Fr Fl U L. rewrite (proj2 (cyl_random_to_dim fuel s d g v T) L).
  destruct (cyl_random_to_result fuel s d g v D L) as [[E _]|(k & K & E & N)]; [now right|left].
  cbv zeta in E, N. do 2 eexists. split; [exact E|]. clear E.
  match goal with |- context [cyl_cand_to s d ?c] => set (u := c) in * end.
  assert (Lu : @length b64 u = cy_dim s) by (exact (draws_len64 lm (cy_dim s) _)).
  assert (Fu : Forall (fun x : b64 => fin x = true /\ 0 <= B2 x <= 1) u) by (exact (uniforms_64 lm (cy_dim s) _ U)). clearbody u.
  set (q := cyl_cand_to s d u) in *.
  assert (Lq : @length b64 q = cy_dim s).
  { unfold q, cyl_cand_to. etransitivity; [exact (cyl_scale_length s d _)|]. rewrite map_length. exact Lu. }
  assert (Sp : Forall (bounded64 (Bmult mode_NE (b64_of_Z 2) (cy_radius s))) (firstn d q) /\ Forall (bounded64 (Bmult mode_NE (b64_of_Z 2) (cy_length s))) (skipn d q)).
  { unfold q, cyl_cand_to, cyl_scale. rewrite firstn_map, skipn_map, !map_map.
    match goal with |- context [firstn d (?a ++ ?b)] => assert (La : @length b64 a = d) by (rewrite map_length, firstn_length; change (car F) with b64; lia);
      destruct (split_app a b d La) as (Qf & Qs) end.
    apply (Forall_firstn_skipn _ d) in Fu. destruct Fu as (Fu1 & Fu2). split.
    - refine (eq_ind_r (fun z => Forall _ z) _ Qf). exact (twice_64 (cy_radius s) (firstn d u) Fr Fu1).
    - refine (eq_ind_r (fun z => Forall _ z) _ Qs). exact (twice_64 (cy_length s) (skipn d u) Fl Fu2). }
  destruct Sp as (S1 & S2). split; [exact Lq|split; [|split]].
  - apply (Forall_firstn_skipn _ d). split; eapply bounded_fin; eauto.
  - exact N.
  - eapply Forall_impl; [|exact S2]. intros x (_ & H). destruct (dbl _ Fl) as (_ & E2). now rewrite E2 in H.
Qed.
End F.
