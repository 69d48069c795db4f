(** Seeds of all programs, and the limit of a move in examples/mfpt_exp.rs. *)
From Coq Require Import Reals NArith ZArith List Lra Lia.
From Flocq Require Import Core.
From Flocq.IEEE754 Require Import BinarySingleNaN.
From Verif Require Import Base Scalar Float64 Proof_Time Proof_Time4 Proof_Norm64 Proof_Analysis8 Model_Position Model_System Model_Agent Model_Text Spec_Text Model_Args Spec_Args Model_Run Model_Program Spec_Program Proof_Program Proof_Program2 Proof_Program5
  Model_Program3 Spec_Position Proof_Rel64 Proof_Force64 Proof_Force64b Spec_Force64 Proof_System4.
Local Open Scope R_scope.

Lemma real_seed (h : R) seed s : 0 <= h < IZR (2 ^ 128) -> run_seed (S := RR) R_as_u128 seed (h : RR) = Ok s -> Z.of_N s = (Z.of_N seed + Zfloor h)%Z.
Proof. intros H E. apply seed_inv in E. subst s. rewrite N2Z.inj_add, (u128_of _ H). reflexivity. Qed.
Lemma exp_hash_R (size ts st g : R) dim n i : (seed_hash (S := RR) size dim ts n st g i : R) =
  628398227 * size + 431710567 * INR dim + 277627711 * ts + 719236607 * INR n + 917299259 * st + 367276621 * g + 570914867 * INR i.
Proof. unfold seed_hash. change (@add RR) with Rplus. change (@mul RR) with Rmult. change (@of_Z RR) with IZR. rewrite !INR_IZR_INZ. reflexivity. Qed.
Lemma ind_hash_R (size ts : R) dim n i : (ind_hash (S := RR) size dim ts n i : R) = 628398227 * size + 431710567 * INR dim + 277627711 * ts + 719236607 * INR n + 570914867 * INR i.
Proof. unfold ind_hash. change (@add RR) with Rplus. change (@mul RR) with Rmult. change (@of_Z RR) with IZR. rewrite !INR_IZR_INZ. reflexivity. Qed.

Lemma ind_seeds_lt (lm : libm) (size ts : F64 lm) dim n i j seed s t :
  let h k : b64 := ind_hash (S := F64 lm) size dim ts n k in
  fin (h 0%nat) = true -> 0 <= B2 (h 0%nat) -> B2 (h 0%nat) + 570914867 * INR j <= IZR (2 ^ 53) -> (i < j)%nat ->
  run_seed (S := F64 lm) b64_as_u128 seed (h i) = Ok s -> run_seed (S := F64 lm) b64_as_u128 seed (h j) = Ok t -> (s < t)%N.
Proof.
  intros h F0 P0 B0 L Es Et. apply seed_inv in Es. apply seed_inv in Et. exact (seeds_lt64 _ i j seed s t F0 P0 B0 L Es Et).
Qed.

(** The limit of a move. *)
Lemma limit_R_min (ts g : R) : (exp_limit (S := RR) ts g : R) = Rmin (ts / 10) g.
Proof.
  unfold exp_limit. change (lit (s := RR) 1 10 * ts)%S with (1 / 10 * ts). replace (1 / 10 * ts) with (ts / 10) by field.
  match goal with |- (if ?b then _ else _) = _ => change b with (Rltb g (ts / 10)) end. unfold Rmin. destruct (Rltb g (ts / 10)) eqn:E.
  - apply Rltb_spec in E. destruct (Rle_dec (ts / 10) g); [lra|reflexivity].
  - apply Rltb_false in E. destruct (Rle_dec (ts / 10) g); [reflexivity|lra].
Qed.

Lemma min_near a b g : Rabs (Rmin a g - Rmin b g) <= Rabs (a - b).
Proof. unfold Rmin. destruct (Rle_dec a g), (Rle_dec b g); unfold Rabs; repeat destruct Rcase_abs; lra. Qed.
Lemma limit_64 (lm : libm) (ts g : b64) : sized 400 ts -> 0 < B2 ts -> fin g = true ->
  let l : b64 := exp_limit (S := F64 lm) (ts : F64 lm) (g : F64 lm) in
  fin l = true /\ B2 l <= B2 g /\ Rabs (B2 l - Rmin (B2 ts / 10) (B2 g)) <= 4 * u64 * (B2 ts / 10).
Proof.
  intros (Ft & Bt) Pt Fg. cbv zeta.
  assert (H1 : brel 0 0 (b64_of_Z 1) 1) by (apply brel_Z; [lia|simpl; lra]). assert (H10 : brel 0 4 (b64_of_Z 10) 10) by (apply brel_Z; [lia|simpl; lra]).
  pose proof (brel_div _ _ _ _ _ _ _ _ H1 H10 ltac:(lia) ltac:(lia)) as D. pose proof (brel_mul _ _ _ _ _ _ _ _ D (brel_exact 400 ts Ft Bt) ltac:(lia) ltac:(lia)) as (RT & _). cbn [Nat.add] in RT.
  set (T := Bmult mode_NE (Bdiv mode_NE (b64_of_Z 1) (b64_of_Z 10)) ts) in *. destruct (rel_bound _ _ _ RT (few 2 ltac:(lia))) as (FT & ET). change (2 * INR 2) with (2 * (1 + 1)) in ET.
  replace (1 / 10 * B2 ts) with (B2 ts / 10) in ET by field. rewrite (Rabs_pos_eq (B2 ts / 10)) in ET by lra.
  assert (EM : exists l : b64, exp_limit (S := F64 lm) (ts : F64 lm) (g : F64 lm) = l :> b64 /\ fin l = true /\ B2 l = Rmin (B2 T) (B2 g)).
  { exists (if Bltb g T then g else T). split; [reflexivity|]. destruct (ltb64 g T Fg FT) as (Q1 & Q2). unfold Rmin. destruct (Bltb g T).
    - split; [exact Fg|]. destruct (Rle_dec (B2 T) (B2 g)); [|reflexivity]. pose proof (proj1 Q1 eq_refl). lra.
    - split; [exact FT|]. pose proof (proj1 Q2 eq_refl). destruct (Rle_dec (B2 T) (B2 g)) as [|N]; [reflexivity|lra]. }
  destruct EM as (l & EL & FM & EM). refine (eq_ind_r (fun z : b64 => fin z = true /\ B2 z <= B2 g /\ Rabs (B2 z - Rmin (B2 ts / 10) (B2 g)) <= 4 * u64 * (B2 ts / 10)) _ EL). cbv beta. split; [exact FM|]. rewrite EM. split; [apply Rmin_r|]. apply Rle_trans with (1 := min_near _ _ _). lra.
Qed.
