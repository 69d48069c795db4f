(** Seeds of all programs (C56) and the limit of a move in examples/mfpt_exp.rs (C47). *)
From Coq Require Import Reals NArith ZArith List Lra Lia.
From Flocq Require Import Core.
From Flocq.IEEE754 Require Import BinarySingleNaN.
From Verif Require Import Base Scalar Float64 Spec_Position Model_Run Model_Program Model_Program3 Spec_Force64 Proof_Force64b Proof_Seeds.
Local Open Scope R_scope.

(** * C56: which seed a run uses *)
(** Exact arithmetic: the seed is the seed argument plus the whole part of a fixed combination of the parameters (mfpt_exp; the programs of tests/test_setup.rs and tests/arguments.rs). *)
Theorem C56_seed_value : forall (size ts st g : R) (dim n i : nat) (seed s : N),
  let h : R := 628398227 * size + 431710567 * INR dim + 277627711 * ts + 719236607 * INR n + 917299259 * st + 367276621 * g + 570914867 * INR i in
  0 <= h < IZR (2 ^ 128) -> run_seed (S := RR) R_as_u128 seed (seed_hash (S := RR) size dim ts n st g i) = Ok s -> Z.of_N s = (Z.of_N seed + Zfloor h)%Z.
Proof. intros size ts st g dim n i seed s h H E. unfold h in *. rewrite <- (exp_hash_R size ts st g dim n i) in *. exact (real_seed _ _ _ H E). Qed.
Print Assumptions C56_seed_value.
Theorem C56_race_seed_value : forall (size ts : R) (dim n i : nat) (seed s : N),
  let h : R := 628398227 * size + 431710567 * INR dim + 277627711 * ts + 719236607 * INR n + 570914867 * INR i in
  0 <= h < IZR (2 ^ 128) -> run_seed (S := RR) R_as_u128 seed (ind_hash (S := RR) size dim ts n i) = Ok s -> Z.of_N s = (Z.of_N seed + Zfloor h)%Z.
Proof. intros size ts dim n i seed s h H E. unfold h in *. rewrite <- (ind_hash_R size ts dim n i) in *. exact (real_seed _ _ _ H E). Qed.
Print Assumptions C56_race_seed_value.
(** Doubles: also in the programs of the tests the seed grows with the index as long as the hash is not negative and at most 2^53. *)
Theorem C56_race_seeds_increase : forall lm (size ts : F64 lm) dim n i j seed s t,
  let h k : b64 := ind_hash (S := F64 lm) size dim ts n k in
  is_finite (h 0%nat) = true -> (0 <= B2R (h 0%nat))%R -> (B2R (h 0%nat) + 570914867 * INR j <= IZR (2 ^ 53))%R -> (i < j)%nat ->
  run_seed (S := F64 lm) b64_as_u128 seed (h i) = Ok s -> run_seed (S := F64 lm) b64_as_u128 seed (h j) = Ok t -> (s < t)%N.
Proof. exact ind_seeds_lt. Qed.
Print Assumptions C56_race_seeds_increase.
(** System of size 10 in two dimensions, target of size 1, three agents: the seeds of index 1 and 2. *)
Example C56_race_seeds_met : forall lm, let h k : b64 := ind_hash (S := F64 lm) (b64_of_Z 10 : F64 lm) 2 (b64_of_Z 1 : F64 lm) 3 k in
  is_finite (h 0%nat) = true /\ (0 <= B2R (h 0%nat))%R /\ (B2R (h 0%nat) + 570914867 * INR 2 <= IZR (2 ^ 53))%R /\
  run_seed (S := F64 lm) b64_as_u128 5 (h 1%nat) = Ok 10153655808%N /\ run_seed (S := F64 lm) b64_as_u128 5 (h 2%nat) = Ok 10724570675%N.
Proof.
  intros lm. cbv zeta. split; [vm_compute; reflexivity|]. 
  assert (E : B2R (ind_hash (S := F64 lm) (b64_of_Z 10 : F64 lm) 2 (b64_of_Z 1 : F64 lm) 3 0 : b64) = 9582740936) by (vm_compute; lra).
  split; [rewrite E; lra|]. split; [rewrite E; change (IZR (2 ^ 53)) with 9007199254740992; simpl INR; lra|]. split; vm_compute; reflexivity.
Qed.

(** * C47: the limit of a move in examples/mfpt_exp.rs is the smaller of a tenth of the target size and the range of the repulsion *)
Theorem C47_limit_is_the_smaller_length : forall ts g : R, (exp_limit (S := RR) ts g : R) = Rmin (ts / 10) g.
Proof. exact limit_R_min. Qed.
Print Assumptions C47_limit_is_the_smaller_length.
Theorem C47_f64_limit_is_the_smaller_length : forall (lm : libm) (ts g : b64), sized 400 ts -> 0 < B2R ts -> is_finite g = true ->
  let l : b64 := exp_limit (S := F64 lm) (ts : F64 lm) (g : F64 lm) in
  is_finite l = true /\ B2R l <= B2R g /\ Rabs (B2R l - Rmin (B2R ts / 10) (B2R g)) <= 4 * u64 * (B2R ts / 10).
Proof. exact limit_64. Qed.
Print Assumptions C47_f64_limit_is_the_smaller_length.
Example C47_limit_met : sized 400 (b64_of_Z 1) /\ 0 < B2R (b64_of_Z 1) /\ is_finite (b64_of_Z 3) = true.
Proof.
  destruct (of_Z_exact 1) as (F1 & E1); [lia|]. destruct (of_Z_exact 3) as (F3 & E3); [lia|]. pose proof (proj2 (brel_Z 1 400 ltac:(lia) ltac:(apply pow_R1_Rle; lra))) as B. rewrite <- E1 in B. split; [split; [exact F1|exact B]|].
  split; [|exact F3]. change (B2R (b64_of_Z 1)) with (B2 (b64_of_Z 1)). rewrite E1. lra.
Qed.
