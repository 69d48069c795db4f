(** C78: the library's own checks of reflection at the wall of a disc (tests/boundary_cond.rs), in exact arithmetic. *)
From Coq Require Import Reals ZArith List Lra Lia.
From Verif Require Import Base Scalar Model_Position Spec_Position Proof_Position Model_System Spec_System Proof_System Proof_System2 Proof_System9 Proof_Mirror Proof_Mirror64 Float64 Model_Check Proof_Check Proof_Check64.
Import ListNotations.
Open Scope R_scope.

(** The step by step check: for every ball, every position in it and every displacement none of its assertions fails, and it reports what the exact reflection reports. *)
Theorem C78_check_never_fails : forall (s : circ RR) (p dp : list R), built_circ s -> length p = ci_dim s -> length dp = ci_dim s -> euclid_norm p <= ci_size s ->
  single_check s p dp = snd (circ_check_bc_exact s p dp) /\ (single_check s p dp = Ok tt \/ single_check s p dp = Err TooLargeTimeStep).
Proof.
  intros s p dp Bs Lp Ld In. pose proof (check_agrees s p dp Bs Lp Ld In) as E. split; [exact E|]. rewrite E.
  destruct (Rle_or_lt (euclid_norm (along p dp 1)) (ci_size s)) as [H|H].
  - destruct (inside_all s p dp Lp Ld H) as (E1 & _). rewrite E1. now left.
  - destruct (circ_check_bc_exact s p dp) as [[q dq] o] eqn:X. destruct (exact_parts s p dp q dq o Bs Lp Ld In H X) as (t & k & _ & _ & _ & _ & _ & _ & O). exact O.
Qed.
Print Assumptions C78_check_never_fails.

(** The test over the grid of positions and displacements succeeds. *)
Theorem C78_reflection_test_passes : reflection_test (S := RR) cos sin PI = Ok tt.
Proof. exact reflection_test_ok. Qed.
Print Assumptions C78_reflection_test_passes.

(** The test that lists the differences between the three reflections succeeds and writes nothing: none of its displacements leaves the disc. *)
Theorem C78_error_test_writes_nothing : error_test (S := RR) cos sin PI = ([], Ok tt).
Proof. exact error_test_empty. Qed.
Print Assumptions C78_error_test_writes_nothing.

(** The test that lists exact and radial images succeeds.  Its rows are exactly those of the 800 displacements that leave the disc and whose mirror image [q] differs from the radial image [q2]
    (the end point moved along its radius to the other side of the wall) by at least 1e-10; every row holds the start, the end, [q] and [q2], and [q] lies in the disc. *)
Definition grid_start : list R := [95 / 100; 0].
Definition grid_move (j k : nat) : list R := [INR j / 100 * cos (INR k * PI / 10); INR j / 100 * sin (INR k * PI / 10)].
Definition radial_image (e q : list R) : Prop := q = map (fun x => ((2 - euclid_norm e) / euclid_norm e) * x) e.
Theorem C78_realization_rows : snd (realization_test (S := RR) cos sin PI) = Ok tt /\
  forall row, In row (fst (realization_test (S := RR) cos sin PI)) <->
    exists (j k : nat) (t : R) (q q2 : list R), (j < 80)%nat /\ (k < 10)%nat /\ let p := grid_start in let d := grid_move j k in let e := along p d 1 in
      1 < euclid_norm e /\ leaves_at 1 p d t /\ mirror_image (along p d t) e q /\ radial_image e q2 /\ euclid_norm q <= 1 /\ 1 / 10000000000 <= euclid q q2 /\ row = (p, e, q, q2).
Proof.
  unfold realization_test. rewrite with_disc_R.
  assert (G : forall p d, In (p, d) (cases (S := RR) cos sin PI (seq 9 1) 80 (lit 1 100)) <-> exists j k, (j < 80)%nat /\ (k < 10)%nat /\ p = grid_start /\ d = grid_move j k).
  { intros p d. etransitivity; [apply (in_cases cos sin PI)|]. change (@lit RR 1 100) with (1 / 100). assert (E9 : 5 / 100 + INR 9 * (1 / 10) = 95 / 100) by (rewrite (INR_IZR_INZ 9); simpl (IZR _); lra).
    assert (Ed : forall j k, [INR j * (1 / 100) * cos (INR k * PI * (1 / 10)); INR j * (1 / 100) * sin (INR k * PI * (1 / 10))] = grid_move j k).
    { intros j k. unfold grid_move. replace (INR k * PI * (1 / 10)) with (INR k * PI / 10) by field. replace (INR j * (1 / 100)) with (INR j / 100) by field. reflexivity. }
    split.
    - intros (i & j & k & I & J & K & -> & ->). apply in_seq in I. assert (i = 9)%nat as -> by lia. rewrite E9, Ed. exists j, k. auto.
    - intros (j & k & J & K & -> & ->). exists 9%nat, j, k. rewrite E9, Ed. repeat split; auto. now left. }
  assert (O : forall j k, (j < 80)%nat -> (euclid_norm (along grid_start (grid_move j k) 1) <= 1 /\ realization_row disc grid_start (grid_move j k) = Ok None) \/
    (1 < euclid_norm (along grid_start (grid_move j k) 1) /\ exists u q, leaves_at 1 grid_start (grid_move j k) u /\ mirror_image (along grid_start (grid_move j k) u) (along grid_start (grid_move j k) 1) q /\ euclid_norm q <= 1 /\
      let q2 := map (fun x => ((2 - euclid_norm (along grid_start (grid_move j k) 1)) / euclid_norm (along grid_start (grid_move j k) 1)) * x) (along grid_start (grid_move j k) 1) in
      realization_row disc grid_start (grid_move j k) = Ok (if Rlt_dec (euclid q q2) (1 / 10000000000) then None else Some (grid_start, along grid_start (grid_move j k) 1, q, q2)))).
  { intros j k J. apply one_row. assert (H : INR j <= INR 79) by (apply le_INR; lia). rewrite (INR_IZR_INZ 79) in H. simpl (IZR _) in H. pose proof (pos_INR j). lra. }
  destruct (run_rows_ok (S := RR) (realization_row disc) (cases (S := RR) cos sin PI (seq 9 1) 80 (lit 1 100))) as (E & R).
  { intros p d I. apply G in I. destruct I as (j & k & J & K & -> & ->). destruct (O j k J) as [(_ & E)|(_ & u & q & _ & _ & _ & E)]; rewrite E; eauto. }
  split; [exact E|]. intros row. rewrite R. split.
  - intros (p & d & I & F). apply G in I. destruct I as (j & k & J & K & -> & ->). destruct (O j k J) as [(_ & E')|(Out & u & q & HL & HM & Q & E')]; rewrite E' in F; [discriminate|].
    destruct (Rlt_dec _ _) as [|N] in F; [discriminate|]. injection F as <-. exists j, k, u, q. eexists. split; [exact J|]. split; [exact K|]. cbv zeta. split; [exact Out|]. split; [exact HL|]. split; [exact HM|]. split; [reflexivity|]. split; [exact Q|]. split; [now apply Rnot_lt_le|reflexivity].
  - intros (j & k & t & q & q2 & J & K & Out & HL & HM & -> & Q & D & ->). exists grid_start, (grid_move j k). split; [apply G; exists j, k; auto|].
    destruct (O j k J) as [(H & _)|(_ & u & q' & HL' & HM' & _ & E')]; [exfalso; apply (Rle_not_lt _ _ H Out)|]. rewrite E'.
    assert (t = u) as <- by exact (leaves_once 1 grid_start (grid_move j k) t u HL HL').
    assert (q' = q) as ->. { refine (mirror_once _ _ _ _ _ _ HM' HM); [reflexivity|]. destruct HL as (_ & H1 & _). rewrite <- norm_sq, H1. lra. } destruct (Rlt_dec _ _) as [N|N]; [exfalso; exact (Rlt_not_le _ _ N D)|reflexivity].
Qed.
Print Assumptions C78_realization_rows.

(** In double precision, whatever the libm: if [cos] and [sin] return numbers of at most 1 in absolute value at every finite argument, both tests succeed, and the second writes nothing. *)
Theorem C78_f64_tests_pass : forall (lm : libm) (fc fs : b64 -> b64), (forall z, fin z = true -> fin (fc z) = true /\ Rabs (B2 (fc z)) <= 1) -> (forall z, fin z = true -> fin (fs z) = true /\ Rabs (B2 (fs z)) <= 1) ->
  reflection_test (S := F64 lm) fc fs pi64 = Ok tt /\ error_test (S := F64 lm) fc fs pi64 = ([], Ok tt).
Proof. intros lm fc fs Hc Hs. exact (conj (reflection_test_64 lm fc fs Hc Hs) (error_test_64 lm fc fs Hc Hs)). Qed.
Print Assumptions C78_f64_tests_pass.

(** There are rows: the displacement of length 79/100 at a right angle to the radius ends in images that are more than 1/100 apart. *)
Example C78_realization_writes : exists row, In row (fst (realization_test (S := RR) cos sin PI)).
Proof.
  set (h := [95 / 100; sqrt (975 / 10000)]). set (e := along grid_start (grid_move 79 5) 1).
  assert (Ed : grid_move 79 5 = [0; 79 / 100]).
  { unfold grid_move. replace (INR 5 * PI / 10) with (PI / 2) by (rewrite (INR_IZR_INZ 5); simpl (IZR _); field). rewrite cos_PI2, sin_PI2, (INR_IZR_INZ 79). simpl (IZR _). f_equal; [field|]. f_equal. field. }
  assert (Ee : e = [95 / 100; 79 / 100]). { unfold e. rewrite Ed. unfold along, grid_start. cbn [combine map fst snd]. f_equal; [field|]. f_equal. field. }
  set (w := sqrt (975 / 10000)) in *. assert (W2 : w * w = 975 / 10000) by (apply sqrt_sqrt; lra). assert (W0 : 0 <= w) by apply sqrt_pos.
  assert (W : 312 / 1000 <= w <= 313 / 1000) by (split; nra).
  assert (N2 : forall x y, euclid_norm [x; y] = sqrt (x ^ 2 + y ^ 2)) by exact norm_pair.
  set (k := 79 / 100 * w - 975 / 10000). set (q := [95 / 100 - 2 * k * (95 / 100); 79 / 100 - 2 * k * w]).
  set (rho := euclid_norm e). assert (Rho : 1235 / 1000 <= rho <= 1236 / 1000).
  { unfold rho. rewrite Ee, N2. split; [rewrite <- (sqrt_pow2 (1235 / 1000)) by lra|rewrite <- (sqrt_pow2 (1236 / 1000)) by lra]; apply sqrt_le_1_alt; lra. }
  set (q2 := map (fun x => ((2 - rho) / rho) * x) e).
  exists (grid_start, e, q, q2). apply C78_realization_rows. exists 79%nat, 5%nat, (w * (100 / 79)), q, q2. split; [lia|]. split; [lia|]. cbv zeta. fold e. fold rho.
  assert (Al : forall t, along grid_start (grid_move 79 5) t = [95 / 100; 79 / 100 * t]). { intros t. rewrite Ed. unfold along, grid_start. cbn [combine map fst snd]. f_equal; [field|]. f_equal. field. }
  split; [lra|]. split.
  { split; [lra|]. split; [rewrite Al, N2; replace ((95 / 100) ^ 2 + (79 / 100 * (w * (100 / 79))) ^ 2) with ((95 / 100) ^ 2 + w * w) by field; rewrite W2; replace (_ + _) with (1 ^ 2) by lra; apply sqrt_pow2; lra|].
    split; intros u U; rewrite Al, N2.
    - rewrite <- (sqrt_pow2 1) by lra. apply sqrt_le_1_alt. assert (B : 0 <= 79 / 100 * u <= w) by lra. assert ((79 / 100 * u) ^ 2 <= w ^ 2) by (apply pow_incr; exact B). lra.
    - rewrite <- (sqrt_pow2 1) by lra. apply sqrt_lt_1_alt. assert (B : w < 79 / 100 * u) by lra. assert (w * w < 79 / 100 * u * (79 / 100 * u)) by (apply Rmult_le_0_lt_compat; lra). lra. }
  split.
  { rewrite Al. replace (79 / 100 * (w * (100 / 79))) with w by field. exists k. rewrite Ee. split.
    - unfold dot, along, rsum. cbn [combine map fold_right fst snd]. unfold k. replace (95 / 100 * (95 / 100 + - (79 / 100 * w - 975 / 10000) * (95 / 100)) + (w * (79 / 100 + - (79 / 100 * w - 975 / 10000) * w) + 0)) with ((95 / 100) ^ 2 * (1 - (79 / 100 * w - 975 / 10000)) + 79 / 100 * w - (79 / 100 * w - 975 / 10000) * (w * w)) by ring. rewrite W2. field.
    - unfold q, along. cbn [combine map fst snd]. f_equal; [ring|]. f_equal. ring. }
  split; [unfold q2; fold rho; reflexivity|]. assert (K : 1489 / 10000 <= k <= 1498 / 10000) by (unfold k; lra).
  split.
  { unfold q. rewrite N2. rewrite <- (sqrt_pow2 1) by lra. apply sqrt_le_1_alt. replace ((95 / 100 - 2 * k * (95 / 100)) ^ 2 + (79 / 100 - 2 * k * w) ^ 2) with ((95 / 100) ^ 2 * (1 - 2 * k) ^ 2 + (79 / 100) ^ 2 - 4 * (79 / 100) * (k * w) + 4 * (k * k) * (w * w)) by ring. rewrite W2.
    assert (1489 / 10000 * (312 / 1000) <= k * w) by (apply Rmult_le_compat; lra). assert (k * k <= 1498 / 10000 * (1498 / 10000)) by (apply Rmult_le_compat; lra). assert ((1 - 2 * k) ^ 2 <= (7022 / 10000) ^ 2) by (apply pow_incr; lra). lra. }
  split; [|reflexivity].
  assert (C : (2 - rho) / rho <= 62 / 100). { apply Rmult_le_reg_r with rho; [lra|]. unfold Rdiv at 1. rewrite Rmult_assoc, Rinv_l by lra. lra. }
  pose proof (coord_euclid [(95 / 100 - 2 * k * (95 / 100), (2 - rho) / rho * (95 / 100)); (79 / 100 - 2 * k * w, (2 - rho) / rho * (79 / 100))] fst snd _ (or_introl eq_refl)) as D. cbn [map fst snd] in D.
  unfold q, q2. rewrite Ee. cbn [map]. apply Rle_trans with (2 := D). apply Rle_trans with (2 := Rle_abs _). lra.
Qed.
(** The hypotheses on [cos] and [sin] are met, here by a pair of constants. *)
Example C78_f64_tests_met : (forall z : b64, fin z = true -> fin (b64_of_Z 1) = true /\ Rabs (B2 (b64_of_Z 1)) <= 1).
Proof. intros z _. destruct (of_Z_exact 1) as (F1 & E1); [lia|]. split; [exact F1|]. rewrite E1, Rabs_R1. lra. Qed.
(** The step by step check with a displacement that leaves the ball: (0, 8) from (3, 0) in the disc of radius 5. *)
Example C78_check_met : let s := Circ (S := RR) ContinuousCircular Reflection 5 2 in
  built_circ s /\ euclid_norm [3; 0] <= ci_size s /\ ci_size s < euclid_norm (along [3; 0] [0; 8] 1).
Proof.
  split; [apply built_ball; [lra|lia]|]. change (ci_size (Circ (S := RR) ContinuousCircular Reflection 5 2)) with 5. change (along [3; 0] [0; 8] 1) with [3 + 1 * 0; 0 + 1 * 8]. rewrite !norm_pair. split.
  - rewrite <- (sqrt_pow2 5) by lra. apply sqrt_le_1_alt. lra.
  - rewrite <- (sqrt_pow2 5) at 1 by lra. apply sqrt_lt_1_alt. lra.
Qed.
