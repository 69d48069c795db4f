(** The reflection tests in exact arithmetic. *)
From Coq Require Import Reals ZArith List Lra Lia Psatz.
From Verif Require Import Base Scalar Model_Position Spec_Position Proof_Position Model_System Spec_System Proof_System Proof_System2 Proof_System9 Proof_System12 Proof_Mirror Model_Check.
Import ListNotations.
Local Open Scope R_scope.

Lemma pos_add_R (p q : list R) : length p = length q -> pos_add (S := RR) p q = Ok (along p q 1).
Proof.
  intros L. unfold pos_add, dim. pose proof (L : @length (car RR) p = @length (car RR) q) as L'. rewrite L', Nat.eqb_refl. cbn [negb]. f_equal. exact (vsum_along p q).
Qed.
Lemma pos_sub_R (p q : list R) : length p = length q -> pos_sub (S := RR) p q = Ok (along p q (-1)).
Proof.
  intros L. unfold pos_sub, dim. pose proof (L : @length (car RR) p = @length (car RR) q) as L'. rewrite L', Nat.eqb_refl. cbn [negb]. f_equal. unfold along. apply map_ext. intros a. change (fst a - snd a = fst a + -1 * snd a). ring.
Qed.
Lemma along_scaled (p d : list R) t : length p = length d -> along p (scalar_mul (S := RR) d t) 1 = along p d t.
Proof.
  unfold along, scalar_mul. revert d. induction p as [|x p IH]; intros [|y d] L; try discriminate; [reflexivity|]. injection L as L. specialize (IH d L). cbn [map combine fst snd]. f_equal; [|exact IH]. change (x + 1 * (y * t) = x + t * y). ring.
Qed.
Lemma scaled_len (d : list R) t : @length R (scalar_mul (S := RR) d t) = length d.
Proof. exact (map_length _ _). Qed.
Lemma dot_scaled (d h : list R) t : length d = length h -> dot (scalar_mul (S := RR) d t) h = t * dot d h.
Proof.
  unfold dot, rsum, scalar_mul. revert h. induction d as [|x d IH]; intros [|y h] L; try discriminate; [cbn; ring|]. injection L as L. specialize (IH h L). cbn [map combine fst snd fold_right]. etransitivity; [apply (f_equal (fun z => x * t * y + z)); exact IH|]. ring.
Qed.
Lemma tol_pos : Rltb (Rabs 0) (1 / 10000000000) = true.
Proof. unfold Rltb. rewrite Rabs_R0. destruct (Rlt_dec _ _) as [|N]; [reflexivity|exfalso; apply N; lra]. Qed.

Lemma check_agrees (s : circ RR) (p dp : list R) : built_circ s -> length p = ci_dim s -> length dp = ci_dim s -> euclid_norm p <= ci_size s ->
  single_check s p dp = snd (circ_check_bc_exact s p dp).
Proof.
  intros Bu Lp Ld In. pose proof (circ_pos_R s Bu) as P. assert (L : length p = length dp) by congruence.
  assert (Lm : @length R (vsum (S := RR) p dp) = ci_dim s) by (exact (vsum_len2 (S := RR) p dp _ Lp Ld)).
  unfold single_check. rewrite (pos_add_R p dp L). cbn [bind].
  destruct (circ_inclusion_R s _ Lm) as [[E I]|[E I]]; rewrite vsum_along in E, I.
  { rewrite E. cbn [bind]. rewrite <- vsum_along in E. now rewrite (proj1 (circ_exact_interior (S := RR) s p dp L E)). }
  rewrite E. cbn [bind]. unfold circ_check_bc_exact. rewrite (mut_add_vsum p dp L), vsum_along, E, <- vsum_along, (vsub_back p dp L), (inner_R p dp L). cbn [bind]. cbv zeta. rewrite !rr_norm_euclid.
  set (r := (ci_size s : R)) in *. set (B := dot p dp).
  change (@opp RR) with Ropp. change (@fsqrt RR) with sqrt. change (@add RR) with Rplus. change (@sub RR) with Rminus. change (@fabs RR) with Rabs. change (@ltb RR) with Rltb.
  change (@mul RR) with Rmult. change (@div RR) with Rdiv. change (@s1 RR) with 1. change (@s2 RR) with 2. change (@lit RR 1 10000000000) with (1 / 10000000000).
  set (t := (- B + sqrt (B * B + euclid_norm dp * euclid_norm dp * (r * r - euclid_norm p * euclid_norm p))) / (euclid_norm dp * euclid_norm dp)).
  set (k := (1 - t) * (B + t * euclid_norm dp * euclid_norm dp) / (r * r)).
  assert (NA : euclid_norm dp * euclid_norm dp = sq dp) by (apply sqrt_sqrt, sq_nonneg).
  assert (NP : euclid_norm p * euclid_norm p = sq p) by (apply sqrt_sqrt, sq_nonneg).
  assert (Sp : sq p <= r ^ 2) by (apply norm_le_sq; [lra|exact In]).
  assert (So : r ^ 2 < sq (along p dp 1)) by (apply norm_lt_sq; [lra|now apply Rnot_le_lt]).
  rewrite sq_along in So by exact L. fold B in So.
  assert (A0 : 0 < sq dp).
  { destruct (Rle_lt_or_eq_dec 0 (sq dp) (sq_nonneg dp)) as [|Z]; [assumption|exfalso].
    pose proof (cauchy p dp L) as CS. change (dotp p dp) with (dot p dp) in CS. fold B in CS. rewrite <- Z in *. assert (B = 0) by nra. nra. }
  assert (Et : t = (- B + sqrt (B * B + sq dp * (r ^ 2 - sq p))) / sq dp).
  { unfold t. rewrite NA, NP. do 2 f_equal. f_equal. f_equal. f_equal. f_equal. ring. }
  destruct (root_facts (sq dp) B (r ^ 2 - sq p) t A0 ltac:(lra) ltac:(lra) Et) as (T01 & TE & TI & TO).
  assert (SH : sq (along p dp t) = r ^ 2) by (rewrite sq_along by exact L; fold B; lra).
  rewrite (pos_add_R p (scalar_mul (S := RR) dp t)) by (rewrite scaled_len; exact L). cbn [bind]. rewrite (along_scaled p dp t L), rr_norm_euclid.
  rewrite (norm_eq_sq (along p dp t) r) by (lra || exact SH). replace (r - r) with 0 by ring. rewrite tol_pos. cbn [negb].
  assert (La : forall u, length (along p dp u) = length p) by (intros u; now apply along_length).
  rewrite (pos_sub_R (scalar_mul (S := RR) dp (1 - t)) (scalar_mul (S := RR) (along p dp t) k)) by (rewrite !scaled_len, La; congruence). cbn [bind].
  set (dx := along _ _ (-1)). assert (Ldx : length dx = length p) by (unfold dx; rewrite along_length; rewrite !scaled_len, ?La; congruence).
  rewrite (inner_R dx (along p dp t)) by (rewrite La; exact Ldx). cbn [bind].
  assert (Z : dot dx (along p dp t) = 0).
  { rewrite dot_comm. unfold dx. rewrite dot_along by (rewrite !scaled_len, ?La; congruence). rewrite !(dot_comm (along p dp t)). rewrite !dot_scaled by (rewrite ?La; congruence). rewrite dot_self, SH.
    rewrite dot_along by congruence. rewrite (dot_comm dp p), dot_self. fold B. assert (K : k * r ^ 2 = (1 - t) * (B + t * sq dp)). { unfold k. rewrite <- NA. field. lra. } nra. }
  rewrite Z, tol_pos. cbn [negb].
  rewrite (pos_add_R (scalar_mul (S := RR) p (1 - 2 * k)) (scalar_mul (S := RR) dp (1 - 2 * k * t))) by (rewrite !scaled_len; exact L). cbn [bind].
  change (@mut_scalar_mul RR) with (@scalar_mul RR).
  rewrite (mut_add_vsum (scalar_mul (S := RR) p (1 - 2 * k)) (scalar_mul (S := RR) dp (1 - 2 * k * t))) by (rewrite !scaled_len; congruence).
  clear E. rewrite vsum_along. match goal with |- context [circ_inclusion s ?z] => destruct (circ_inclusion s z) as [[|]| | |] end; reflexivity.
Qed.

(** When the exact image lies in the ball. *)
Lemma exact_accepted (s : circ RR) (p dp : list R) : built_circ s -> length p = ci_dim s -> length dp = ci_dim s -> euclid_norm p <= ci_size s -> ci_size s < euclid_norm (along p dp 1) ->
  (sq dp + dot p dp) ^ 2 <= 9 * (dot p dp ^ 2 + sq dp * ((ci_size s : R) ^ 2 - sq p)) ->
  exists t q dq, circ_check_bc_exact s p dp = (q, dq, Ok tt) /\ leaves_at (ci_size s) p dp t /\ mirror_image (along p dp t) (along p dp 1) q /\ euclid_norm q <= ci_size s.
Proof.
  intros Bu Lp Ld In Out H. pose proof (circ_pos_R s Bu) as P. assert (L : length p = length dp) by congruence. assert (La : forall u, length (along p dp u) = length p) by (intros u; now apply along_length).
  destruct (circ_exact_R s p dp Bu Lp Ld In Out) as (t & q & dq & HL & HM & Q1 & _). exists t, q, dq. pose proof HL as ((T1 & T2) & T3 & _). set (r := (ci_size s : R)) in *.
  assert (A : euclid_norm q <= r); [|auto]. apply norm_le_sq; [lra|]. destruct HM as (k & K1 & ->).
  assert (SH : sq (along p dp t) = r ^ 2) by (rewrite <- T3; symmetry; apply norm_sq). set (h := along p dp t) in *. set (e := along p dp 1) in *. set (D := sq dp) in *. set (b := dot p dp) in *.
  assert (Sp : sq p <= r ^ 2) by (apply norm_le_sq; [lra|exact In]). assert (D0 : 0 <= D) by apply sq_nonneg.
  rewrite (dot_along e h (- k)) in K1 by (unfold e, h; rewrite !La; reflexivity). rewrite dot_self, SH in K1.
  assert (EH : dot h e = sq p + (1 + t) * b + t * D).
  { unfold e. rewrite dot_along by (unfold h; rewrite ?La; congruence). rewrite (dot_comm h p), (dot_comm h dp). unfold h. rewrite !dot_along by congruence. rewrite (dot_comm dp p), !dot_self. fold b D. ring. }
  rewrite EH in K1. unfold h in SH. rewrite sq_along in SH by exact L. fold b D in SH.
  rewrite sq_along by (unfold e, h; rewrite !La; reflexivity). rewrite (dot_comm e h), EH. unfold e, h. rewrite !sq_along by exact L. fold b D.
  set (w := b + t * D). assert (W2 : w ^ 2 = b ^ 2 + D * (r ^ 2 - sq p)) by (unfold w; rewrite <- SH; ring).
  assert (W0 : 0 <= w). { apply Rnot_lt_le. intros N. pose proof HL as (_ & _ & _ & HO).
    assert (So : r ^ 2 < sq e) by (apply norm_lt_sq; [lra|exact Out]). unfold e in So. rewrite sq_along in So by exact L. fold b D in So. assert (X : 0 < (1 - t) * (2 * w + (1 - t) * D)) by (unfold w; lra).
    assert (X2 : 0 < 2 * w + (1 - t) * D). { apply Rnot_le_lt. intros M. assert (0 <= (1 - t) * - (2 * w + (1 - t) * D)) by (apply Rmult_le_pos; lra). lra. }
    assert (Dp : 0 < D). { destruct D0 as [|E0]; [assumption|]. rewrite <- E0 in X2. lra. } set (m := - w / D). assert (mD : m * D = - w) by (unfold m; field; lra).
    assert (m0 : 0 < m) by (unfold m; apply Rdiv_lt_0_compat; lra). assert (m1 : m <= 1 - t). { apply Rmult_le_reg_r with D; [exact Dp|]. rewrite mD. lra. }
    pose proof (HO (t + m) ltac:(lra)) as Y. apply norm_lt_sq in Y; [|lra]. rewrite sq_along in Y by exact L. fold b D in Y.
    assert (Z : sq p + 2 * (t + m) * b + (t + m) ^ 2 * D = r ^ 2 + m * (2 * w + m * D)) by (unfold w; lra). rewrite Z, mD in Y. assert (0 < m * - w) by (apply Rmult_lt_0_compat; lra). lra. }
  assert (T : (1 - t) * D <= 2 * w). { assert (Q : D + b <= 3 * w). { apply Rnot_lt_le. intros N. rewrite <- W2 in H. nra. } unfold w in *. lra. }
  assert (K2 : k * r ^ 2 = (1 - t) * w) by (unfold w; lra).
  assert (G : 0 <= (1 - t) * (2 * w - (1 - t) * D)) by (apply Rmult_le_pos; lra).
  match goal with |- ?x <= _ => replace x with (r ^ 2 - 2 * ((1 - t) * w) + (1 - t) ^ 2 * D) end; [lra|].
  replace (sq p + 2 * t * b + t ^ 2 * D) with (r ^ 2) by lra. unfold w in *.
  replace (sq p + (1 + t) * b + t * D) with (r ^ 2 + k * r ^ 2) by lra. replace (sq p + 2 * 1 * b + 1 ^ 2 * D) with (r ^ 2 + 2 * ((1 - t) * (b + t * D)) + (1 - t) ^ 2 * D) by lra. rewrite <- K2. ring.
Qed.

(** Loops. *)
Section Loops.
Context {S : scalar}.
Lemma run_all_ok (f : pos S -> pos S -> outcome unit) (l : list (pos S * pos S)) : (forall p d, In (p, d) l -> f p d = Ok tt) -> run_all f l = Ok tt.
Proof. induction l as [|[p d] l IH]; intros H; [reflexivity|]. cbn [run_all]. rewrite (H p d (or_introl eq_refl)). cbn [bind]. apply IH. intros p' d' I. apply H. now right. Qed.
Lemma run_rows_ok {A : Type} (f : pos S -> pos S -> outcome (option A)) (l : list (pos S * pos S)) : (forall p d, In (p, d) l -> exists o, f p d = Ok o) ->
  snd (run_rows f l) = Ok tt /\ forall a, In a (fst (run_rows f l)) <-> exists p d, In (p, d) l /\ f p d = Ok (Some a).
Proof.
  induction l as [|[p d] l IH]; intros H.
  - split; [reflexivity|]. intros a. cbn. split; [tauto|]. intros (p & d & [] & _).
  - destruct (IH (fun p' d' I => H p' d' (or_intror I))) as (I1 & I2). destruct (H p d (or_introl eq_refl)) as ([a0|] & E); cbn [run_rows]; rewrite E.
    + destruct (run_rows f l) as [rs o]. cbn [fst snd] in *. split; [exact I1|]. intros a. cbn [In]. rewrite I2. split.
      * intros [->|(p' & d' & I & E')]; [exists p, d; split; [now left|exact E]|exists p', d'; split; [now right|exact E']].
      * intros (p' & d' & [[= <- <-]|I] & E'); [left; congruence|right; eauto].
    + split; [exact I1|]. intros a. rewrite I2. split; intros (p' & d' & I & E').
      * exists p', d'. split; [now right|exact E'].
      * destruct I as [[= <- <-]|I]; [congruence|eauto].
Qed.
End Loops.

Definition disc : circ RR := Circ (S := RR) ContinuousCircular Reflection 1 2.
Lemma disc_built : built_circ disc.
Proof. exact (built_ball 1 2 ltac:(lra) ltac:(lia)). Qed.
Lemma with_disc_R {A : Type} (f : circ RR -> A) (bad : A) : with_disc f bad = f disc.
Proof. unfold with_disc, circ_new. assert (E : @leb RR s1 s0 = false). { change (Rleb 1 0 = false). unfold Rleb. destruct (Rle_dec 1 0); [lra|reflexivity]. } rewrite E. reflexivity. Qed.

Lemma in_cases (fc fs : R -> R) (pi : R) (is : list nat) (nj : nat) (step : R) (p d : list R) : In (p, d) (cases (S := RR) fc fs pi is nj step) <->
  exists i j k, In i is /\ (j < nj)%nat /\ (k < 10)%nat /\ p = [5 / 100 + INR i * (1 / 10); 0] /\ d = [INR j * step * fc (INR k * pi * (1 / 10)); INR j * step * fs (INR k * pi * (1 / 10))].
Proof.
  unfold cases. rewrite in_flat_map. split.
  - intros (i & I & H). cbv zeta in H. apply in_flat_map in H. destruct H as (j & J & H). apply in_map_iff in H. destruct H as (k & E & K). apply in_seq in J, K. exists i, j, k. rewrite !INR_IZR_INZ.
    injection E as <- <-. split; [exact I|]. split; [lia|]. split; [lia|]. split; reflexivity.
  - intros (i & j & k & I & J & K & -> & ->). exists i. split; [exact I|]. apply in_flat_map. exists j. split; [apply in_seq; lia|]. apply in_map_iff. exists k. split; [|apply in_seq; lia]. rewrite !INR_IZR_INZ. reflexivity.
Qed.

Lemma sq2 x y : sq [x; y] = x ^ 2 + y ^ 2.
Proof. unfold sq, rsum. cbn [map fold_right]. ring. Qed.
Lemma dot2 x y u v : dot [x; y] [u; v] = x * u + y * v.
Proof. unfold dot, rsum. cbn [map combine fold_right fst snd]. ring. Qed.

(** Steps that end in the disc. *)
Lemma short_steps (x y t : R) : 0 <= x -> 0 <= y -> x + y <= 1 -> euclid_norm (along [x; 0] [y * cos t; y * sin t] 1) <= 1 /\ euclid_norm [x; 0] <= 1.
Proof.
  intros X Y H. pose proof (COS_bound t) as (C1 & C2). pose proof (sin2_cos2 t) as SC. unfold Rsqr in SC.
  split; apply norm_le_sq; try lra.
  - change (along [x; 0] [y * cos t; y * sin t] 1) with [x + 1 * (y * cos t); 0 + 1 * (y * sin t)]. rewrite sq2.
    replace ((x + 1 * (y * cos t)) ^ 2 + (0 + 1 * (y * sin t)) ^ 2) with (x ^ 2 + 2 * (x * y) * cos t + y ^ 2 * (sin t * sin t + cos t * cos t)) by ring. rewrite SC.
    assert (0 <= x * y) by (apply Rmult_le_pos; lra). assert (x * y * cos t <= x * y * 1) by (apply Rmult_le_compat_l; lra). assert ((x + y) ^ 2 <= 1 ^ 2) by (apply pow_incr; lra). lra.
  - rewrite sq2. assert (x ^ 2 <= 1 ^ 2) by (apply pow_incr; lra). lra.
Qed.
Lemma inside_all (s : circ RR) (p d : list R) : length p = ci_dim s -> length d = ci_dim s -> euclid_norm (along p d 1) <= ci_size s ->
  circ_check_bc_exact s p d = (along p d 1, d, Ok tt) /\ circ_check_bc_first_order s p d = (along p d 1, d, Ok tt) /\ circ_check_bc s p d = (along p d 1, Ok tt).
Proof.
  intros Lp Ld H. assert (L : length p = length d) by congruence. assert (Lm : @length R (vsum (S := RR) p d) = ci_dim s) by (exact (vsum_len2 (S := RR) p d _ Lp Ld)).
  destruct (circ_inclusion_R s _ Lm) as [[E I]|[E I]]; [|rewrite vsum_along in I; contradiction].
  destruct (circ_exact_interior (S := RR) s p d L E) as (E1 & E2). pose proof (circ_interior (S := RR) s p d L E) as E3. rewrite vsum_along in E1, E2, E3. auto.
Qed.
Lemma self_apart (p : list R) : euclid_norm (along p p (-1)) = 0.
Proof.
  apply norm_eq_sq; [lra|]. rewrite sq_along by reflexivity. rewrite dot_self. ring.
Qed.
Lemma tol_self (p : list R) : @ltb RR (norm (S := RR) (along p p (-1))) (lit 1 10000000000) = true.
Proof. rewrite rr_norm_euclid, self_apart. change (Rltb 0 (1 / 10000000000) = true). rewrite <- tol_pos. now rewrite Rabs_R0. Qed.

Lemma grid_x i : (i < 10)%nat -> 0 <= 5 / 100 + INR i * (1 / 10) <= 95 / 100.
Proof. intros H. assert (I9 : INR i <= INR 9) by (apply le_INR; lia). rewrite (INR_IZR_INZ 9) in I9. simpl (IZR _) in I9. pose proof (pos_INR i). lra. Qed.
Lemma grid_y j n : (j < S n)%nat -> 0 <= INR j * (1 / 1000) <= INR n / 1000.
Proof. intros H. assert (INR j <= INR n) by (apply le_INR; lia). pose proof (pos_INR j). lra. Qed.

Lemma disc_agrees (a b c d : R) : euclid_norm [a; b] <= 1 -> single_check disc [a; b] [c; d] = snd (circ_check_bc_exact disc [a; b] [c; d]).
Proof. exact (check_agrees disc [a; b] [c; d] disc_built eq_refl eq_refl). Qed.
Lemma disc_inside (a b c d : R) : let p := [a; b] in let x := [c; d] in euclid_norm (along p x 1) <= 1 ->
  circ_check_bc_exact disc p x = (along p x 1, x, Ok tt) /\ circ_check_bc_first_order disc p x = (along p x 1, x, Ok tt) /\ circ_check_bc disc p x = (along p x 1, Ok tt).
Proof. exact (inside_all disc [a; b] [c; d] eq_refl eq_refl). Qed.
Lemma reflection_test_ok : reflection_test (S := RR) cos sin PI = Ok tt.
Proof.
  unfold reflection_test. rewrite with_disc_R. apply (run_all_ok (S := RR)). intros p d I. apply (in_cases cos sin PI) in I. destruct I as (i & j & k & I & J & K & -> & ->). apply in_seq in I.
  pose proof (grid_x i ltac:(lia)) as X. pose proof (grid_y j 29 J) as Y. change (@lit RR 1 1000) with (1 / 1000). rewrite (INR_IZR_INZ 29) in Y. simpl (IZR _) in Y.
  destruct (short_steps (5 / 100 + INR i * (1 / 10)) (INR j * (1 / 1000)) (INR k * PI * (1 / 10))) as (A & B); try lra.
  refine (eq_trans (disc_agrees _ _ _ _ B) _). exact (f_equal snd (proj1 (disc_inside _ _ _ _ A))).
Qed.
Lemma error_test_empty : error_test (S := RR) cos sin PI = ([], Ok tt).
Proof.
  unfold error_test. rewrite with_disc_R.
  assert (H : forall p d, In (p, d) (cases (S := RR) cos sin PI (seq 0 10) 10 (lit 1 1000)) -> error_row disc p d = Ok None).
  { intros p d I. apply (in_cases cos sin PI) in I. destruct I as (i & j & k & I & J & K & -> & ->). apply in_seq in I.
    pose proof (grid_x i ltac:(lia)) as X. pose proof (grid_y j 9 J) as Y. change (@lit RR 1 1000) with (1 / 1000). rewrite (INR_IZR_INZ 9) in Y. simpl (IZR _) in Y.
    destruct (short_steps (5 / 100 + INR i * (1 / 10)) (INR j * (1 / 1000)) (INR k * PI * (1 / 10))) as (A & _); try lra.
    destruct (disc_inside _ _ _ _ A) as (E1 & E2 & E3). unfold error_row. rewrite E1, E2, E3. unfold moved, moved_by. cbn [fst snd bind].
    rewrite pos_sub_R by reflexivity. cbn [bind]. rewrite tol_self. reflexivity. }
  destruct (run_rows_ok (S := RR) (error_row disc) _ (fun p d I => ex_intro _ None (H p d I))) as (O & R).
  destruct (run_rows (error_row disc) _) as [rows o]. cbn [fst snd] in *. f_equal; [|exact O]. destruct rows as [|a rows]; [reflexivity|].
  destruct (proj1 (R a) (or_introl eq_refl)) as (p & d & I & E). rewrite (H p d I) in E. discriminate.
Qed.

(** The comparison of the exact and the radial reflection. *)
Lemma one_row (y t : R) : 0 <= y <= 79 / 100 -> let p := [95 / 100; 0] in let d := [y * cos t; y * sin t] in
  (euclid_norm (along p d 1) <= 1 /\ realization_row disc p d = Ok None) \/
  (1 < euclid_norm (along p d 1) /\ exists u q, leaves_at 1 p d u /\ mirror_image (along p d u) (along p d 1) q /\ euclid_norm q <= 1 /\
    let q2 := map (fun x => ((2 - euclid_norm (along p d 1)) / euclid_norm (along p d 1)) * x) (along p d 1) in
    realization_row disc p d = Ok (if Rlt_dec (euclid q q2) (1 / 10000000000) then None else Some (p, along p d 1, q, q2))).
Proof.
  intros Y p d. destruct (Rle_or_lt (euclid_norm (along p d 1)) 1) as [A|A]; [left|right]; (split; [exact A|]).
  - destruct (inside_all disc p d eq_refl eq_refl A) as (E1 & _ & E3). unfold realization_row. rewrite E1, E3. unfold moved, moved_by. cbn [fst snd bind]. rewrite pos_sub_R by reflexivity. cbn [bind]. now rewrite tol_self.
  - destruct (short_steps (95 / 100) 0 0 ltac:(lra) ltac:(lra) ltac:(lra)) as (_ & B). pose proof (sin2_cos2 t) as SC. unfold Rsqr in SC. pose proof (COS_bound t) as (C1 & C2).
    destruct (exact_accepted disc p d disc_built eq_refl eq_refl B A) as (u & q & dq & E & HL & HM & Q).
    { change (ci_size disc : R) with 1. unfold p, d. rewrite dot2, !sq2. replace ((y * cos t) ^ 2 + (y * sin t) ^ 2) with (y ^ 2 * (sin t * sin t + cos t * cos t)) by ring. rewrite SC.
      set (c := cos t) in *. replace ((y ^ 2 * 1 + (95 / 100 * (y * c) + 0 * (y * sin t))) ^ 2) with (y ^ 2 * (y + 95 / 100 * c) ^ 2) by ring.
      replace (9 * ((95 / 100 * (y * c) + 0 * (y * sin t)) ^ 2 + y ^ 2 * 1 * (1 ^ 2 - ((95 / 100) ^ 2 + 0 ^ 2)))) with (y ^ 2 * (9 * ((95 / 100 * c) ^ 2 + (1 - (95 / 100) ^ 2)))) by ring.
      apply Rmult_le_compat_l; [apply pow2_ge_0|]. pose proof (pow2_ge_0 (95 / 100 * c - y / 8)). assert (y ^ 2 <= (79 / 100) ^ 2) by (apply pow_incr; lra). lra. }
    exists u, q. split; [exact HL|]. split; [exact HM|]. split; [exact Q|]. cbv zeta. set (q2 := map _ (along p d 1)).
    destruct (circ_check_bc disc p d) as [q2' o2] eqn:E2. destruct (radial_parts disc p d q2' o2 disc_built eq_refl eq_refl A E2) as (Eq2 & O2 & _).
    assert (q2' = q2) as ->. { rewrite Eq2. unfold q2. change (ci_size disc : R) with 1. apply map_ext. intros x. f_equal. f_equal. ring. }
    assert (o2 = Ok tt) as ->. { apply O2. change (ci_size disc : R) with 1. destruct (short_steps (95 / 100 / 2) (y / 2) t ltac:(lra) ltac:(lra) ltac:(lra)) as (Hn & _).
      apply norm_le_sq; [lra|]. unfold p, d. change (along [95 / 100; 0] [y * cos t; y * sin t] 1) with [95 / 100 + 1 * (y * cos t); 0 + 1 * (y * sin t)]. rewrite sq2.
      replace ((95 / 100 + 1 * (y * cos t)) ^ 2 + (0 + 1 * (y * sin t)) ^ 2) with ((95 / 100) ^ 2 + 2 * (95 / 100) * (y * cos t) + y ^ 2 * (sin t * sin t + cos t * cos t)) by ring. rewrite SC.
      assert (y * cos t <= y * 1) by (apply Rmult_le_compat_l; lra). assert (y ^ 2 <= 1 ^ 2) by (apply pow_incr; lra). lra. }
    unfold realization_row. rewrite E, E2. unfold moved, moved_by. cbn [fst snd bind].
    assert (Lq : length q = length q2). { destruct HM as (k & _ & ->). reflexivity. }
    rewrite (pos_sub_R q q2 Lq). cbn [bind]. rewrite rr_norm_euclid. change (@lit RR 1 10000000000) with (1 / 10000000000). change (@ltb RR) with Rltb. unfold Rltb.
    assert (D : euclid_norm (along q q2 (-1)) = euclid q q2). { rewrite (euclid_sq q q2 Lq). unfold vsub, along. change (euclid_norm ?l) with (sqrt (sq l)). do 2 f_equal. apply map_ext. intros a. ring. }
    rewrite D. destruct (Rlt_dec (euclid q q2) (1 / 10000000000)); [reflexivity|]. rewrite pos_add_R by reflexivity. reflexivity.
Qed.
