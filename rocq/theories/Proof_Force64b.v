(** Rounding errors of the Lennard-Jones and exponential interactions and of one random step. *)
From Coq Require Import Reals ZArith List Lra Lia.
From Flocq Require Import Core.
From Flocq.IEEE754 Require Import BinarySingleNaN.
From Verif Require Import Base Scalar Float64 Model_Position Spec_Position Proof_Position Proof_Norm64 Proof_Sum64 Proof_Rel64 Proof_Force64.
Open Scope R_scope.

Definition bd (k : nat) (a : R) : Prop := / 2 ^ k <= Rabs a <= 2 ^ k.
Lemma p2 k : 0 < 2 ^ k. Proof. apply pow_lt. lra. Qed.
Lemma p2i k : 0 < / 2 ^ k. Proof. apply Rinv_0_lt_compat, p2. Qed.
Lemma bd_mono k l a : (k <= l)%nat -> bd k a -> bd l a.
Proof.
  intros H (A & B). assert (P : 2 ^ k <= 2 ^ l) by (apply Rle_pow; [lra|exact H]). assert (/ 2 ^ l <= / 2 ^ k) by (apply Rinv_le_contravar; [apply p2|exact P]). split; lra.
Qed.
Lemma bd_mul k l a b : bd k a -> bd l b -> bd (k + l) (a * b).
Proof.
  intros (A & B) (C & D). pose proof (p2i k). pose proof (p2i l). unfold bd. rewrite Rabs_mult, pow_add, Rinv_mult. split; apply Rmult_le_compat; lra.
Qed.
Lemma bd_inv k a : bd k a -> bd k (/ a).
Proof.
  intros (A & B). pose proof (p2i k). unfold bd. rewrite Rabs_inv. split; [apply Rinv_le_contravar; lra|]. rewrite <- (Rinv_inv (2 ^ k)). apply Rinv_le_contravar; lra.
Qed.
Lemma bd_nz k a : bd k a -> a <> 0.
Proof. intros (A & _) ->. rewrite Rabs_R0 in A. pose proof (p2i k). lra. Qed.
Lemma bd_range k a : (k <= 990)%nat -> bd k a -> LO <= Rabs a <= HI.
Proof.
  intros L H. apply (bd_mono k 1000) in H; [|lia]. destruct H as (A & B). unfold LO, HI. change (-1000)%Z with (- Z.of_nat 1000)%Z. rewrite bpow_inv_pow. split; [exact A|].
  rewrite bpow_powerRZ. exact B.
Qed.
Definition brel (n k : nat) (x : b64) (a : R) : Prop := rel n x a /\ bd k a.
Lemma brel_mul n m k l x y a b : brel n k x a -> brel m l y b -> (n + m <= 100)%nat -> (k + l <= 990)%nat -> brel (n + m + 1) (k + l) (Bmult mode_NE x y) (a * b).
Proof.
  intros (A & B) (C & D) H1 H2. pose proof (bd_mul _ _ _ _ B D) as E. split; [|exact E]. apply rel_mul; auto; [|now apply few]. exact (bd_range _ _ H2 E).
Qed.
Lemma brel_div n m k l x y a b : brel n k x a -> brel m l y b -> (n + m <= 100)%nat -> (k + l <= 990)%nat -> brel (n + m + 1) (k + l) (Bdiv mode_NE x y) (a / b).
Proof.
  intros (A & B) (C & D) H1 H2. pose proof (bd_mul _ _ _ _ B (bd_inv _ _ D)) as E. split; [|exact E]. apply rel_div; auto; [exact (bd_nz _ _ D)| |now apply few]. exact (bd_range _ _ H2 E).
Qed.
Lemma brel_exact k x : fin x = true -> bd k (B2 x) -> brel 0 k x (B2 x).
Proof. intros F B. split; [now apply rel_exact|exact B]. Qed.
Lemma brel_Z z k : (1 <= z < 2 ^ 53)%Z -> (IZR z <= 2 ^ k) -> brel 0 k (b64_of_Z z) (IZR z).
Proof.
  intros Hz Hk. destruct (of_Z_exact z) as (F & E); [lia|]. assert (Hp : 1 <= IZR z) by (apply IZR_le; lia). split.
  - pose proof (rel_exact _ F) as X. rewrite E in X. exact X.
  - unfold bd. rewrite Rabs_pos_eq by lra. split; [|exact Hk]. apply Rle_trans with 1; [|lra]. rewrite <- Rinv_1. apply Rinv_le_contravar; [lra|]. apply pow_R1_Rle. lra.
Qed.

(** Lennard-Jones. *)
Section LJ.
Variables (eps sig r : b64).
Hypotheses (Fe : fin eps = true) (Fs : fin sig = true) (Fr : fin r = true) (Be : bd 50 (B2 eps)) (Bs : bd 50 (B2 sig)) (Nr : B2 r <> 0) (Bx : bd 60 (B2 sig / B2 r)).
Let X := B2 sig / B2 r.
Let x : b64 := Bdiv mode_NE sig r.
Let x2 : b64 := Bmult mode_NE x x.
Let x6 : b64 := Bmult mode_NE x2 (Bmult mode_NE x2 x2).
Lemma lj_x : brel 1 60 x X.
Proof. split; [|exact Bx]. apply (rel_div 0 0); [now apply rel_exact|now apply rel_exact|exact Nr| |now apply few; lia]. exact (bd_range 60 _ ltac:(lia) Bx). Qed.
Lemma lj_x6 : brel 11 360 x6 (X ^ 6).
Proof.
  pose proof (brel_mul _ _ _ _ _ _ _ _ lj_x lj_x ltac:(lia) ltac:(lia)) as H2. pose proof (brel_mul _ _ _ _ _ _ _ _ H2 H2 ltac:(lia) ltac:(lia)) as H4.
  pose proof (brel_mul _ _ _ _ _ _ _ _ H2 H4 ltac:(lia) ltac:(lia)) as H6. replace (X ^ 6) with (X * X * (X * X * (X * X))) by ring. exact H6.
Qed.
Lemma X6_pos : 0 < X ^ 6.
Proof. pose proof (bd_nz _ _ (proj2 lj_x)) as N. assert (0 < X * X) by nra. replace (X ^ 6) with (X * X * (X * X) * (X * X)) by ring. apply Rmult_lt_0_compat; [apply Rmult_lt_0_compat|]; assumption. Qed.
Lemma X6_le : X ^ 6 <= 2 ^ 360.
Proof. destruct (proj2 lj_x6) as (_ & B). rewrite Rabs_pos_eq in B by (apply Rlt_le, X6_pos). exact B. Qed.
Lemma lj_force_err :
  let f := Bmult mode_NE (Bmult mode_NE (Bmult mode_NE (Bdiv mode_NE (Bmult mode_NE (b64_of_Z 24) eps) sig) x6) x) (Bminus mode_NE (Bmult mode_NE (b64_of_Z 2) x6) (b64_of_Z 1)) in
  fin f = true /\ Rabs (B2 f - 24 * B2 eps / B2 sig * (2 * X ^ 13 - X ^ 7)) <= 64 * u64 * (Rabs (24 * B2 eps / B2 sig) * (2 * Rabs X ^ 13 + Rabs X ^ 7)).
Proof.
  cbv zeta. pose proof lj_x as Hx. pose proof lj_x6 as H6. pose proof X6_pos as P6. pose proof X6_le as L6.
  assert (H24 : brel 0 5 (b64_of_Z 24) 24) by (apply brel_Z; [lia|simpl; lra]). assert (H2 : brel 0 1 (b64_of_Z 2) 2) by (apply brel_Z; [lia|simpl; lra]).
  pose proof (brel_mul _ _ _ _ _ _ _ _ H24 (brel_exact _ _ Fe Be) ltac:(lia) ltac:(lia)) as C1. pose proof (brel_div _ _ _ _ _ _ _ _ C1 (brel_exact _ _ Fs Bs) ltac:(lia) ltac:(lia)) as C2.
  pose proof (brel_mul _ _ _ _ _ _ _ _ C2 H6 ltac:(lia) ltac:(lia)) as C3. pose proof (brel_mul _ _ _ _ _ _ _ _ C3 Hx ltac:(lia) ltac:(lia)) as (C4 & B4). cbn [Nat.add] in C4, B4.
  pose proof (brel_mul _ _ _ _ _ _ _ _ H2 H6 ltac:(lia) ltac:(lia)) as (W & _). cbn [Nat.add] in W.
  assert (WB : 0 < 2 * X ^ 6 <= 2 ^ 361). { split; [lra|]. change 361%nat with (1 + 360)%nat. rewrite pow_add, pow_1. lra. }
  assert (P361 : 2 ^ 361 <= 2 ^ 400) by (apply Rle_pow; [lra|lia]).
  destruct (minus_one 12 _ _ W ltac:(lia)) as (Fy & Dy); [lra|].
  set (y := Bminus mode_NE _ _) in *. set (A := 24 * B2 eps / B2 sig * X ^ 6 * X) in *. set (M := 2 * X ^ 6 + 1) in *.
  assert (QM : Rabs A * M <= 2 ^ 990).
  { destruct B4 as (_ & B4). assert (M <= 2 ^ 362). { unfold M. change 362%nat with (1 + 361)%nat. rewrite pow_add, pow_1. assert (1 <= 2 ^ 361) by (apply pow_R1_Rle; lra). lra. }
    apply Rle_trans with (2 ^ 525 * 2 ^ 362); [apply Rmult_le_compat; try apply Rabs_pos; try assumption; unfold M; lra|]. rewrite <- pow_add. apply Rle_pow; [lra|lia]. }
  destruct (mixed 16 _ y A (2 * X ^ 6 - 1) M C4 ltac:(lia)) as (Ff & Df); try assumption.
  - destruct (bd_mono 525 900 A ltac:(lia) B4) as (B & _). exact B.
  - unfold M. apply Rabs_le. lra.
  - unfold M. lra.
  - split; [exact Ff|]. replace (24 * B2 eps / B2 sig * (2 * X ^ 13 - X ^ 7)) with (A * (2 * X ^ 6 - 1)) by (unfold A; ring).
    replace (Rabs (24 * B2 eps / B2 sig) * (2 * Rabs X ^ 13 + Rabs X ^ 7)) with (Rabs A * M); [exact Df|].
    unfold A, M. rewrite !(Rabs_mult _ X), (Rabs_mult _ (X ^ 6)), <- RPow_abs. assert (E6 : Rabs X ^ 6 = X ^ 6) by (rewrite RPow_abs; apply Rabs_pos_eq; lra).
    replace (Rabs X ^ 13) with (Rabs X ^ 6 * Rabs X ^ 6 * Rabs X) by ring. replace (Rabs X ^ 7) with (Rabs X ^ 6 * Rabs X) by ring. rewrite E6. ring.
Qed.
Lemma lj_potential_err :
  let f := Bmult mode_NE (Bmult mode_NE (Bmult mode_NE (b64_of_Z 4) eps) x6) (Bminus mode_NE x6 (b64_of_Z 1)) in
  fin f = true /\ Rabs (B2 f - 4 * B2 eps * (X ^ 12 - X ^ 6)) <= 64 * u64 * (Rabs (4 * B2 eps) * (Rabs X ^ 12 + Rabs X ^ 6)).
Proof.
  cbv zeta. pose proof lj_x6 as H6. pose proof X6_pos as P6. pose proof X6_le as L6.
  assert (H4 : brel 0 2 (b64_of_Z 4) 4) by (apply brel_Z; [lia|simpl; lra]).
  pose proof (brel_mul _ _ _ _ _ _ _ _ H4 (brel_exact _ _ Fe Be) ltac:(lia) ltac:(lia)) as C1. 
  pose proof (brel_mul _ _ _ _ _ _ _ _ C1 H6 ltac:(lia) ltac:(lia)) as (C4 & B4). cbn [Nat.add] in C4, B4.
  assert (P361 : 2 ^ 360 <= 2 ^ 400) by (apply Rle_pow; [lra|lia]).
  destruct (minus_one 11 _ _ (proj1 H6) ltac:(lia)) as (Fy & Dy); [lra|].
  set (y := Bminus mode_NE _ _) in *. set (A := 4 * B2 eps * X ^ 6) in *. set (M := X ^ 6 + 1) in *.
  assert (QM : Rabs A * M <= 2 ^ 990).
  { destruct B4 as (_ & B4). assert (M <= 2 ^ 361). { unfold M. change 361%nat with (1 + 360)%nat. rewrite pow_add, pow_1. assert (1 <= 2 ^ 360) by (apply pow_R1_Rle; lra). lra. }
    apply Rle_trans with (2 ^ 412 * 2 ^ 361); [apply Rmult_le_compat; try apply Rabs_pos; try assumption; unfold M; lra|]. rewrite <- pow_add. apply Rle_pow; [lra|lia]. }
  destruct (mixed 13 _ y A (X ^ 6 - 1) M C4 ltac:(lia)) as (Ff & Df); try assumption.
  - destruct (bd_mono 412 900 A ltac:(lia) B4) as (B & _). exact B.
  - unfold M. apply Rabs_le. lra.
  - unfold M. lra.
  - split; [exact Ff|]. replace (4 * B2 eps * (X ^ 12 - X ^ 6)) with (A * (X ^ 6 - 1)) by (unfold A; ring).
    replace (Rabs (4 * B2 eps) * (Rabs X ^ 12 + Rabs X ^ 6)) with (Rabs A * M); [exact Df|].
    unfold A, M. rewrite (Rabs_mult _ (X ^ 6)), <- RPow_abs. assert (E6 : Rabs X ^ 6 = X ^ 6) by (rewrite RPow_abs; apply Rabs_pos_eq; lra).
    replace (Rabs X ^ 12) with (Rabs X ^ 6 * Rabs X ^ 6) by ring. rewrite E6. ring.
Qed.
End LJ.

(** One random step: [z * sqrt(2 D dt)]. *)
Lemma step_err (c dt z : b64) : fin c = true -> fin dt = true -> fin z = true -> 0 < B2 c -> 0 < B2 dt -> bd 300 (B2 c) -> bd 300 (B2 dt) -> (B2 z = 0 \/ bd 300 (B2 z)) ->
  let x := Bmult mode_NE z (Bsqrt mode_NE (Bmult mode_NE (Bmult mode_NE (b64_of_Z 2) c) dt)) in rel 4 x (B2 z * sqrt (2 * B2 c * B2 dt)).
Proof.
  intros Fc Fd Fz Pc Pd Bc Bd Bz. cbv zeta. assert (H2 : brel 0 1 (b64_of_Z 2) 2) by (apply brel_Z; [lia|simpl; lra]).
  pose proof (brel_mul _ _ _ _ _ _ _ _ H2 (brel_exact _ _ Fc Bc) ltac:(lia) ltac:(lia)) as C1. pose proof (brel_mul _ _ _ _ _ _ _ _ C1 (brel_exact _ _ Fd Bd) ltac:(lia) ltac:(lia)) as (C2 & B2'). cbn [Nat.add] in C2, B2'.
  set (q := 2 * B2 c * B2 dt) in *. assert (Pq : 0 < q) by (unfold q; apply Rmult_lt_0_compat; lra). pose proof (rel_sqrt 2 _ q C2 Pq (few 2 ltac:(lia))) as C3. cbn [Nat.add] in C3.
  set (s := Bsqrt mode_NE _) in *.
  assert (Bq : bd 601 (sqrt q)).
  { destruct B2' as (L & H). rewrite Rabs_pos_eq in L, H by lra. unfold bd. rewrite Rabs_pos_eq by apply sqrt_pos. pose proof (sqrt_sqrt q (Rlt_le _ _ Pq)) as Sq. pose proof (sqrt_lt_R0 q Pq) as Sp.
    assert (P1 : 1 <= 2 ^ 601) by (apply pow_R1_Rle; lra). pose proof (p2i 601) as I0. assert (I1 : / 2 ^ 601 <= 1) by (rewrite <- Rinv_1; apply Rinv_le_contravar; lra). set (p := 2 ^ 601) in *. set (ip := / p) in *.
    split; [destruct (Rle_lt_dec 1 (sqrt q)); [lra|nra]|destruct (Rle_lt_dec (sqrt q) 1); [lra|nra]]. }
  destruct Bz as [Z|Bz].
  - destruct C3 as (Fq & t & Et & T). destruct (mult_val z s Fz Fq) as (Nn & Vv). rewrite Z, Rmult_0_l in *.
    assert (R0 : rnd64 0 = 0) by (apply round_0; auto with typeclass_instances).
    assert (Fm : fin (Bmult mode_NE z s) = true) by (apply (rnd64_lt_fin _ _ Nn Vv); rewrite R0, Rabs_R0; apply top_pos).
    split; [exact Fm|]. exists 1. rewrite (fin_mult_eq z s Fm), Z, Rmult_0_l, R0. split; [ring|]. split; [apply vn_le1|apply vn_inv].
  - destruct (brel_mul _ _ _ _ _ _ _ _ (brel_exact _ _ Fz Bz) (conj C3 Bq) ltac:(lia) ltac:(lia)) as (H & _). exact H.
Qed.
