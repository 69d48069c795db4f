(** Free walks in double precision: the position is the start plus the sum of the displacements, up to one rounding per step. *)
From Coq Require Import Reals ZArith List Lra Lia.
From Flocq Require Import Core.
From Flocq.IEEE754 Require Import BinarySingleNaN.
From Verif Require Import Base Scalar Float64 Model_Position Spec_Position Proof_Position Proof_Norm64 Proof_Sum64 Proof_Rel64 Model_System Spec_System Proof_System Model_Agent Spec_Agent
  Proof_Agent4 Spec_Accuracy Proof_Force64 Proof_Force64b Spec_Force64.
Import ListNotations.
Open Scope R_scope.

Section Gen.
Context {S : scalar} {G : rng S}.
Lemma interior_any (sys : anysys S) (p v : pos S) : length p = length v -> sc_inclusion (core (G := G) sys) (Spec_System.vsum p v) = Ok true ->
  sc_check_bc (core (G := G) sys) p v = (Spec_System.vsum p v, Ok tt).
Proof. destruct sys as [s|s|s]; [apply circ_interior|apply cubic_interior|apply cyl_interior]. Qed.
Lemma vsum_len (p v : pos S) : length p = length v -> length (Spec_System.vsum p v) = length p.
Proof. intros L. unfold Spec_System.vsum. rewrite map_length, combine_length, L. apply Nat.min_id. Qed.
Lemma vsum_nth (p v : pos S) i d : length p = length v -> (i < length p)%nat -> nth i (Spec_System.vsum p v) d = add (nth i p d) (nth i v d).
Proof.
  intros L H. unfold Spec_System.vsum. rewrite (nth_indep _ d (add (fst (d, d)) (snd (d, d)))) by (rewrite map_length, combine_length; lia).
  rewrite (map_nth (fun xy => add (fst xy) (snd xy))). rewrite combine_nth by exact L. reflexivity.
Qed.
Lemma walk_free (sys : anysys S) d : forall (vs : list (pos S)) (p : pos S), Forall (fun v => length v = length p) vs -> unhindered (sc_inclusion (core (G := G) sys)) p vs ->
  exists q, walked (sc_check_bc (core (G := G) sys)) p vs q /\ length q = length p /\
    forall i, (i < length p)%nat -> nth i q d = fold_left add (map (fun v => nth i v d) vs) (nth i p d).
Proof.
  induction vs as [|v r IH]; intros p HL HU.
  - exists p. repeat split.
  - destruct HU as (HI & HU). apply Forall_cons_iff in HL as (Lv & HL). pose proof (vsum_len p v (eq_sym Lv)) as LS.
    destruct (IH (Spec_System.vsum p v)) as (q & W & Lq & E).
    + eapply Forall_impl; [|exact HL]. intros a Ha. now rewrite LS.
    + exact HU.
    + exists q. split; [exists (Spec_System.vsum p v); split; [now apply interior_any|exact W]|]. split; [congruence|].
      intros i Hi. rewrite E by (rewrite LS; exact Hi). cbn [map fold_left]. now rewrite vsum_nth.
Qed.
Lemma walked_det (bc : pos S -> pos S -> pos S * outcome unit) : forall vs p q q', walked bc p vs q -> walked bc p vs q' -> q = q'.
Proof.
  induction vs as [|v r IH]; intros p q q' H H'; cbn [walked] in *; [congruence|]. destruct H as (x & E & W), H' as (y & E' & W').
  assert (x = y) by congruence. subst y. exact (IH _ _ _ W W').
Qed.
End Gen.

Lemma rsum_le (f g : b64 -> R) (l : list b64) : (forall x, In x l -> f x <= g x) -> rsum (map f l) <= rsum (map g l).
Proof.
  induction l as [|x l IH]; intros H; [apply Rle_refl|]. cbn [map rsum fold_right]. pose proof (H x (or_introl eq_refl)). 
  assert (rsum (map f l) <= rsum (map g l)) by (apply IH; intros y Hy; apply H; now right). unfold rsum in *. lra.
Qed.
Lemma asum_bound B (l : list b64) : Forall (fun x => Rabs (B2 x) <= B) l -> asum l <= INR (length l) * B.
Proof.
  induction 1 as [|x l Hx H IH]; [unfold asum; simpl; lra|]. rewrite asum_cons. cbn [length]. rewrite S_INR. lra.
Qed.
Lemma n50 n : INR n <= 2 ^ 50 -> 2 * INR n * u64 <= 1 / 4.
Proof.
  intros H. unfold u64. assert (E : 2 ^ 53 = 2 ^ 50 * 8) by (change 53%nat with (50 + 3)%nat; rewrite pow_add; simpl; lra).
  pose proof (pow_lt 2 50 ltac:(lra)) as P. rewrite E, Rinv_mult. replace (2 * INR n * (/ 2 ^ 50 * / 8)) with (INR n * / 2 ^ 50 * (1 / 4)) by lra.
  assert (INR n * / 2 ^ 50 <= 1). { apply Rmult_le_reg_r with (2 ^ 50); [exact P|]. rewrite Rmult_assoc, Rinv_l by lra. lra. } lra.
Qed.
Lemma sum_finite (a : b64) (l : list b64) : INR (length l) <= 2 ^ 50 -> fin a = true -> Rabs (B2 a) <= 2 ^ 900 -> Forall (fun x => fin x = true /\ Rabs (B2 x) <= 2 ^ 900) l ->
  fin (sum64 a l) = true.
Proof.
  intros Hn Fa Ba Hl. assert (Fl : Forall (fun x => fin x = true) l) by (eapply Forall_impl; [|exact Hl]; intros x (F & _); exact F).
  assert (Bl : Forall (fun x => Rabs (B2 x) <= 2 ^ 900) l) by (eapply Forall_impl; [|exact Hl]; intros x (_ & F); exact F).
  apply sum64_fin_intro; auto. pose proof (n50 _ Hn) as U. pose proof (g_lin (length l) ltac:(lra)) as G1. pose proof (asum_bound _ _ Bl) as A. pose proof (asum_nonneg l) as A0. pose proof (Rabs_pos (B2 a)) as A1.
  pose proof (g_pow (length l)) as G0. set (P := 2 ^ 900) in *.
  assert (Q : 0 < P) by (apply pow_lt; lra). assert (N : INR (length l) * P <= 2 ^ 50 * P) by (apply Rmult_le_compat_r; lra).
  assert (P50 : 1 <= 2 ^ 50) by (apply pow_R1_Rle; lra).
  apply Rle_lt_trans with (2 * (2 * (2 ^ 50 * P))).
  - apply Rmult_le_compat; [lra|lra|lra|]. assert (1 * P <= 2 ^ 50 * P) by (apply Rmult_le_compat_r; lra). lra.
  - unfold P. rewrite <- (pow_add 2 50 900). rewrite !tech_pow_Rmult. change (Raux.bpow Zaux.radix2 1024) with (bpow radix2 (Z.of_nat 1024)). rewrite bpow_powerRZ. change (IZR radix2) with 2. rewrite <- pow_powerRZ.
    apply Rlt_pow; [lra|lia].
Qed.
Lemma sum_err (a : b64) (l : list b64) : INR (length l) <= 2 ^ 50 -> fin (sum64 a l) = true ->
  Rabs (B2 (sum64 a l) - (B2 a + Proof_Sum64.vsum l)) <= 2 * INR (length l) * u64 * (Rabs (B2 a) + asum l).
Proof.
  intros Hn F. pose proof (sum64_err l a F) as E. pose proof (n50 _ Hn) as U. pose proof (g_lin (length l) ltac:(lra)) as G1. pose proof (asum_nonneg l) as A0. pose proof (Rabs_pos (B2 a)) as A1.
  apply Rle_trans with (1 := E). apply Rmult_le_compat_r; lra.
Qed.

(** Sums of Brownian steps: each displacement is [z * sigma] up to [4] roundings. *)
Lemma steps_close (s : R) : 0 <= s -> forall (zs xs : list b64), Forall2 (fun z x => Rabs (B2 x - B2 z * s) <= 8 * u64 * Rabs (B2 z * s)) zs xs ->
  Rabs (Proof_Sum64.vsum xs - s * Proof_Sum64.vsum zs) <= 8 * u64 * (s * asum zs) /\ asum xs <= (1 + 8 * u64) * (s * asum zs) /\ length xs = length zs.
Proof.
  intros Hs zs xs. induction 1 as [|z x zs xs Hx H (IH1 & IH2 & IH3)].
  - unfold Proof_Sum64.vsum, asum. cbn [map rsum fold_right length]. rewrite !Rmult_0_r, Rminus_0_r, Rabs_R0. split; [lra|split; [lra|reflexivity]].
  - rewrite !vsum_cons, !asum_cons. cbn [length]. rewrite Rabs_mult, (Rabs_pos_eq s Hs) in Hx. split; [|split; [|now f_equal]].
    + replace (B2 x + Proof_Sum64.vsum xs - s * (B2 z + Proof_Sum64.vsum zs)) with (B2 x - B2 z * s + (Proof_Sum64.vsum xs - s * Proof_Sum64.vsum zs)) by ring.
      apply Rle_trans with (1 := Rabs_triang _ _). lra.
    + pose proof (Rabs_triang (B2 x - B2 z * s) (B2 z * s)) as T. replace (B2 x - B2 z * s + B2 z * s) with (B2 x) in T by ring. rewrite (Rabs_mult (B2 z) s), (Rabs_pos_eq s Hs) in T. lra.
Qed.
Lemma walk_steps (s : R) (a : b64) (zs xs : list b64) : 0 <= s -> INR (length zs) <= 2 ^ 50 -> fin (sum64 a xs) = true ->
  Forall2 (fun z x => Rabs (B2 x - B2 z * s) <= 8 * u64 * Rabs (B2 z * s)) zs xs ->
  Rabs (B2 (sum64 a xs) - (B2 a + s * Proof_Sum64.vsum zs)) <= (4 * INR (length zs) + 8) * u64 * (Rabs (B2 a) + s * asum zs).
Proof.
  intros Hs Hn F H. destruct (steps_close s Hs zs xs H) as (V & A & L). rewrite <- L in Hn. pose proof (sum_err a xs Hn F) as E. rewrite L in E. pose proof (n50 _ Hn) as U. rewrite L in U.
  pose proof (asum_nonneg zs) as Z0. assert (Z1 : 0 <= s * asum zs) by (apply Rmult_le_pos; auto). pose proof (Rabs_pos (B2 a)) as A1. pose proof u64_pos as U0. pose proof u64_tiny as U1.
  pose proof (pos_INR (length zs)) as N0.
  replace (B2 (sum64 a xs) - (B2 a + s * Proof_Sum64.vsum zs)) with (B2 (sum64 a xs) - (B2 a + Proof_Sum64.vsum xs) + (Proof_Sum64.vsum xs - s * Proof_Sum64.vsum zs)) by ring.
  apply Rle_trans with (1 := Rabs_triang _ _). 
  assert (E2 : 2 * INR (length zs) * u64 * (Rabs (B2 a) + asum xs) <= 2 * INR (length zs) * u64 * (2 * (Rabs (B2 a) + s * asum zs))).
  { apply Rmult_le_compat_l; [repeat apply Rmult_le_pos; lra|]. assert (8 * u64 * (s * asum zs) <= 1 * (s * asum zs)) by (apply Rmult_le_compat_r; lra). lra. }
  assert (8 * u64 * (s * asum zs) <= 8 * u64 * (Rabs (B2 a) + s * asum zs)) by (apply Rmult_le_compat_l; lra). lra.
Qed.

(** Walks on doubles. *)
Section F.
Variable lm : libm.
Local Notation F := (F64 lm).
Context {G : rng F}.
Local Notation z0 := (b64_of_Z 0).

Lemma col_sums i (vs : list (list b64)) : Proof_Sum64.vsum (map (fun v => nth i v z0) vs) = rsum (coords i vs) /\ asum (map (fun v => nth i v z0) vs) = magnitude (coords i vs).
Proof. unfold Proof_Sum64.vsum, asum, coords, magnitude, coord. rewrite !map_map. split; reflexivity. Qed.
Lemma nth_moderate (B : R) (v : list b64) i : Forall (fun x => fin x = true /\ Rabs (B2 x) <= B) v -> (i < length v)%nat -> fin (nth i v z0) = true /\ Rabs (B2 (nth i v z0)) <= B.
Proof. intros H L. rewrite Forall_forall in H. apply H. now apply nth_In. Qed.

Lemma free_walk (sys : anysys F) (vs : list (list b64)) (p : list b64) : INR (length vs) <= 2 ^ 50 -> Forall (fun v : list b64 => length v = length p) vs ->
  Forall (fun x => fin x = true /\ Rabs (B2 x) <= 2 ^ 900) p -> Forall (Forall (fun x => fin x = true /\ Rabs (B2 x) <= 2 ^ 900)) vs ->
  unhindered (S := F) (sc_inclusion (core (G := G) sys)) p vs ->
  exists q : list b64, walked (S := F) (sc_check_bc (core (G := G) sys)) p vs q /\ length q = length p /\
    forall i, (i < length p)%nat -> fin (nth i q z0) = true /\
      Rabs (coord i q - (coord i p + rsum (coords i vs))) <= 2 * INR (length vs) * u64 * (Rabs (coord i p) + magnitude (coords i vs)).
Proof.
  intros Hn HL Hp Hv HU. destruct (walk_free (S := F) (G := G) sys z0 vs p HL HU) as (q & W & Lq & E). exists q. split; [exact W|]. split; [exact Lq|].
  intros i Hi. pose proof (E i Hi) as Ei. change (nth i q z0 = sum64 (nth i p z0) (map (fun v => nth i v z0) vs)) in Ei.
  assert (Lm : length (map (fun v : list b64 => nth i v z0) vs) = length vs) by apply map_length.
  destruct (nth_moderate _ p i Hp Hi) as (Fp & Bp).
  assert (Hc : Forall (fun x => fin x = true /\ Rabs (B2 x) <= 2 ^ 900) (map (fun v : list b64 => nth i v z0) vs)).
  { apply Forall_map. rewrite Forall_forall in *. intros v Iv. apply nth_moderate; [now apply Hv|]. rewrite (HL v Iv). exact Hi. }
  pose proof (sum_finite (nth i p z0) _ ltac:(rewrite Lm; exact Hn) Fp Bp Hc) as Fq. split; [exact (eq_trans (f_equal (fun x : b64 => fin x) Ei) Fq)|].
  assert (Cq : coord i q = B2 (sum64 (nth i p z0) (map (fun v => nth i v z0) vs))) by exact (f_equal (fun x : b64 => B2 x) Ei). rewrite Cq.
  pose proof (sum_err _ _ ltac:(rewrite Lm; exact Hn) Fq) as Er. rewrite Lm in Er. destruct (col_sums i vs) as (C1 & C2). rewrite C1, C2 in Er. exact Er.
Qed.

(** Successive random moves of a Brownian agent. *)
Lemma moves_blocks (a : anyagent F) c dt : a_mtype a = Brownian c -> forall vs g g', drawn_moves a dt g vs g' ->
  vs = map (fun k => map (fun z => mul z (fsqrt (mul (mul s2 c) dt))) (nth_block (gauss G) (a_dim a) k g)) (seq 0 (length vs)).
Proof.
  intros Hc. induction vs as [|v r IH]; intros g g' H; [reflexivity|]. destruct H as (g1 & E & H). rewrite (random_move_draws a g dt c Hc) in E.
  assert (X : forall (x y : rstate G) (u w : pos F), (x, Ok u) = (y, Ok w) -> x = y /\ u = w) by (intros; split; congruence). apply X in E as (E1 & E2).
  cbn [length seq map]. f_equal; [symmetry; exact E2|]. rewrite (IH _ _ H) at 1. rewrite <- seq_shift, map_map. apply map_ext. intros k. unfold nth_block. cbn [after_blocks]. rewrite E1. reflexivity.
Qed.
End F.

Lemma seq_forall2 {A B : Type} (P : A -> B -> Prop) (f : nat -> A) (h : nat -> B) (l : list nat) : (forall k, In k l -> P (f k) (h k)) -> Forall2 P (map f l) (map h l).
Proof. induction l as [|k l IH]; intros H; constructor; [apply H; now left|apply IH; intros j Hj; apply H; now right]. Qed.
Lemma nth_map_b64 (f : b64 -> b64) (l : list b64) i d : (i < length l)%nat -> nth i (map f l) d = f (nth i l d).
Proof. intros H. rewrite (nth_indep _ d (f d)) by (now rewrite map_length). apply map_nth. Qed.
Lemma sigma_le c dt : 0 < c -> 0 < dt -> c <= 2 ^ 300 -> dt <= 2 ^ 300 -> sqrt (2 * c * dt) <= 2 ^ 301.
Proof.
  intros H1 H2 H3 H4. rewrite <- (sqrt_pow2 (2 ^ 301)) by (apply pow_le; lra). apply sqrt_le_1_alt. replace ((2 ^ 301) ^ 2) with (2 * 2 * (2 ^ 300 * 2 ^ 300)) by (change 301%nat with (1 + 300)%nat; rewrite pow_add; ring).
  assert (c * dt <= 2 ^ 300 * 2 ^ 300) by (apply Rmult_le_compat; lra). assert (0 < 2 ^ 300 * 2 ^ 300) by (apply Rmult_lt_0_compat; apply pow_lt; lra). lra.
Qed.
Lemma step_close (c dt z : b64) : sized 300 c -> sized 300 dt -> 0 < B2 c -> 0 < B2 dt -> fin z = true -> B2 z = 0 \/ sized 300 z ->
  let x := Bmult mode_NE z (Bsqrt mode_NE (Bmult mode_NE (Bmult mode_NE (b64_of_Z 2) c) dt)) in
  fin x = true /\ Rabs (B2 x - B2 z * sqrt (2 * B2 c * B2 dt)) <= 8 * u64 * Rabs (B2 z * sqrt (2 * B2 c * B2 dt)) /\ Rabs (B2 x) <= 2 ^ 900.
Proof.
  intros (Fc & Bc) (Fd & Bd) Pc Pd Fz Hz x. assert (Hz' : B2 z = 0 \/ bd 300 (B2 z)) by (destruct Hz as [E|(_ & E)]; [now left|right; exact E]).
  pose proof (step_err c dt z Fc Fd Fz Pc Pd Bc Bd Hz') as Rx. cbv zeta in Rx. fold x in Rx. clearbody x. set (s := sqrt (2 * B2 c * B2 dt)) in *.
  assert (S0 : 0 <= s) by apply sqrt_pos. assert (S1 : s <= 2 ^ 301). { apply sigma_le; auto; [destruct Bc as (_ & B); rewrite Rabs_pos_eq in B by lra; exact B|destruct Bd as (_ & B); rewrite Rabs_pos_eq in B by lra; exact B]. }
  pose proof (proj2 (rel_bound _ _ _ Rx (few 4 ltac:(lia)))) as Bx. split; [exact (proj1 Rx)|].
  assert (H8 : Rabs (B2 x - B2 z * s) <= 8 * u64 * Rabs (B2 z * s)). { replace (8 * u64) with (2 * INR 4 * u64) by (simpl; ring). exact Bx. }
  split; [exact H8|]. assert (Bz : Rabs (B2 z) <= 2 ^ 300). { destruct Hz as [->|(_ & _ & B)]; [rewrite Rabs_R0; apply pow_le; lra|exact B]. }
  assert (Q : Rabs (B2 z * s) <= 2 ^ 300 * 2 ^ 301). { rewrite Rabs_mult, (Rabs_pos_eq s S0). apply Rmult_le_compat; auto using Rabs_pos. }
  rewrite <- pow_add in Q. pose proof (Rabs_triang (B2 x - B2 z * s) (B2 z * s)) as T. replace (B2 x - B2 z * s + B2 z * s) with (B2 x) in T by ring.
  pose proof u64_tiny. pose proof u64_pos. assert (8 * u64 * Rabs (B2 z * s) <= 1 * Rabs (B2 z * s)) by (apply Rmult_le_compat_r; [apply Rabs_pos|lra]).
  assert (2 * 2 ^ 601 <= 2 ^ 900). { rewrite tech_pow_Rmult. apply Rle_pow; [lra|lia]. } change (300 + 301)%nat with 601%nat in Q. lra.
Qed.

Section F2.
Variable lm : libm.
Local Notation F := (F64 lm).
Context {G : rng F}.
Local Notation z0 := (b64_of_Z 0).
Lemma brownian_walk (sys : anysys F) (a : anyagent F) (c dt : b64) (g g' : rstate G) (vs : list (list b64)) (p : list b64) : a_mtype a = Brownian (c : F) -> sized 300 c -> sized 300 dt -> 0 < B2 c -> 0 < B2 dt ->
  INR (length vs) <= 2 ^ 50 -> drawn_moves a (dt : F) g vs g' -> length p = a_dim a -> Forall (fun x => fin x = true /\ Rabs (B2 x) <= 2 ^ 900) p ->
  let zs : list (list b64) := map (fun k => nth_block (gauss G) (a_dim a) k g) (seq 0 (length vs)) in
  Forall (Forall ordinary) zs -> unhindered (S := F) (sc_inclusion (core (G := G) sys)) p vs ->
  exists q : list b64, walked (S := F) (sc_check_bc (core (G := G) sys)) p vs q /\ length q = length p /\
    forall i, (i < length p)%nat -> fin (nth i q z0) = true /\
      Rabs (coord i q - (coord i p + sqrt (2 * B2 c * B2 dt) * rsum (coords i zs))) <=
        (4 * INR (length vs) + 8) * u64 * (Rabs (coord i p) + sqrt (2 * B2 c * B2 dt) * magnitude (coords i zs)).
Proof.
  intros Hc Sc Sd Pc Pd Hn HD Lp Hp zs Hz HU.
  set (f := fun z : b64 => Bmult mode_NE z (Bsqrt mode_NE (Bmult mode_NE (Bmult mode_NE (b64_of_Z 2) c) dt))).
  assert (EV : vs = map (map f) zs). { unfold zs. rewrite map_map. exact (moves_blocks lm a c dt Hc vs g g' HD). }
  assert (LZ : Forall (fun z : list b64 => length z = length p) zs). { unfold zs. apply Forall_map, Forall_forall. intros k _. rewrite Lp. exact (draws_length (S := F) (gauss G) (a_dim a) _). }
  assert (LL : length zs = length vs) by (unfold zs; now rewrite map_length, seq_length).
  clearbody zs. assert (HL : Forall (fun v : list b64 => length v = length p) vs). { rewrite EV. apply Forall_map. eapply Forall_impl; [|exact LZ]. intros z Ez. cbv beta. rewrite map_length. exact Ez. }
  assert (HS : forall z, ordinary z -> fin (f z) = true /\ Rabs (B2 (f z) - B2 z * sqrt (2 * B2 c * B2 dt)) <= 8 * u64 * Rabs (B2 z * sqrt (2 * B2 c * B2 dt)) /\ Rabs (B2 (f z)) <= 2 ^ 900).
  { intros z (Fz & Oz). exact (step_close c dt z Sc Sd Pc Pd Fz Oz). }
  clearbody f. destruct (walk_free (S := F) (G := G) sys z0 vs p HL HU) as (q & W & Lq & E). exists q. split; [exact W|]. split; [exact Lq|].
  intros i Hi. pose proof (E i Hi) as Ei. change (nth i q z0 = sum64 (nth i p z0) (map (fun v => nth i v z0) vs)) in Ei.
  destruct (nth_moderate _ p i Hp Hi) as (Fp & Bp). set (zc := map (fun z : list b64 => nth i z z0) zs). set (xc := map (fun v : list b64 => nth i v z0) vs) in *.
  assert (OK : Forall ordinary zc). { unfold zc. apply Forall_map, Forall_forall. intros z Iz. rewrite Forall_forall in Hz, LZ. pose proof (Hz z Iz) as H1. rewrite Forall_forall in H1. apply H1, nth_In. rewrite (LZ z Iz). exact Hi. }
  assert (EX : xc = map f zc). { unfold xc, zc. rewrite EV, !map_map. apply map_ext_in. intros z Iz. rewrite Forall_forall in LZ. apply nth_map_b64. rewrite (LZ z Iz). exact Hi. }
  assert (LC : length zc = length vs) by (unfold zc; now rewrite map_length). clearbody xc. subst xc.
  assert (Hx : Forall (fun x => fin x = true /\ Rabs (B2 x) <= 2 ^ 900) (map f zc)). { apply Forall_map. eapply Forall_impl; [|exact OK]. intros z Oz. destruct (HS z Oz) as (A & _ & B). split; assumption. }
  pose proof (sum_finite (nth i p z0) _ ltac:(rewrite map_length, LC; exact Hn) Fp Bp Hx) as Fq. split; [exact (eq_trans (f_equal (fun x : b64 => fin x) Ei) Fq)|].
  assert (Cq : coord i q = B2 (sum64 (nth i p z0) (map f zc))) by exact (f_equal (fun x : b64 => B2 x) Ei). rewrite Cq.
  destruct (col_sums i zs) as (C1 & C2). fold zc in C1, C2. rewrite <- C1, <- C2, <- LC. apply walk_steps; [apply sqrt_pos|rewrite LC; exact Hn|exact Fq|].
  clear -OK HS. induction OK as [|z l Oz OK IH]; constructor; [|exact IH]. destruct (HS z Oz) as (_ & A & _). exact A.
Qed.

Lemma forall2_map {A B : Type} (P : A -> B -> Prop) (Q : A -> Prop) (f : A -> B) (l : list A) : Forall Q l -> (forall x, Q x -> P x (f x)) -> Forall2 P l (map f l).
Proof. intros H K. induction H as [|x l Hx H IH]; constructor; auto. Qed.
Lemma random_step (a : anyagent F) (c dt : b64) (g : rstate G) : a_mtype a = Brownian (c : F) -> sized 300 c -> sized 300 dt -> 0 < B2 c -> 0 < B2 dt ->
  let zs : list b64 := nth_block (gauss G) (a_dim a) 0 g in Forall ordinary zs ->
  exists (g1 : rstate G) (v : list b64), a_random_move a g (dt : F) = (g1, Ok (v : pos F)) /\ Forall2 (fun z x => close 4 x (B2 z * sqrt (2 * B2 c * B2 dt))) zs v.
Proof.
  intros Hc Sc Sd Pc Pd zs Hz. eexists. eexists. split; [exact (random_move_draws a g dt c Hc)|]. fold (nth_block (gauss G) (a_dim a) 0 g).
  apply (forall2_map _ ordinary); [exact Hz|]. intros z (Fz & Oz). destruct (step_close c dt z Sc Sd Pc Pd Fz Oz) as (A & B & _). split; [exact A|]. replace (2 * 4) with 8 by ring. exact B.
Qed.
End F2.
