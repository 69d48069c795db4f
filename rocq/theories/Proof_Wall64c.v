(** Boundary steps in double precision: the ball and the cylinder. *)
From Coq Require Import Reals ZArith List Lra Lia.
From Flocq Require Import Core.
From Flocq.IEEE754 Require Import BinarySingleNaN.
From Verif Require Import Base Scalar Float64 Model_Position Spec_Position Proof_Position Proof_Norm64 Proof_Sum64
  Model_System Spec_System Proof_System Proof_System2 Proof_System3 Proof_System4 Proof_System5 Proof_System6 Proof_System8 Spec_Wall64 Proof_Wall64 Proof_Wall64b.
Import ListNotations.
Local Open Scope R_scope.

Lemma mul_near (x f : b64) : fin x = true -> fin f = true -> Rabs (B2 f) <= 2 -> Rabs (B2 x) <= 2 ^ 410 ->
  fin (Bmult mode_NE x f) = true /\ Rabs (B2 (Bmult mode_NE x f) - B2 f * B2 x) <= 2 * u64 * Rabs (B2 x) + eta64.
Proof.
  intros Fx Ff Hf Hx. destruct (mult_val x f Fx Ff) as (N & V). pose proof (rnd64_err (B2 x * B2 f)) as D. pose proof u64_pos. pose proof u64_lt1. pose proof eta64_pos.
  rewrite Rabs_mult in D. pose proof (Rabs_pos (B2 x)) as Px. pose proof (Rabs_pos (B2 f)) as Pf.
  assert (M : Rabs (B2 x) * Rabs (B2 f) <= 2 * Rabs (B2 x)) by nra.
  assert (D' : Rabs (rnd64 (B2 x * B2 f) - B2 x * B2 f) <= 2 * u64 * Rabs (B2 x) + eta64) by nra.
  assert (Fm : fin (Bmult mode_NE x f) = true).
  { apply (rnd64_lt_fin _ _ N V). apply Rle_lt_trans with (2 ^ 413).
    - replace (rnd64 (B2 x * B2 f)) with ((rnd64 (B2 x * B2 f) - B2 x * B2 f) + B2 x * B2 f) by ring.
      pose proof (Rabs_triang (rnd64 (B2 x * B2 f) - B2 x * B2 f) (B2 x * B2 f)) as T. rewrite Rabs_mult in T.
      assert (E : 2 ^ 413 = 8 * 2 ^ 410) by (replace 413%nat with (3 + 410)%nat by lia; rewrite pow_add; simpl (2 ^ 3); ring).
      assert (eta64 <= 1). { unfold eta64. rewrite <- Rinv_1. apply Rinv_le_contravar; [lra|]. apply pow_R1_Rle. lra. }
      assert (1 <= 2 ^ 410) by (apply pow_R1_Rle; lra). rewrite E. set (b := 2 ^ 410) in *. clearbody b. nra.
    - rewrite <- (bpow_pow 413). apply bpow_lt. reflexivity. }
  split; auto. rewrite (fin_mult_eq x f Fm). now rewrite (Rmult_comm (B2 f)).
Qed.

Lemma kept_core (a v r n nq w : R) : 0 < v -> 4 * v <= a <= / 1000 -> 0 < r -> 0 <= w -> w <= (4 * a + 10 * v) * n -> 
  nq <= Rabs (2 * r - n) + w -> r * (1 + 32 * a) <= n /\ n <= 3 * r * (1 - 32 * a) -> nq * (1 + a) <= r.
Proof.
  intros v0 A r0 w0 W Q (L & H). assert (B : Rabs (2 * r - n) <= r * (1 - 32 * a)) by (apply Rabs_le; nra).
  assert (W' : w <= 13 / 2 * a * (3 * r)) by nra. assert (X : nq <= r * (1 - 12 * a)) by nra. nra.
Qed.
Lemma refused_core (a v r n nq w : R) : 0 < v -> 4 * v <= a <= / 1000 -> 0 < r -> 0 <= w -> w <= (4 * a + 10 * v) * n -> 
  Rabs (2 * r - n) - w <= nq -> 3 * r * (1 + 32 * a) <= n -> r < nq /\ r < nq * (1 - a).
Proof.
  intros v0 A r0 w0 W Q L. assert (B : n - 2 * r <= Rabs (2 * r - n)) by (rewrite <- Rabs_Ropp; pose proof (Rle_abs (- (2 * r - n))); lra).
  assert (W' : w <= 13 / 2 * a * n) by nra. assert (X : n * (1 - 13 / 2 * a) - 2 * r <= nq) by nra.
  assert (Y : 3 * r * (1 + 32 * a) * (1 - 13 / 2 * a) <= n * (1 - 13 / 2 * a)) by (apply Rmult_le_compat_r; lra).
  assert (Z : r * (1 + 70 * a) <= nq) by nra. split; nra.
Qed.

Lemma T410_le1 : T410 <= 1. Proof. unfold T410. rewrite <- Rinv_1. apply Rinv_le_contravar; [lra|]. apply pow_R1_Rle. lra. Qed.

Section Shrink.
Variables (r : b64) (h : list b64).
Hypothesis (Mr : middling r) (Fk : few (length h)) (Fh : finite_pos h).
Let n := euclid_norm (reals h).
Hypothesis Hn : n <= 2 ^ 400.
Let a := al (length h).

Lemma n_nonneg : 0 <= n. Proof. apply euclid_norm_nonneg. Qed.
Lemma n410 : n <= 2 ^ 410. Proof. apply Rle_trans with (1 := Hn). apply Rle_pow; [lra|lia]. Qed.
Lemma a_small : 4 * u64 <= a <= / 1000. Proof. split; [apply al_pos|apply al_small, Fk]. Qed.
Lemma r_big : 1000 * T410 <= B2 r.
Proof. destruct Mr as (_ & L & _). rewrite T400 in L. pose proof T410_pos. simpl (2 ^ 10) in L. lra. Qed.
Lemma r_pos : 0 < B2 r. Proof. pose proof r_big. pose proof T410_pos. lra. Qed.
Lemma coord_n x : In x h -> Rabs (B2 x) <= n. Proof. intros I. apply coord_le. unfold reals. now apply in_map. Qed.
Lemma slack_a : slack (length h) = 32 * a. Proof. apply slack_al. Qed.

Lemma outside_facts : Bltb r (n64 h) = true ->
  fin (fac r (n64 h)) = true /\ T410 <= n /\ Rabs (B2 (fac r (n64 h))) <= 2 /\
  Rabs (B2 (fac r (n64 h)) - (2 * B2 r - n) / n) <= 2 * a + 3 * u64 /\ B2 r < n * (1 + a) /\
  (forall k, wall_factor (B2 r) n k -> Rabs (B2 (fac r (n64 h)) - k) <= 4 * a + 3 * u64 + 4 * a * a).
Proof.
  intros E. destruct (norm_near h Fk Fh n410) as (FN & N0 & NB & NS). fold n a in NB, NS. pose proof a_small as As. pose proof r_big as Rb. pose proof r_pos as Rp. pose proof T410_pos as Tp.
  destruct Mr as (Fr & _). apply (ltb64 r (n64 h) Fr FN) in E.
  assert (Tn : T410 <= n). { apply Rnot_lt_le. intros C. specialize (NS ltac:(lra)). lra. }
  specialize (NB Tn). destruct (fac_near r (n64 h) (middling_fit r Mr) FN Rp E) as (Ff & D). pose proof u64_pos as U0. pose proof u64_lt1.
  assert (Q : forall k, wall_factor (B2 r) n k -> Rabs (B2 (fac r (n64 h)) - (2 * B2 r - n) / n) <= 2 * a + 3 * u64 /\ Rabs (B2 (fac r (n64 h)) - k) <= 4 * a + 3 * u64 + 4 * a * a).
  { intros k K. apply (factor_core a u64 (B2 r) n (B2 (n64 h))); auto; lra. }
  assert (K0 : exists k, wall_factor (B2 r) n k).
  { destruct (Rle_or_lt n (B2 r)) as [C|C]; [exists 1|exists ((2 * B2 r - n) / n)]; split; intros; try lra; reflexivity. }
  split; auto. split; auto. split; [|split; [destruct K0 as (k & K); apply (Q k K)|split; [lra|intros k K; apply (Q k K)]]].
  assert (X : Rabs ((2 * B2 r - B2 (n64 h)) / B2 (n64 h)) <= 1).
  { apply Rabs_le. split; apply Rmult_le_reg_r with (B2 (n64 h)); try lra; unfold Rdiv; rewrite Rmult_assoc, Rinv_l; lra. }
  replace (B2 (fac r (n64 h))) with ((B2 (fac r (n64 h)) - (2 * B2 r - B2 (n64 h)) / B2 (n64 h)) + (2 * B2 r - B2 (n64 h)) / B2 (n64 h)) by ring.
  match goal with |- Rabs (?x + ?y) <= _ => pose proof (Rabs_triang x y) end. 
  assert (u64 <= / 4000) by lra. lra.
Qed.

Lemma shrunk_finite : finite_pos (shrunk r h) /\ length (shrunk r h) = length h.
Proof.
  unfold shrunk. destruct (Bltb r (n64 h)) eqn:E; [|split; auto]. split; [|apply map_length].
  destruct (outside_facts E) as (Ff & _ & F2 & _). unfold finite_pos in *. rewrite Forall_forall in *. intros y I. apply in_map_iff in I as (x & <- & I).
  apply mul_near; auto. apply Rle_trans with n; [now apply coord_n|exact n410].
Qed.

Lemma Forall2_map_In {A B} (P : A -> B -> Prop) (f : A -> B) l : (forall x, In x l -> P x (f x)) -> Forall2 P l (map f l).
Proof. induction l as [|x l IH]; intros H; constructor; [apply H; now left|apply IH; intros; apply H; now right]. Qed.

Lemma shrunk_near k : wall_factor (B2 r) n k -> scaled_near (slack (length h) * n) k h (shrunk r h).
Proof.
  intros K. rewrite slack_a. pose proof a_small as As. pose proof u64_pos as U0. pose proof n_nonneg as N0. pose proof T410_pos as Tp. pose proof r_big as Rb. unfold shrunk, scaled_near. destruct (Bltb r (n64 h)) eqn:E.
  - destruct (outside_facts E) as (Ff & Tn & F2 & _ & _ & FK). specialize (FK k K). apply Forall2_map_In. intros x I.
    assert (Fx : fin x = true) by (unfold finite_pos in Fh; rewrite Forall_forall in Fh; auto). pose proof (coord_n x I) as Cx. pose proof (Rabs_pos (B2 x)) as Px.
    destruct (mul_near x _ Fx Ff F2 ltac:(apply Rle_trans with n; [auto|exact n410])) as (_ & D).
    set (y := B2 (Bmult mode_NE x (fac r (n64 h)))) in *. set (f := B2 (fac r (n64 h))) in *.
    replace (y - k * B2 x) with ((y - f * B2 x) + (f - k) * B2 x) by ring.
    pose proof (Rabs_triang (y - f * B2 x) ((f - k) * B2 x)) as T. rewrite (Rabs_mult (f - k)) in T.
    destruct (eta_T _ Fk) as (_ & E2). assert (E3 : eta64 <= u64 * n). { apply Rle_trans with (1 := E2). apply Rmult_le_compat_l; [lra|]. pose proof T410_le1. nra. }
    assert (M : Rabs (f - k) * Rabs (B2 x) <= (4 * a + 3 * u64 + 4 * a * a) * n) by (apply Rmult_le_compat; auto using Rabs_pos).
    assert (M2 : 2 * u64 * Rabs (B2 x) <= 2 * u64 * n) by (apply Rmult_le_compat_l; lra).
    assert (4 * a * a <= a) by nra. nra.
  - rewrite <- (map_id h) at 2. apply Forall2_map_In. intros x I. pose proof (coord_n x I) as Cx. pose proof (Rabs_pos (B2 x)) as Px.
    replace (B2 x - k * B2 x) with ((1 - k) * B2 x) by ring. rewrite Rabs_mult.
    assert (Q : Rabs (1 - k) <= 2 * a).
    { destruct K as (K1 & K2). destruct (Rle_or_lt n (B2 r)) as [C|C]; [rewrite (K1 C), Rminus_eq_0, Rabs_R0; lra|]. rewrite (K2 C).
      destruct (norm_near h Fk Fh n410) as (FN & _ & NB & _). fold n a in NB. specialize (NB ltac:(lra)). destruct Mr as (Fr & _).
      apply (proj2 (ltb64 r (n64 h) Fr FN)) in E. replace (1 - (2 * B2 r - n) / n) with (2 * ((n - B2 r) / n)) by (field; lra).
      assert (0 <= (n - B2 r) / n <= a). { split; apply Rmult_le_reg_r with n; try lra; unfold Rdiv; rewrite Rmult_assoc, Rinv_l; nra. }
      rewrite Rabs_pos_eq; lra. }
    apply Rle_trans with (2 * a * n); [apply Rmult_le_compat; auto using Rabs_pos|]. nra.
Qed.

Lemma shrunk_norm : Bltb r (n64 h) = true -> exists w, 0 <= w /\ w <= (4 * a + 10 * u64) * n /\
  Rabs (2 * B2 r - n) - w <= euclid_norm (reals (shrunk r h)) <= Rabs (2 * B2 r - n) + w.
Proof.
  intros E. pose proof a_small as As. pose proof u64_pos as U0. pose proof n_nonneg as N0. pose proof T410_pos as Tp.
  destruct (outside_facts E) as (Ff & Tn & F2 & FT & _ & _). set (t := (2 * B2 r - n) / n) in *.
  assert (P : Forall2 (fun x y => Rabs (y - t * x) <= (2 * a + 5 * u64) * Rabs x + eta64) (reals h) (reals (shrunk r h))).
  { unfold shrunk. rewrite E. unfold reals. rewrite map_map. clear - Fh FT Ff F2 Fk Hn.
    assert (G : forall l, (forall x, In x l -> In x h) -> Forall2 (fun x y => Rabs (y - t * x) <= (2 * a + 5 * u64) * Rabs x + eta64) (map B2 l) (map (fun x => B2 (Bmult mode_NE x (fac r (n64 h)))) l)).
    { induction l as [|x l IH]; intros I; cbn [map]; constructor; [|apply IH; intros; apply I; now right]. specialize (I x ltac:(now left)).
      assert (Fx : fin x = true) by (unfold finite_pos in Fh; rewrite Forall_forall in Fh; auto). pose proof (coord_n x I) as Cx. pose proof (Rabs_pos (B2 x)) as Px.
      destruct (mul_near x _ Fx Ff F2 ltac:(apply Rle_trans with n; [auto|exact n410])) as (_ & D).
      set (y := B2 (Bmult mode_NE x (fac r (n64 h)))) in *. set (f := B2 (fac r (n64 h))) in *.
      replace (y - t * B2 x) with ((y - f * B2 x) + (f - t) * B2 x) by ring.
      pose proof (Rabs_triang (y - f * B2 x) ((f - t) * B2 x)) as T. rewrite (Rabs_mult (f - t)) in T.
      assert (M : Rabs (f - t) * Rabs (B2 x) <= (2 * a + 3 * u64) * Rabs (B2 x)) by (apply Rmult_le_compat_r; auto). lra. }
    now apply G. }
  apply norm_pert in P as (w & w0 & W & Q); [|pose proof u64_pos; nra|apply Rlt_le, eta64_pos].
  exists w. split; auto. fold n in W, Q. assert (Lr : length (reals h) = length h) by (unfold reals; apply map_length). rewrite Lr in W.
  assert (Tt : Rabs t * n = Rabs (2 * B2 r - n)).
  { unfold t, Rdiv. rewrite Rabs_mult, (Rabs_pos_eq (/ n)) by (apply Rlt_le, Rinv_0_lt_compat; lra). rewrite Rmult_assoc, Rinv_l by lra. ring. }
  rewrite Tt in Q. split; auto. destruct (eta_T _ Fk) as (E1 & E2). pose proof eta64_pos as He.
  assert (T2 : T410 ^ 2 <= n). { pose proof T410_le1. nra. }
  assert (En : eta64 <= u64 * n) by (apply Rle_trans with (1 := E2); apply Rmult_le_compat_l; lra).
  assert (Ek : INR (length h) * eta64 <= u64 * n) by (apply Rle_trans with (1 := E1); apply Rmult_le_compat_l; lra).
  pose proof (pos_INR (length h)) as K0.
  assert (EE : INR (length h) * eta64 ^ 2 <= u64 ^ 2 * n ^ 2).
  { replace (INR (length h) * eta64 ^ 2) with (INR (length h) * eta64 * eta64) by ring. replace (u64 ^ 2 * n ^ 2) with (u64 * n * (u64 * n)) by ring.
    apply Rmult_le_compat; try lra. apply Rmult_le_pos; lra. }
  apply sq_le_le; [apply Rmult_le_pos; lra|]. replace (((4 * a + 10 * u64) * n) ^ 2) with (4 * (2 * a + 5 * u64) ^ 2 * n ^ 2) by ring.
  assert (C2 : u64 ^ 2 <= (2 * a + 5 * u64) ^ 2) by (apply pow_incr; lra). pose proof (pow2_ge_0 n) as n2. set (m2 := n ^ 2) in *. set (c2 := (2 * a + 5 * u64) ^ 2) in *.
  assert (u64 ^ 2 * m2 <= c2 * m2) by (apply Rmult_le_compat_r; auto). lra.
Qed.

Lemma shrunk_tests : (surely_kept (slack (length h)) (B2 r) n -> Bltb r (n64 (shrunk r h)) = false) /\
  (surely_refused (slack (length h)) (B2 r) n -> Bltb r (n64 (shrunk r h)) = true).
Proof.
  rewrite slack_a. pose proof a_small as As. pose proof u64_pos as U0. pose proof n_nonneg as N0. pose proof T410_pos as Tp. pose proof r_big as Rb. pose proof r_pos as Rp. pose proof Mr as (Fr & RL & RH).
  destruct (norm_near h Fk Fh n410) as (FN & _ & NB & NS). fold n a in NB, NS.
  destruct (Bltb r (n64 h)) eqn:E.
  - destruct (outside_facts E) as (Ff & Tn & F2 & _ & Rn & _). specialize (NB Tn). apply (ltb64 r (n64 h) Fr FN) in E as E'.
    destruct (shrunk_norm E) as (w & w0 & W & QL & QH). destruct shrunk_finite as (Fq & Lq).
    assert (Fkq : few (length (shrunk r h))) by (rewrite Lq; exact Fk).
    assert (Hq : euclid_norm (reals (shrunk r h)) <= 2 ^ 410).
    { apply Rle_trans with (1 := QH). assert (Ab : Rabs (2 * B2 r - n) <= 3 * 2 ^ 400) by (apply Rabs_le; lra).
      assert (2 ^ 410 = 1024 * 2 ^ 400) by (replace 410%nat with (10 + 400)%nat by lia; rewrite pow_add; simpl (2 ^ 10); ring).
      assert (w <= 2 ^ 400). { apply Rle_trans with (1 := W). apply Rle_trans with (1 * n); [apply Rmult_le_compat_r; lra|lra]. } set (b := 2 ^ 400) in *. clearbody b. lra. }
    destruct (norm_near _ Fkq Fq Hq) as (FQ & _ & QB & QS). rewrite Lq in QB. fold a in QB. set (nq := euclid_norm (reals (shrunk r h))) in *.
    destruct (ltb64 r (n64 (shrunk r h)) Fr FQ) as (T1 & T2). split.
    + intros [K|K]; [exfalso; assert (K' : n * (1 + a) <= B2 r * (1 - 32 * a) * (1 + a)) by (apply Rmult_le_compat_r; lra); clear - K' NB E' As Rp U0; nra|]. apply T2. pose proof (kept_core a u64 (B2 r) n nq w U0 As Rp w0 W QH K) as X.
      destruct (Rle_or_lt T410 nq) as [C|C]; [specialize (QB C); lra|specialize (QS ltac:(lra)); lra].
    + intros K. apply T1. destruct (refused_core a u64 (B2 r) n nq w U0 As Rp w0 W QL K) as (X & Y). specialize (QB ltac:(lra)). lra.
  - unfold shrunk. rewrite E. split; intros K; auto. exfalso. apply (proj2 (ltb64 r (n64 h) Fr FN)) in E.
    unfold surely_refused in K. assert (K' : 3 * B2 r <= n) by (clear - K As Rp U0; nra). specialize (NB ltac:(lra)). clear - K' NB E As Rp U0; nra.
Qed.
End Shrink.

Section F.
Variable lm : libm.
Local Notation F := (F64 lm).

Lemma circ_step_64 (s : circ F) (p dp : list b64) : length p = ci_dim s -> length dp = ci_dim s -> let m := vsum (S := F) p dp in
  circ_check_bc s p dp = (shrunk (ci_size s) m, if Bltb (ci_size s) (n64 (shrunk (ci_size s) m)) then Err TooLargeTimeStep else Ok tt).
Proof.
  intros Lp Ld m. unfold circ_check_bc. rewrite (move_eq2 (S := F) p dp _ _ Lp Ld). fold m.
  pose proof (vsum_len2 (S := F) p dp _ Lp Ld) as Lm. fold m in Lm. unfold shrunk. destruct (Bltb (ci_size s) (n64 m)) eqn:E.
  - rewrite (if_inside_false (S := F)) by (rewrite (circ_inclusion_eq (S := F) s m Lm), norm64; change (@ltb F) with (@Bltb 53 1024); now rewrite E).
    cbv zeta. rewrite norm64. change (mut_scalar_mul (S := F) m (div (sub (mul s2 (ci_size s)) (n64 m : F)) (n64 m : F))) with (map (fun x => Bmult mode_NE x (fac (ci_size s) (n64 m))) m).
    set (q := map (fun x => Bmult mode_NE x (fac (ci_size s) (n64 m))) m).
    assert (Lq : @length (car F) q = ci_dim s) by (unfold q; rewrite map_length; exact Lm).
    destruct (Bltb (ci_size s) (n64 q)) eqn:Eq.
    + apply (if_inside_false (S := F)). rewrite (circ_inclusion_eq (S := F) s q Lq), norm64. change (@ltb F) with (@Bltb 53 1024). now rewrite Eq.
    + apply (if_inside_true (S := F)). rewrite (circ_inclusion_eq (S := F) s q Lq), norm64. change (@ltb F) with (@Bltb 53 1024). now rewrite Eq.
  - rewrite E. apply (if_inside_true (S := F)). rewrite (circ_inclusion_eq (S := F) s m Lm), norm64. change (@ltb F) with (@Bltb 53 1024). now rewrite E.
Qed.

Lemma circ_near (s : circ F) (p dp : list b64) : middling (ci_size s) -> INR (ci_dim s) <= 2 ^ 40 -> length p = ci_dim s -> length dp = ci_dim s ->
  let m := vsum (S := F) p dp in let n := euclid_norm (reals m) in let r := B2 (ci_size s) in
  finite_pos m -> n <= 2 ^ 400 ->
  exists q o, circ_check_bc s p dp = (q, o) /\ finite_pos q /\ length q = ci_dim s /\
    (forall k, wall_factor r n k -> scaled_near (slack (ci_dim s) * n) k m q) /\
    (o = Ok tt \/ o = Err TooLargeTimeStep) /\
    (surely_kept (slack (ci_dim s)) r n -> o = Ok tt) /\ (surely_refused (slack (ci_dim s)) r n -> o = Err TooLargeTimeStep).
Proof.
  intros Mr Fk Lp Ld m n r Fm Hn. rewrite (circ_step_64 s p dp Lp Ld). fold m.
  assert (Lm : length m = ci_dim s) by exact (vsum_len2 (S := F) p dp _ Lp Ld). rewrite <- Lm in Fk |- *.
  destruct (shrunk_finite _ m Mr Fk Fm Hn) as (F1 & L1). destruct (shrunk_tests _ m Mr Fk Fm Hn) as (T1 & T2).
  eexists _, _. split; [reflexivity|]. split; auto. split; auto. split; [intros k; now apply shrunk_near|].
  split; [destruct (Bltb _ _); auto|]. split; intros K; [now rewrite (T1 K)|now rewrite (T2 K)].
Qed.

Lemma period1_inside (l x : b64) : fin l = true -> fin x = true -> Bltb l (Babs x) = false -> period1 (S := F) l x = x.
Proof.
  intros Fl Fx H. unfold period1. change (@leb F) with (@Bleb 53 1024). change (@fabs F) with (@Babs 53 1024).
  assert (Fa : fin (Babs x) = true) by (destruct x; easy). apply (ltb64 l (Babs x) Fl Fa) in H. now rewrite (proj2 (proj1 (leb64 (Babs x) l Fa Fl)) H).
Qed.
Lemma within_id (l : b64) (v : list b64) : fin l = true -> finite_pos v -> within (S := F) l v = true -> map (period1 (S := F) l) v = v.
Proof.
  intros Fl Fv W. induction v as [|x v IH]; [reflexivity|]. inversion Fv as [|? ? Fx Fv']; subst. cbn [within] in W.
  change (@ltb F) with (@Bltb 53 1024) in W. change (@fabs F) with (@Babs 53 1024) in W. destruct (Bltb l (Babs x)) eqn:E; [discriminate|].
  cbn [map]. f_equal; [now apply period1_inside|]. apply IH; auto.
Qed.

Lemma cyl_step_64 (s : cyl F) d (p dp : list b64) : cy_type s = ContinuousCylindrical d -> cy_bc s = Mixed d -> (d <= cy_dim s)%nat -> fin (cy_length s : b64) = true ->
  length p = cy_dim s -> length dp = cy_dim s -> let m := vsum (S := F) p dp in finite_pos m ->
  let h := shrunk (cy_radius s) (firstn d m) in let v := map (period1 (S := F) (cy_length s)) (skipn d m) in
  cyl_check_bc s p dp = (h ++ v, if Bltb (cy_radius s) (n64 h) then Err TooLargeTimeStep else if within (S := F) (cy_length s) v then Ok tt else Err TooLargeTimeStep).
Proof.
  intros Ty Bc Dd Fl Lp Ld m Fm h v. unfold cyl_check_bc. rewrite (move_eq2 (S := F) p dp _ _ Lp Ld). fold m.
  pose proof (vsum_len2 (S := F) p dp _ Lp Ld) as Lm. fold m in Lm.
  pose proof (Lm : @length b64 m = cy_dim s) as Lm'.
  assert (L1 : @length b64 (firstn d m) = d) by (rewrite firstn_length; lia).
  assert (Lh : @length b64 h = d) by (unfold h, shrunk; destruct (Bltb _ _); rewrite ?map_length; exact L1).
  assert (Lv : @length b64 v = (cy_dim s - d)%nat) by (unfold v; refine (eq_trans (map_length _ _) _); refine (eq_trans (skipn_length _ _) _); now rewrite <- Lm').
  assert (Lq : @length b64 (h ++ v) = cy_dim s) by (rewrite app_length, Lh, Lv; lia).
  assert (Eh : firstn d (h ++ v) = h) by (rewrite <- Lh at 1; rewrite firstn_app, Nat.sub_diag, firstn_all; cbn [firstn]; apply app_nil_r).
  assert (Ev : skipn d (h ++ v) = v) by (rewrite <- Lh at 1; rewrite skipn_app, Nat.sub_diag, skipn_all; reflexivity).
  assert (IQ : cyl_inclusion (S := F) s (h ++ v) = if Bltb (cy_radius s) (n64 h) then Ok false else Ok (within (S := F) (cy_length s) v)).
  { refine (eq_trans (cyl_inclusion_eq (S := F) s d (h ++ v) Ty Dd Lq) _).
    change ((if Bltb (cy_radius s) (n64 (@firstn b64 d (@app b64 h v))) then Ok false else Ok (within (S := F) (cy_length s) (@skipn b64 d (@app b64 h v)))) =
      (if Bltb (cy_radius s) (n64 h) then Ok false else Ok (within (S := F) (cy_length s) v))). rewrite Eh, Ev. reflexivity. }
  assert (Last : if_inside (S := F) (cyl_inclusion s) (h ++ v) (h ++ v, Err TooLargeTimeStep) =
    (h ++ v, if Bltb (cy_radius s) (n64 h) then Err TooLargeTimeStep else if within (S := F) (cy_length s) v then Ok tt else Err TooLargeTimeStep)).
  { destruct (Bltb (cy_radius s) (n64 h)) eqn:E1; [|destruct (within (S := F) (cy_length s) v) eqn:E2].
    - apply (if_inside_false (S := F)). exact IQ.
    - apply (if_inside_true (S := F)). exact IQ.
    - apply (if_inside_false (S := F)). exact IQ. }
  pose proof (cyl_inclusion_eq (S := F) s d m Ty Dd Lm) as I. rewrite slice_norm64 in I. change (@ltb F) with (@Bltb 53 1024) in I.
  destruct (Bltb (cy_radius s) (n64 (firstn d m))) eqn:E0; [|destruct (within (S := F) (cy_length s) (skipn d m)) eqn:Ew].
  2:{ rewrite (if_inside_true (S := F) _ _ _ I). assert (Hh : h = firstn d m) by (unfold h, shrunk; now rewrite E0).
      assert (Hv : v = skipn d m) by (unfold v; apply within_id; auto; now apply Forall_skipn').
      rewrite Hh, Hv, E0, Ew, firstn_skipn. reflexivity. }
  all: rewrite (if_inside_false (S := F) _ _ _ I), Bc; (destruct (Nat.ltb_spec (@length (car F) m) d) as [C|_]; [lia|]); cbv zeta; rewrite slice_norm64;
    change (@ltb F) with (@Bltb 53 1024); rewrite E0; rewrite <- Last; f_equal; unfold h, shrunk; rewrite E0; reflexivity.
Qed.

Lemma cyl_near_list (rd ln : b64) d D (m : list b64) : (d <= D)%nat -> middling rd -> fit ln -> 0 < B2 ln -> INR d <= 2 ^ 40 -> length m = D ->
  let n := euclid_norm (reals (firstn d m)) in let r := B2 rd in let L := B2 ln in
  finite_pos m -> n <= 2 ^ 400 ->
  let axial := Forall (fun x : b64 => Rabs (B2 x) <= 3 * L) (skipn d m) in
  let h := shrunk rd (firstn d m) in let v : list b64 := map (period1 (S := F) ln) (skipn d m) in
  let q := h ++ v in let o := if Bltb rd (n64 h) then Err TooLargeTimeStep else if within (S := F) ln v then Ok tt else Err TooLargeTimeStep in
    length q = D /\
    (forall k, wall_factor r n k -> scaled_near (slack d * n) k (firstn d m) (firstn d q)) /\
    (axial -> finite_pos q /\ Forall2 (translated L) (reals (skipn d m)) (reals (skipn d q))) /\
    (o = Ok tt \/ o = Err TooLargeTimeStep) /\
    (surely_kept (slack d) r n /\ axial -> o = Ok tt) /\ (surely_refused (slack d) r n \/ ~ axial -> o = Err TooLargeTimeStep).
Proof.
  intros Dd Mr Fl Pl Fk Lm n r L Fm Hn axial. cbv zeta.
  assert (L1 : length (firstn d m) = d) by (rewrite firstn_length; lia).
  pose proof (Forall_firstn' _ d _ Fm) as F1. pose proof (Forall_skipn' _ d _ Fm) as F2.
  assert (Fk1 : few (length (firstn d m))) by (unfold few; rewrite L1; exact Fk).
  destruct (shrunk_finite _ (firstn d m) Mr Fk1 F1 Hn) as (Fh & Lh). rewrite L1 in Lh.
  destruct (shrunk_tests _ (firstn d m) Mr Fk1 F1 Hn) as (T1 & T2). fold n r in T1, T2. rewrite L1 in T1, T2.
  pose proof (shrunk_near _ (firstn d m) Mr Fk1 F1 Hn) as Nr. fold n r in Nr. rewrite L1 in Nr.
  set (h := shrunk rd (firstn d m)) in *. set (v := map (period1 (S := F) ln) (skipn d m)).
  assert (Eh : firstn d (h ++ v) = h) by (rewrite <- Lh at 1; rewrite firstn_app, Nat.sub_diag, firstn_all; cbn [firstn]; apply app_nil_r).
  assert (Ev : skipn d (h ++ v) = v) by (rewrite <- Lh at 1; rewrite skipn_app, Nat.sub_diag, skipn_all; reflexivity).
  assert (Ax : axial -> Forall2 (wall_64 translated ln) (skipn d m) v).
  { intros A. unfold axial in A. apply Forall2_map_In. intros x I. rewrite Forall_forall in A. rewrite Forall_forall in F2. apply period1_64; auto. }
  assert (Ab : axial -> Forall (bounded64 ln) v).
  { intros A. specialize (Ax A). clear - Ax. induction Ax as [|x y l q (e & _ & _ & Bd) W IH]; constructor; auto. }
  split.
  { rewrite app_length, Lh. assert (Lv : @length b64 v = (D - d)%nat) by (unfold v; refine (eq_trans (map_length _ _) _); refine (eq_trans (skipn_length _ _) _); now rewrite <- Lm). rewrite Lv. lia. }
  split; [intros k K; rewrite Eh; now apply Nr|]. split.
  { intros A. split.
    - apply Forall_app. split; auto. eapply Forall_impl; [|exact (Ab A)]. now intros y (Fy & _).
    - rewrite Ev. apply (Forall2_reals translated ln); auto; try (apply Rlt_le; exact Pl). clear - F2 A. unfold axial in A. rewrite Forall_forall in *. split; auto. }
  split; [destruct (Bltb _ _); auto; destruct (within _ _); auto|]. split.
  - intros (K & A). rewrite (T1 K), (bounded_within lm _ v (proj1 Fl) (Ab A)). reflexivity.
  - intros [K|A]; [now rewrite (T2 K)|]. destruct (Bltb _ _); auto. rewrite within_false; auto.
    apply not_all_near in A. apply Exists_map_imp with (2 := A). intros x Ix Hx. rewrite Forall_forall in F2. apply period1_far; auto.
Qed.

Lemma cyl_near (s : cyl F) d (p dp : list b64) : built_cyl s -> cy_type s = ContinuousCylindrical d -> middling (cy_radius s) -> fit (cy_length s) -> INR d <= 2 ^ 40 ->
  length p = cy_dim s -> length dp = cy_dim s ->
  let m := vsum (S := F) p dp in let n := euclid_norm (reals (firstn d m)) in let r := B2 (cy_radius s) in let L := B2 (cy_length s) in
  finite_pos m -> n <= 2 ^ 400 ->
  let axial := Forall (fun x : b64 => Rabs (B2 x) <= 3 * L) (skipn d m) in
  exists q o, cyl_check_bc s p dp = (q, o) /\ length q = cy_dim s /\
    (forall k, wall_factor r n k -> scaled_near (slack d * n) k (firstn d m) (firstn d q)) /\
    (axial -> finite_pos q /\ Forall2 (translated L) (reals (skipn d m)) (reals (skipn d q))) /\
    (o = Ok tt \/ o = Err TooLargeTimeStep) /\
    (surely_kept (slack d) r n /\ axial -> o = Ok tt) /\ (surely_refused (slack d) r n \/ ~ axial -> o = Err TooLargeTimeStep).
Proof.
  intros B Ty Mr Fl Fk Lp Ld m n r L Fm Hn axial.
  apply built_cyl_inv in B as (d' & Ty' & Bc & Dd & _ & L0 & _). rewrite Ty in Ty'. injection Ty' as <-.
  assert (Pl : 0 < L).
  { change (@leb F) with (@Bleb 53 1024) in L0. change (@s0 F) with (b64_of_Z 0) in L0. destruct zero64 as (F0 & E0).
    destruct (leb64 (cy_length s) (b64_of_Z 0) (proj1 Fl) F0) as (_ & Q). rewrite E0 in Q. now apply Q. }
  exists (shrunk (cy_radius s) (firstn d m) ++ map (period1 (S := F) (cy_length s)) (skipn d m)). eexists.
  split; [exact (cyl_step_64 s d p dp Ty Bc Dd (proj1 Fl) Lp Ld Fm)|].
  exact (cyl_near_list (cy_radius s) (cy_length s) d (cy_dim s) m Dd Mr Fl Pl Fk (vsum_len2 (S := F) p dp _ Lp Ld) Fm Hn).
Qed.
End F.

Lemma vsum_rounded (lm : libm) (p dp : list b64) i : length p = length dp -> (i < length p)%nat ->
  finite_pos (vsum (S := F64 lm) p dp) ->
  Rabs (B2 (nth i (vsum (S := F64 lm) p dp) (b64_of_Z 0)) - (B2 (nth i p (b64_of_Z 0)) + B2 (nth i dp (b64_of_Z 0)))) <=
    Rabs (B2 (nth i p (b64_of_Z 0)) + B2 (nth i dp (b64_of_Z 0))) / 2 ^ 53.
Proof.
  revert dp i. induction p as [|x p IH]; intros [|y dp] i L Hi Fm; try discriminate; [cbn in Hi; lia|].
  change (vsum (S := F64 lm) (x :: p) (y :: dp)) with (Bplus mode_NE x y :: vsum (S := F64 lm) p dp) in *. inversion Fm as [|? ? Fx Fm']; subst.
  destruct i as [|i]; cbn [nth].
  - rewrite (fin_plus_eq x y Fx). unfold Rdiv. rewrite (Rmult_comm _ (/ 2 ^ 53)). exact (rnd64_plus x y).
  - cbn [length] in *. apply IH; auto; lia.
Qed.
