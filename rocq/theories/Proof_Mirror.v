(** The three reflections at a sphere compared, in exact arithmetic. *)
From Coq Require Import Reals List Lra Lia Psatz.
From Verif Require Import Base Scalar Model_Position Spec_Position Proof_Position Model_System Spec_System Proof_System Proof_System2 Proof_System9 Proof_System12.
Import ListNotations.
Local Open Scope R_scope.

Lemma norm_sq (p : list R) : euclid_norm p ^ 2 = sq p.
Proof. change (euclid_norm p) with (sqrt (sq p)). rewrite <- Rsqr_pow2. apply Rsqr_sqrt, sq_nonneg. Qed.
Lemma norm_nonneg (p : list R) : 0 <= euclid_norm p.
Proof. apply sqrt_pos. Qed.

(** What the exact reflection computes. *)
Lemma exact_parts (s : circ RR) (p dp q dq : list R) o : built_circ s -> length p = ci_dim s -> length dp = ci_dim s ->
  euclid_norm p <= ci_size s -> ci_size s < euclid_norm (along p dp 1) -> circ_check_bc_exact s p dp = (q, dq, o) ->
  exists t k, 0 <= t < 1 /\ leaves_at (ci_size s) p dp t /\ q = along (along p dp 1) (along p dp t) (- (2 * k)) /\
    sq (along p dp t) = (ci_size s : R) ^ 2 /\ k * (ci_size s : R) ^ 2 = (1 - t) * (dot p dp + t * sq dp) /\
    (o = Ok tt <-> euclid_norm q <= ci_size s) /\ (o = Ok tt \/ o = Err TooLargeTimeStep).
Proof.
  intros Bu Lp Ld Hp Out E. pose proof (circ_pos_R s Bu) as P. assert (L : length p = length dp) by congruence.
  destruct (circ_exact_R s p dp Bu Lp Ld Hp Out) as (t & q' & d1 & HL & (k & K1 & K2) & Q1 & Q2).
  assert (La : forall u, length (along p dp u) = length p) by (intros u; now apply along_length).
  pose proof HL as (T1 & T2 & _). exists t, k.
  assert (St : sq (along p dp t) = (ci_size s : R) ^ 2) by (rewrite <- T2; symmetry; apply norm_sq).
  assert (T : t < 1). { destruct (Rle_lt_or_eq_dec t 1 (proj2 T1)) as [|H]; [assumption|]. rewrite H in T2. lra. }
  split; [lra|]. split; [exact HL|].
  assert (Eq : q = q'). { destruct (Rle_lt_dec (euclid_norm q') (ci_size s)) as [H|H]; [rewrite (Q1 H) in E|rewrite (Q2 H) in E]; congruence. }
  split; [congruence|]. split; [exact St|]. split.
  { rewrite dot_along in K1 by (rewrite ?La; congruence). rewrite dot_self, St in K1.
    rewrite (dot_along p dp 1 L) in K1 by (apply La). rewrite (dot_comm _ p), (dot_comm _ dp), !dot_along in K1 by congruence.
    rewrite (dot_comm dp p), !dot_self in K1. rewrite sq_along in St by exact L. nra. }
  subst q'. rewrite Eq in *. destruct (Rle_lt_dec (euclid_norm (along (along p dp 1) (along p dp t) (- (2 * k)))) (ci_size s)) as [H|H].
  - assert (o = Ok tt) as -> by (rewrite (Q1 H) in E; congruence). tauto.
  - assert (o = Err TooLargeTimeStep) as -> by (rewrite (Q2 H) in E; congruence). split; [|now right]. split; [discriminate|lra].
Qed.
Lemma radial_parts (s : circ RR) (p dp q : list R) o : built_circ s -> length p = ci_dim s -> length dp = ci_dim s ->
  ci_size s < euclid_norm (along p dp 1) -> circ_check_bc s p dp = (q, o) ->
  q = map (fun x => ((2 * (ci_size s : R) - euclid_norm (along p dp 1)) / euclid_norm (along p dp 1)) * x) (along p dp 1) /\
  (o = Ok tt <-> euclid_norm (along p dp 1) <= 3 * (ci_size s : R)) /\ (o = Ok tt \/ o = Err TooLargeTimeStep).
Proof.
  intros Bu Lp Ld Out E. pose proof (circ_bc_R s p dp Bu Lp Ld) as X. cbv zeta in X. rewrite vsum_along in X. destruct (X Out) as (q' & Sc & _ & A1 & A2). 
  assert (Eq : q = q'). { destruct (Rle_lt_dec (euclid_norm (along p dp 1)) (3 * (ci_size s : R))) as [H|H]; [rewrite (A1 H) in E|rewrite (A2 H) in E]; congruence. }
  subst q'. split.
  { clear - Sc. unfold scaled in Sc. revert Sc. generalize ((2 * (ci_size s : R) - euclid_norm (along p dp 1)) / euclid_norm (along p dp 1)). intros c Sc. induction Sc as [|x y l l' H _ IH]; [reflexivity|]. cbn [map]. now rewrite H, IH. }
  destruct (Rle_lt_dec (euclid_norm (along p dp 1)) (3 * (ci_size s : R))) as [H|H].
  - assert (o = Ok tt) as -> by (rewrite (A1 H) in E; congruence). tauto.
  - assert (o = Err TooLargeTimeStep) as -> by (rewrite (A2 H) in E; congruence). split; [|now right]. split; [discriminate|lra].
Qed.

Lemma apart_sq (m : list R) : forall h x y, length h = length m ->
  sq (vsub (map (fun z => x * z) m) (along m h y)) = (x - 1) ^ 2 * sq m - 2 * (x - 1) * y * dot m h + y ^ 2 * sq h.
Proof.
  unfold sq, vsub, along, dot, rsum. induction m as [|a m IH]; intros [|b h] x y L; try discriminate; cbn [combine map fold_right fst snd]; [ring|].
  injection L as L. specialize (IH h x y L). rewrite IH. ring.
Qed.
(** The algebra of the comparison: R radius, s distance of the end point, a its height over the tangent plane, e2 = squared length of the part outside. *)
Lemma compare_scalars R0 s a e2 : 0 < R0 -> R0 < s -> 0 <= a -> s ^ 2 = R0 ^ 2 + 2 * R0 * a + e2 -> a ^ 2 <= e2 ->
  (s - R0) ^ 2 + a ^ 2 - 2 * a * (s - R0) * (R0 + a) / s <= (e2 / R0) ^ 2.
Proof.
  intros HR Hs Ha E W. set (w := e2 - a ^ 2). assert (w0 : 0 <= w) by (unfold w; lra).
  set (u := s - R0 - a).
  assert (U : u * (s + R0 + a) = w) by (unfold u, w; nra).
  assert (u0 : 0 <= u). { destruct (Rle_lt_dec 0 u) as [|N]; [assumption|]. exfalso. nra. }
  assert (UB : 2 * R0 * u <= w) by nra.
  replace ((s - R0) ^ 2 + a ^ 2 - 2 * a * (s - R0) * (R0 + a) / s) with (u ^ 2 + 2 * a * (s - R0) * u / s) by (unfold u; field; lra).
  assert (SE : (s - R0) ^ 2 <= e2) by nra.
  set (ep := sqrt e2). assert (E2 : ep ^ 2 = e2) by (unfold ep; rewrite <- Rsqr_pow2; apply Rsqr_sqrt; nra). assert (ep0 : 0 <= ep) by apply sqrt_pos.
  assert (S1 : s - R0 <= ep). { apply Rsqr_incr_0_var; [|exact ep0]. unfold Rsqr. nra. }
  assert (S2 : a <= ep). { apply Rsqr_incr_0_var; [|exact ep0]. unfold Rsqr. nra. }
  assert (X1 : 2 * a * (s - R0) * u / s <= a * ep * w / R0 ^ 2).
  { apply Rmult_le_reg_r with (s * R0 ^ 2); [apply Rmult_lt_0_compat; [lra|apply pow_lt; lra]|]. replace (2 * a * (s - R0) * u / s * (s * R0 ^ 2)) with (a * (s - R0) * (2 * R0 * u) * R0) by (field; lra).
    replace (a * ep * w / R0 ^ 2 * (s * R0 ^ 2)) with (a * ep * w * s) by (field; lra).
    apply Rmult_le_compat; [|lra| |lra].
    - apply Rmult_le_pos; [apply Rmult_le_pos; lra|nra].
    - apply Rmult_le_compat; [apply Rmult_le_pos; lra|nra|apply Rmult_le_compat_l; lra|exact UB]. }
  assert (X2 : u ^ 2 <= w ^ 2 / (4 * R0 ^ 2)).
  { apply Rmult_le_reg_r with (4 * R0 ^ 2); [nra|]. replace (w ^ 2 / (4 * R0 ^ 2) * (4 * R0 ^ 2)) with (w ^ 2) by (field; lra). replace (u ^ 2 * (4 * R0 ^ 2)) with ((2 * R0 * u) ^ 2) by ring. apply pow_incr. split; [nra|exact UB]. }
  apply Rle_trans with ((w ^ 2 / 4 + a * ep * w) / R0 ^ 2).
  - replace ((w ^ 2 / 4 + a * ep * w) / R0 ^ 2) with (w ^ 2 / (4 * R0 ^ 2) + a * ep * w / R0 ^ 2) by (field; lra). lra.
  - replace ((e2 / R0) ^ 2) with (e2 ^ 2 / R0 ^ 2) by (field; lra). unfold Rdiv. apply Rmult_le_compat_r; [left; apply Rinv_0_lt_compat; nra|].
    assert (w1 : w <= ep ^ 2) by (unfold w; rewrite E2; nra). rewrite <- E2.
    assert (Y1 : w ^ 2 <= (ep ^ 2) ^ 2) by (apply pow_incr; lra).
    assert (Y2 : a * (ep - a) <= ep ^ 2 / 4) by (pose proof (pow2_ge_0 (ep / 2 - a)); lra).
    assert (Y3 : a * ep * w <= (ep ^ 2) ^ 2 / 2).
    { unfold w. rewrite <- E2. replace (a * ep * (ep ^ 2 - a ^ 2)) with (ep * (a * (ep - a)) * (ep + a)) by ring.
      apply Rle_trans with (ep * (ep ^ 2 / 4) * (2 * ep)); [|right; field]. apply Rmult_le_compat; [apply Rmult_le_pos; [lra|nra]|lra|apply Rmult_le_compat_l; lra|lra]. }
    clear - Y1 Y3. apply Rle_trans with ((ep ^ 2) ^ 2 / 4 + (ep ^ 2) ^ 2 / 2); [|pose proof (pow2_ge_0 (ep ^ 2)); lra]. apply Rplus_le_compat; [lra|exact Y3].
Qed.
Lemma dot_two (p d : list R) t : length p = length d -> dot (along p d 1) (along p d t) = sq p + (1 + t) * dot p d + t * sq d.
Proof.
  intros L. rewrite dot_along; [|exact L|now rewrite along_length]. rewrite (dot_comm _ p), (dot_comm _ d), !dot_along by congruence. rewrite (dot_comm d p), !dot_self. ring.
Qed.

(** Radial against exact. *)
Lemma radial_exact_close (s : circ RR) (p dp qr qe de : list R) o oe : built_circ s -> length p = ci_dim s -> length dp = ci_dim s ->
  euclid_norm p <= ci_size s -> ci_size s < euclid_norm (along p dp 1) ->
  circ_check_bc s p dp = (qr, o) -> circ_check_bc_exact s p dp = (qe, de, oe) ->
  exists t, leaves_at (ci_size s) p dp t /\ euclid qr qe <= 2 * ((1 - t) * euclid_norm dp) ^ 2 / ci_size s.
Proof.
  intros Bu Lp Ld Hp Out Er Ee. pose proof (circ_pos_R s Bu) as P. assert (L : length p = length dp) by congruence.
  destruct (radial_parts s p dp qr o Bu Lp Ld Out Er) as (-> & _). destruct (exact_parts s p dp qe de oe Bu Lp Ld Hp Out Ee) as (t & k & T & HL & -> & St & K & _).
  exists t. split; [exact HL|]. set (r := (ci_size s : R)) in *. assert (La : forall u, length (along p dp u) = length p) by (intros u; now apply along_length).
  rewrite euclid_sq by (rewrite map_length, !along_length; rewrite ?La; congruence). rewrite apart_sq by (rewrite !La; reflexivity). rewrite St, <- norm_sq, dot_two by exact L.
  set (m := euclid_norm (along p dp 1)) in *. assert (M : m ^ 2 = sq p + 2 * dot p dp + sq dp) by (unfold m; rewrite norm_sq, sq_along by exact L; ring).
  rewrite sq_along in St by exact L. set (B := dot p dp) in *. set (A := sq dp) in *. assert (A0 : 0 <= A) by apply sq_nonneg. assert (P0 : sq p <= r ^ 2) by (apply norm_le_sq; [lra|exact Hp]).
  assert (H0 : 0 <= B + t * A). { destruct (Rle_lt_dec 0 (B + t * A)) as [|N]; [assumption|exfalso]. assert (M' : 0 < 2 * (B + t * A) + (1 - t) * A) by (apply Rmult_lt_reg_l with (1 - t); [lra|]; nra).
    assert (A1 : 0 < A) by (destruct (Rle_lt_or_eq_dec 0 A A0) as [|Z]; [assumption|rewrite <- Z in M', N; lra]).
    set (e := - (B + t * A) / A). assert (eA : e * A = - (B + t * A)) by (unfold e; field; lra). assert (e1 : 0 < e) by (unfold e; apply Rdiv_lt_0_compat; lra).
    assert (e2 : t + e <= 1) by (apply Rmult_le_reg_r with A; [lra|]; lra).
    assert (X : r < euclid_norm (along p dp (t + e))) by (apply (proj2 (proj2 (proj2 HL))); lra).
    apply (norm_lt_sq _ r) in X; [|lra]. rewrite sq_along in X by exact L. fold A B in X.
    assert (Y : sq p + 2 * (t + e) * B + (t + e) ^ 2 * A = r ^ 2 + e * (2 * (B + t * A) + e * A)) by (rewrite <- St; ring). rewrite Y, eA in X. nra. }
  set (a := k * r). assert (a0 : 0 <= a). { unfold a. apply Rmult_le_pos; [|lra]. apply Rmult_le_reg_r with (r ^ 2); [nra|]. rewrite Rmult_0_l, K. apply Rmult_le_pos; lra. }
  set (e2 := (1 - t) ^ 2 * A).
  assert (Ea : a * r = (1 - t) * (B + t * A)) by (unfold a; rewrite <- K; ring).
  assert (H : r ^ 2 * (1 + k) = sq p + (1 + t) * B + t * A) by nra.
  assert (C1 : m ^ 2 = r ^ 2 + 2 * r * a + e2) by (unfold e2; nra).
  assert (C2 : a ^ 2 <= e2).
  { assert (CS : (B + t * A) ^ 2 <= r ^ 2 * A). { pose proof (cauchy p dp L) as CS. change (dotp p dp) with B in CS. fold A in CS. rewrite <- St. nra. }
    apply Rmult_le_reg_r with (r ^ 2); [nra|]. replace (a ^ 2 * r ^ 2) with ((1 - t) ^ 2 * (B + t * A) ^ 2) by (rewrite <- Rpow_mult_distr, <- Ea; ring).
    unfold e2. replace ((1 - t) ^ 2 * A * r ^ 2) with ((1 - t) ^ 2 * (r ^ 2 * A)) by ring. apply Rmult_le_compat_l; [apply pow2_ge_0|exact CS]. }
  pose proof (compare_scalars r m a e2 P Out a0 C1 C2) as X.
  replace ((((2 * r - m) / m - 1) ^ 2 * m ^ 2 - 2 * ((2 * r - m) / m - 1) * - (2 * k) * (sq p + (1 + t) * B + t * A) + (- (2 * k)) ^ 2 * r ^ 2)) with (4 * ((m - r) ^ 2 + a ^ 2 - 2 * a * (m - r) * (r + a) / m)).
  2:{ rewrite <- H. unfold a. field. lra. }
  replace (2 * ((1 - t) * euclid_norm dp) ^ 2 / r) with (2 * (e2 / r)). 2:{ unfold e2, A. rewrite <- norm_sq. field. lra. }
  replace (2 * (e2 / r)) with (sqrt (4 * (e2 / r) ^ 2)).
  2:{ replace (4 * (e2 / r) ^ 2) with ((2 * (e2 / r)) ^ 2) by ring. apply sqrt_pow2. apply Rmult_le_pos; [lra|]. apply Rmult_le_pos; [unfold e2; apply Rmult_le_pos; [apply pow2_ge_0|exact A0]|left; now apply Rinv_0_lt_compat]. }
  apply sqrt_le_1_alt. lra.
Qed.

(** When the exact reflection accepts. *)
Lemma exact_accepts (s : circ RR) (p dp qe de : list R) oe : built_circ s -> length p = ci_dim s -> length dp = ci_dim s ->
  euclid_norm p <= ci_size s -> ci_size s < euclid_norm (along p dp 1) -> circ_check_bc_exact s p dp = (qe, de, oe) ->
  exists t, leaves_at (ci_size s) p dp t /\ (oe = Ok tt <-> (1 - 3 * t) * euclid_norm dp ^ 2 <= 2 * dot p dp) /\ (1 / 2 <= t -> oe = Ok tt) /\ (oe = Ok tt \/ oe = Err TooLargeTimeStep).
Proof.
  intros Bu Lp Ld Hp Out Ee. pose proof (circ_pos_R s Bu) as P. assert (L : length p = length dp) by congruence.
  destruct (exact_parts s p dp qe de oe Bu Lp Ld Hp Out Ee) as (t & k & T & HL & -> & St & K & Ac & Or). exists t. split; [exact HL|].
  set (r := (ci_size s : R)) in *. assert (La : forall u, length (along p dp u) = length p) by (intros u; now apply along_length).
  rewrite norm_le_sq in Ac by lra. rewrite sq_along in Ac by (rewrite !La; reflexivity). rewrite St, dot_two in Ac by exact L. rewrite sq_along in Ac by exact L. rewrite sq_along in St by exact L.
  rewrite norm_sq. set (B := dot p dp) in *. set (A := sq dp) in *. assert (A0 : 0 <= A) by apply sq_nonneg. assert (P0 : sq p <= r ^ 2) by (apply norm_le_sq; [lra|exact Hp]).
  assert (H : r ^ 2 * (1 + k) = sq p + (1 + t) * B + t * A) by nra.
  replace (sq p + 2 * 1 * B + 1 ^ 2 * A + 2 * - (2 * k) * (sq p + (1 + t) * B + t * A) + (- (2 * k)) ^ 2 * r ^ 2) with (r ^ 2 + (1 - t) * ((1 - 3 * t) * A - 2 * B)) in Ac.
  2:{ rewrite <- H. replace ((- (2 * k)) ^ 2 * r ^ 2) with (4 * k * (k * r ^ 2)) by ring. replace (2 * - (2 * k) * (r ^ 2 * (1 + k))) with (- 4 * (k * r ^ 2) - 4 * k * (k * r ^ 2)) by ring. rewrite K. nra. }
  assert (I : oe = Ok tt <-> (1 - 3 * t) * A <= 2 * B).
  { rewrite Ac. split; intros X; [|nra]. apply Rmult_le_reg_l with (1 - t); [lra|]. nra. }
  split; [exact I|]. split; [|exact Or]. intros Ht. apply I. assert (0 <= t * (2 * B + t * A)) by nra. assert (0 <= 2 * B + t * A) by (apply Rmult_le_reg_l with t; [lra|lra]). nra.
Qed.

(** Steps straight outward. *)
Lemma along_scale (p : list R) l u : along p (map (fun x => l * x) p) u = map (fun x => (1 + u * l) * x) p.
Proof. unfold along. induction p as [|a p IH]; [reflexivity|]. cbn [map combine]. cbn [fst snd]. f_equal; [ring|exact IH]. Qed.
Lemma along_scaled (p : list R) a b u : along (map (fun x => a * x) p) (map (fun x => b * x) p) u = map (fun x => (a + u * b) * x) p.
Proof. unfold along. induction p as [|x p IH]; [reflexivity|]. cbn [map combine]. cbn [fst snd]. f_equal; [ring|exact IH]. Qed.
Lemma map_scaled (p : list R) a b : map (fun x => a * x) (map (fun x => b * x) p) = map (fun x => (a * b) * x) p.
Proof. rewrite map_map. apply map_ext. intros x. ring. Qed.
Lemma sq_scaled (p : list R) a : sq (map (fun x => a * x) p) = a ^ 2 * sq p.
Proof. unfold sq, rsum. induction p as [|x p IH]; cbn [map fold_right]; [ring|]. rewrite IH. ring. Qed.
Lemma norm_scaled (p : list R) a : euclid_norm (map (fun x => a * x) p) = Rabs a * euclid_norm p.
Proof.
  change (euclid_norm (map (fun x => a * x) p)) with (sqrt (sq (map (fun x => a * x) p))). change (euclid_norm p) with (sqrt (sq p)).
  rewrite sq_scaled, sqrt_mult by (try apply pow2_ge_0; apply sq_nonneg). rewrite <- Rsqr_pow2, sqrt_Rsqr_abs. reflexivity.
Qed.
Lemma dot_scaled (p : list R) a : dot p (map (fun x => a * x) p) = a * sq p.
Proof. unfold dot, sq, rsum. induction p as [|x p IH]; cbn [map combine fold_right]; [ring|]. rewrite IH. cbn [fst snd]. ring. Qed.
Lemma dist_scaled (p : list R) a b : euclid (map (fun x => a * x) p) (map (fun x => b * x) p) = Rabs (a - b) * euclid_norm p.
Proof.
  rewrite euclid_sq by (now rewrite !map_length). rewrite <- norm_scaled. change (euclid_norm (map (fun x => (a - b) * x) p)) with (sqrt (sq (map (fun x => (a - b) * x) p))). f_equal. f_equal.
  unfold vsub. induction p as [|x p IH]; [reflexivity|]. cbn [map combine]. cbn [fst snd]. rewrite IH. f_equal. ring.
Qed.
Lemma outward (s : circ RR) (p qr qe de qf df : list R) (l : R) o oe ofo : built_circ s -> length p = ci_dim s -> 0 < l ->
  euclid_norm p <= ci_size s -> ci_size s < (1 + l) * euclid_norm p ->
  circ_check_bc s p (map (fun x => l * x) p) = (qr, o) -> circ_check_bc_exact s p (map (fun x => l * x) p) = (qe, de, oe) ->
  circ_check_bc_first_order s p (map (fun x => l * x) p) = (qf, df, ofo) ->
  qr = qe /\ euclid_norm qe = Rabs (2 * ci_size s - (1 + l) * euclid_norm p) /\
  euclid qf qe = 2 * (1 - euclid_norm p / ci_size s) * ((1 + l) * euclid_norm p - ci_size s).
Proof.
  intros Bu Lp Hl Hp Out Er Ee Ef. pose proof (circ_pos_R s Bu) as P. set (dp := map (fun x => l * x) p) in *.
  assert (Ld : length dp = ci_dim s) by (unfold dp; now rewrite map_length).
  assert (r0 : 0 < euclid_norm p) by (pose proof (norm_nonneg p); nra).
  assert (E1 : along p dp 1 = map (fun x => (1 + l) * x) p) by (unfold dp; rewrite along_scale, Rmult_1_l; reflexivity).
  assert (N1 : euclid_norm (along p dp 1) = (1 + l) * euclid_norm p) by (rewrite E1, norm_scaled, Rabs_pos_eq by lra; reflexivity).
  assert (Out' : ci_size s < euclid_norm (along p dp 1)) by (rewrite N1; exact Out).
  assert (D : dot p dp = l * euclid_norm p ^ 2) by (unfold dp; rewrite dot_scaled, norm_sq; reflexivity).
  destruct (radial_parts s p dp qr o Bu Lp Ld Out' Er) as (Qr & _).
  destruct (exact_parts s p dp qe de oe Bu Lp Ld Hp Out' Ee) as (t & k & T & HL & Qe & St & K & _).
  destruct (first_order_R s p dp Bu Lp Ld r0 Out') as (t' & k' & q' & d' & T' & K' & Q' & _ & F1 & F2); [rewrite D; nra|].
  assert (Qf : qf = q'). { destruct (Rle_lt_dec (euclid_norm q') (ci_size s)) as [H|H]; [rewrite (F1 H) in Ef|rewrite (F2 H) in Ef]; congruence. }
  rewrite <- Qf in Q'. clear F1 F2 Qf. rewrite D in K, K', T'. rewrite N1, E1, map_scaled in Qr. rewrite E1 in Qe, Q'. unfold dp in Qe, Q', St. rewrite along_scale in Qe, Q', St. rewrite along_scaled in Qe, Q'. rewrite sq_scaled, <- norm_sq in St.
  assert (Sd : sq dp = l ^ 2 * euclid_norm p ^ 2) by (unfold dp; rewrite sq_scaled, norm_sq; reflexivity). rewrite Sd in K.
  set (R0 := (ci_size s : R)) in *. set (r := euclid_norm p) in *. 
  assert (Ht : (1 + t * l) * r = R0).
  { apply Rsqr_inj; [apply Rmult_le_pos; [nra|lra]|lra|]. rewrite !Rsqr_pow2. rewrite <- St. ring. }
  assert (Ht' : (1 + t' * l) * r = R0) by (rewrite <- T'; field; lra).
  assert (Hk : k * R0 = (1 + l) * r - R0).
  { apply Rmult_eq_reg_r with R0; [|lra]. replace (k * R0 * R0) with (k * R0 ^ 2) by ring. rewrite K. rewrite <- Ht. ring. }
  assert (Hk' : k' * R0 ^ 2 = r * ((1 + l) * r - R0)) by (rewrite K'; field; lra).
  assert (Cr : (2 * R0 - (1 + l) * r) / ((1 + l) * r) * (1 + l) = (2 * R0 - (1 + l) * r) / r) by (field; lra).
  assert (Ce : 1 + l + - (2 * k) * (1 + t * l) = (2 * R0 - (1 + l) * r) / r).
  { apply Rmult_eq_reg_r with r; [|lra]. replace ((2 * R0 - (1 + l) * r) / r * r) with (2 * R0 - (1 + l) * r) by (field; lra). replace ((1 + l + - (2 * k) * (1 + t * l)) * r) with ((1 + l) * r - 2 * (k * ((1 + t * l) * r))) by ring. rewrite Ht, Hk. ring. }
  assert (Cf : (1 + l + - (2 * k') * (1 + t' * l)) * r = (1 + l) * r - 2 * (r * ((1 + l) * r - R0) / R0)).
  { replace ((1 + l + - (2 * k') * (1 + t' * l)) * r) with ((1 + l) * r - 2 * (k' * ((1 + t' * l) * r))) by ring. rewrite Ht'. rewrite <- Hk'. field. lra. }
  rewrite Cr in Qr. rewrite Ce in Qe. split; [congruence|]. split.
  - rewrite Qe, norm_scaled. fold r. unfold Rdiv. rewrite Rabs_mult, (Rabs_pos_eq (/ r)) by (left; now apply Rinv_0_lt_compat). field. lra.
  - rewrite Q', Qe, dist_scaled. fold r. set (ca := 1 + l + - (2 * k') * (1 + t' * l)) in *. set (cb := (2 * R0 - (1 + l) * r) / r) in *.
    replace (Rabs (ca - cb) * r) with (Rabs ((ca - cb) * r)) by (rewrite Rabs_mult, (Rabs_pos_eq r) by lra; reflexivity). rewrite Rmult_minus_distr_r, Cf. unfold cb.
    replace ((1 + l) * r - 2 * (r * ((1 + l) * r - R0) / R0) - (2 * R0 - (1 + l) * r) / r * r) with (2 * (1 - r / R0) * ((1 + l) * r - R0)) by (field; lra).
    apply Rabs_pos_eq. apply Rmult_le_pos; [|lra]. apply Rmult_le_pos; [lra|]. apply Rmult_le_reg_r with R0; [lra|]. replace ((1 - r / R0) * R0) with (R0 - r) by (field; lra). lra.
Qed.

(** Grazing steps. *)
Lemma built_ball (r : R) (d : nat) : 0 < r -> (0 < d)%nat -> built_circ (S := RR) (Circ ContinuousCircular Reflection (r : RR) d).
Proof.
  intros H Hd. left. exists (r : RR), d. assert (E : leb (r : RR) s0 = false) by (change (Rleb r 0 = false); unfold Rleb; destruct (Rle_dec r 0); [lra|reflexivity]).
  unfold circ_new. rewrite E. destruct d; [lia|]. reflexivity.
Qed.
Lemma norm_pair (x y : R) : euclid_norm [x; y] = sqrt (x ^ 2 + y ^ 2).
Proof. unfold euclid_norm, rsum. cbn [map fold_right]. now rewrite Rplus_0_r. Qed.
Lemma grazing (d : R) : 0 < d <= 1 -> let s := Circ (S := RR) ContinuousCircular Reflection (1 : RR) 2 in
  built_circ s /\ euclid_norm [1; 0] = 1 /\ euclid_norm [0; d] = d /\
  (exists q, circ_check_bc s [1; 0] [0; d] = (q, Ok tt)) /\ (exists q dq, circ_check_bc_exact s [1; 0] [0; d] = (q, dq, Err TooLargeTimeStep)).
Proof.
  intros Hd s. assert (Bu : built_circ s) by (apply built_ball; [lra|lia]). split; [exact Bu|].
  assert (N1 : euclid_norm [1; 0] = 1) by (rewrite norm_pair; replace (1 ^ 2 + 0 ^ 2) with (1 ^ 2) by ring; apply sqrt_pow2; lra). split; [exact N1|].
  assert (N2 : euclid_norm [0; d] = d) by (rewrite norm_pair; replace (0 ^ 2 + d ^ 2) with (d ^ 2) by ring; apply sqrt_pow2; lra). split; [exact N2|].
  assert (AL : forall u, along [1; 0] [0; d] u = [1; u * d]) by (intros u; unfold along; cbn [combine map fst snd]; f_equal; [ring|f_equal; ring]).
  assert (O1 : (ci_size s : R) < euclid_norm (along [1; 0] [0; d] 1)).
  { change (ci_size s) with 1. rewrite AL, norm_pair. rewrite <- sqrt_1 at 1. apply sqrt_lt_1_alt. nra. }
  split.
  - destruct (circ_check_bc s [1; 0] [0; d]) as [q o] eqn:E. exists q. f_equal. apply (radial_parts s [1; 0] [0; d] q o Bu eq_refl eq_refl O1 E).
    change (ci_size s) with 1. rewrite AL, norm_pair. apply Rle_trans with (sqrt (3 ^ 2)); [apply sqrt_le_1_alt; nra|rewrite sqrt_pow2 by lra; lra].
  - destruct (circ_check_bc_exact s [1; 0] [0; d]) as [[q dq] o] eqn:E. exists q, dq. f_equal.
    assert (Hin : euclid_norm [1; 0] <= ci_size s) by (rewrite N1; change (ci_size s) with 1; lra).
    destruct (exact_accepts s [1; 0] [0; d] q dq o Bu eq_refl eq_refl Hin O1 E) as (t & HL & Ac & _ & Or). destruct Or as [Or|Or]; [exfalso|exact Or].
    apply Ac in Or. destruct HL as (T1 & T2 & _). change (ci_size s) with 1 in T2. rewrite AL, norm_pair in T2.
    assert (T0 : t = 0). { assert (X : 1 ^ 2 + (t * d) ^ 2 = 1) by (rewrite <- (Rsqr_sqrt (1 ^ 2 + (t * d) ^ 2)) by nra; unfold Rsqr; rewrite T2; ring). destruct (Req_dec t 0) as [|N]; [assumption|]. assert (0 < t) by lra. assert (0 < t * d) by nra. nra. }
    rewrite T0, N2 in Or. assert (D0 : dot [1; 0] [0; d] = 0) by (unfold dot, rsum; cbn [combine map fold_right fst snd]; ring). rewrite D0 in Or. nra.
Qed.
