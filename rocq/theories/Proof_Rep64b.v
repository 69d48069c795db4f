(** What a pair of repelling agents plans in double precision; the plans of all pairs. *)
From Coq Require Import Reals ZArith List Lra Lia.
From Flocq Require Import Core IEEE754.BinarySingleNaN.
From Verif Require Import Base Scalar Float64 Model_Position Spec_Position Proof_Position Model_System Spec_System Proof_System Proof_System2 Proof_System4 Proof_System7 Proof_Norm64 Proof_Sum64 Proof_Force64
  Model_LinkedList Spec_LinkedList Refine_LinkedList Proof_LinkedList Proof_LinkedList2 Proof_LinkedList3 Proof_LinkedList4 Proof_Run
  Model_Agent Spec_Agent Proof_Agent2 Spec_Wall64 Proof_Wall64 Proof_Wall64b Proof_Pair64 Model_Run Spec_Run Spec_Run2 Proof_Run6 Proof_Run7 Spec_Run64 Spec_Rep64 Proof_Run64 Proof_Rep64.
Import ListNotations.
Local Open Scope R_scope.

Lemma far_low k (n d : R) : few k -> 0 <= d -> / 2 ^ 390 <= n -> (1 - u64) ^ (k + 5) * n ^ 2 - INR k * eta64 <= d ^ 2 -> / 2 ^ 391 <= d.
Proof.
  intros Fk d0 Hn H. destruct (slack_u k Fk) as (S1 & S2). pose proof u64_pos as U0. assert (P : 0 < / 2 ^ 400) by (apply Rinv_0_lt_compat, pow_lt; lra).
  assert (P2 : / 2 ^ 391 = 2 ^ 9 * / 2 ^ 400). { change 400%nat with (391 + 9)%nat. rewrite pow_add. field. }
  assert (P3 : / 2 ^ 390 = 2 * / 2 ^ 391). { change (2 ^ 391) with (2 * 2 ^ 390). field. }
  set (w := Rmax d (/ 2 ^ 400)). assert (W : n <= w * (1 + slack k)).
  { apply (dist_up k n w Fk); [lra|apply Rmax_r|]. apply Rle_trans with (d ^ 2 + INR k * eta64); [lra|]. apply Rplus_le_compat_r. apply pow_incr. split; [exact d0|apply Rmax_l]. }
  assert (W2 : / 2 ^ 391 <= w). { assert (0 <= w) by (apply Rle_trans with (2 := Rmax_r _ _); lra). nra. }
  unfold w, Rmax in W2. destruct (Rle_dec d (/ 2 ^ 400)); lra.
Qed.

Lemma euclid_swap (p q : list R) : length p = length q -> euclid p q = euclid q p.
Proof. intros L. exact (proj1 (proj2 (euclid_metric p q p L (eq_sym L)))). Qed.
Section K.
Context {lm : libm}.
Local Notation F := (F64 lm).
Hypothesis D : decaying lm.

Lemma kick_unfold (dt : F) (a b : expag F) : kick dt a b =
  map (fun x : b64 => Bmult mode_NE (Bmult mode_NE x (Bdiv mode_NE (b64_of_Z 1) (n64 (diffs (ex_pos b) (ex_pos a)))))
    (Bmult mode_NE (Bmult mode_NE (ex_cforce a) (fexp (s := F) (Bdiv mode_NE (Bopp (n64 (diffs (ex_pos b) (ex_pos a)))) (ex_gamma a)))) dt)) (diffs (ex_pos b) (ex_pos a)).
Proof. reflexivity. Qed.

Lemma kick_64 (dt : F) (a b : expag F) : mild dt -> tame a -> tame b -> length (ex_pos a) = length (ex_pos b) -> few (length (ex_pos a)) ->
  / 2 ^ 390 <= euclid (reals (ex_pos a)) (reals (ex_pos b)) -> within 951 (kick dt a b).
Proof.
  intros (Fdt & Bdt) (_ & (Fg & G1 & G2) & Fc & Bc & Sa) (_ & _ & _ & _ & Sb) L Fk Far. rewrite kick_unfold. set (p := ex_pos a : list b64) in *. set (q := ex_pos b : list b64) in *. assert (Lq : @length b64 q = @length b64 p) by exact (eq_sym L).
  pose proof (diff_within q p 302 ltac:(lia) Sb Sa) as W. cbn [Nat.add] in W. assert (Ld : length (diffs q p) = length p) by (unfold diffs; rewrite map_length, combine_length; rewrite Lq; apply Nat.min_id).
  pose proof (norm_ok _ (eq_ind_r few Fk Ld) W) as Fn.
  assert (Fq : few (length q)) by exact (eq_ind_r few Fk Lq).
  destruct (distance_64_bounds lm q p _ (within_fin _ _ Sb) (within_fin _ _ Sa) (distance_64 lm q p Lq) Fn) as (N0 & Lo & _). assert (Es : euclid (reals q) (reals p) = euclid (reals p) (reals q)) by exact (euclid_swap _ _ (eq_trans (map_length _ _) (eq_trans Lq (eq_sym (map_length _ _))))). rewrite Es in Lo. clear Es.
  pose proof (far_low (length q) _ _ Fq N0 Far Lo) as Nlo. pose proof (n64_small _ Fn) as Nhi. set (d := n64 (diffs q p)) in *. clearbody d.
  assert (P391 : 0 < / 2 ^ 391) by (apply Rinv_0_lt_compat, pow_lt; lra). destruct one_value as (F1 & V1).
  (* 1 / d *)
  destruct (div_val (b64_of_Z 1) d F1 Fn ltac:(lra)) as (Ni & Vi). rewrite V1 in Vi.
  destruct (op_bound _ _ 391 Ni Vi) as (Fi & Bi). { rewrite Rabs_pos_eq by (apply Rlt_le, Rdiv_lt_0_compat; lra). unfold Rdiv. rewrite Rmult_1_l. rewrite <- (Rinv_inv (2 ^ 391)). apply Rinv_le_contravar; [exact P391|exact Nlo]. } { lia. }
  set (i := Bdiv mode_NE (b64_of_Z 1) d) in *. clearbody i.
  (* exp (-d / gamma) *)
  assert (Fo : fin (Bopp d) = true) by (rewrite is_finite_Bopp; exact Fn). assert (Vo : B2 (Bopp d) = - B2 d) by apply B2R_Bopp. assert (g0 : 0 < B2 (ex_gamma a)). { apply Rlt_le_trans with (2 := G1). apply Rinv_0_lt_compat, pow_lt. lra. }
  destruct (div_val (Bopp d) (ex_gamma a) Fo Fg ltac:(lra)) as (Nq & Vq). rewrite Vo in Vq.
  assert (Q0 : - B2 d / B2 (ex_gamma a) <= 0). { unfold Rdiv. rewrite Ropp_mult_distr_l_reverse. apply Ropp_le_cancel. rewrite Ropp_0, Ropp_involutive. apply Rmult_le_pos; [exact N0|apply Rlt_le, Rinv_0_lt_compat; exact g0]. }
  destruct (op_bound _ _ 913 Nq Vq) as (Fq2 & _). { rewrite Rabs_left1 by exact Q0. unfold Rdiv. rewrite <- Ropp_mult_distr_l, Ropp_involutive. replace (2 ^ 913) with (2 ^ 513 * 2 ^ 400) by (rewrite <- pow_add; reflexivity). apply Rmult_le_compat; [exact N0|apply Rlt_le, Rinv_0_lt_compat; exact g0|exact Nhi|]. rewrite <- (Rinv_inv (2 ^ 400)). apply Rinv_le_contravar; [apply Rinv_0_lt_compat, pow_lt; lra|exact G1]. } { lia. }
  assert (Eq : B2 (Bdiv mode_NE (Bopp d) (ex_gamma a)) <= 0). { rewrite fin_div_eq by (auto; lra). rewrite Vo. rewrite <- rnd64_0. apply round_le; auto with typeclass_instances. }
  destruct (D _ Fq2 Eq) as (Fe & Be). set (e := fexp (s := F) (Bdiv mode_NE (Bopp d) (ex_gamma a))) in *. clearbody e. change (B2 e) with (B2 (e : b64)) in Be.
  (* force * dt *)
  destruct (mult_val (ex_cforce a) e Fc Fe) as (N3 & V3). destruct (op_bound _ _ 100 N3 V3) as (F3 & B3). { rewrite Rabs_mult, (Rabs_pos_eq (B2 e)) by lra. replace (2 ^ 100) with (2 ^ 100 * 1) by ring. apply Rmult_le_compat; [apply Rabs_pos|lra|exact Bc|lra]. } { lia. }
  set (f := Bmult mode_NE (ex_cforce a) e) in *. clearbody f. destruct (mult_val f dt F3 Fdt) as (N4 & V4). destruct (op_bound _ _ 251 N4 V4) as (F4 & B4). { rewrite Rabs_mult, (Rabs_pos_eq (B2 dt)) by lra. replace (2 ^ 251) with (2 ^ 101 * 2 ^ 150) by (rewrite <- pow_add; reflexivity). apply Rmult_le_compat; [apply Rabs_pos|lra|exact B3|lra]. } { lia. }
  set (h := Bmult mode_NE f dt) in *. clearbody h.
  clear - W Fi Bi F4 B4. induction W as [|x v (Fx & Bx) _ IH]; [constructor|]. cbn [map]. constructor; [|exact IH].
  destruct (mult_val x i Fx Fi) as (N5 & V5). destruct (op_bound _ _ 696 N5 V5) as (F5 & B5). { rewrite Rabs_mult. replace (2 ^ 696) with (2 ^ 304 * 2 ^ 392) by (rewrite <- pow_add; reflexivity). apply Rmult_le_compat; [apply Rabs_pos|apply Rabs_pos|exact Bx|exact Bi]. } { lia. }
  destruct (mult_val (Bmult mode_NE x i) h F5 F4) as (N6 & V6). destruct (op_bound _ _ 949 N6 V6) as (F6 & B6). { rewrite Rabs_mult. replace (2 ^ 949) with (2 ^ 697 * 2 ^ 252) by (rewrite <- pow_add; reflexivity). apply Rmult_le_compat; [apply Rabs_pos|apply Rabs_pos|exact B5|exact B4]. } { lia. }
  split; [exact F6|]. apply Rle_trans with (1 := B6). apply pow_up. lia.
Qed.

(** Coordinates that are numbers of at most [M]. *)
Notation most M v := (Forall (fun x : b64 => fin x = true /\ Rabs (B2 x) <= M) v).
Lemma most_up (M1 M2 : R) v : M1 <= M2 -> most M1 v -> most M2 v.
Proof. intros H. apply Forall_impl. intros x (A & B). split; [exact A|lra]. Qed.
Lemma grow (k : nat) (z : b64) r x y : INR k <= 2 ^ 41 -> nan z = false -> val z = rnd r -> (fin z = true -> B2 z = rnd64 r) -> Rabs r <= x + y -> x <= INR k * 2 ^ 952 -> y <= 2 ^ 951 ->
  fin z = true /\ Rabs (B2 z) <= INR (Datatypes.S k) * 2 ^ 952.
Proof.
  intros Hk Nz Vz Ez Hr Hx Hy. pose proof (pos_INR k) as K0. assert (X : x <= 2 ^ 993). { apply Rle_trans with (1 := Hx). replace (2 ^ 993) with (2 ^ 41 * 2 ^ 952) by (rewrite <- pow_add; reflexivity). apply Rmult_le_compat_r; [apply pow_le; lra|exact Hk]. }
  destruct (op_bound z r 994 Nz Vz) as (Fz & _). { apply Rle_trans with (1 := Hr). change (2 ^ 994) with (2 * 2 ^ 993). assert (2 ^ 951 <= 2 ^ 993) by (apply pow_up; lia). lra. } { lia. }
  split; [exact Fz|]. rewrite (Ez Fz), S_INR. pose proof (rnd64_err r) as E. pose proof u64_pos as U0. assert (Et : eta64 <= 1).
  { unfold eta64. rewrite <- Rinv_1. apply Rinv_le_contravar; [lra|]. apply pow_R1_Rle. lra. }
  assert (T1 : 4 <= 2 ^ 952). { replace 4 with (2 ^ 2) by ring. apply pow_up. lia. } assert (T2 : 2 ^ 952 = 2 * 2 ^ 951) by reflexivity. rewrite T2 in *. set (T := 2 ^ 951) in *. clearbody T.
  assert (U : u64 * (INR k + 1) <= 1 / 4). { rewrite u64_v. assert (H1 : INR k + 1 <= 2 ^ 42). { assert (1 <= 2 ^ 41) by (apply pow_R1_Rle; lra). change (2 ^ 42) with (2 * 2 ^ 41). lra. } apply Rle_trans with (/ 2 ^ 53 * 2 ^ 42); [apply Rmult_le_compat_l; [apply Rlt_le, Rinv_0_lt_compat, pow_lt; lra|exact H1]|].
    replace (2 ^ 53) with (2 ^ 11 * 2 ^ 42) by (rewrite <- pow_add; reflexivity). assert (0 < 2 ^ 42) by (apply pow_lt; lra). rewrite Rinv_mult. rewrite Rmult_assoc, Rinv_l by lra. lra. }
  replace (rnd64 r) with ((rnd64 r - r) + r) by ring. apply Rle_trans with (1 := Rabs_triang _ _). assert (u64 * Rabs r <= u64 * (INR k * (2 * T) + T)) by (apply Rmult_le_compat_l; lra).
  assert (u64 * (INR k * (2 * T) + T) <= u64 * (INR k + 1) * (2 * T)). { rewrite Rmult_assoc. apply Rmult_le_compat_l; lra. } assert (u64 * (INR k + 1) * (2 * T) <= 1 / 4 * (2 * T)) by (apply Rmult_le_compat_r; lra). lra.
Qed.
Definition tame_op (op : b64 -> b64 -> b64) : Prop := forall x y, fin x = true -> fin y = true -> exists r, nan (op x y) = false /\ val (op x y) = rnd r /\ (fin (op x y) = true -> B2 (op x y) = rnd64 r) /\ Rabs r <= Rabs (B2 x) + Rabs (B2 y).
Lemma tame_add : tame_op (add (s := F)).
Proof. intros x y Fx Fy. destruct (plus_val x y Fx Fy) as (N & V). exists (B2 x + B2 y). split; [exact N|]. split; [exact V|]. split; [exact (fin_plus_eq x y)|apply Rabs_triang]. Qed.
Lemma tame_sub : tame_op (sub (s := F)).
Proof.
  intros x y Fx Fy. destruct (minus_val x y Fx Fy) as (N & V). exists (B2 x - B2 y). split; [exact N|]. split; [exact V|]. split; [exact (fin_minus_eq x y)|].
  unfold Rminus. apply Rle_trans with (1 := Rabs_triang _ _). rewrite Rabs_Ropp. lra.
Qed.
Lemma vzip_64 op (k : nat) (v d : list b64) : tame_op op -> INR k <= 2 ^ 41 -> most (INR k * 2 ^ 952) v -> most (2 ^ 951) d -> most (INR (Datatypes.S k) * 2 ^ 952) (vzip (S := F) op v d).
Proof.
  intros Op Hk Hv. revert d. induction Hv as [|x v (Fx & Bx) _ IH]; intros [|y d] Hd; try (constructor; fail). apply Forall_cons_iff in Hd as ((Fy & By) & Hd).
  change (vzip (S := F) op (x :: v) (y :: d)) with (op x y :: vzip (S := F) op v d). constructor; [|exact (IH d Hd)]. destruct (Op x y Fx Fy) as (r & N & V & E & B). exact (grow k _ r _ _ Hk N V E B Bx By).
Qed.
Lemma bump_64 op (k : nat) (d : list b64) i (ms : list (pos F)) : tame_op op -> INR k <= 2 ^ 41 -> Forall (fun v : pos F => most (INR k * 2 ^ 952) v) ms -> most (2 ^ 951) d -> Forall (fun v : pos F => most (INR (Datatypes.S k) * 2 ^ 952) v) (bump (S := F) op d i ms).
Proof.
  intros Op Hk H Hd. assert (Up : forall v : pos F, most (INR k * 2 ^ 952) v -> most (INR (Datatypes.S k) * 2 ^ 952) v). { intros v. apply most_up. rewrite S_INR. apply Rmult_le_compat_r; [apply pow_le; lra|lra]. }
  unfold bump. destruct (nth_error ms i) as [v|] eqn:E; [|exact (Forall_impl _ Up H)]. apply Forall_forall. intros w Hw. apply In_nth_error in Hw as (j & Hj). rewrite nth_replace in Hj.
  rewrite Forall_forall in H. destruct (andb _ _); [|exact (Up w (H w (nth_error_In _ _ Hj)))]. assert (Ew : vzip (S := F) op v d = w) by congruence. rewrite <- Ew. exact (vzip_64 op k v d Op Hk (H v (nth_error_In _ _ E)) Hd).
Qed.
Lemma push_64 n (dt : F) (cs : list (expag F)) (k i j : nat) (st : pos F * list (pos F)) : mild dt -> few n -> Forall (exp_in n) cs -> Forall tame cs -> spread cs -> (i < j)%nat -> INR k + 1 <= 2 ^ 41 ->
  Forall (fun v : pos F => most (INR k * 2 ^ 952) v) (snd st) -> Forall (fun v : pos F => most (INR (Datatypes.S (Datatypes.S k)) * 2 ^ 952) v) (snd (push dt cs st i j)).
Proof.
  intros Md Fn Hin Ht Sp Hij Hk H. unfold push. assert (Up : Forall (fun v : pos F => most (INR (Datatypes.S (Datatypes.S k)) * 2 ^ 952) v) (snd st)).
  { apply Forall_impl with (2 := H). intros v. apply most_up. rewrite !S_INR. apply Rmult_le_compat_r; [apply pow_le; lra|lra]. }
  destruct (nth_error cs i) as [a|] eqn:Ea; [|exact Up]. destruct (nth_error cs j) as [b|] eqn:Eb; [|exact Up]. cbn [snd].
  destruct (crew_nth n cs i a Hin Ea) as (_ & La & _). destruct (crew_nth n cs j b Hin Eb) as (_ & Lb & _). rewrite Forall_forall in Ht.
  assert (K : most (2 ^ 951) (kick dt a b)). { apply kick_64; [exact Md|exact (Ht a (nth_error_In _ _ Ea))|exact (Ht b (nth_error_In _ _ Eb))|exact (eq_trans La (eq_sym Lb))|exact (eq_ind_r few Fn La)|exact (Sp i j a b Hij Ea Eb)]. }
  apply bump_64; [exact tame_add|rewrite S_INR; exact Hk| |exact K]. apply bump_64; [exact tame_sub|lra|exact H|exact K].
Qed.
Lemma pushes_64 n (dt : F) (cs : list (expag F)) ps : mild dt -> few n -> Forall (exp_in n) cs -> Forall tame cs -> spread cs -> Forall (fun ij => (fst ij < snd ij)%nat) ps -> forall (k : nat) (st : pos F * list (pos F)), INR (k + 2 * length ps) <= 2 ^ 41 ->
  Forall (fun v : pos F => most (INR k * 2 ^ 952) v) (snd st) -> Forall (fun v : pos F => most (INR (k + 2 * length ps) * 2 ^ 952) v) (snd (fold_left (fun st ij => push dt cs st (fst ij) (snd ij)) ps st)).
Proof.
  intros Md Fn Hin Ht Sp Hps. induction Hps as [|(i, j) ps Hij _ IH]; intros k st Hk H; [cbn [length fold_left]; replace (k + 2 * 0)%nat with k by lia; exact H|].
  cbn [fold_left fst snd]. assert (E : (k + 2 * length ((i, j) :: ps) = Datatypes.S (Datatypes.S k) + 2 * length ps)%nat) by (cbn [length]; lia). rewrite E in *. apply IH; [exact Hk|].
  apply (push_64 n dt cs k i j st Md Fn Hin Ht Sp Hij); [|exact H]. apply Rle_trans with (2 := Hk). rewrite <- S_INR. apply le_INR. lia.
Qed.
Lemma plans_64 n (dt : F) (cs : list (expag F)) (disp : pos F) : mild dt -> few n -> Forall (exp_in n) cs -> Forall tame cs -> spread cs -> INR (length cs) <= 2 ^ 20 ->
  Forall (fun v : pos F => within 993 v) (plans n dt cs disp).
Proof.
  intros Md Fn Hin Ht Sp Hn. unfold plans. set (ps := pairs (seq 0 (length cs))). assert (Lp : (length ps <= length cs * length cs)%nat). { pose proof (pairs_length_sq (seq 0 (length cs))) as L. rewrite seq_length in L. exact L. }
  assert (Hk : INR (0 + 2 * length ps) <= 2 ^ 41). { apply Rle_trans with (INR (2 * (length cs * length cs))); [apply le_INR; lia|]. rewrite !mult_INR. change (INR 2) with 2. change (2 ^ 41) with (2 * 2 ^ 40). apply Rmult_le_compat_l; [lra|].
    replace (2 ^ 40) with (2 ^ 20 * 2 ^ 20) by (rewrite <- pow_add; reflexivity). pose proof (pos_INR (length cs)). apply Rmult_le_compat; lra. }
  assert (Hps : Forall (fun ij => (fst ij < snd ij)%nat) ps). { apply Forall_forall. intros (i, j) Hi. apply pairs_spec in Hi; [|apply sorted_seq]. cbn. lia. }
  eapply Forall_impl; [|apply (pushes_64 n dt cs ps Md Fn Hin Ht Sp Hps 0 _ Hk)].
  - intros v. apply most_up. replace (2 ^ 993) with (2 ^ 41 * 2 ^ 952) by (rewrite <- pow_add; reflexivity). apply Rmult_le_compat_r; [apply pow_le; lra|exact Hk].
  - cbn [snd]. apply Forall_forall. intros v Hv. apply repeat_spec in Hv. subst v. apply Forall_forall. intros x Hx. apply repeat_spec in Hx. subst x. split; [reflexivity|]. change (INR 0) with 0. rewrite Rmult_0_l. cbn. rewrite Rabs_R0. lra.
Qed.
End K.
