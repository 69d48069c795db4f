From Coq Require Import Reals ZArith List Lra Lia.
From Flocq Require Import Core Plus_error Relative.
From Flocq.IEEE754 Require Import BinarySingleNaN.
From Verif Require Import Base Scalar Float64 Model_Time Spec_Time Spec_Position Proof_Position Proof_Time.
Import ListNotations.

Section F.
Variable lm : libm.
Local Notation F := (F64 lm).
Local Open Scope R_scope.

Notation zero64 := (B754_zero false : b64).

(** ** Monotone times *)
Lemma chain_cons {X} (R : X -> X -> Prop) x l : (forall y r, l = y :: r -> R x y) -> chained R l -> chained R (x :: l).
Proof. destruct l; constructor; eauto. Qed.

Lemma nonneg_not_inf (x : b64) : Bleb zero64 x = true -> x <> B754_infinity true /\ nan x = false.
Proof. intros H. split; [intros ->; easy|]. now destruct (leb_nan _ _ H). Qed.

Lemma plus_mono (t d : b64) : Bleb zero64 t = true -> Bleb zero64 d = true ->
  Bleb t (Bplus mode_NE t d) = true /\ Bleb zero64 (Bplus mode_NE t d) = true.
Proof.
  intros A B. destruct (nonneg_not_inf t A). assert (M : Bleb t (Bplus mode_NE t d) = true) by (apply plus_ge; auto).
  split; [exact M|]. exact (leb_trans _ _ _ A M).
Qed.

Lemma cs_mono n (s : conststep F) vs s' : Bleb zero64 (cs_current s) = true -> Bleb zero64 (cs_dt s) = true ->
  collect cs_next n s = Ok (vs, s') ->
  chained (fun x y : b64 => Bleb x y = true) vs /\ Forall (fun x : b64 => Bleb zero64 x = true) vs /\
  (forall x r, vs = x :: r -> x = cs_current s).
Proof.
  revert s vs. induction n as [|n IH]; intros s vs C D; cbn [collect].
  - intros E; inversion E; subst. repeat split; try constructor; discriminate.
  - unfold cs_next at 1. destruct (leb (cs_current s) (cs_tmax s)); cbn [bind].
    + destruct (collect _ n _) as [[r s2]| | |] eqn:K; cbn [bind fst snd]; try discriminate.
      intros Q; inversion Q; subst. destruct (plus_mono _ _ C D) as (P1 & P2).
      destruct (IH (ConstStep (cs_titype s) (add (cs_current s) (cs_dt s)) (cs_dt s) (cs_tmax s)) _ P2 D K) as (A1 & A2 & A3). repeat split.
      * apply chain_cons; auto. intros y r0 ->. rewrite (A3 y r0 eq_refl). exact P1.
      * constructor; auto.
      * intros x r0 X; inversion X; reflexivity.
    + intros E; inversion E; subst. repeat split; try constructor; discriminate.
Qed.

(** ** Steps of the exponential clock *)
Lemma mult_ge (d inc : b64) : Bltb zero64 d = true -> fin d = true -> Bleb (b64_of_Z 1) inc = true ->
  Bleb d (Bmult mode_NE d inc) = true.
Proof.
  intros P Fd I. destruct (of_Z_exact 1 ltac:(lia)) as (F1 & E1).
  destruct (leb_nan _ _ I) as (_ & Ni). apply ltb_val in P; try (destruct d; easy).
  rewrite (val_fin d Fd) in P. simpl val in P.
  apply leb_val in I; auto. rewrite (val_fin _ F1), E1 in I.
  destruct (fin inc) eqn:Fi.
  - destruct (mult_val d inc Fd Fi) as (N & V). apply leb_val; auto; [destruct d; easy|].
    rewrite V, (val_fin d Fd), <- (rnd_B2 d) at 1. apply rnd_le. rewrite (val_fin _ Fi) in I. nra.
  - destruct inc as [|[|]| |]; try easy; [simpl in I; pose proof top_pos; lra|].
    destruct d as [| | |[|] m e B]; try easy; [simpl in P; lra|].
    exfalso. pose proof (sign_neg (B754_finite true m e B) eq_refl). lra.
Qed.

Section Steps.
Variables (a b inc : b64) (len : nat).
Hypothesis Ha : Bltb zero64 a = true.
Hypothesis Hab : Bleb a b = true.
Hypothesis Hinc : Bleb (b64_of_Z 1) inc = true.

Definition sinv (s : expstep F) : Prop :=
  es_titype s = Exponential (S := F) a b len /\ es_inc s = inc /\
  Bleb a (es_dt s) = true /\ Bleb (es_dt s) b = true.

Lemma lt_fin (x y : b64) : Bltb zero64 x = true -> Bltb x y = true -> fin x = true.
Proof. intros A B. destruct x as [|[|]| |]; try easy. destruct y as [|[|]| |]; easy. Qed.

Lemma ltb_leb_trans (x y z : b64) : Bltb x y = true -> Bleb y z = true -> Bltb x z = true.
Proof.
  intros A B. destruct (ltb_nan _ _ A), (leb_nan _ _ B).
  apply ltb_val in A; auto. apply leb_val in B; auto. apply ltb_val; auto. lra.
Qed.

Lemma sinv_step (s s' : expstep F) o : sinv s -> es_next s = Ok (s', o) -> sinv s' /\ Bleb (es_dt s) (es_dt s') = true.
Proof.
  intros (T & I & L & U) E. destruct (es_next_fields _ _ _ E) as (T' & I' & _).
  assert (G : Bleb (es_dt s) (es_dt s') = true /\ Bleb (es_dt s') b = true).
  2:{ destruct G as (G1 & G2). split; auto. split; [congruence|]. split; [congruence|]. split; auto.
      exact (leb_trans _ _ _ L G1). }
  unfold es_next in E. rewrite T in E. cbn [F64 car ltb leb mul add] in E.
  assert (NB : nan b = false) by now destruct (leb_nan _ _ Hab).
  assert (ND : nan (es_dt s) = false) by now destruct (leb_nan _ _ U).
  assert (PD : Bltb zero64 (es_dt s) = true) by (eapply ltb_leb_trans; eauto).
  destruct (Bltb (es_dt s) b) eqn:LT; cbn [andb] in E.
  - destruct (es_count s =? len)%nat.
    + assert (M : Bleb (es_dt s) (Bmult mode_NE (es_dt s) (es_inc s)) = true).
      { apply mult_ge; auto; [|now rewrite I]. eapply lt_fin; eauto. }
      assert (NM : nan (Bmult mode_NE (es_dt s) (es_inc s)) = false) by now destruct (leb_nan _ _ M).
      destruct (Bltb b (Bmult mode_NE (es_dt s) (es_inc s))) eqn:Q.
      * destruct (Bleb (es_current s) (es_tmax s)); inversion E; subst; cbn [es_dt]; split; auto; now apply leb_refl.
      * apply nltb_leb in Q; auto. destruct (Bleb (es_current s) (es_tmax s)); inversion E; subst; cbn [es_dt]; split; auto.
    + destruct (Bleb (es_current s) (es_tmax s)); inversion E; subst; cbn [es_dt]; split; auto; now apply leb_refl.
  - destruct (Bleb (es_current s) (es_tmax s)); inversion E; subst; cbn [es_dt]; split; auto; now apply leb_refl.
Qed.

Lemma exp_steps n (s : expstep F) vs s' : sinv s -> Bleb zero64 (es_current s) = true ->
  collect (diff_next es_next es_dt) n s = Ok (vs, s') ->
  Forall (fun td : b64 * b64 => Bleb a (snd td) = true /\ Bleb (snd td) b = true /\ Bleb zero64 (fst td) = true) vs /\
  chained (fun x y : b64 * b64 => Bleb (fst x) (fst y) = true /\ Bleb (snd x) (snd y) = true) vs /\
  (forall x r, vs = x :: r -> fst x = es_current s /\ Bleb (es_dt s) (snd x) = true).
Proof.
  revert s vs. induction n as [|n IH]; intros s vs I C; cbn [collect].
  - intros E; inversion E; subst. repeat split; try constructor; try discriminate.
  - unfold diff_next at 1. destruct (es_next s) as [[s1 o]| | |] eqn:E; cbn [bind]; try discriminate.
    destruct (sinv_step _ _ _ I E) as (I1 & M1). destruct (es_next_fields _ _ _ E) as (_ & _ & _ & O).
    destruct o as [t|]; cbn [bind].
    + destruct O as (O1 & O2 & O3).
      destruct (collect _ n s1) as [[r s2]| | |] eqn:K; cbn [bind fst snd]; try discriminate.
      intros Q; inversion Q; subst.
      assert (PD : Bleb zero64 (es_dt s1) = true) by (apply ltb_leb; eapply ltb_leb_trans; [exact Ha|apply I1]).
      destruct (plus_mono _ _ C PD) as (P1 & P2).
      assert (C1 : Bleb zero64 (es_current s1) = true) by (rewrite O3; exact P2).
      destruct (IH _ _ I1 C1 K) as (A1 & A2 & A3). repeat split.
      * constructor; auto. cbn [fst snd]. destruct I1 as (_ & _ & ? & ?). auto.
      * apply chain_cons; auto. intros y r0 ->. destruct (A3 y r0 eq_refl) as (Y1 & Y2). cbn [fst snd]. split; auto.
        exact (eq_ind_r (fun z : b64 => Bleb (es_current s) z = true) P1 (eq_trans Y1 O3)).
      * now inversion H.
      * inversion H; subst. cbn [snd]. exact M1.
    + intros Q; inversion Q; subst. repeat split; try constructor; try discriminate.
Qed.
End Steps.

(** ** Ends, when the step is not absurdly small compared to tmax *)
Lemma rnd_no_overflow r : 0 <= r -> rnd r < top -> rnd r = rnd64 r.
Proof.
  intros P. pose proof (rnd64_pos r P) as Q. pose proof top_pos. unfold rnd, clamp.
  destruct (Rle_dec top (rnd64 r)); [lra|]. destruct (Rle_dec (rnd64 r) (- top)); lra.
Qed.

Lemma plus_progress (x d lo : b64) : Bleb zero64 x = true -> fin x = true -> fin lo = true -> 0 < B2 lo ->
  Bleb lo d = true -> fin (Bplus mode_NE x d) = true -> B2 x <= 2 ^ 52 * B2 lo -> B2 x + B2 lo / 4 <= B2 (Bplus mode_NE x d).
Proof.
  intros Px Fx Fl Pl Ld Fs Hx.
  assert (Nd : nan d = false) by now destruct (leb_nan _ _ Ld).
  assert (Fd : fin d = true) by (destruct d as [|[|]| |], x as [|[|]| |]; try easy; destruct lo as [|[|]| |[|]]; easy).
  apply leb_val in Px; auto; [|destruct x; easy]. rewrite (val_fin x Fx) in Px. simpl val in Px.
  apply leb_val in Ld; auto; [|destruct lo; easy]. rewrite (val_fin d Fd), (val_fin lo Fl) in Ld.
  destruct (plus_val x d Fx Fd) as (_ & V). rewrite val_fin in V by auto. rewrite V.
  apply Rle_trans with (rnd (B2 x + B2 lo)); [|apply rnd_le; lra].
  assert (BB : rnd (B2 x + B2 lo) < top).
  { apply Rle_lt_trans with (rnd (B2 x + B2 d)); [apply rnd_le; lra|]. rewrite <- V. apply B2_bound. }
  assert (EQ : rnd (B2 x + B2 lo) = rnd64 (B2 x + B2 lo)).
  { apply rnd_no_overflow; auto. lra. }
  rewrite EQ.
  destruct (FLT_plus_error_N_ex radix2 (SpecFloat.emin 53 1024) 53 (fun x => negb (Z.even x)) (B2 x) (B2 lo)) as (eps & HE & E).
  - apply (generic_format_B2R 53 1024).
  - apply (generic_format_B2R 53 1024).
  - assert (E' : rnd64 (B2 x + B2 lo) = (B2 x + B2 lo) * (1 + eps)) by exact E.
    rewrite E'. assert (U : u_ro radix2 53 <= 1 / 2 ^ 53).
    { unfold u_ro. simpl. lra. }
    assert (UP : 0 <= u_ro radix2 53) by apply u_ro_pos.
    assert (HE2 : Rabs eps <= 1 / 2 ^ 53).
    { eapply Rle_trans; [exact HE|]. eapply Rle_trans; [|exact U].
      apply Rmult_le_reg_r with (1 + u_ro radix2 53); [lra|].
      unfold Rdiv. rewrite Rmult_assoc, Rinv_l by lra. nra. }
    assert (HE3 : - (1 / 2 ^ 53) <= eps) by (apply Rabs_le_inv in HE2; lra).
    assert (K : (B2 x + B2 lo) * eps >= - ((B2 x + B2 lo) * (1 / 2 ^ 53))) by nra.
    assert (2 ^ 52 * (1 / 2 ^ 53) = 1 / 2) by (simpl; lra).
    assert (S1 : (B2 x + B2 lo) * (1 / 2 ^ 53) <= B2 lo * (1 / 2) + B2 lo * (1 / 2 ^ 53)) by nra.
    assert (1 / 2 ^ 53 <= 1 / 4) by (simpl; lra). nra.
Qed.

Lemma le_fin (x y : b64) : Bleb zero64 x = true -> Bleb x y = true -> fin y = true -> fin x = true /\ 0 <= B2 x <= B2 y.
Proof.
  intros A B Fy. assert (Fx : fin x = true) by (destruct x as [|[|]| |], y as [|[|]| |]; easy).
  split; auto. apply leb_val in A, B; auto; try (destruct x; easy); try (destruct y; easy).
  rewrite (val_fin x Fx) in *. rewrite (val_fin y Fy) in *. simpl val in A. lra.
Qed.

Lemma chain_room (lo tmax : b64) (vs : list (b64 * b64)) : fin lo = true -> 0 < B2 lo -> fin tmax = true ->
  B2 tmax <= 2 ^ 52 * B2 lo ->
  chained (fun x y => fst y = Bplus mode_NE (fst x) (snd x)) vs ->
  Forall (fun td => Bleb (fst td) tmax = true /\ Bleb zero64 (fst td) = true /\ Bleb lo (snd td) = true) vs ->
  forall x r, vs = x :: r -> B2 (fst x) + INR (length r) * (B2 lo / 4) <= B2 tmax.
Proof.
  intros Fl Pl Ft Ht C. induction C as [|x|x y l R C IH]; intros A x' r' E; inversion E; subst.
  - inversion A as [|? ? (A1 & A2 & A3)]; subst. simpl. destruct (le_fin _ _ A2 A1 Ft). lra.
  - inversion A as [|? ? (A1 & A2 & A3) A']; subst. inversion A' as [|? ? (B1 & B2' & B3) _]; subst.
    specialize (IH A' y l eq_refl). destruct (le_fin _ _ A2 A1 Ft) as (F1 & R1). destruct (le_fin _ _ B2' B1 Ft) as (F2 & R2).
    cbn [length]. rewrite S_INR.
    assert (P : B2 (fst x') + B2 lo / 4 <= B2 (fst y)).
    { rewrite R. apply plus_progress; auto; [now rewrite <- R|lra]. }
    lra.
Qed.

Lemma chain_length (lo tmax : b64) (vs : list (b64 * b64)) : fin lo = true -> 0 < B2 lo -> fin tmax = true ->
  0 <= B2 tmax <= 2 ^ 52 * B2 lo ->
  chained (fun x y => fst y = Bplus mode_NE (fst x) (snd x)) vs ->
  Forall (fun td => Bleb (fst td) tmax = true /\ Bleb zero64 (fst td) = true /\ Bleb lo (snd td) = true) vs ->
  INR (length vs) <= 4 * (B2 tmax / B2 lo) + 1.
Proof.
  intros Fl Pl Ft Ht C A.
  assert (Q : 0 <= B2 tmax / B2 lo) by (apply Rmult_le_pos; [lra|apply Rlt_le, Rinv_0_lt_compat; auto]).
  destruct vs as [|x r]; [simpl; lra|].
  pose proof (chain_room lo tmax _ Fl Pl Ft ltac:(lra) C A x r eq_refl) as R.
  inversion A as [|? ? (A1 & A2 & A3) _]; subst. destruct (le_fin _ _ A2 A1 Ft) as (_ & X).
  cbn [length]. rewrite S_INR. apply Rplus_le_compat_r.
  apply Rmult_le_reg_r with (B2 lo / 4); [lra|].
  replace (4 * (B2 tmax / B2 lo) * (B2 lo / 4)) with (B2 tmax) by (field; lra). lra.
Qed.

Lemma big_nat (r : R) : exists n, r < INR n.
Proof. exists (Z.to_nat (Z.max 0 (up r))). rewrite INR_IZR_INZ, Z2Nat.id by lia. apply Rlt_le_trans with (IZR (up r)); [apply archimed|apply IZR_le; lia]. Qed.

Lemma exp_ends (a b inc : b64) len (s : expstep F) : Bltb zero64 a = true -> Bleb a b = true -> Bleb (b64_of_Z 1) inc = true ->
  fin a = true -> fin (es_tmax s) = true -> 0 <= B2 (es_tmax s) <= 2 ^ 52 * B2 a ->
  sinv a b inc len s -> Bleb zero64 (es_current s) = true ->
  exists vs, yields_all (diff_next es_next es_dt) s vs /\ INR (length vs) <= 4 * (B2 (es_tmax s) / B2 a) + 1.
Proof.
  intros Ha Hab Hi Fa Ft Ht I C.
  destruct (big_nat (4 * (B2 (es_tmax s) / B2 a) + 1)) as (n & Hn).
  destruct (es_collect_total n s a b len (proj1 I)) as (vs & s' & E & _ & L & _).
  destruct (exp_steps a b inc len Ha Hab Hi n s vs s' I C E) as (S1 & S2 & _).
  destruct (es_collect_chain n s vs s' E) as (C1 & C2 & _).
  assert (Pa : 0 < B2 a).
  { apply ltb_val in Ha; auto; [|destruct a; easy]. rewrite (val_fin a Fa) in Ha. exact Ha. }
  assert (B : INR (length vs) <= 4 * (B2 (es_tmax s) / B2 a) + 1).
  { apply chain_length; auto. rewrite Forall_forall in *. intros x Hx. specialize (S1 x Hx). specialize (C2 x Hx). tauto. }
  exists vs. split; auto. eapply collect_all; eauto.
  apply INR_lt. lra.
Qed.

Lemma const_ends (s : conststep F) : Bltb zero64 (cs_dt s) = true -> fin (cs_dt s) = true -> fin (cs_tmax s) = true ->
  0 <= B2 (cs_tmax s) <= 2 ^ 52 * B2 (cs_dt s) -> Bleb zero64 (cs_current s) = true ->
  exists vs, yields_all cs_next s vs /\ INR (length vs) <= 4 * (B2 (cs_tmax s) / B2 (cs_dt s)) + 1.
Proof.
  intros Hd Fd Ft Ht C.
  destruct (big_nat (4 * (B2 (cs_tmax s) / B2 (cs_dt s)) + 1)) as (n & Hn).
  destruct (cs_collect n s) as (vs & s' & E & L & V & _ & _).
  assert (Pa : 0 < B2 (cs_dt s)).
  { apply ltb_val in Hd; auto; [|destruct (cs_dt s); easy]. rewrite (val_fin _ Fd) in Hd. exact Hd. }
  destruct (cs_mono n s vs s' C (ltb_leb _ _ Hd) E) as (M1 & M2 & _).
  assert (B : INR (length vs) <= 4 * (B2 (cs_tmax s) / B2 (cs_dt s)) + 1).
  { rewrite <- (map_length (fun t : b64 => (t, cs_dt s : b64))). apply chain_length; auto.
    - clear -V. assert (G : forall k v, nth_error vs k = Some v -> v = plus_times (cs_current s) (cs_dt s) k) by (intros; now apply V).
      clear V. revert G. generalize (cs_current s). induction vs as [|x vs IH]; intros t G; [constructor|].
      simpl. apply chain_cons.
      + intros y r Y. destruct vs as [|z vs]; inversion Y; subst. simpl.
        rewrite (G 0%nat x eq_refl), (G 1%nat z eq_refl). reflexivity.
      + apply (IH (add t (cs_dt s))). intros k v X. rewrite plus_times_shift. apply (G (Datatypes.S k)). exact X.
    - apply Forall_forall. intros x Hx. apply in_map_iff in Hx as (t & <- & Hin). cbn [fst snd].
      rewrite Forall_forall in M2. split; [|split; [apply M2; auto|apply leb_refl; destruct (cs_dt s); easy]].
      apply In_nth_error in Hin as (k & Hk). now destruct (V k t Hk). }
  exists vs. split; auto. eapply collect_all; eauto. apply INR_lt. lra.
Qed.

(** ** A clock that never ends: dt = 1, tmax = 2^54. *)
Lemma one_steps (k : nat) : (Z.of_nat k <= 2 ^ 53)%Z ->
  fin (plus_times (S := F) (b64_of_Z 0) (b64_of_Z 1) k) = true /\ B2 (plus_times (S := F) (b64_of_Z 0) (b64_of_Z 1) k) = IZR (Z.of_nat k).
Proof.
  destruct (of_Z_exact 1 ltac:(lia)) as (F1 & E1). destruct (of_Z_exact 0 ltac:(lia)) as (F0 & E0).
  induction k as [|k IH]; intros H.
  - simpl. auto.
  - destruct IH as (Fk & Ek); [lia|].
    destruct (plus_int _ (b64_of_Z 1) _ 1 Fk F1 Ek E1) as (A & B); [lia|]. split; auto.
    simpl plus_times. etransitivity; [exact B|]. f_equal. lia.
Qed.

Definition p53 : b64 := b64_of_Z (2 ^ 53).

Lemma p53_plus_one : Bplus mode_NE p53 (b64_of_Z 1) = p53.
Proof. apply B2SF_inj. vm_compute. reflexivity. Qed.

Lemma fin_B2_eq (x y : b64) : fin x = true -> fin y = true -> B2 x = B2 y -> B2 x <> 0 -> x = y.
Proof.
  intros. apply B2R_inj; auto; destruct x as [| | |], y as [| | |]; try easy; simpl in *; congruence.
Qed.

Lemma stagnate (k : nat) : Bleb (plus_times (S := F) (b64_of_Z 0) (b64_of_Z 1) k) (b64_of_Z (2 ^ 54)) = true.
Proof.
  assert (G : (Z.of_nat k <= 2 ^ 53)%Z -> Bleb (plus_times (S := F) (b64_of_Z 0) (b64_of_Z 1) k) p53 = true).
  { intros H. destruct (one_steps k H) as (A & B). destruct (of_Z_exact (2 ^ 53) ltac:(lia)) as (A' & B').
    rewrite Bleb_correct by auto. apply Rle_bool_true. unfold p53. rewrite B, B'. apply IZR_le. exact H. }
  assert (T : Bleb p53 (b64_of_Z (2 ^ 54)) = true) by (vm_compute; reflexivity).
  destruct (Z_le_gt_dec (Z.of_nat k) (2 ^ 53)) as [L|L]; [eapply leb_trans; eauto|].
  assert (Q : plus_times (S := F) (b64_of_Z 0) (b64_of_Z 1) k = p53).
  { destruct (Z_of_nat_complete (2 ^ 53) ltac:(lia)) as (m & Hm).
    replace k with (m + (k - m))%nat by lia.
    generalize (k - m)%nat. clear -Hm. intros j. induction j as [|j IH].
    - rewrite Nat.add_0_r. destruct (one_steps m) as (A & B); [lia|].
      destruct (of_Z_exact (2 ^ 53) ltac:(lia)) as (A' & B'). apply fin_B2_eq; [exact A|exact A'| |].
      + rewrite B. unfold p53. rewrite B', <- Hm. reflexivity.
      + rewrite B, <- Hm. apply not_0_IZR. lia.
    - rewrite Nat.add_succ_r. cbn [plus_times]. rewrite IH. exact p53_plus_one. }
  rewrite Q. exact T.
Qed.

Lemma never_ends : let s := ConstStep (S := F) (Constant (S := F) (b64_of_Z 1)) (b64_of_Z 0) (b64_of_Z 1) (b64_of_Z (2 ^ 54)) in
  forall n, exists vs s', collect cs_next n s = Ok (vs, s') /\ length vs = n.
Proof.
  intros s n. destruct (cs_collect n s) as (vs & s' & E & L & V & W & _). exists vs, s'. split; auto.
  destruct (Nat.eq_dec (length vs) n) as [|Q]; auto. exfalso. assert (X : (length vs < n)%nat) by lia. apply W in X.
  pose proof (stagnate (length vs)) as Y. unfold s in X. cbn [cs_current cs_dt cs_tmax] in X.
  change (Bleb (plus_times (S := F) (b64_of_Z 0) (b64_of_Z 1) (length vs)) (b64_of_Z (2 ^ 54)) = false) in X. congruence.
Qed.
End F.
