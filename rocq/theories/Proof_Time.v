From Coq Require Import Reals ZArith List Lra Lia.
From Flocq Require Import Core Plus_error Relative.
From Flocq.IEEE754 Require Import BinarySingleNaN.
From Verif Require Import Base Scalar Float64 Model_Time Spec_Time Spec_Position Proof_Position.
Import ListNotations.

Section Gen.
Local Open Scope nat_scope.
Context {S : scalar}.

Lemma plus_times_shift (t dt : S) k : plus_times (add t dt) dt k = plus_times t dt (Datatypes.S k).
Proof. induction k; [reflexivity|]. simpl in *. now rewrite IHk. Qed.

Lemma cs_collect n (s : conststep S) : exists vs s', collect cs_next n s = Ok (vs, s') /\ length vs <= n /\
  (forall k v, nth_error vs k = Some v -> v = plus_times (cs_current s) (cs_dt s) k /\ leb v (cs_tmax s) = true) /\
  (length vs < n -> leb (plus_times (cs_current s) (cs_dt s) (length vs)) (cs_tmax s) = false) /\
  s' = ConstStep (cs_titype s) (plus_times (cs_current s) (cs_dt s) (length vs)) (cs_dt s) (cs_tmax s).
Proof.
  revert s. induction n as [|n IH]; intros s.
  - exists [], s. simpl. repeat split; auto; try lia; try (destruct k; discriminate). now destruct s.
  - simpl. unfold cs_next. destruct (leb (cs_current s) (cs_tmax s)) eqn:L.
    + simpl. destruct (IH (ConstStep (cs_titype s) (add (cs_current s) (cs_dt s)) (cs_dt s) (cs_tmax s)))
        as (vs & s' & E & Hl & Hv & He & Hs). unfold cs_next in E. rewrite E. simpl.
      exists (cs_current s :: vs), s'. simpl in *. repeat split.
      * lia.
      * destruct k as [|k]; simpl in *; [congruence|]. destruct (Hv k v H) as (-> & _). apply plus_times_shift.
      * destruct k as [|k]; simpl in *; [congruence|]. now destruct (Hv k v H).
      * intros. rewrite plus_times_shift in He. apply He. lia.
      * rewrite Hs, plus_times_shift. reflexivity.
    + simpl. exists [], s. simpl. repeat split; auto; try lia; try (destruct k; discriminate). now destruct s.
Qed.

Lemma cs_fused (s s' : conststep S) : cs_next s = Ok (s', None) -> cs_next s' = Ok (s', None).
Proof. unfold cs_next. destruct (leb (cs_current s) (cs_tmax s)) eqn:L; intros E; inversion E; subst. rewrite L. reflexivity. Qed.

Lemma cs_diff n (s : conststep S) vs s' : collect cs_next n s = Ok (vs, s') ->
  collect (diff_next cs_next cs_dt) n s = Ok (map (fun t => (t, cs_dt s)) vs, s').
Proof.
  revert s vs s'. induction n as [|n IH]; intros s vs s'; simpl; [intros E; inversion E; auto|].
  unfold diff_next at 1. unfold cs_next at 1 3. destruct (leb (cs_current s) (cs_tmax s)) eqn:L; simpl.
  - destruct (collect cs_next n _) as [[l s1]| | |] eqn:C; simpl; intros E; inversion E; subst.
    apply IH in C. simpl in C. rewrite C. reflexivity.
  - intros E; inversion E; auto.
Qed.

Lemma cs_renew_fresh n (s : conststep S) vs s' : cs_current s = s0 -> collect cs_next n s = Ok (vs, s') -> cs_renew s' = s.
Proof.
  intros Z E. destruct (cs_collect n s) as (vs2 & s2 & E2 & _ & _ & _ & Hs). rewrite E in E2. injection E2 as <- <-.
  rewrite Hs. unfold cs_renew. simpl. destruct s; simpl in *; subst; reflexivity.
Qed.

(** The exponential clock *)

Lemma es_next_fields (s s' : expstep S) o : es_next s = Ok (s', o) ->
  es_titype s' = es_titype s /\ es_inc s' = es_inc s /\ es_tmax s' = es_tmax s /\
  match o with
  | Some t => t = es_current s /\ leb t (es_tmax s) = true /\ es_current s' = add t (es_dt s')
  | None => leb (es_current s) (es_tmax s) = false /\ es_current s' = es_current s
  end.
Proof.
  unfold es_next. destruct (es_titype s) as [|a b len] eqn:T; [discriminate|].
  destruct (if (ltb (es_dt s) b && (es_count s =? len)) then _ else _) as [d c].
  destruct (leb (es_current s) (es_tmax s)) eqn:L; intros E; inversion E; subst; simpl; auto 7.
Qed.

Lemma es_next_total (s : expstep S) a b len : es_titype s = Exponential a b len -> exists s' o, es_next s = Ok (s', o).
Proof.
  intros T. unfold es_next. rewrite T.
  destruct (if (ltb (es_dt s) b && (es_count s =? len)) then _ else _) as [d c].
  destruct (leb (es_current s) (es_tmax s)); eauto.
Qed.

Lemma es_collect_total n (s : expstep S) a b len : es_titype s = Exponential a b len ->
  exists vs s', collect (diff_next es_next es_dt) n s = Ok (vs, s') /\ collect es_next n s = Ok (map fst vs, s') /\ length vs <= n /\
    es_titype s' = es_titype s /\ es_inc s' = es_inc s /\ es_tmax s' = es_tmax s.
Proof.
  revert s. induction n as [|n IH]; intros s T.
  - exists [], s. simpl; auto 10.
  - destruct (es_next_total s _ _ _ T) as (s1 & o & E). destruct (es_next_fields s s1 o E) as (T1 & I1 & M1 & _). cbn [collect]. unfold diff_next at 1. rewrite E. cbn [bind].
    destruct o as [t|]; cbn [bind].
    + destruct (IH s1) as (vs & s' & E1 & E2 & L & T2 & I2 & M2); [congruence|]. rewrite E1, E2. simpl.
      exists ((t, es_dt s1) :: vs), s'. simpl. repeat split; auto; try congruence; lia.
    + exists [], s1. simpl. repeat split; auto; lia.
Qed.

Lemma es_collect_chain n (s : expstep S) vs s' : collect (diff_next es_next es_dt) n s = Ok (vs, s') ->
  chained (fun x y => fst y = add (fst x) (snd x)) vs /\
  Forall (fun x => leb (fst x) (es_tmax s) = true) vs /\
  (forall x r, vs = x :: r -> fst x = es_current s) /\
  (length vs < n -> leb (es_current s') (es_tmax s) = false) /\
  (vs = [] -> es_current s' = es_current s) /\
  (forall x, vs <> [] -> es_current s' = add (fst (last vs x)) (snd (last vs x))).
Proof.
  revert s vs. induction n as [|n IH]; intros s vs; cbn [collect].
  - intros E; inversion E; subst. repeat split; try constructor; try discriminate; simpl; try lia.
    congruence.
  - unfold diff_next at 1. destruct (es_next s) as [[s1 o]| | |] eqn:E; cbn [bind]; try discriminate.
    destruct (es_next_fields s s1 o E) as (T & I & M & O).
    destruct o as [t|]; cbn [bind].
    + destruct O as (Ht & Hl & Hc).
      destruct (collect _ n s1) as [[r s2]| | |] eqn:C; cbn [bind fst snd]; try discriminate.
      intros Q; inversion Q; subst vs s2. destruct (IH s1 r C) as (C1 & C2 & C3 & C4 & C5 & C6).
      rewrite M in *. repeat split.
      * destruct r as [|y r]; constructor; auto. simpl. rewrite (C3 y r eq_refl). exact Hc.
      * constructor; auto.
      * intros x r0 X. inversion X; subst. reflexivity.
      * simpl. intros. apply C4. lia.
      * discriminate.
      * intros x _. destruct r as [|y r]; [simpl; rewrite C5; auto|].
        change (last ((t, es_dt s1) :: y :: r) x) with (last (y :: r) x). apply C6. discriminate.
    + intros Q; inversion Q; subst. destruct O as (O1 & O2). repeat split; try constructor; try discriminate; auto.
      * intros. rewrite O2. exact O1.
      * congruence.
Qed.

Lemma es_renew_fresh n (s : expstep S) vs s' : es_fresh s -> collect es_next n s = Ok (vs, s') -> es_renew s' = Ok s.
Proof.
  intros (a & b & len & T & Z & D & K) E.
  destruct (es_collect_total n s a b len T) as (v2 & s2 & _ & E2 & _ & T2 & I2 & M2). rewrite E in E2. inversion E2; subst.
  unfold es_renew. rewrite T2, T, I2, M2. f_equal. destruct s; simpl in *; subst; reflexivity.
Qed.

Lemma es_new_fresh a b len (s : expstep S) : es_new a b len = Ok s -> es_fresh s.
Proof. unfold es_new. destruct (_ || _); intros E; inversion E. unfold es_fresh; simpl; eauto 10. Qed.
Lemma es_convert_fresh a b len tm (s : expstep S) : es_convert a b len tm = Ok s -> es_fresh s.
Proof. unfold es_convert. destruct (_ || _); intros E; inversion E. unfold es_fresh; simpl; eauto 10. Qed.
Lemma es_set_tmax_fresh (s : expstep S) t : es_fresh s -> es_fresh (fst (es_set_tmax s t)).
Proof. unfold es_set_tmax, es_fresh. destruct ltb; [auto|]. destruct ltb; simpl; auto. Qed.
Lemma es_set_inc_fresh (s : expstep S) t : es_fresh s -> es_fresh (fst (es_set_inc s t)).
Proof.
  unfold es_set_inc, es_fresh. intros (a & b & len & T & Z & D & K). destruct leb; [simpl; exists a, b, len; auto|]. rewrite T.
  destruct ltb; simpl; exists a, b, len; auto.
Qed.

Lemma es_fused (s s' : expstep S) : es_next s = Ok (s', None) -> exists s'', es_next s' = Ok (s'', None).
Proof.
  intros E. destruct (es_next_fields s s' None E) as (T & I & M & L & C).
  assert (X : exists a b len, es_titype s = Exponential a b len).
  { unfold es_next in E. destruct (es_titype s); [discriminate|eauto]. }
  destruct X as (a & b & len & X). destruct (es_next_total s' a b len) as (s2 & o & E2); [congruence|].
  destruct o as [t|]; [|eauto]. destruct (es_next_fields s' s2 _ E2) as (_ & _ & _ & A & B & _). congruence.
Qed.
End Gen.

(** ** Reals *)
Section Re.
Open Scope R_scope.

Lemma rr_plus_times (t dt : RR) k : plus_times t dt k = t + INR k * dt.
Proof.
  induction k as [|k IH]; [simpl; change (t = t + 0 * dt); lra|].
  change (plus_times t dt k + dt = t + INR (Datatypes.S k) * dt). rewrite IH, S_INR. lra.
Qed.

Lemma Rleb_spec x y : Rleb x y = true <-> x <= y.
Proof. unfold Rleb. destruct Rle_dec; split; auto; discriminate. Qed.
Lemma Rleb_false x y : Rleb x y = false <-> y < x.
Proof. unfold Rleb. destruct Rle_dec; split; auto; try discriminate; lra. Qed.
Lemma Rltb_spec x y : Rltb x y = true <-> x < y.
Proof. unfold Rltb. destruct Rlt_dec; split; auto; discriminate. Qed.
Lemma Rltb_false x y : Rltb x y = false <-> y <= x.
Proof. unfold Rltb. destruct Rlt_dec; split; auto; try discriminate; lra. Qed.

(** The last collected prefix when the clock has run out. *)
Lemma collect_all {St X} (next : St -> outcome (St * option X)) n s vs s' :
  collect next n s = Ok (vs, s') -> (length vs < n)%nat -> yields_all next s vs.
Proof.
  revert s vs. induction n as [|n IH]; intros s vs; simpl; [intros E; inversion E; subst; simpl; lia|].
  destruct (next s) as [[s1 [x|]]| | |] eqn:E; simpl; try discriminate.
  - destruct (collect next n s1) as [[r s2]| | |] eqn:C; simpl; try discriminate. intros Q L. inversion Q; subst. simpl in L.
    destruct (IH s1 r C) as (u & v & A & B); [lia|]. exists u, v. simpl. rewrite E. simpl. rewrite A. auto.
  - intros Q L. inversion Q; subst. exists s, s'. simpl. auto.
Qed.

Lemma div_mul_id (x y : R) : 0 < y -> x = x / y * y.
Proof. intros. field. lra. Qed.

Lemma rr_const_count (s : conststep RR) : cs_current s = 0 -> 0 < cs_dt s -> 0 <= cs_tmax s ->
  exists vs, yields_all cs_next s vs /\ Z.of_nat (length vs) = (Zfloor (cs_tmax s / cs_dt s) + 1)%Z /\
    forall k v, nth_error vs k = Some v -> v = INR k * cs_dt s.
Proof.
  intros Z D T. set (N := Zfloor (cs_tmax s / cs_dt s)).
  assert (Q : 0 <= cs_tmax s / cs_dt s) by (apply Rmult_le_pos; [auto|apply Rlt_le, Rinv_0_lt_compat; auto]).
  assert (HN : (0 <= N)%Z) by (apply Zfloor_lub; simpl; lra).
  assert (E : cs_tmax s = cs_tmax s / cs_dt s * cs_dt s) by (exact (div_mul_id _ _ D)).
  destruct (cs_collect (Z.to_nat N + 2) s) as (vs & s' & C & L & V & F & _). cbn [RR car add leb] in *.
  assert (K1 : forall k, (Z.of_nat k <= N)%Z -> Rleb (plus_times (S := RR) (cs_current s) (cs_dt s) k) (cs_tmax s) = true).
  { intros k Hk. rewrite rr_plus_times, Z, Rplus_0_l. apply Rleb_spec. rewrite E. apply Rmult_le_compat_r; [lra|].
    rewrite INR_IZR_INZ. apply Rle_trans with (IZR N); [now apply IZR_le|apply Zfloor_lb]. }
  assert (LEN : (length vs = Z.to_nat N + 1)%nat).
  { assert (length vs <= Z.to_nat N + 1)%nat.
    { destruct (le_lt_dec (length vs) (Z.to_nat N + 1)) as [|G]; auto. exfalso.
      destruct (nth_error vs (Z.to_nat N + 1)) as [v|] eqn:X; [|apply nth_error_None in X; lia].
      destruct (V _ _ X) as (V1 & V2). rewrite V1, rr_plus_times, Z, Rplus_0_l in V2. apply Rleb_spec in V2.
      rewrite INR_IZR_INZ, Nat2Z.inj_add, Z2Nat.id in V2 by auto. simpl Z.of_nat in V2.
      rewrite E in V2. apply Rmult_le_reg_r in V2; auto. rewrite plus_IZR in V2.
      pose proof (Zfloor_ub (cs_tmax s / cs_dt s)). fold N in H. lra. }
    destruct (Nat.eq_dec (length vs) (Z.to_nat N + 1)) as [|G]; auto. exfalso.
    assert (W := F ltac:(lia)). assert (K := K1 (length vs) ltac:(lia)). unfold Rleb in *. congruence. }
  exists vs. split; [|split].
  - eapply collect_all; eauto. lia.
  - rewrite LEN. lia.
  - intros k v X. destruct (V k v X) as (-> & _). rewrite rr_plus_times, Z. lra.
Qed.

(** Exponential clock closed form. *)

Definition einv (a b inc : R) (len : nat) (k : nat) (s : expstep RR) : Prop :=
  es_titype s = Exponential (S := RR) a b len /\ es_inc s = inc /\
  es_dt s = d_at a b inc len (k - 1) /\ (es_dt s < b -> es_count s = match k with 0 => 0 | Datatypes.S j => j mod len + 1 end%nat).

Lemma einv_step a b inc len k (s s' : expstep RR) o : 0 < a -> a <= b -> 1 <= inc -> (1 <= len)%nat ->
  einv a b inc len k s -> es_next s = Ok (s', Some o) -> einv a b inc len (Datatypes.S k) s' /\ es_dt s' = d_at a b inc len k.
Proof.
  intros Ha Hab Hi Hl (T & I & D & K) E.
  assert (GOAL : es_dt s' = d_at a b inc len k /\ (es_dt s' < b -> es_count s' = (k mod len + 1)%nat)).
  2:{ destruct GOAL as (G1 & G2). destruct (es_next_fields _ _ _ E) as (T' & I' & _).
      split; auto. repeat split; try congruence. simpl. rewrite Nat.sub_0_r. exact G1. exact G2. }
  unfold es_next in E. rewrite T in E. cbn [RR car ltb leb mul add] in E.
  set (lb := Rleb (es_current s) (es_tmax s)) in E.
  assert (PW : forall n, 0 < inc ^ n) by (intros; apply pow_lt; lra).
  destruct (Rltb (es_dt s) b) eqn:L; simpl andb in E; cbn iota in E.
  - apply Rltb_spec in L. specialize (K L).
    destruct (Nat.eqb_spec (es_count s) len) as [C|C].
    + destruct k as [|j]; [lia|]. simpl Nat.sub in D. rewrite Nat.sub_0_r in D.
      assert (M : (j mod len = len - 1)%nat) by lia.
      assert (DV : (Datatypes.S j / len = j / len + 1)%nat).
      { pose proof (Nat.div_mod j len ltac:(lia)). symmetry. apply Nat.div_unique with 0%nat; lia. }
      assert (MV : (Datatypes.S j mod len = 0)%nat).
      { pose proof (Nat.div_mod j len ltac:(lia)). symmetry. apply Nat.mod_unique with (j / len + 1)%nat; lia. }
      assert (DD : es_dt s = a * inc ^ (j / len)).
      { rewrite D in L. rewrite D. unfold d_at, Rmin in *. destruct Rle_dec; lra. }
      assert (NEW : (if Rltb b (es_dt s * es_inc s) then b else es_dt s * es_inc s) = d_at a b inc len (Datatypes.S j)).
      { unfold d_at. rewrite DV, pow_add, pow_1, DD, I. unfold Rmin, Rltb.
        destruct Rlt_dec, Rle_dec; lra. }
      destruct lb; inversion E; subst; cbn [es_dt es_count RR car] in *. rewrite MV. split; [exact NEW|auto].
    + destruct lb; inversion E; subst; cbn [es_dt es_count RR car] in *.
      destruct k as [|j]; simpl Nat.sub in D; rewrite ?Nat.sub_0_r in D.
      * split; [exact D|]. intros _. rewrite Nat.mod_0_l by lia. lia.
      * assert (M : (j mod len < len)%nat) by (apply Nat.mod_upper_bound; lia).
        assert (DV : (Datatypes.S j / len = j / len)%nat).
        { pose proof (Nat.div_mod j len ltac:(lia)). symmetry. apply Nat.div_unique with (j mod len + 1)%nat; lia. }
        assert (MV : (Datatypes.S j mod len = j mod len + 1)%nat).
        { pose proof (Nat.div_mod j len ltac:(lia)). symmetry. apply Nat.mod_unique with (j / len)%nat; lia. }
        split; [rewrite D; unfold d_at; now rewrite DV|]. intros _. rewrite MV. lia.
  - apply Rltb_false in L. destruct lb; inversion E; subst; cbn [es_dt es_count RR car] in *.
    assert (X : es_dt s = b).
    { rewrite D in *. unfold d_at, Rmin in *. destruct Rle_dec; lra. }
    split; [|intros; lra]. rewrite X. rewrite D in X. unfold d_at in *.
    assert (b <= a * es_inc s ^ ((k - 1) / len)) by (unfold Rmin in X; destruct Rle_dec; lra).
    assert (a * es_inc s ^ ((k - 1) / len) <= a * es_inc s ^ (k / len)).
    { apply Rmult_le_compat_l; [lra|]. apply Rle_pow; [lra|]. apply Nat.div_le_mono; lia. }
    unfold Rmin. destruct Rle_dec; lra.
Qed.

Lemma rr_exp_closed a b inc len (s : expstep RR) n vs s' : 0 < a -> a <= b -> 1 <= inc -> (1 <= len)%nat ->
  es_fresh s -> es_titype s = Exponential (S := RR) a b len -> es_inc s = inc ->
  collect (diff_next es_next es_dt) n s = Ok (vs, s') ->
  forall k t d, nth_error vs k = Some (t, d) ->
    d = d_at a b inc len k /\ t = rsum (map (d_at a b inc len) (seq 0 k)) /\ t <= es_tmax s.
Proof.
  intros Ha Hab Hi Hl (a' & b' & l' & T' & Z & D & K) T I E.
  assert (AA : a' = a) by congruence. rewrite AA in D. clear AA T' a' b' l'.
  assert (INV : einv a b inc len 0 s).
  { repeat split; auto. rewrite D. unfold d_at. simpl. rewrite Nat.div_0_l by lia. simpl. unfold Rmin; destruct Rle_dec; lra. }
  assert (G : forall n j (s1 : expstep RR) vs s', einv a b inc len j s1 -> collect (diff_next es_next es_dt) n s1 = Ok (vs, s') ->
    forall k t d, nth_error vs k = Some (t, d) -> d = d_at a b inc len (j + k) /\ t = es_current s1 + rsum (map (d_at a b inc len) (seq j k)) /\ t <= es_tmax s1).
  { clear -Ha Hab Hi Hl. induction n as [|n IH]; intros j s1 vs s' INV; cbn [collect].
    - intros E; inversion E; subst. intros [|k]; discriminate.
    - unfold diff_next at 1. destruct (es_next s1) as [[s2 o]| | |] eqn:E; cbn [bind]; try discriminate.
      destruct (es_next_fields _ _ _ E) as (_ & _ & M & O).
      destruct o as [t0|]; cbn [bind].
      + destruct (collect _ n s2) as [[r s3]| | |] eqn:C; cbn [bind fst snd]; try discriminate.
        intros Q; inversion Q; subst. destruct (einv_step _ _ _ _ _ _ _ _ Ha Hab Hi Hl INV E) as (I2 & D2).
        destruct O as (O1 & O2 & O3). intros [|k] t d X.
        * inversion X; subst. rewrite Nat.add_0_r. split; auto. split; [unfold rsum; simpl; lra|]. apply Rleb_spec. exact O2.
        * simpl in X. destruct (IH _ _ _ _ I2 C k t d X) as (A & B & W). replace (j + Datatypes.S k)%nat with (Datatypes.S j + k)%nat by lia.
          split; auto. split; [|congruence]. rewrite B, O3, O1, D2. cbn [seq map]. unfold rsum. cbn [fold_right]. change (@add RR) with Rplus. lra.
      + intros Q; inversion Q; subst. intros [|k]; discriminate. }
  intros k t d X. destruct (G n 0%nat s vs s' INV E k t d X) as (A & B & C). split; auto. split; auto. rewrite B, Z. change (@s0 RR) with 0. lra.
Qed.
End Re.
