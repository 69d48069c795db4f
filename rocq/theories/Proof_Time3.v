From Coq Require Import Reals ZArith List Lra Lia.
From Flocq Require Import Core.
From Flocq.IEEE754 Require Import BinarySingleNaN.
From Verif Require Import Base Scalar Float64 Model_Time Spec_Time Spec_Position Proof_Position Proof_Time Proof_Time2.
Import ListNotations.
Local Open Scope nat_scope.

Lemma gen_es_new {S : scalar} (a b : S) len s : es_new a b len = Ok s ->
  ltb a (lit 1 (10 ^ 15)) = false /\ ltb b a = false /\ 1 <= len /\
  es_inc s = (if len =? 1 then lit 12 10 else if len <? 10 then div (of_Z (Z.of_nat len)) s2 else of_Z 10) /\
  es_titype s = Exponential a b len /\ es_fresh s.
Proof.
  unfold es_new. destruct (ltb a _); [discriminate|]. destruct (ltb b a); [discriminate|].
  destruct (Nat.eqb_spec len 0); [discriminate|]. cbn [orb]. intros E. injection E as <-. cbn [es_inc es_titype].
  split; auto. split; auto. split; [lia|]. split; auto. split; auto. unfold es_fresh; simpl; eauto 10.
Qed.

Lemma gen_cs_new {S : scalar} (dt : S) s : cs_new dt = Ok s ->
  ltb dt (lit 1 (10 ^ 15)) = false /\ cs_dt s = dt /\ cs_current s = s0.
Proof. unfold cs_new. destruct (ltb dt _); [discriminate|]. intros E. injection E as <-. auto. Qed.

Section Re.
Local Open Scope R_scope.

Lemma rr_lit n d : lit (s := RR) n d = IZR n / IZR d. Proof. reflexivity. Qed.

Lemma rr_cs_new (dt : R) :
  (dt < 1 / 10 ^ 15 -> cs_new (S := RR) dt = Err InvalidArgumentInput) /\
  (1 / 10 ^ 15 <= dt -> cs_new (S := RR) dt = Ok (ConstStep (S := RR) (Constant (S := RR) dt) 0 dt Rfmax)).
Proof.
  unfold cs_new. rewrite rr_lit. replace (IZR (10 ^ 15)) with (10 ^ 15) by (simpl; lra).
  cbn [RR ltb]. split; intros H; [apply Rltb_spec in H|apply Rltb_false in H]; rewrite H; reflexivity.
Qed.

Lemma gen_cs_set_tmax {S : scalar} (s : conststep S) t :
  (ltb t s0 = true -> cs_set_tmax s t = (s, Err InvalidArgumentInput)) /\
  (ltb t s0 = false -> exists s', cs_set_tmax s t = (s', Ok tt) /\ cs_current s' = cs_current s /\ cs_dt s' = cs_dt s /\
     cs_titype s' = cs_titype s /\ cs_tmax s' = if ltb t (lit 1 (10 ^ 10)) then fmax else t).
Proof. unfold cs_set_tmax. destruct (ltb t s0); split; try discriminate; intros _; auto. destruct ltb; eexists; simpl; eauto. Qed.

Lemma rr_es_new (a b : R) (len : nat) :
  ((a < 1 / 10 ^ 15 \/ b < a \/ len = 0%nat) -> es_new (S := RR) a b len = Err InvalidArgumentInput) /\
  ((1 / 10 ^ 15 <= a /\ a <= b /\ (1 <= len)%nat) -> exists s, es_new (S := RR) a b len = Ok s /\
    es_fresh s /\ es_titype s = Exponential (S := RR) a b len /\ es_tmax s = Rfmax /\
    1 <= es_inc s /\ (len <> 2%nat -> 1 < es_inc s)).
Proof.
  unfold es_new. rewrite rr_lit. replace (IZR (10 ^ 15)) with (10 ^ 15) by (simpl; lra). cbn [RR ltb]. split.
  - intros [H|[H|H]].
    + apply Rltb_spec in H. rewrite H. reflexivity.
    + apply Rltb_spec in H. rewrite H, Bool.orb_true_r. reflexivity.
    + subst. rewrite Bool.orb_true_r. reflexivity.
  - intros (A & B & L). apply Rltb_false in A. apply Rltb_false in B. rewrite A, B.
    destruct (Nat.eqb_spec len 0); [lia|]. cbn [orb]. eexists. split; [reflexivity|].
    split; [unfold es_fresh; simpl; eauto 10|]. split; [reflexivity|]. split; [reflexivity|]. cbn [es_inc].
    destruct (Nat.eqb_spec len 1); [rewrite rr_lit; simpl; lra|]. destruct (Nat.ltb_spec len 10).
    + change (div (of_Z (s := RR) (Z.of_nat len)) s2) with (IZR (Z.of_nat len) / 2).
      assert (2 <= IZR (Z.of_nat len)) by (apply IZR_le; lia). split; [lra|]. intros N.
      assert (3 <= IZR (Z.of_nat len)) by (apply IZR_le; lia). lra.
    + change (of_Z (s := RR) 10) with 10. lra.
Qed.

Lemma rr_es_set_inc (s : expstep RR) a b len (i : R) : es_titype s = Exponential (S := RR) a b len ->
  (i <= 1 -> es_set_inc s i = (s, Err InvalidArgumentInput)) /\
  (1 < i -> exists s', es_set_inc s i = (s', Ok tt) /\ es_inc s' = Rmin i (IZR (Z.of_nat len) / 2) /\
     ((3 <= len)%nat -> 1 < es_inc s') /\ es_titype s' = es_titype s /\ es_current s' = es_current s /\ es_dt s' = es_dt s /\
     es_tmax s' = es_tmax s /\ es_count s' = es_count s).
Proof.
  intros T. unfold es_set_inc. rewrite T. cbn [RR leb ltb]. change (@s1 RR) with 1. split; intros H.
  - apply Rleb_spec in H. rewrite H. reflexivity.
  - assert (H' := H). apply Rleb_false in H'. rewrite H'. change (mul (i : RR) s2) with (i * 2).
    change (of_Z (s := RR) (Z.of_nat len)) with (IZR (Z.of_nat len)). change (div (IZR (Z.of_nat len) : RR) s2) with (IZR (Z.of_nat len) / 2).
    assert (L3 : (3 <= len)%nat -> 3 <= IZR (Z.of_nat len)) by (intros; apply IZR_le; lia).
    destruct (Rltb (IZR (Z.of_nat len)) (i * 2)) eqn:Q; [apply Rltb_spec in Q|apply Rltb_false in Q]; eexists; split; try reflexivity; cbn [es_inc es_titype es_current es_dt es_tmax es_count].
    + split; [unfold Rmin; destruct Rle_dec; lra|]. split; [intros X; specialize (L3 X); lra|auto 6].
    + split; [unfold Rmin; destruct Rle_dec; lra|]. split; [intros X; specialize (L3 X); lra|auto 6].
Qed.

(** Termination over R of the exponential clock. *)
Lemma rr_d_at_ge a b inc len k : 0 < a -> a <= b -> 1 <= inc -> a <= d_at a b inc len k.
Proof.
  intros. unfold d_at, Rmin. destruct Rle_dec; auto. assert (1 <= inc ^ (k / len)) by (apply pow_R1_Rle; auto). nra.
Qed.

Lemma rsum_ge (f : nat -> R) a n k : (forall j, a <= f j) -> INR k * a <= rsum (map f (seq n k)).
Proof.
  intros H. revert n. induction k as [|k IH]; intros n; [simpl; unfold rsum; simpl; lra|].
  rewrite S_INR. cbn [seq map]. unfold rsum in *. cbn [fold_right]. specialize (IH (S n)). specialize (H n). lra.
Qed.

Lemma rr_exp_ends a b inc len (s : expstep RR) : 0 < a -> a <= b -> 1 <= inc -> (1 <= len)%nat ->
  es_fresh s -> es_titype s = Exponential (S := RR) a b len -> es_inc s = inc -> 0 <= es_tmax s ->
  exists vs, yields_all (diff_next es_next es_dt) s vs /\ INR (length vs) <= es_tmax s / a + 1.
Proof.
  intros Ha Hab Hi Hl Fr T I TM.
  destruct (big_nat (es_tmax s / a + 1)) as (n & Hn).
  destruct (es_collect_total n s a b len T) as (vs & s' & E & _ & L & _).
  pose proof (rr_exp_closed a b inc len s n vs s' Ha Hab Hi Hl Fr T I E) as V.
  assert (Q : 0 <= es_tmax s / a) by (apply Rmult_le_pos; [auto|apply Rlt_le, Rinv_0_lt_compat; auto]).
  assert (B : INR (length vs) <= es_tmax s / a + 1).
  { destruct (length vs) as [|m] eqn:LEN; [simpl; lra|].
    destruct (nth_error vs m) as [[t d]|] eqn:X; [|apply nth_error_None in X; lia].
    destruct (V m t d X) as (_ & Ht & Hle). rewrite S_INR. apply Rplus_le_compat_r.
    apply Rmult_le_reg_r with a; auto. rewrite <- (div_mul_id (es_tmax s) a Ha).
    eapply Rle_trans; [|exact Hle]. rewrite Ht. apply rsum_ge. intros. now apply rr_d_at_ge. }
  exists vs. split; auto. eapply collect_all; eauto. apply INR_lt. lra.
Qed.
End Re.

Section F.
Variable lm : libm.
Local Notation F := (F64 lm).
Local Open Scope R_scope.
Notation zero64 := (B754_zero false : b64).

Lemma tiny_pos : Bltb zero64 (lit (s := F) 1 (10 ^ 15)) = true.
Proof. vm_compute. reflexivity. Qed.

Lemma nltb_pos (x y : b64) : nan x = false -> Bltb zero64 y = true -> Bltb x y = false -> Bltb zero64 x = true.
Proof.
  intros N P H. destruct (ltb_nan _ _ P). apply nltb_leb in H; auto. eapply ltb_leb_trans; eauto.
Qed.

Lemma inc_ge_one (len : nat) : (1 <= len)%nat ->
  Bleb (b64_of_Z 1) (if (len =? 1)%nat then lit (s := F) 12 10
               else if (len <? 10)%nat then div (of_Z (s := F) (Z.of_nat len)) s2 else of_Z (s := F) 10) = true.
Proof.
  intros L. do 10 (destruct len as [|len]; [try lia; vm_compute; reflexivity|]). vm_compute. reflexivity.
Qed.

Lemma f64_es_new (a b : b64) len (s : expstep F) : nan a = false -> nan b = false -> es_new (S := F) a b len = Ok s ->
  Bltb zero64 a = true /\ Bleb a b = true /\ Bleb (b64_of_Z 1) (es_inc s) = true /\ (1 <= len)%nat /\
  es_fresh s /\ es_titype s = Exponential (S := F) a b len.
Proof.
  intros Na Nb E. apply gen_es_new in E as (A & B & C & I & T & Fr). rewrite I.
  split; [apply nltb_pos with (2 := tiny_pos); auto|]. split; [now apply nltb_leb|]. split; [now apply inc_ge_one|].
  auto.
Qed.

Lemma f64_cs_new (dt : b64) (s : conststep F) : nan dt = false -> cs_new (S := F) dt = Ok s ->
  Bltb zero64 dt = true /\ cs_dt s = dt /\ cs_current s = zero64.
Proof.
  intros N E. apply gen_cs_new in E as (A & B & C). 
  split; [apply nltb_pos with (2 := tiny_pos); auto|]. split; [exact B|exact C].
Qed.

(** Whole life of an exponential clock made by [new] and [set_tmax]. *)
Lemma f64_exp_life (a b : b64) len (s0 s : expstep F) t n vs s' : nan a = false -> nan b = false ->
  es_new (S := F) a b len = Ok s0 -> es_set_tmax s0 t = (s, Ok tt) ->
  collect (diff_next es_next es_dt) n s = Ok (vs, s') ->
  Forall (fun td : b64 * b64 => Bleb a (snd td) = true /\ Bleb (snd td) b = true /\
     Bleb zero64 (fst td) = true /\ Bleb (fst td) (es_tmax s) = true) vs /\
  chained (fun x y : b64 * b64 => fst y = Bplus mode_NE (fst x) (snd x) /\ Bleb (fst x) (fst y) = true /\ Bleb (snd x) (snd y) = true) vs /\
  (forall x r, vs = x :: r -> x = (zero64, a)).
Proof.
  intros Na Nb E0 Et E. destruct (f64_es_new a b len s0 Na Nb E0) as (Ha & Hab & Hi & Hl & Fr & T).
  assert (P : es_fresh s /\ es_titype s = es_titype s0 /\ es_inc s = es_inc s0).
  { replace s with (fst (es_set_tmax s0 t)) by now rewrite Et. split; [now apply es_set_tmax_fresh|].
    unfold es_set_tmax. destruct ltb; auto. destruct ltb; auto. }
  destruct P as (Fr' & T' & I'). destruct Fr' as (a' & b' & l' & Ta & Z & D & K).
  assert (AA : a' = a) by (rewrite T', T in Ta; injection Ta; auto).
  assert (INV : sinv lm a b (es_inc s0) len s).
  { split; [rewrite T'; exact T|]. split; [exact I'|]. rewrite D, AA. split; [now apply leb_refl|auto]. }
  assert (CZ : Bleb zero64 (es_current s) = true) by (rewrite Z; vm_compute; reflexivity).
  destruct (exp_steps lm a b (es_inc s0) len Ha Hab Hi n s vs s' INV CZ E) as (S1 & S2 & S3).
  destruct (es_collect_chain n s vs s' E) as (C1 & C2 & _).
  split; [|split].
  - rewrite Forall_forall in *. intros x Hx. specialize (S1 x Hx). specialize (C2 x Hx). tauto.
  - clear -S2 C1. induction S2 as [|x|x y l R S2 IH]; [constructor|constructor|].
    inversion C1 as [| |? ? ? R' C']; subst. constructor; auto.
  - intros x r V. destruct (S3 x r V) as (X1 & X2). destruct x as [t0 d0]. cbn [fst snd] in *. f_equal.
    + rewrite X1, Z. reflexivity.
    + clear -E V K Ta Hl D AA T T'.
      destruct n; [simpl in E; inversion E; subst; discriminate|]. cbn [collect] in E. unfold diff_next at 1 in E.
      destruct (es_next s) as [[s1 o]| | |] eqn:N; cbn [bind] in E; try discriminate.
      assert (Q : es_dt s1 = es_dt s).
      { unfold es_next in N. rewrite Ta, K in N. assert (LL : l' = len) by (rewrite T', T in Ta; injection Ta; auto). rewrite LL in N.
        replace (0 =? len)%nat with false in N by (symmetry; apply Nat.eqb_neq; lia). rewrite Bool.andb_false_r in N.
        destruct leb in N; inversion N; reflexivity. }
      destruct o as [t1|]; cbn [bind] in E; [|inversion E; subst; discriminate].
      destruct (collect _ n s1) as [[r2 s2]| | |]; cbn [bind fst snd] in E; try discriminate.
      injection E as E1 E2. rewrite V in E1. injection E1 as _ E3 _. rewrite <- E3, Q, D. exact AA.
Qed.
End F.

Section Bad.
Local Open Scope R_scope.
Lemma zero_step : exists s : conststep RR, cs_convert (S := RR) 0 1 = Ok s /\
  forall n, exists vs s', collect cs_next n s = Ok (vs, s') /\ length vs = n /\ Forall (fun t => t = 0) vs.
Proof.
  exists (ConstStep (S := RR) (Constant (S := RR) 0) 0 0 1). split.
  - unfold cs_convert. rewrite rr_lit. cbn [RR ltb]. change (@s0 RR) with 0.
    rewrite (proj2 (Rltb_false 1 0)) by lra. rewrite (proj2 (Rltb_false 0 0)) by lra. cbn [orb].
    replace (Rltb 1 (1 / IZR (10 ^ 10))) with false; [reflexivity|]. symmetry. apply Rltb_false. simpl. lra.
  - intros n. destruct (cs_collect n (ConstStep (S := RR) (Constant (S := RR) 0) 0 0 1)) as (vs & s' & E & L & V & W & _).
    exists vs, s'. split; auto. cbn [cs_current cs_dt cs_tmax] in *. split.
    + destruct (Nat.eq_dec (length vs) n) as [|Q]; auto. exfalso. assert (X : (length vs < n)%nat) by lia. apply W in X.
      rewrite rr_plus_times in X. apply Rleb_false in X. lra.
    + apply Forall_forall. intros t Ht. apply In_nth_error in Ht as (k & Hk). destruct (V k t Hk) as (-> & _).
      rewrite rr_plus_times. lra.
Qed.

Lemma small_tmax (s : conststep RR) : snd (cs_set_tmax s (5 / 10 ^ 11)) = Ok tt /\ cs_tmax (fst (cs_set_tmax s (5 / 10 ^ 11))) = Rfmax.
Proof.
  unfold cs_set_tmax. rewrite rr_lit. cbn [RR ltb]. change (@s0 RR) with 0.
  rewrite (proj2 (Rltb_false (5 / 10 ^ 11) 0)) by (simpl; lra).
  replace (Rltb (5 / 10 ^ 11) (1 / IZR (10 ^ 10))) with true; [split; reflexivity|].
  symmetry. apply Rltb_spec. simpl. lra.
Qed.

Lemma fresh_rr : exists s : expstep RR, es_new (S := RR) 1 3 4 = Ok s /\ es_fresh s /\ 1 <= es_inc s.
Proof.
  destruct (proj2 (rr_es_new 1 3 4)) as (s & A & B & _ & _ & C & _); [split; [simpl; lra|split; [lra|lia]]|]. eauto.
Qed.
End Bad.
