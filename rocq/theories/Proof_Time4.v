(** C15, C17, C18: every clock a program can build; when the constant clock ends in binary64. *)
From Coq Require Import Reals ZArith List Lra Lia.
From Flocq Require Import Core.
From Flocq.IEEE754 Require Import BinarySingleNaN.
From Verif Require Import Base Scalar Float64 Model_Time Spec_Time Spec_Position Proof_Position Proof_Time Proof_Time2 Proof_Time3.
Import ListNotations.
Local Open Scope nat_scope.

Lemma collect_stop {St X} (next : St -> outcome (St * option X)) vs : forall s s1 s2,
  collect next (length vs) s = Ok (vs, s1) -> next s1 = Ok (s2, None) -> collect next (S (length vs)) s = Ok (vs, s2).
Proof.
  induction vs as [|v vs IH]; intros s s1 s2 E En.
  - cbn [length collect] in *. injection E as <-. rewrite En. reflexivity.
  - cbn [length] in *. change (S (length vs)) with (S (length vs)) in E. cbn [collect] in E.
    change (collect next (S (S (length vs))) s) with (do q <- next s; match q with
      | (s', Some x) => do r <- collect next (S (length vs)) s'; Ok (x :: fst r, snd r) | (s', None) => Ok ([], s') end).
    destruct (next s) as [[s' [x|]]| | |]; cbn [bind] in E |- *; try discriminate.
    destruct (collect next (length vs) s') as [[ws s3]| | |] eqn:K; cbn [bind fst snd] in E; try discriminate.
    injection E as -> -> ->. rewrite (IH s' s1 s2 K En). reflexivity.
Qed.

Section G.
Context {S : scalar}.
Lemma gen_cs_convert (dt t : S) :
  (ltb t s0 = true \/ ltb dt s0 = true -> cs_convert dt t = Panic) /\
  (ltb t s0 = false -> ltb dt s0 = false ->
     cs_convert dt t = Ok (ConstStep (Constant dt) s0 dt (if ltb t (lit 1 (10 ^ 10)) then fmax else t))).
Proof. unfold cs_convert. split; [intros [-> | ->]; [|rewrite Bool.orb_true_r]|intros -> ->]; reflexivity. Qed.
Lemma gen_es_convert (a b t : S) len :
  (ltb t s0 = true \/ ltb a s0 = true \/ ltb b a = true \/ len < 10 -> es_convert a b len t = Panic) /\
  (ltb t s0 = false -> ltb a s0 = false -> ltb b a = false -> 10 <= len ->
     es_convert a b len t = Ok (ExpStep (Exponential a b len) s0 a (lit 12 10) (if ltb t (lit 1 (10 ^ 15)) then fmax else t) 0)).
Proof.
  unfold es_convert. split.
  - intros [H|[H|[H|H]]]; try rewrite H; rewrite ?Bool.orb_true_r; auto. apply Nat.ltb_lt in H. rewrite H, Bool.orb_true_r. reflexivity.
  - intros -> -> -> L. apply Nat.ltb_ge in L. rewrite L. reflexivity.
Qed.
Lemma gen_es_convert_ok (a b t : S) len s : es_convert a b len t = Ok s ->
  ltb b a = false /\ 10 <= len /\ es_inc s = lit 12 10 /\ es_titype s = Exponential a b len.
Proof.
  unfold es_convert. destruct (ltb t s0); [discriminate|]. destruct (ltb a s0); [discriminate|]. destruct (ltb b a); [discriminate|].
  destruct (Nat.ltb_spec len 10); [discriminate|]. cbn [orb]. intros E. injection E as <-. auto.
Qed.
Lemma gen_new_exact (dt a b : S) len :
  (ltb dt (lit 1 (10 ^ 15)) = true -> cs_new dt = Err InvalidArgumentInput) /\
  (ltb dt (lit 1 (10 ^ 15)) = false -> cs_new dt = Ok (ConstStep (Constant dt) s0 dt fmax)) /\
  (ltb a (lit 1 (10 ^ 15)) = true \/ ltb b a = true \/ len = 0 -> es_new a b len = Err InvalidArgumentInput) /\
  (ltb a (lit 1 (10 ^ 15)) = false -> ltb b a = false -> 1 <= len ->
   es_new a b len = Ok (ExpStep (Exponential a b len) s0 a
     (if len =? 1 then lit 12 10 else if len <? 10 then div (of_Z (Z.of_nat len)) s2 else of_Z 10) fmax 0)).
Proof.
  unfold cs_new, es_new. split; [intros ->; reflexivity|]. split; [intros ->; reflexivity|]. split.
  - intros [H|[H|H]]; rewrite H; rewrite ?Bool.orb_true_r; reflexivity.
  - intros -> -> L. destruct (Nat.eqb_spec len 0); [lia|]. reflexivity.
Qed.
Lemma set_tmax_err_same (s : expstep S) t : (ltb t s0 = true -> es_set_tmax s t = (s, Err InvalidArgumentInput)) /\
  (ltb t s0 = false -> exists s', es_set_tmax s t = (s', Ok tt) /\ es_titype s' = es_titype s /\ es_current s' = es_current s /\
     es_dt s' = es_dt s /\ es_inc s' = es_inc s /\ es_count s' = es_count s /\ es_tmax s' = if ltb t (lit 1 (10 ^ 15)) then fmax else t).
Proof.
  unfold es_set_tmax. split; intros ->; auto. destruct (ltb t (lit 1 (10 ^ 15))); eexists; split; try reflexivity; cbn; auto 8.
Qed.
End G.

Section F.
Variable lm : libm.
Local Notation F := (F64 lm).
Local Open Scope R_scope.
Notation zero64 := (B754_zero false : b64).
Notation num := (fun i : F => nan (i : b64) = false).

Lemma of_Z_val z : nan (b64_of_Z z) = false /\ val (b64_of_Z z) = rnd (IZR z).
Proof.
  pose proof (binary_normalize_correct 53 1024 _ _ mode_NE z 0 false) as C. cbv zeta in C. fold (b64_of_Z z) in C.
  assert (E : F2R (Float radix2 z 0) = IZR z) by (unfold F2R; simpl; lra). rewrite E in C.
  destruct (Rlt_bool_spec (Rabs (rnd64 (IZR z))) top) as [L|L].
  - destruct C as (C1 & C2 & _). split; [destruct (b64_of_Z z); easy|]. rewrite val_fin, C1, rnd_small; auto.
  - apply overflow_val in C as (N & V). split; auto. rewrite V. symmetry.
    destruct (Rlt_bool_spec (IZR z) 0) as [Z|Z]; [apply rnd_big_neg|apply rnd_big_pos]; lra.
Qed.
Lemma of_Z_ge z : (2 <= z)%Z -> nan (b64_of_Z z) = false /\ 2 <= val (b64_of_Z z).
Proof.
  intros H. destruct (of_Z_val z) as (N & V). split; auto. rewrite V. rewrite <- (rnd_IZR 2) by lia. apply rnd_le.
  apply (IZR_le 2). exact H.
Qed.

Lemma half_ge_one (len : nat) : (2 <= len)%nat -> Bleb (b64_of_Z 1) (div (of_Z (s := F) (Z.of_nat len)) s2 : b64) = true.
Proof.
  intros L. change (div (of_Z (s := F) (Z.of_nat len)) s2) with (Bdiv mode_NE (b64_of_Z (Z.of_nat len)) (b64_of_Z 2)).
  destruct (of_Z_exact 1 ltac:(lia)) as (F1 & E1). destruct (of_Z_exact 2 ltac:(lia)) as (F2 & E2).
  assert (M : nan (b64_of_Z (Z.of_nat len)) = false /\ 2 <= val (b64_of_Z (Z.of_nat len))) by (apply of_Z_ge; lia).
  destruct M as (N & V).
  assert (N2 : B2 (b64_of_Z 2) <> 0) by (rewrite E2; lra).
  destruct (fin (b64_of_Z (Z.of_nat len))) eqn:Fl.
  - destruct (div_val _ _ Fl F2 N2) as (ND & VD). apply leb_val; auto.
    rewrite VD, (val_fin _ F1), E1, E2. rewrite <- (rnd_IZR 1) by lia. apply rnd_le. rewrite (val_fin _ Fl) in V. lra.
  - destruct (b64_of_Z (Z.of_nat len)) as [|[|]| |]; try easy; simpl in V; pose proof top_pos; lra.
Qed.

Section Ready.
Variables (a b : b64) (len : nat).
Hypothesis Na : nan a = false.
Hypothesis Nb : nan b = false.

Lemma ready_inv (s : expstep F) : ready num (a : F) (b : F) len s ->
  Bltb zero64 a = true /\ Bleb a b = true /\ Bleb (b64_of_Z 1) (es_inc s : b64) = true /\ (1 <= len)%nat /\
  es_fresh s /\ es_titype s = Exponential (S := F) a b len.
Proof.
  induction 1 as [s E|t s P E|s t R IH|s i R IH Hi L].
  - apply f64_es_new; auto.
  - assert (Fr := es_convert_fresh _ _ _ _ _ E). destruct (gen_es_convert_ok _ _ _ _ _ E) as (H1 & H2 & H3 & H4).
    split; [exact P|]. split; [apply nltb_leb; auto|].
    split; [rewrite H3; vm_compute; reflexivity|]. split; [lia|]. auto.
  - destruct IH as (H1 & H2 & H3 & H4 & H5 & H6). do 2 (split; auto). 
    assert (Q : es_inc (fst (es_set_tmax s t)) = es_inc s /\ es_titype (fst (es_set_tmax s t)) = es_titype s).
    { unfold es_set_tmax. destruct ltb; auto. destruct ltb; auto. }
    destruct Q as (-> & ->). split; auto. split; auto. split; auto. apply es_set_tmax_fresh; auto.
  - destruct IH as (H1 & H2 & H3 & H4 & H5 & H6). do 2 (split; auto).
    assert (Q : Bleb (b64_of_Z 1) (es_inc (fst (es_set_inc s i)) : b64) = true /\ es_titype (fst (es_set_inc s i)) = es_titype s).
    { unfold es_set_inc. destruct (leb i s1) eqn:E1; auto. rewrite H6.
      destruct (ltb (of_Z (Z.of_nat len)) (mul i s2)); cbn [fst es_inc es_titype].
      - split; auto. apply half_ge_one; auto.
      - split; auto. apply ltb_leb. apply nleb_ltb; auto. }
    destruct Q as (Q1 & Q2). rewrite Q2. split; auto. split; auto. split; auto. apply es_set_inc_fresh; auto.
Qed.

Lemma ready_sinv (s : expstep F) : ready num (a : F) (b : F) len s -> sinv lm a b (es_inc s) len s /\ Bleb zero64 (es_current s) = true.
Proof.
  intros Rd. destruct (ready_inv s Rd) as (Ha & Hab & Hi & Hl & Fr & T). destruct Fr as (a' & b' & l' & Ta & Z & D & K).
  assert (AA : a' = a) by (rewrite T in Ta; injection Ta; auto). split.
  - split; [exact T|]. split; [reflexivity|]. rewrite D, AA. split; [now apply leb_refl|auto].
  - rewrite Z; vm_compute; reflexivity.
Qed.

Lemma ready_life (s : expstep F) n vs s' : ready num (a : F) (b : F) len s ->
  collect (diff_next es_next es_dt) n s = Ok (vs, s') ->
  Forall (fun td : b64 * b64 => Bleb a (snd td) = true /\ Bleb (snd td) b = true /\
     Bleb zero64 (fst td) = true /\ Bleb (fst td) (es_tmax s : b64) = true) vs /\
  chained (fun x y : b64 * b64 => fst y = Bplus mode_NE (fst x) (snd x) /\ Bleb (fst x) (fst y) = true /\ Bleb (snd x) (snd y) = true) vs /\
  (forall x r, vs = x :: r -> x = (zero64, a)).
Proof.
  intros Rd E. destruct (ready_inv s Rd) as (Ha & Hab & Hi & Hl & Fr & T). destruct (ready_sinv s Rd) as (INV & CZ).
  destruct Fr as (a' & b' & l' & Ta & Z & D & K).
  assert (AA : a' = a) by (rewrite T in Ta; injection Ta; auto).
  assert (LL : l' = len) by (rewrite T in Ta; injection Ta; auto).
  destruct (exp_steps lm a b (es_inc s) len Ha Hab Hi n s vs s' INV CZ E) as (S1 & S2 & S3).
  destruct (es_collect_chain n s vs s' E) as (C1 & C2 & _).
  split; [|split].
  - rewrite Forall_forall in *. intros x Hx. specialize (S1 x Hx). specialize (C2 x Hx). tauto.
  - clear -S2 C1. induction S2 as [|x|x y l R S2 IH]; [constructor|constructor|].
    inversion C1 as [| |? ? ? R' C']; subst. constructor; auto.
  - intros x r V. destruct (S3 x r V) as (X1 & X2). destruct x as [t0 d0]. cbn [fst snd] in *. f_equal.
    + rewrite X1, Z. reflexivity.
    + clear -E V K Ta Hl D AA T LL.
      destruct n; [simpl in E; inversion E; subst; discriminate|]. cbn [collect] in E. unfold diff_next at 1 in E.
      destruct (es_next s) as [[s1 o]| | |] eqn:N; cbn [bind] in E; try discriminate.
      assert (Q : es_dt s1 = es_dt s).
      { unfold es_next in N. rewrite Ta, K in N. rewrite LL in N.
        replace (0 =? len)%nat with false in N by (symmetry; apply Nat.eqb_neq; lia). rewrite Bool.andb_false_r in N.
        destruct leb in N; inversion N; reflexivity. }
      destruct o as [t1|]; cbn [bind] in E; [|inversion E; subst; discriminate].
      destruct (collect _ n s1) as [[r2 s2]| | |]; cbn [bind fst snd] in E; try discriminate.
      injection E as E1 E2. rewrite V in E1. injection E1 as _ E3 _. rewrite <- E3, Q, D. exact AA.
Qed.

Lemma ready_ends (s : expstep F) : ready num (a : F) (b : F) len s -> fin a = true -> fin (es_tmax s) = true ->
  0 <= B2 (es_tmax s) <= 2 ^ 52 * B2 a ->
  exists vs, yields_all (diff_next es_next es_dt) s vs /\ INR (length vs) <= 4 * (B2 (es_tmax s) / B2 a) + 1.
Proof.
  intros Rd Fa Ft Ht. destruct (ready_inv s Rd) as (Ha & Hab & Hi & Hl & Fr & T). destruct (ready_sinv s Rd) as (INV & CZ).
  exact (exp_ends lm a b (es_inc s) len s Ha Hab Hi Fa Ft Ht INV CZ).
Qed.
End Ready.

(** ** The constant clock ends exactly when it never gets stuck *)
Lemma B2_grid (x : b64) : exists z : Z, B2 x = IZR z * bpow radix2 (-1074).
Proof.
  pose proof (generic_format_B2R 53 1024 x) as G.
  destruct (FLT_format_generic radix2 (SpecFloat.emin 53 1024) 53 (B2 x) G) as [f E _ He].
  change (SpecFloat.emin 53 1024) with (-1074)%Z in He.
  exists (Fnum f * 2 ^ (Fexp f + 1074))%Z. rewrite E. unfold F2R.
  rewrite mult_IZR. change 2%Z with (radix_val radix2). rewrite (IZR_Zpower radix2) by lia. rewrite Rmult_assoc, <- bpow_plus. f_equal. f_equal. lia.
Qed.

Lemma grid_gap (x y : b64) : B2 x < B2 y -> B2 x + bpow radix2 (-1074) <= B2 y.
Proof.
  destruct (B2_grid x) as (m & ->). destruct (B2_grid y) as (n & ->). intros H.
  pose proof (bpow_gt_0 radix2 (-1074)) as P. assert (Hm : (m < n)%Z) by (apply lt_IZR; nra).
  assert (IZR m + 1 <= IZR n) by (rewrite <- (plus_IZR m 1); apply IZR_le; lia). nra.
Qed.

Definition negzero (x : b64) : bool := match x with B754_zero true => true | _ => false end.
Lemma same_value (x y : b64) : fin x = true -> fin y = true -> negzero x = false -> negzero y = false -> B2 x = B2 y -> x = y.
Proof.
  intros Fx Fy Nx Ny E. destruct (Req_dec (B2 x) 0) as [Z|Z]; [|apply fin_B2_eq; auto].
  rewrite Z in E. destruct x as [[|]| | |s m e B]; try easy.
  - destruct y as [[|]| | |s m e B]; try easy. exfalso. symmetry in E. simpl in E. apply eq_0_F2R in E. destruct s; discriminate.
  - exfalso. simpl in Z. apply eq_0_F2R in Z. destruct s; discriminate.
Qed.
Lemma plus_negzero (x d : b64) : negzero x = false -> Bleb zero64 x = true -> Bleb zero64 d = true -> negzero (Bplus mode_NE x d) = false.
Proof.
  intros N P Q. destruct (negzero (Bplus mode_NE x d)) eqn:E; auto. exfalso.
  pose proof (proj1 (plus_mono x d P Q)) as M. remember (Bplus mode_NE x d) as r eqn:Er. destruct r as [[|]| | |]; try discriminate.
  destruct (leb_nan _ _ M) as (Nx & _). apply leb_val in M; auto. apply leb_val in P; auto. simpl in M, P.
  destruct x as [[|]|[|]| |s m e B]; try easy.
  - destruct d as [[|]|[|]| |]; try easy.
  - simpl in P. pose proof top_pos. simpl in M. lra.
  - simpl in P. pose proof top_pos. simpl in M. lra.
  - simpl in M, P. assert (Z : F2R (Float radix2 (cond_Zopp s (Zpos m)) e) = 0) by lra. apply eq_0_F2R in Z. destruct s; discriminate.
Qed.

Section Stuck.
Variable s : conststep F.
Hypothesis Hz : cs_current s = zero64.
Hypothesis Hd : Bleb zero64 (cs_dt s) = true.
Notation at_ := (plus_times (S := F) (cs_current s) (cs_dt s)).

Lemma at_nonneg k : Bleb zero64 (at_ k) = true.
Proof. induction k as [|k IH]; [cbn [plus_times]; rewrite Hz; reflexivity|]. exact (proj2 (plus_mono _ _ IH Hd)). Qed.
Lemma at_negzero k : negzero (at_ k) = false.
Proof. induction k as [|k IH]; [cbn [plus_times]; rewrite Hz; reflexivity|]. exact (plus_negzero _ _ IH (at_nonneg k) Hd). Qed.
Lemma at_next k : Bleb (at_ k) (at_ (S k)) = true.
Proof. exact (proj1 (plus_mono _ _ (at_nonneg k) Hd)). Qed.
Lemma at_mono j k : (j <= k)%nat -> Bleb (at_ j) (at_ k) = true.
Proof.
  induction 1 as [|k H IH]; [apply leb_refl; apply (leb_nan _ _ (at_nonneg j))|].
  exact (leb_trans _ _ _ IH (at_next k)).
Qed.

Lemma stuck_forever k : at_ (S k) = at_ k -> forall j, (k <= j)%nat -> at_ j = at_ k.
Proof.
  intros E j H. induction H as [|j H IH]; auto. cbn [plus_times]. rewrite IH. exact E.
Qed.

Lemma stuck_not_end k : Bleb (at_ k) (cs_tmax s) = true -> at_ (S k) = at_ k -> forall j, Bleb (at_ j) (cs_tmax s) = true.
Proof.
  intros L E j. destruct (le_lt_dec k j) as [H|H].
  - rewrite (stuck_forever k E j H). exact L.
  - apply (leb_trans _ (at_ k)); auto. apply at_mono. lia.
Qed.

Lemma inf_stuck k : fin (at_ k) = false -> at_ (S k) = at_ k.
Proof.
  intros Fk. pose proof (at_nonneg k) as P. cbn [plus_times]. change (add (at_ k) (cs_dt s)) with (Bplus mode_NE (at_ k : b64) (cs_dt s : b64)).
  generalize dependent (at_ k : b64). intros x Fk P. destruct x as [|[|]| |]; try easy.
  revert Hd. generalize (cs_dt s : b64). intros d Pd. destruct d as [|[|]| |]; try easy.
Qed.

Lemma moving_grows n : (forall k, (k < n)%nat -> Bleb (at_ k) (cs_tmax s) = true /\ at_ (S k) <> at_ k) ->
  forall k, (k < n)%nat -> INR k * bpow radix2 (-1074) <= B2 (at_ k) /\ fin (at_ k) = true.
Proof.
  intros H. assert (Fi : forall k, (k < n)%nat -> fin (at_ k : b64) = true).
  { intros k Hk. destruct (fin (at_ k : b64)) eqn:Fk; auto. destruct (H k Hk) as (_ & N). destruct (N (inf_stuck k Fk)). }
  induction k as [|k IH]; intros Hk; (split; [|apply Fi; auto]).
  - simpl INR. rewrite Rmult_0_l. pose proof (at_nonneg 0) as P. destruct (leb_nan _ _ P) as (_ & Nn).
    apply leb_val in P; auto. rewrite (val_fin _ (Fi 0%nat Hk)) in P. exact P.
  - destruct (IH ltac:(lia)) as (G & Fk). rewrite S_INR, Rmult_plus_distr_r, Rmult_1_l.
    pose proof (at_next k) as P. destruct (leb_nan _ _ P) as (N1 & N2). apply leb_val in P; auto.
    rewrite (val_fin _ Fk), (val_fin _ (Fi (S k) Hk)) in P.
    destruct (Rle_lt_or_eq_dec _ _ P) as [Q|Q].
    + apply grid_gap in Q. lra.
    + exfalso. destruct (H k ltac:(lia)) as (_ & N). apply N. symmetry.
      apply same_value; auto using at_negzero.
Qed.
End Stuck.

Lemma const_ends_iff (s : conststep F) : cs_current s = zero64 -> Bleb zero64 (cs_dt s) = true ->
  ((exists vs, yields_all cs_next s vs) <->
   ~ exists k, Bleb (plus_times (cs_current s) (cs_dt s) k) (cs_tmax s) = true /\
               plus_times (cs_current s) (cs_dt s) (S k) = plus_times (cs_current s) (cs_dt s) k).
Proof.
  intros Hc Hd. split.
  - intros (vs & s1 & s2 & E & En) (k & L & Q).
    destruct (cs_collect (S (length vs)) s) as (ws & s3 & E3 & L3 & _ & W & _).
    assert (Hl : length ws = length vs).
    { rewrite (collect_stop _ _ _ _ _ E En) in E3. injection E3 as <- _. reflexivity. }
    assert (X : Bleb (plus_times (S := F) (cs_current s) (cs_dt s) (length ws)) (cs_tmax s) = false) by (apply W; lia).
    pose proof (stuck_not_end s Hc Hd k L Q (length ws)) as Y. congruence.
  - intros N. destruct (big_nat (top * bpow radix2 1074 + 1)) as (n & Hn).
    destruct (cs_collect n s) as (vs & s' & E & L & V & W & _).
    exists vs. eapply collect_all; eauto. destruct (Nat.eq_dec (length vs) n) as [Q|Q]; [|lia]. exfalso.
    assert (n <> 0)%nat by (intros ->; simpl in Hn; pose proof top_pos; pose proof (bpow_gt_0 radix2 1074); nra).
    destruct n as [|m]; [lia|].
    assert (H2 : forall k, (k < S m)%nat -> Bleb (plus_times (S := F) (cs_current s) (cs_dt s) k) (cs_tmax s) = true /\
       plus_times (S := F) (cs_current s) (cs_dt s) (S k) <> plus_times (S := F) (cs_current s) (cs_dt s) k).
    { intros k Hk. destruct (nth_error vs k) as [v|] eqn:Ev; [|apply nth_error_None in Ev; lia].
      destruct (V k v Ev) as (-> & Lv). split; [exact Lv|]. intros Z. apply N. exists k. split; [exact Lv|exact Z]. }
    destruct (moving_grows s Hc Hd (S m) H2 m ltac:(lia)) as (G & _).
    pose proof (B2_bound (plus_times (S := F) (cs_current s) (cs_dt s) m)) as (_ & B).
    assert (P : bpow radix2 (-1074) * bpow radix2 1074 = 1) by (rewrite <- bpow_plus; reflexivity).
    pose proof (bpow_gt_0 radix2 1074) as P2. rewrite S_INR in Hn.
    assert (K : INR m * bpow radix2 (-1074) * bpow radix2 1074 < top * bpow radix2 1074) by (apply Rmult_lt_compat_r; lra).
    rewrite Rmult_assoc, P, Rmult_1_r in K. lra.
Qed.
End F.
