(** Integer vectors (C76), slices and the order of positions (C77). *)
From Coq Require Import ZArith List Reals Lra Lia Bool.
From Flocq Require Import Core.
From Flocq.IEEE754 Require Import BinarySingleNaN.
From Verif Require Import Base Scalar Float64 Model_Position Spec_Position Proof_I32 Model_Int Spec_Int.
Import ListNotations.

Section Z.
Local Open Scope Z_scope.

Lemma res_debug z : (fits z -> i32_res true z = Ok z) /\ (~ fits z -> i32_res true z = Panic).
Proof.
  unfold i32_res, fits. pose proof (in_i32_spec z) as H. destruct (in_i32 z); split; intros K; auto.
  - exfalso. apply K. now apply H.
  - exfalso. apply H in K. discriminate.
Qed.

Lemma wrap_wraps z : wraps_to z (wrap32 z).
Proof.
  unfold wraps_to, fits, wrap32. pose proof (Z.mod_pos_bound (z + 2 ^ 31) (2 ^ 32) eq_refl) as B. split; [lia|].
  exists (- ((z + 2 ^ 31) / 2 ^ 32)). pose proof (Z.div_mod (z + 2 ^ 31) (2 ^ 32)). lia.
Qed.
Lemma wraps_unique z v w : wraps_to z v -> wraps_to z w -> v = w.
Proof. unfold wraps_to, fits. intros (A & k & ->) (B & j & E). assert (k = j) by (change (2 ^ 32) with 4294967296 in *; change (2 ^ 31) with 2147483648 in *; lia). now subst. Qed.
Lemma wrap_id z : fits z -> wrap32 z = z.
Proof. intros F. apply (wraps_unique z); [apply wrap_wraps|]. split; [exact F|]. exists 0. lia. Qed.
Lemma wrap_shift z k : wrap32 (z + k * 2 ^ 32) = wrap32 z.
Proof.
  apply (wraps_unique z); [|apply wrap_wraps]. destruct (wrap_wraps (z + k * 2 ^ 32)) as (A & j & E). split; [exact A|].
  exists (k + j). rewrite E. ring.
Qed.
Lemma wrap_wrap_sub z y : wrap32 (wrap32 z - y) = wrap32 (z - y).
Proof. destruct (wrap_wraps z) as (_ & k & ->). replace (z + k * 2 ^ 32 - y) with (z - y + k * 2 ^ 32) by ring. apply wrap_shift. Qed.

Lemma res_release z : i32_res false z = Ok (wrap32 z).
Proof. unfold i32_res. destruct (in_i32 z) eqn:E; [|reflexivity]. apply in_i32_spec in E. now rewrite wrap_id. Qed.

Lemma int_zip_debug op : forall p q, (Forall fits (pairwise op p q) -> int_zip true op p q = Ok (pairwise op p q)) /\
  (~ Forall fits (pairwise op p q) -> int_zip true op p q = Panic).
Proof.
  induction p as [|x p IH]; intros [|y q]; cbn [int_zip]; try (split; [reflexivity|intros H; exfalso; apply H; constructor]).
  unfold pairwise in *. cbn [combine map fst snd]. destruct (res_debug (op x y)) as (R1 & R2). destruct (IH q) as (I1 & I2). split; intros H.
  - inversion H as [|? ? A B]; subst. rewrite (R1 A). cbn [bind]. rewrite (I1 B). reflexivity.
  - pose proof (in_i32_spec (op x y)) as Q. fold (fits (op x y)) in Q. destruct (in_i32 (op x y)).
    + rewrite (R1 (proj1 Q eq_refl)). cbn [bind]. rewrite I2; [reflexivity|]. intros B. apply H. constructor; [now apply Q|exact B].
    + rewrite R2; [reflexivity|]. intros B. apply Q in B. discriminate.
Qed.
Lemma int_zip_release op : forall p q, int_zip false op p q = Ok (map wrap32 (pairwise op p q)).
Proof.
  induction p as [|x p IH]; intros [|y q]; cbn [int_zip]; try reflexivity. rewrite res_release. cbn [bind]. rewrite IH. reflexivity.
Qed.
Lemma int_mut_zip_eq ck op : forall p q, (length p <= length q)%nat -> int_mut_zip ck op p q = int_zip ck op p q.
Proof.
  induction p as [|x p IH]; intros [|y q] L; cbn [length] in L; try lia; cbn [int_mut_zip int_zip]; try reflexivity. rewrite IH by lia. reflexivity.
Qed.
Lemma int_zip_firstn ck op : forall p q, int_zip ck op p (firstn (length p) q) = int_zip ck op p q.
Proof. induction p as [|x p IH]; intros [|y q]; cbn [length firstn int_zip]; try reflexivity. now rewrite IH. Qed.
Lemma int_mut_zip_short ck op : forall p q, (length q < length p)%nat -> int_mut_zip ck op p q = Panic.
Proof.
  induction p as [|x p IH]; intros [|y q] L; cbn [length] in L; try lia; cbn [int_mut_zip]; try reflexivity. rewrite (IH q) by lia.
  unfold i32_res. destruct (in_i32 _), ck; reflexivity.
Qed.
Lemma mul_same ck c : forall p, int_mut_scalar_mul ck p c = int_scalar_mul ck p c.
Proof. induction p as [|x p IH]; cbn; [reflexivity|]. now rewrite IH. Qed.
Lemma mul_zip ck c : forall p, int_scalar_mul ck p c = int_zip ck Z.mul p (repeat c (length p)).
Proof. induction p as [|x p IH]; cbn; [reflexivity|]. now rewrite IH. Qed.
Lemma pairwise_mul c : forall p, pairwise Z.mul p (repeat c (length p)) = map (fun x => x * c) p.
Proof. induction p as [|x p IH]; cbn; [reflexivity|]. unfold pairwise in IH. now rewrite IH. Qed.
Lemma bench_cut ck : forall p q, int_mut_add_bench ck p q = do r <- int_zip ck Z.add p q; Ok (r ++ skipn (length q) p).
Proof.
  induction p as [|x p IH]; intros [|y q]; cbn [int_mut_add_bench int_zip length skipn bind app]; try reflexivity.
  - destruct (i32_res ck (x + y)); cbn [bind]; try reflexivity. rewrite IH. destruct (int_zip ck Z.add p q); reflexivity.
Qed.
Lemma pairwise_len op : forall p q, length p = length q -> length (pairwise op p q) = length p.
Proof. intros p q L. unfold pairwise. rewrite map_length, combine_length. lia. Qed.

(** Subtracting what was added gives the vector back. *)
Lemma undo p q ck s : length p = length q -> Forall fits p -> int_add ck p q = Ok s -> int_sub ck s q = Ok p.
Proof.
  intros L F. unfold int_add, int_sub. rewrite L, Nat.eqb_refl. cbn [negb]. revert q s L. induction F as [|x p Fx F IH]; intros [|y q] s L; cbn [length] in L; try lia; cbn [int_zip].
  - intros [= <-]. reflexivity.
  - destruct (i32_res ck (x + y)) as [z| | |] eqn:Ez; try discriminate. cbn [bind]. destruct (int_zip ck Z.add p q) as [r| | |] eqn:Er; try discriminate. cbn [bind].
    intros [= <-]. cbn [length]. specialize (IH q r ltac:(lia) Er). destruct (length r =? length q)%nat eqn:El; [|discriminate]. cbn [negb] in IH.
    cbn [Nat.eqb]. rewrite El. cbn [negb int_zip]. rewrite IH.
    assert (EX : i32_res ck (z - y) = Ok x); [|rewrite EX; reflexivity]. destruct ck.
    + apply i32_res_checked in Ez as (-> & _). replace (x + y - y) with x by ring. apply i32_res_ok, in_i32_spec, Fx.
    + rewrite res_release in *. injection Ez as <-. rewrite wrap_wrap_sub. replace (x + y - y) with x by ring. now rewrite wrap_id.
Qed.

(** Translating both ends does not change the taxi distance, as long as nothing overflows. *)
Lemma taxi_shift : forall p q v a b, length p = length v -> length q = length v ->
  int_add true p v = Ok a -> int_add true q v = Ok b -> taxi_distance true a b = taxi_distance true p q.
Proof.
  assert (G : forall p q v a b, length p = length v -> length q = length v -> int_zip true Z.add p v = Ok a -> int_zip true Z.add q v = Ok b ->
    length a = length p /\ length b = length q /\ forall r, taxi_loop true a b r = taxi_loop true p q r).
  { induction p as [|x p IH]; intros [|y q] [|c v] a b L1 L2; cbn [length] in *; try lia; cbn [int_zip].
    - intros [= <-] [= <-]. auto.
    - destruct (i32_res true (x + c)) as [z| | |] eqn:Ez; try discriminate. destruct (i32_res true (y + c)) as [w| | |] eqn:Ew; try discriminate. cbn [bind].
      destruct (int_zip true Z.add p v) as [a'| | |] eqn:Ea; try discriminate. destruct (int_zip true Z.add q v) as [b'| | |] eqn:Eb; try discriminate. cbn [bind].
      intros [= <-] [= <-]. destruct (IH q v a' b' ltac:(lia) ltac:(lia) Ea Eb) as (A & B & C). cbn [length]. split; [lia|split; [lia|]]. intros r. cbn [taxi_loop].
      apply i32_res_checked in Ez as (-> & _). apply i32_res_checked in Ew as (-> & _). replace (x + c - (y + c)) with (x - y) by ring.
      destruct (i32_res true (x - y)) as [d| | |]; cbn [bind]; try reflexivity. destruct (i32_res true (Z.abs d)) as [d'| | |]; cbn [bind]; try reflexivity.
      destruct (i32_res true (r + d')) as [r'| | |]; cbn [bind]; try reflexivity. apply C. }
  intros p q v a b L1 L2. unfold int_add. rewrite L1, L2, !Nat.eqb_refl. cbn [negb]. intros A B.
  destruct (G p q v a b L1 L2 A B) as (H1 & H2 & H3). unfold taxi_distance. rewrite H1, H2, H3. reflexivity.
Qed.
End Z.

(** ** Slices *)
Lemma skipn_nth {T} a : forall (p : list T) k, nth_error (skipn a p) k = nth_error p (a + k).
Proof. induction a as [|a IH]; intros [|x p] k; cbn; auto. destruct k; reflexivity. Qed.
Lemma firstn_nth {T} n : forall (p : list T) k, nth_error (firstn n p) k = if (k <? n)%nat then nth_error p k else None.
Proof.
  induction n as [|n IH]; intros p k; cbn [firstn].
  - destruct k; reflexivity.
  - destruct p as [|x p]; [destruct (k <? Datatypes.S n)%nat, k; reflexivity|]. destruct k as [|k]; [reflexivity|]. cbn [nth_error].
    rewrite IH. reflexivity.
Qed.
Lemma range_ok {T} (p : list T) a b : (a <= b)%nat -> (b <= length p)%nat -> exists s, pos_range p a b = Ok s /\ length s = (b - a)%nat /\
  forall k, (k < b - a)%nat -> nth_error s k = nth_error p (a + k).
Proof.
  intros A B. unfold pos_range. destruct (Nat.ltb_spec b a); [lia|]. destruct (Nat.ltb_spec (length p) b); [lia|]. eexists. split; [reflexivity|].
  split; [rewrite firstn_length, skipn_length; lia|]. intros k K. rewrite firstn_nth, skipn_nth. apply Nat.ltb_lt in K. now rewrite K.
Qed.

(** ** The order *)
Section Lex.
Context {S : scalar} (lt eq : S -> S -> Prop).
Hypothesis num : forall x y c, num_cmp x y = Some c <-> match c with Lt => lt x y | Gt => lt y x | Eq => eq x y end.
Lemma cmp_lex : forall (p q : list S) c, pos_cmp p q = Some c <-> lex lt eq p q c.
Proof.
  induction p as [|x p IH]; intros [|y q] c; cbn [pos_cmp].
  - split; [intros [= <-]; constructor|intros H; inversion H; reflexivity].
  - split; [intros [= <-]; constructor|intros H; inversion H; reflexivity].
  - split; [intros [= <-]; constructor|intros H; inversion H; reflexivity].
  - pose proof (num x y) as N. split.
    + destruct (num_cmp x y) as [[| |]|]; intros E.
      * apply lex_equal; [apply (N Eq); reflexivity|]. now apply IH.
      * injection E as <-. apply lex_less. now apply (N Lt).
      * injection E as <-. apply lex_more. now apply (N Gt).
      * discriminate.
    + intros H. inversion H as [| | |? ? ? ? A|? ? ? ? A|? ? ? ? ? A B]; subst.
      * apply (N Lt) in A. now rewrite A.
      * apply (N Gt) in A. now rewrite A.
      * apply (N Eq) in A. rewrite A. now apply IH.
Qed.
End Lex.

Lemma cmp_flip {S : scalar} : (forall x y : S, num_cmp y x = option_map CompOpp (num_cmp x y)) ->
  forall p q : list S, pos_cmp q p = option_map CompOpp (pos_cmp p q).
Proof.
  intros N. induction p as [|x p IH]; intros [|y q]; cbn [pos_cmp]; try reflexivity. rewrite (N x y). destruct (num_cmp x y) as [[| |]|]; cbn [option_map CompOpp]; auto.
Qed.
Lemma cmp_eqb {S : scalar} : (forall x y : S, num_cmp x y = Some Eq <-> (leb x y && leb y x)%bool = true) ->
  forall p q : list S, pos_cmp p q = Some Eq <-> pos_eqb p q = true.
Proof.
  intros N. induction p as [|x p IH]; intros [|y q]; cbn [pos_cmp pos_eqb]; try (split; congruence). rewrite andb_true_iff, <- IH, <- (N x y).
  destruct (num_cmp x y) as [[| |]|]; split; try (intros [H1 H2]); try (intros H1); try discriminate; auto.
Qed.

Section RRord.
Local Open Scope R_scope.
Lemma num_R (x y : R) c : num_cmp (S := RR) x y = Some c <-> match c with Lt => x < y | Gt => y < x | Eq => x = y end.
Proof.
  unfold num_cmp. change (@ltb RR) with Rltb. change (@leb RR) with Rleb. unfold Rltb, Rleb.
  destruct (Rlt_dec x y); [split; [intros [= <-]; auto|destruct c; intros; auto; exfalso; lra]|].
  destruct (Rlt_dec y x); [split; [intros [= <-]; auto|destruct c; intros; auto; exfalso; lra]|].
  destruct (Rle_dec x y); [split; [intros [= <-]; lra|destruct c; intros; auto; exfalso; lra]|]. exfalso. lra.
Qed.
Lemma num_R_total (x y : R) : num_cmp (S := RR) x y <> None.
Proof. intros E. destruct (Rtotal_order x y) as [H|[H|H]]; [apply (num_R x y Lt) in H|apply (num_R x y Eq) in H|apply (num_R x y Gt) in H]; rewrite E in H; discriminate H. Qed.
Lemma cmp_R_total : forall p q : list R, exists c, pos_cmp (S := RR) p q = Some c.
Proof.
  induction p as [|x p IH]; intros [|y q]; cbn [pos_cmp]; eauto. pose proof (num_R_total x y). destruct (num_cmp (S := RR) x y) as [[| |]|]; eauto. congruence.
Qed.
Lemma lex_R_eq : forall p q : list R, lex Rlt eq p q Eq <-> p = q.
Proof.
  induction p as [|x p IH]; intros [|y q]; split; intros H; try discriminate; try (inversion H; subst; fail).
  - reflexivity. - constructor. - inversion H as [| | | | |? ? ? ? ? A B]; subst. f_equal. now apply IH.
  - injection H as -> ->. apply lex_equal; [reflexivity|]. now apply IH.
Qed.
Lemma lex_R_trans : forall p q r : list R, lex Rlt eq p q Lt -> lex Rlt eq q r Lt -> lex Rlt eq p r Lt.
Proof.
  induction p as [|x p IH]; intros q r A B.
  - inversion A; subst. inversion B; subst; constructor.
  - inversion A as [| | |? y ? q' L| |? y ? q' ? E L]; subst.
    + inversion B as [| | |? z ? r' M| |? z ? r' ? E M]; subst; apply lex_less; lra.
    + inversion B as [| | |? z ? r' M| |? z ? r' ? E M]; subst; [apply lex_less; lra|]. apply lex_equal; [reflexivity|]. eapply IH; eauto.
Qed.
End RRord.

Section Ford.
Variable lm : libm.
Lemma num_F (x y : b64) : num_cmp (S := F64 lm) x y = Bcompare x y.
Proof.
  unfold num_cmp. change (@ltb (F64 lm)) with (fun a b : b64 => Bltb a b). change (@leb (F64 lm)) with (fun a b : b64 => Bleb a b). cbv beta.
  pose proof (Bcompare_swap 53 1024 x y) as W. unfold Bltb, Bleb, SpecFloat.SFltb, SpecFloat.SFleb, Bcompare in *. rewrite W.
  destruct (SpecFloat.SFcompare (B2SF x) (B2SF y)) as [[| |]|]; reflexivity.
Qed.
Lemma num_F_flip (x y : F64 lm) : num_cmp y x = option_map CompOpp (num_cmp x y).
Proof. rewrite (num_F x y), (num_F y x). rewrite (Bcompare_swap 53 1024 x y). destruct (Bcompare x y); reflexivity. Qed.
Lemma num_F_val (x y : b64) c : num_cmp (S := F64 lm) x y = Some c <->
  match c with Lt => nan x = false /\ nan y = false /\ (val x < val y)%R | Gt => nan y = false /\ nan x = false /\ (val y < val x)%R
             | Eq => nan x = false /\ nan y = false /\ val x = val y end.
Proof.
  unfold num_cmp. change (@ltb (F64 lm)) with (fun a b : b64 => Bltb a b). change (@leb (F64 lm)) with (fun a b : b64 => Bleb a b). cbv beta.
  destruct (nan x) eqn:Nx; [|destruct (nan y) eqn:Ny].
  - assert (Q : forall z : b64, Bltb x z = false /\ Bltb z x = false /\ Bleb x z = false).
    { intros z. repeat split; apply not_true_is_false; intros H; [apply ltb_nan in H|apply ltb_nan in H|apply leb_nan in H]; destruct H; congruence. }
    destruct (Q y) as (-> & -> & ->). split; [discriminate|]. destruct c; intros (A & B & _); congruence.
  - assert (Q : forall z : b64, Bltb y z = false /\ Bltb z y = false /\ Bleb z y = false).
    { intros z. repeat split; apply not_true_is_false; intros H; [apply ltb_nan in H|apply ltb_nan in H|apply leb_nan in H]; destruct H; congruence. }
    destruct (Q x) as (-> & -> & ->). split; [discriminate|]. destruct c; intros (A & B & _); congruence.
  - pose proof (ltb_val x y Nx Ny) as L1. pose proof (ltb_val y x Ny Nx) as L2. pose proof (leb_val x y Nx Ny) as L3.
    destruct (Bltb x y).
    { pose proof (proj1 L1 eq_refl). split; [intros [= <-]; auto|destruct c; intros (_ & _ & H'); auto; exfalso; lra]. }
    destruct (Bltb y x).
    { pose proof (proj1 L2 eq_refl). split; [intros [= <-]; auto|destruct c; intros (_ & _ & H'); auto; exfalso; lra]. }
    assert (N1 : ~ (val x < val y)%R) by (intros H; apply L1 in H; discriminate). assert (N2 : ~ (val y < val x)%R) by (intros H; apply L2 in H; discriminate).
    destruct (Bleb x y).
    { split; [intros [= <-]; repeat split; auto; lra|destruct c; intros (_ & _ & H'); auto; exfalso; lra]. }
    assert (N3 : ~ (val x <= val y)%R) by (intros H; apply L3 in H; discriminate). exfalso. lra.
Qed.
Lemma cmp_F_none : forall p q : list b64, pos_cmp (S := F64 lm) p q = None <-> undecided p q.
Proof.
  induction p as [|x p IH]; intros [|y q]; cbn [pos_cmp]; try (split; [discriminate|intros H; inversion H]).
  pose proof (num_F_val x y) as N. destruct (num_cmp (S := F64 lm) x y) as [c|] eqn:E.
  - pose proof (proj1 (N c) eq_refl) as V. destruct c.
    + destruct V as (A & B & V). split; [intros H; apply und_later; auto; now apply IH|]. intros H. inversion H as [? ? ? ? K|? ? ? ? K1 K2 K3 K4]; subst; [destruct K; congruence|]. now apply IH.
    + destruct V as (A & B & V). split; [discriminate|]. intros H. inversion H as [? ? ? ? K|? ? ? ? K1 K2 K3 K4]; subst; [destruct K; congruence|]. lra.
    + destruct V as (A & B & V). split; [discriminate|]. intros H. inversion H as [? ? ? ? K|? ? ? ? K1 K2 K3 K4]; subst; [destruct K; congruence|]. lra.
  - split; [intros _|reflexivity]. apply und_here. destruct (nan x) eqn:Nx; [auto|]. destruct (nan y) eqn:Ny; [auto|]. exfalso.
    destruct (Rtotal_order (val x) (val y)) as [H|[H|H]]; [pose proof (proj2 (N Lt) (conj eq_refl (conj eq_refl H))) as K|pose proof (proj2 (N Eq) (conj eq_refl (conj eq_refl H))) as K|
      pose proof (proj2 (N Gt) (conj eq_refl (conj eq_refl H))) as K]; discriminate K.
Qed.
Lemma num_F_eqb (x y : F64 lm) : num_cmp x y = Some Eq <-> (leb x y && leb y x)%bool = true.
Proof.
  unfold num_cmp. change (@ltb (F64 lm) x y) with (Bltb x y). change (@ltb (F64 lm) y x) with (Bltb y x). change (@leb (F64 lm) x y) with (Bleb x y). change (@leb (F64 lm) y x) with (Bleb y x).
  pose proof (Bcompare_swap 53 1024 x y) as W. unfold Bltb, Bleb, SpecFloat.SFltb, SpecFloat.SFleb, Bcompare in *. rewrite W.
  destruct (SpecFloat.SFcompare (B2SF x) (B2SF y)) as [[| |]|]; cbn; split; congruence.
Qed.
End Ford.
