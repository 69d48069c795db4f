(** C76: arithmetic of integer vectors.  C77: indexing, slicing and comparing positions. *)
From Coq Require Import ZArith List Reals Lra Lia Bool.
From Flocq.IEEE754 Require Import BinarySingleNaN.
From Verif Require Import Base Scalar Float64 Model_Position Spec_Position Proof_I32 Model_Int Spec_Int Proof_Int.
Import ListNotations.
Local Open Scope nat_scope.

(** C76, debug build: the sum, the difference and the multiple are the true ones when every coordinate of them is an i32, and the
    call panics when one is not, or when the dimensions differ. *)
Theorem C76_debug_exact_or_panic : forall p q : list Z,
  (length p <> length q -> forall ck, int_add ck p q = Panic /\ int_sub ck p q = Panic) /\
  (length p = length q ->
     (Forall fits (pairwise Z.add p q) -> int_add true p q = Ok (pairwise Z.add p q)) /\
     (~ Forall fits (pairwise Z.add p q) -> int_add true p q = Panic) /\
     (Forall fits (pairwise Z.sub p q) -> int_sub true p q = Ok (pairwise Z.sub p q)) /\
     (~ Forall fits (pairwise Z.sub p q) -> int_sub true p q = Panic)) /\
  (forall c : Z, (Forall fits (map (fun x => x * c)%Z p) -> int_scalar_mul true p c = Ok (map (fun x => x * c)%Z p)) /\
     (~ Forall fits (map (fun x => x * c)%Z p) -> int_scalar_mul true p c = Panic)).
Proof.
  intros p q. split; [|split].
  - intros H ck. unfold int_add, int_sub. destruct (Nat.eqb_spec (length p) (length q)); [contradiction|]. split; reflexivity.
  - intros L. unfold int_add, int_sub. rewrite L, Nat.eqb_refl. cbn [negb].
    destruct (int_zip_debug Z.add p q) as (A1 & A2). destruct (int_zip_debug Z.sub p q) as (B1 & B2'). auto.
  - intros c. rewrite mul_zip, <- pairwise_mul. apply int_zip_debug.
Qed.
Print Assumptions C76_debug_exact_or_panic.

(** Release build: every coordinate is the two's complement reading of the true one. *)
Theorem C76_release_wraps : forall p q : list Z,
  (forall z, wraps_to z (wrap32 z) /\ (forall w, wraps_to z w -> w = wrap32 z) /\ (fits z -> wrap32 z = z)) /\
  (length p = length q -> int_add false p q = Ok (map wrap32 (pairwise Z.add p q)) /\ int_sub false p q = Ok (map wrap32 (pairwise Z.sub p q))) /\
  (forall c, int_scalar_mul false p c = Ok (map wrap32 (map (fun x => x * c)%Z p))).
Proof.
  intros p q. split; [|split].
  - intros z. split; [apply wrap_wraps|]. split; [intros w W; exact (wraps_unique z w _ W (wrap_wraps z))|apply wrap_id].
  - intros L. unfold int_add, int_sub. rewrite L, Nat.eqb_refl. cbn [negb]. split; apply int_zip_release.
  - intros c. rewrite mul_zip, int_zip_release, pairwise_mul. reflexivity.
Qed.
Print Assumptions C76_release_wraps.

(** In both builds the in-place forms give the same (also the same panics); a longer operand is cut, a shorter one panics; the benchmark
    form keeps the coordinates beyond the shorter operand; [clear] zeroes. *)
Theorem C76_in_place_forms : forall (ck : bool) (p q : list Z),
  (length p = length q -> int_mut_add ck p q = int_add ck p q /\ int_mut_sub ck p q = int_sub ck p q) /\
  (length p <= length q -> int_mut_add ck p q = int_add ck p (firstn (length p) q) /\ int_mut_sub ck p q = int_sub ck p (firstn (length p) q)) /\
  (length q < length p -> int_mut_add ck p q = Panic /\ int_mut_sub ck p q = Panic) /\
  (forall c, int_mut_scalar_mul ck p c = int_scalar_mul ck p c) /\
  (length p = length q -> int_mut_add_bench ck p q = int_add ck p q) /\
  (length q < length p -> int_mut_add_bench ck p q = do r <- int_add ck (firstn (length q) p) q; Ok (r ++ skipn (length q) p)) /\
  int_clear p = repeat 0%Z (length p).
Proof.
  intros ck p q. unfold int_mut_add, int_mut_sub, int_add, int_sub. split; [|split; [|split; [|split; [|split; [|split]]]]].
  - intros L. rewrite !int_mut_zip_eq by lia. rewrite L, Nat.eqb_refl. split; reflexivity.
  - intros L. rewrite !int_mut_zip_eq by lia. rewrite firstn_length, Nat.min_l, Nat.eqb_refl by lia. cbn [negb]. rewrite !int_zip_firstn. split; reflexivity.
  - intros L. rewrite !int_mut_zip_short by lia. split; reflexivity.
  - intros c. apply mul_same.
  - intros L. rewrite L, Nat.eqb_refl. cbn [negb]. rewrite bench_cut, <- L, skipn_all. destruct (int_zip ck Z.add p q); cbn [bind]; rewrite ?app_nil_r; reflexivity.
  - intros L. rewrite firstn_length, Nat.min_l, Nat.eqb_refl by lia. cbn [negb]. rewrite bench_cut. f_equal.
    clear L. revert q. induction p as [|x p IH]; intros [|y q]; cbn [length firstn int_zip]; try reflexivity. now rewrite IH.
  - unfold int_clear. induction p as [|x p IH]; cbn; [reflexivity|]. now rewrite IH.
Qed.
Print Assumptions C76_in_place_forms.

(** Subtracting what was added gives the vector back, also when the sum wrapped; translating both ends leaves the taxi distance. *)
Theorem C76_laws : forall p q v : list Z,
  (forall ck s, length p = length v -> Forall fits p -> int_add ck p v = Ok s -> int_sub ck s v = Ok p) /\
  (forall a b, length p = length v -> length q = length v -> int_add true p v = Ok a -> int_add true q v = Ok b ->
     taxi_distance true a b = taxi_distance true p q).
Proof. intros p q v. split; [intros ck s L F E; exact (undo p v ck s L F E)|exact (taxi_shift p q v)]. Qed.
Print Assumptions C76_laws.

(** Limit: a wrapped translation changes taxi distances. *)
Theorem C76_wrapped_translation_counterexample : exists a b : list Z,
  int_add false [2147483647]%Z [1]%Z = Ok a /\ int_add false [2147483646]%Z [1]%Z = Ok b /\
  taxi_distance true [2147483647]%Z [2147483646]%Z = Ok 1%Z /\ taxi_distance true a b = Panic.
Proof. do 2 eexists. split; [vm_compute; reflexivity|]. split; [vm_compute; reflexivity|]. split; vm_compute; reflexivity. Qed.
Print Assumptions C76_wrapped_translation_counterexample.

Example int_demo : int_add true [3; -4]%Z [10; 20]%Z = Ok [13; 16]%Z /\ int_sub false [-2147483648; 5]%Z [1; 7]%Z = Ok [2147483647; -2]%Z /\
  int_sub true [-2147483648; 5]%Z [1; 7]%Z = Panic /\ int_scalar_mul false [65536; 3]%Z 65536 = Ok [0; 196608]%Z /\
  Forall fits (pairwise Z.add [3; -4]%Z [10; 20]%Z) /\ ~ Forall fits (pairwise Z.sub [-2147483648; 5]%Z [1; 7]%Z).
Proof.
  do 4 (split; [vm_compute; reflexivity|]). unfold pairwise, fits. cbn [combine map fst snd]. split.
  - apply Forall_cons; [lia|]. apply Forall_cons; [lia|]. apply Forall_nil.
  - intros H. inversion H as [|? ? A B]. lia.
Qed.

(** C77: an index reads and writes its own coordinate only, and panics exactly beyond the end. *)
Theorem C77_index : forall (T : Type) (p : list T) (i : nat) (v : T),
  (i < length p -> (exists x, pos_index p i = Ok x /\ nth_error p i = Some x) /\
     exists q, pos_set p i v = Ok q /\ length q = length p /\ pos_index q i = Ok v /\ forall j, j <> i -> pos_index q j = pos_index p j) /\
  (length p <= i -> pos_index p i = Panic /\ pos_set p i v = Panic).
Proof.
  intros T p i v. unfold pos_index, pos_set, idx. split; intros H.
  - destruct (nth_error p i) as [x|] eqn:E; [|apply nth_error_None in E; lia]. split; [exists x; auto|].
    clear H. revert i x E. induction p as [|y p IH]; intros [|i] x E; cbn [nth_error] in E; try discriminate; cbn [upd].
    + eexists. split; [reflexivity|]. split; [reflexivity|]. split; [reflexivity|]. intros [|j] J; [congruence|reflexivity].
    + destruct (IH i x E) as (q & Q1 & Q2 & Q3 & Q4). rewrite Q1. eexists. split; [reflexivity|]. split; [cbn; congruence|]. split; [exact Q3|].
      intros [|j] J; [reflexivity|]. cbn [nth_error]. apply Q4. congruence.
  - apply nth_error_None in H. rewrite H. split; [reflexivity|]. revert i H. induction p as [|y p IH]; intros [|i] E; cbn [nth_error upd] in *; try reflexivity; try discriminate.
    now rewrite (IH i E).
Qed.
Print Assumptions C77_index.

(** The three slices: exactly when they panic and what they hold; the two halves at [k] make up the position. *)
Theorem C77_slices : forall (T : Type) (p : list T) (a b : nat),
  (a <= b -> b <= length p -> exists s, pos_range p a b = Ok s /\ length s = b - a /\
     forall k, k < b - a -> pos_index s k = pos_index p (a + k)) /\
  (b < a \/ length p < b -> pos_range p a b = Panic) /\
  pos_range_to p b = pos_range p 0 b /\
  (a <= length p -> pos_range_from p a = pos_range p a (length p)) /\ (length p < a -> pos_range_from p a = Panic) /\
  (a <= length p -> exists u w, pos_range_to p a = Ok u /\ pos_range_from p a = Ok w /\ u ++ w = p).
Proof.
  intros T p a b. split; [|split; [|split; [|split; [|split]]]].
  - intros A B. destruct (range_ok p a b A B) as (s & E & L & N). exists s. split; [exact E|]. split; [exact L|]. intros k K. unfold pos_index, idx. now rewrite N.
  - unfold pos_range. intros [H|H]; [apply Nat.ltb_lt in H; now rewrite H|]. apply Nat.ltb_lt in H. rewrite H. now destruct (b <? a).
  - unfold pos_range_to, pos_range. cbn [skipn]. rewrite Nat.sub_0_r. destruct (Nat.ltb_spec b 0); [lia|]. reflexivity.
  - intros A. unfold pos_range_from, pos_range. destruct (Nat.ltb_spec (length p) a); [lia|]. rewrite Nat.ltb_irrefl. f_equal. symmetry. apply firstn_all2. rewrite skipn_length. lia.
  - intros A. unfold pos_range_from. apply Nat.ltb_lt in A. now rewrite A.
  - intros A. unfold pos_range_to, pos_range_from. destruct (Nat.ltb_spec (length p) a); [lia|]. do 2 eexists. split; [reflexivity|]. split; [reflexivity|]. apply firstn_skipn.
Qed.
Print Assumptions C77_slices.

(** Comparing positions of reals is the lexicographic order, a strict total order (a prefix is smaller). *)
Theorem C77_order_is_lexicographic : forall p q r : list R,
  (forall c, pos_cmp (S := RR) p q = Some c <-> lex Rlt eq p q c) /\ (exists c, pos_cmp (S := RR) p q = Some c) /\
  (pos_cmp (S := RR) p q = Some Eq <-> p = q) /\ (pos_eqb (S := RR) p q = true <-> p = q) /\
  pos_cmp (S := RR) q p = option_map CompOpp (pos_cmp (S := RR) p q) /\
  (pos_cmp (S := RR) p q = Some Lt -> pos_cmp (S := RR) q r = Some Lt -> pos_cmp (S := RR) p r = Some Lt).
Proof.
  intros p q r. pose proof (cmp_lex (S := RR) Rlt eq num_R) as L.
  assert (E : pos_cmp (S := RR) p q = Some Eq <-> p = q) by (etransitivity; [exact (L p q Eq)|exact (lex_R_eq p q)]).
  split; [exact (L p q)|]. split; [apply cmp_R_total|]. split; [exact E|]. split.
  - etransitivity; [|exact E]. symmetry. apply cmp_eqb. intros x y. etransitivity; [exact (num_R x y Eq)|]. change (@leb RR) with Rleb. rewrite andb_true_iff. unfold Rleb.
    destruct (Rle_dec x y), (Rle_dec y x); split; intros H; try (split; reflexivity); try (exfalso; lra); try lra; destruct H; discriminate.
  - split; [|intros A B; apply (L p r Lt); apply (lex_R_trans p q r); [apply (L p q Lt), A|apply (L q r Lt), B]].
    apply cmp_flip. intros x y. pose proof (num_R x y) as N1. pose proof (num_R y x) as N2.
    destruct (Rtotal_order x y) as [H|[H|H]].
    + rewrite (proj2 (N1 Lt) H), (proj2 (N2 Gt) H). reflexivity.
    + rewrite (proj2 (N1 Eq) H), (proj2 (N2 Eq) (eq_sym H)). reflexivity.
    + rewrite (proj2 (N1 Gt) H), (proj2 (N2 Lt) H). reflexivity.
Qed.
Print Assumptions C77_order_is_lexicographic.

(** Binary64: lexicographic by the values ([-0.0] and [0.0] are equal); no answer exactly when the first coordinates that are not equal
    include a NaN; equality is the answer Eq; swapping the arguments swaps the answer. *)
Theorem C77_f64_order : forall (lm : libm) (p q : list b64),
  (forall c, pos_cmp (S := F64 lm) p q = Some c <->
     lex (fun x y => nan x = false /\ nan y = false /\ (val x < val y)%R) (fun x y => nan x = false /\ nan y = false /\ val x = val y) p q c) /\
  (pos_cmp (S := F64 lm) p q = None <-> undecided p q) /\
  (pos_eqb (S := F64 lm) p q = true <-> pos_cmp (S := F64 lm) p q = Some Eq) /\
  pos_cmp (S := F64 lm) q p = option_map CompOpp (pos_cmp (S := F64 lm) p q).
Proof.
  intros lm p q. split; [|split; [|split]].
  - intros c. apply (cmp_lex (S := F64 lm)). exact (num_F_val lm).
  - apply cmp_F_none.
  - symmetry. apply (cmp_eqb (S := F64 lm)). exact (num_F_eqb lm).
  - apply (cmp_flip (S := F64 lm)). exact (num_F_flip lm).
Qed.
Print Assumptions C77_f64_order.

(** A position with a NaN is not equal to itself; a NaN behind a difference does not matter. *)
Theorem C77_nan_not_equal_counterexample : forall lm : libm, let n : b64 := B754_nan in
  pos_eqb (S := F64 lm) [b64_of_Z 1; n] [b64_of_Z 1; n] = false /\ pos_cmp (S := F64 lm) [b64_of_Z 1; n] [b64_of_Z 1; n] = None /\
  pos_cmp (S := F64 lm) [b64_of_Z 1; n] [b64_of_Z 2; n] = Some Lt.
Proof. intros lm n. split; [|split]; vm_compute; reflexivity. Qed.
Print Assumptions C77_nan_not_equal_counterexample.

Example slice_demo : pos_range [10; 11; 12; 13] 1 3 = Ok [11; 12] /\ pos_range_to [10; 11; 12] 3 = Ok [10; 11; 12] /\
  pos_range_from [10; 11; 12] 3 = Ok [] /\ pos_range [10; 11] 2 1 = Panic /\ pos_range_to [10; 11] 3 = Panic.
Proof. repeat split. Qed.
Example order_demo : forall lm : libm, pos_cmp (S := F64 lm) [b64_of_Z 1; b64_of_Z 5] [b64_of_Z 1; b64_of_Z 7; b64_of_Z 0] = Some Lt /\
  pos_eqb (S := F64 lm) [B754_zero true] [B754_zero false] = true.
Proof. intros lm. split; vm_compute; reflexivity. Qed.
