(** C10, C11, C13: positions. *)
From Coq Require Import Reals ZArith List.
From Flocq.IEEE754 Require Import BinarySingleNaN.
From Verif Require Import Base Scalar Float64 Model_Position Spec_Position Proof_Position Proof_I32.

(** C10: [distance] is rejected exactly when the dimensions differ (any arithmetic). *)
Theorem C10_distance_rejects_exactly_different_dimensions : forall (S : scalar) (p q : pos S),
  (length p <> length q -> distance p q = Err InvalidDimension) /\
  (length p = length q -> exists d, distance p q = Ok d).
Proof. exact @distance_cases. Qed.
Print Assumptions C10_distance_rejects_exactly_different_dimensions.

(** C10: on exact reals it is the Euclidean distance. *)
Theorem C10_distance_is_euclidean : forall p q : pos RR, length p = length q ->
  distance p q = Ok (euclid p q).
Proof. exact rr_distance_euclid. Qed.
Print Assumptions C10_distance_is_euclidean.

Theorem C10_norm_is_euclidean : forall p : pos RR, norm p = euclid_norm p.
Proof. exact rr_norm_euclid. Qed.
Print Assumptions C10_norm_is_euclidean.

(** C10: hence a metric. *)
Theorem C10_distance_is_a_metric : forall p q r : pos RR, length p = length q -> length q = length r ->
  exists pq qp qr pr : R,
    distance p q = Ok pq /\ distance q p = Ok qp /\ distance q r = Ok qr /\ distance p r = Ok pr /\
    (0 <= pq /\ pq = qp /\ (pq = 0 <-> p = q) /\ pr <= pq + qr)%R.
Proof. exact rr_metric. Qed.
Print Assumptions C10_distance_is_a_metric.

(** C10 in binary64: bit-for-bit symmetric, for all doubles including infinities and NaN. *)
Theorem C10_f64_distance_symmetric : forall (lm : libm) (p q : pos (F64 lm)), distance p q = distance q p.
Proof. exact f64_distance_sym. Qed.
Print Assumptions C10_f64_distance_symmetric.

(** C10 in binary64: exactly 0 from a finite position to itself. *)
Theorem C10_f64_distance_to_self : forall (lm : libm) (p : pos (F64 lm)), finite_pos p ->
  distance p p = Ok (B754_zero false : F64 lm).
Proof. exact f64_distance_self. Qed.
Print Assumptions C10_f64_distance_to_self.

(** C10 in binary64: between finite positions the distance is a number (possibly +infinity), never negative, never NaN. *)
Theorem C10_f64_distance_nonnegative : forall (lm : libm) (p q : pos (F64 lm)) (d : b64),
  finite_pos p -> finite_pos q -> distance p q = Ok (d : F64 lm) -> Bleb (B754_zero false) d = true.
Proof. exact f64_distance_finite. Qed.
Print Assumptions C10_f64_distance_nonnegative.

(** C11: [+] and [-] are coordinatewise, dimension checked, and the in-place versions agree (any arithmetic). *)
Theorem C11_add_sub_coordinatewise : forall (S : scalar) (p q : pos S),
  (length p <> length q -> pos_add p q = Panic /\ pos_sub p q = Panic) /\
  (length p = length q -> exists a s, pos_add p q = Ok a /\ pos_sub p q = Ok s /\
     mut_add p q = Ok a /\ mut_sub p q = Ok s /\ length a = length p /\ length s = length p /\
     forall i x y, nth_error p i = Some x -> nth_error q i = Some y ->
       nth_error a i = Some (add x y) /\ nth_error s i = Some (sub x y)).
Proof. exact @add_cases. Qed.
Print Assumptions C11_add_sub_coordinatewise.

Theorem C11_scalar_mul_coordinatewise : forall (S : scalar) (p : pos S) c,
  length (scalar_mul p c) = length p /\ mut_scalar_mul p c = scalar_mul p c /\
  forall i x, nth_error p i = Some x -> nth_error (scalar_mul p c) i = Some (mul x c).
Proof. exact @scalar_mul_nth. Qed.
Print Assumptions C11_scalar_mul_coordinatewise.

(** C11, what the in-place operations do with a wrong dimension: a shorter operand panics, a longer one is
    silently cut to the length of the receiver. *)
Theorem C11_inplace_operand_cut : forall (S : scalar) (p q : pos S),
  ((length q < length p)%nat -> mut_add p q = Panic /\ mut_sub p q = Panic) /\
  ((length p <= length q)%nat ->
     mut_add p q = pos_add p (firstn (length p) q) /\ mut_sub p q = pos_sub p (firstn (length p) q)).
Proof. exact @mut_add_shape. Qed.
Print Assumptions C11_inplace_operand_cut.

(** C11: so "the in-place operations reject operands of a different dimension" is false. *)
Theorem C11_inplace_rejects_other_dimension_counterexample : exists p q r : pos RR,
  length p <> length q /\ mut_add p q = Ok r.
Proof. exists [1%R], [2%R; 3%R], [(1 + 2)%R]. split; [discriminate|reflexivity]. Qed.
Print Assumptions C11_inplace_rejects_other_dimension_counterexample.

Theorem C11_extend_and_clear : forall (S : scalar) (p xs : pos S),
  pos_extend p xs = p ++ xs /\ pos_clear p = repeat s0 (length p).
Proof. exact (fun S p xs => conj (extend_app p xs) (clear_all p)). Qed.
Print Assumptions C11_extend_and_clear.

(** C11: [inner_product] is rejected exactly when the dimensions differ; on exact reals it is the scalar product;
    the norm is the square root of the product of a position with itself (any arithmetic). *)
Theorem C11_inner_product : forall (S : scalar) (p q : pos S),
  (length p <> length q -> inner_product p q = Err InvalidDimension) /\
  (length p = length q -> exists d, inner_product p q = Ok d) /\
  (exists d, inner_product p p = Ok d /\ norm p = fsqrt d).
Proof. exact (fun S p q => conj (proj1 (inner_cases p q)) (conj (proj2 (inner_cases p q)) (norm_inner p))). Qed.
Print Assumptions C11_inner_product.

Theorem C11_inner_product_is_dot : forall p q : list R, length p = length q ->
  inner_product (S := RR) p q = Ok (rsum (map (fun i => nth i p 0 * nth i q 0)%R (seq 0 (length p)))).
Proof. exact rr_inner. Qed.
Print Assumptions C11_inner_product_is_dot.

(** C11: [mut_add_bench] adds the coordinates both operands have and keeps the others. *)
Theorem C11_bench_add : forall (S : scalar) (p q : pos S),
  length (mut_add_bench p q) = length p /\
  (forall i x y, nth_error p i = Some x -> nth_error q i = Some y -> nth_error (mut_add_bench p q) i = Some (add x y)) /\
  (forall i x, nth_error p i = Some x -> nth_error q i = None -> nth_error (mut_add_bench p q) i = Some x).
Proof. exact @bench_spec. Qed.
Print Assumptions C11_bench_add.

(** C13: the lattice taxi distance, debug build: the true value if it fits in i32, a panic otherwise. *)
Theorem C13_taxi_debug_exact_or_panic : forall p q : list Z, length p = length q ->
  ((zsum (zdiffs Z.abs p q) <= i32_max)%Z -> taxi_distance true p q = Ok (zsum (zdiffs Z.abs p q))) /\
  ((i32_max < zsum (zdiffs Z.abs p q))%Z -> taxi_distance true p q = Panic).
Proof. exact taxi_debug. Qed.
Print Assumptions C13_taxi_debug_exact_or_panic.

(** C13: in both builds it is exact when the true value fits. *)
Theorem C13_taxi_exact : forall (checked : bool) (p q : list Z), length p = length q ->
  (zsum (zdiffs Z.abs p q) <= i32_max)%Z -> taxi_distance checked p q = Ok (zsum (zdiffs Z.abs p q)).
Proof. exact taxi_exact. Qed.
Print Assumptions C13_taxi_exact.

(** C13: the lattice Euclidean distance is the correctly rounded true value when no coordinate differs by
    more than 46340 (the largest difference whose square fits in i32) and the sum of squares is at most 2^53. *)
Theorem C13_distance_correctly_rounded : forall (lm : libm) (checked : bool) (p q : list Z), length p = length q ->
  (forall x y, In (x, y) (combine p q) -> (Z.abs (x - y) <= 46340)%Z) ->
  (zsum (zdiffs (fun z => z * z) p q) <= 2 ^ 53)%Z ->
  exists d : b64, i32_distance checked (S := F64 lm) p q = Ok (d : F64 lm) /\
    is_rounded d (sqrt (IZR (zsum (zdiffs (fun z => z * z) p q)%Z))).
Proof. exact i32_distance_exact. Qed.
Print Assumptions C13_distance_correctly_rounded.

Theorem C13_norm_correctly_rounded : forall (lm : libm) (p : list Z), (zsum (map (fun z => z * z) p) <= 2 ^ 53)%Z ->
  is_rounded (i32_norm (S := F64 lm) p) (sqrt (IZR (zsum (map (fun z => z * z) p)%Z))).
Proof. exact i32_norm_exact. Qed.
Print Assumptions C13_norm_correctly_rounded.

(** C13, debug build: the lattice distance panics exactly when some coordinate differs by more than 46340. *)
Theorem C13_distance_debug_panics_iff : forall (S : scalar) (p q : list Z), length p = length q ->
  ((forall x y, In (x, y) (combine p q) -> (Z.abs (x - y) <= 46340)%Z) -> exists d, i32_distance (S := S) true p q = Ok d) /\
  ((exists x y, In (x, y) (combine p q) /\ (46340 < Z.abs (x - y))%Z) -> i32_distance (S := S) true p q = Panic).
Proof. exact @i32_distance_debug. Qed.
Print Assumptions C13_distance_debug_panics_iff.

(** C13, release build: the two distances never panic; every difference, square, absolute value and partial sum is
    reduced to the 32-bit number congruent to it modulo 2^32 ([wrap32]). *)
Theorem C13_release_formulas : forall (S : scalar) (p q : list Z), length p = length q ->
  (forall z, (- 2 ^ 31 <= wrap32 z < 2 ^ 31)%Z /\ exists k, wrap32 z = (z + k * 2 ^ 32)%Z) /\
  taxi_distance false p q = Ok (wrap32 (zsum (zdiffs (fun d => Z.abs (wrap32 d)) p q))) /\
  i32_distance (S := S) false p q =
    Ok (fsqrt (fold_left (fun r d => add r (of_Z (wrap32 (wrap32 d * wrap32 d)))) (zdiffs (fun d => d) p q) s0)).
Proof. exact (fun S p q L => conj wrap_meaning (conj (taxi_release p q L) (i32_distance_release p q L))). Qed.
Print Assumptions C13_release_formulas.

(** C13: both are rejected exactly when the dimensions differ, in either build. *)
Theorem C13_rejects_other_dimension : forall (S : scalar) (checked : bool) (p q : list Z), length p <> length q ->
  taxi_distance checked p q = Err InvalidDimension /\ i32_distance (S := S) checked p q = Err InvalidDimension.
Proof. exact @i32_dims. Qed.
Print Assumptions C13_rejects_other_dimension.

(** Limit of C13 beyond: a difference of 46341 overflows the i32 product (panic in a debug build, the wrapped value
    -2147479015, whose square root is NaN, in a release build); and the taxi distance wraps to a negative number. *)
Theorem C13_distance_overflow_counterexample : forall lm : libm,
  i32_distance true (S := F64 lm) [46341]%Z [0]%Z = Panic /\
  i32_distance false (S := F64 lm) [46341]%Z [0]%Z = Ok (B754_nan : F64 lm).
Proof. intros lm; split; vm_compute; reflexivity. Qed.
Print Assumptions C13_distance_overflow_counterexample.

Theorem C13_taxi_overflow_counterexample :
  taxi_distance true [2000000000; 2000000000]%Z [0; 0]%Z = Panic /\
  taxi_distance false [2000000000; 2000000000]%Z [0; 0]%Z = Ok (-294967296)%Z.
Proof. split; vm_compute; reflexivity. Qed.
Print Assumptions C13_taxi_overflow_counterexample.

(** * Concrete cases *)
Example distance_345 : forall lm,
  (do d <- distance (S := F64 lm) [b64_of_Z 0; b64_of_Z 0] [b64_of_Z 3; b64_of_Z 4]; Ok (B2SF (d : b64))) = Ok (B2SF (b64_of_Z 5)).
Proof. intros lm. vm_compute. reflexivity. Qed.
Example finite_demo : finite_pos [b64_of_Z 3; b64_of_Z (-4)].
Proof. repeat constructor. Qed.
Example rr_dims_demo : length ([1; 2]%R : pos RR) = length ([3; 4]%R : pos RR). Proof. reflexivity. Qed.
Example i32_demo : (zsum (zdiffs (fun z => z * z) [1; 2; 3] [4; 6; -3]) = 61)%Z /\
  taxi_distance true [1; 2; 3]%Z [4; 6; -3]%Z = Ok 13%Z.
Proof. split; reflexivity. Qed.
