(** Specification vocabulary for the first order reflection in double precision (C72). *)
From Coq Require Import Reals List.
From Verif Require Import Base Scalar Float64 Spec_Position Spec_System.
Local Open Scope R_scope.

(** The first order image of the displacement [d] of [p] at the sphere of radius [r]: the distance to the centre is taken to grow linearly along the segment, which puts the hit at [t]; the end point
    is moved back by twice [k] times the vector from the centre to the point at [t], [k] being the first order value of the part of the displacement beyond the wall in units of the radius. *)
Definition first_order_image (r : R) (p d q : list R) : Prop := exists t k : R,
  euclid_norm p + t * (dot p d / euclid_norm p) = r /\ k * r ^ 2 = euclid_norm p * (euclid_norm p + dot p d / euclid_norm p - r) /\
  q = along (along p d 1) (along p d t) (- (2 * k)).
