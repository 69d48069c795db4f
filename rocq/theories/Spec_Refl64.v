(** Specification vocabulary for exact reflection in double precision (C72). *)
From Coq Require Import Reals List.
From Verif Require Import Base Scalar Float64 Spec_Position Spec_System.
Local Open Scope R_scope.

(** A radius for which fourth powers neither overflow nor underflow. *)
Definition moderate_radius (r : b64) : Prop := fin r = true /\ / 2 ^ 200 <= B2 r <= 2 ^ 200.

(** The displacement [d] meets the sphere of radius [r] at its point [h] under an angle to the normal whose cosine is at least [c]. *)
Definition meets_at_angle (c r : R) (h d : list R) : Prop := 0 < c /\ c * (r * euclid_norm d) <= dot h d.
