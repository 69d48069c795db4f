(** Specification vocabulary for boundary steps in double precision (C61). *)
From Coq Require Import Reals ZArith List.
From Verif Require Import Base Scalar Float64 Model_Position Spec_Position Model_System Spec_System.
Import ListNotations.
Open Scope R_scope.

(** A relative error of 32*(n+4) roundings, a rounding being 2^-53. *)
Definition slack (n : nat) : R := 32 * (INR n + 4) / 2 ^ 53.

(** Sizes for which squares neither overflow nor underflow. *)
Definition middling (r : b64) : Prop := fin r = true /\ / 2 ^ 400 <= B2 r <= 2 ^ 400.

(** The factor by which the exact wall of a ball of radius [r] shrinks a position at distance [n] from the centre. *)
Definition wall_factor (r n k : R) : Prop := (n <= r -> k = 1) /\ (r < n -> k = (2 * r - n) / n).

(** Distance [n] is clear of the wall, and of the limit of three radii, by the relative error [e]: the step is certainly accepted,
    certainly refused. *)
Definition surely_kept (e r n : R) : Prop := n <= r * (1 - e) \/ (r * (1 + e) <= n /\ n <= 3 * r * (1 - e)).
Definition surely_refused (e r n : R) : Prop := 3 * r * (1 + e) <= n.

(** Coordinatewise, the double [y] is [k] times the double [x] up to [e]. *)
Definition scaled_near (e k : R) (p q : list b64) : Prop := Forall2 (fun x y => Rabs (B2 y - k * B2 x) <= e) p q.
