(** Specification vocabulary for whole runs in double precision: what is assumed of systems, targets, samples and steps, and what "inside" and "off the target" mean up to rounding. *)
From Coq Require Import Reals List.
From Verif Require Import Base Scalar Float64 Model_Position Spec_Position Model_LinkedList Model_System Model_Agent Spec_Agent Spec_Wall64 Spec_Run.
Import ListNotations.
Local Open Scope R_scope.

Section R64.
Context {lm : libm}.
(** A generator of normal samples that are numbers of at most 2^100 (samples of a normal law beyond 40 never occur). *)
Definition calm (G : rng (F64 lm)) : Prop := forall g, let z : b64 := fst (gauss G g) in fin z = true /\ Rabs (B2 z) <= 2 ^ 100.
(** A time step or diffusion coefficient. *)
Definition mild (x : b64) : Prop := fin x = true /\ 0 <= B2 x <= 2 ^ 150.
(** A length. *)
Definition roomy (l : b64) : Prop := fin l = true /\ / 2 ^ 400 <= B2 l <= 2 ^ 300.
Definition ordinary (sy : anysys (F64 lm)) : Prop :=
  INR (sysdim sy) <= 2 ^ 40 /\ match sy with ACirc s => roomy (ci_size s) | ACubic s => roomy (cu_size s) | ACyl s => roomy (cy_radius s) /\ roomy (cy_length s) end.
(** Coordinates that are numbers of at most 2^302. *)
Definition on_scale (p : list b64) : Prop := Forall (fun x : b64 => fin x = true /\ Rabs (B2 x) <= 2 ^ 302) p.
Definition fair_target (t : target (F64 lm)) : Prop := on_scale (tg_pos t) /\ roomy (tg_size t).

(** Inside the exact system: exactly so for the walls of a cube and along the axis of a cylinder, up to [slack] where a norm is computed. *)
Definition inside_upto (sy : anysys (F64 lm)) (p : list b64) : Prop :=
  finite_pos p /\ length p = sysdim sy /\
  match sy with
  | ACirc s => euclid_norm (reals p) <= B2 (ci_size s) * (1 + slack (ci_dim s))
  | ACubic s => Forall (fun x : b64 => Rabs (B2 x) <= B2 (cu_size s)) p
  | ACyl s => exists d, cy_type s = ContinuousCylindrical d /\
      euclid_norm (reals (firstn d p)) <= B2 (cy_radius s) * (1 + slack d) /\ Forall (fun x : b64 => Rabs (B2 x) <= B2 (cy_length s)) (skipn d p)
  end.
(** At least [w] from each other, up to [slack]. *)
Definition apart_upto (w : b64) (p q : list b64) : Prop := B2 w * (1 - slack (length p)) <= euclid (reals p) (reals q).
Definition off_upto (t : target (F64 lm)) (p : list b64) : Prop := apart_upto (tg_size t) p (tg_pos t).
(** At most [w] from each other, up to [slack]. *)
Definition near_upto (w : b64) (p q : list b64) : Prop := euclid (reals p) (reals q) <= B2 w * (1 + slack (length p)).
Definition on_upto (t : target (F64 lm)) (p : list b64) : Prop := near_upto (tg_size t) p (tg_pos t).

(** The setting of a run: an ordinary system with a fair target in as many dimensions. *)
Definition scene (sy : anysys (F64 lm)) (t : target (F64 lm)) : Prop := ordinary sy /\ built sy /\ fair_target t /\ length (tg_pos t) = sysdim sy.
(** Everybody live is at a place with ordinary coordinates. *)
Definition placed {A : Type} (position : A -> pos (F64 lm)) (l : llist A) : Prop := forall i a, live_at l i a -> on_scale (position a).
(** The coefficients that agents made of up to [N] get are ordinary. *)
Definition mild_growth (alpha : b64) (N : nat) : Prop :=
  forall k, (2 <= k <= N)%nat -> mild (fpow (s := F64 lm) (of_Z (s := F64 lm) (Z.of_nat k)) (opp (s := F64 lm) alpha)).
(** Everybody live is inside and off the target. *)
Definition all_off {A : Type} (sy : anysys (F64 lm)) (t : target (F64 lm)) (position : A -> pos (F64 lm)) (l : llist A) : Prop :=
  forall i a, live_at l i a -> inside_upto sy (position a) /\ off_upto t (position a).
(** Everybody live is at a place with ordinary coordinates, off the target. *)
Definition well_placed {A : Type} (t : target (F64 lm)) (position : A -> pos (F64 lm)) (l : llist A) : Prop :=
  forall i a, live_at l i a -> on_scale (position a) /\ off_upto t (position a).
(** Somebody live is inside and on the target. *)
Definition one_on {A : Type} (sy : anysys (F64 lm)) (t : target (F64 lm)) (position : A -> pos (F64 lm)) (l : llist A) : Prop :=
  exists i a, live_at l i a /\ inside_upto sy (position a) /\ on_upto t (position a).
(** Any two live agents are at least twice the radius apart. *)
Definition all_apart (radius : b64) (n : nat) (l : llist (merger (F64 lm))) : Prop :=
  forall i j a b, live_at l i a -> live_at l j b -> (i < j)%nat -> 2 * B2 radius * (1 - slack n) <= euclid (reals (mg_pos a)) (reals (mg_pos b)).
End R64.
