(** Specification vocabulary for repelling agents in double precision. *)
From Coq Require Import Reals List.
From Verif Require Import Base Scalar Float64 Model_Position Spec_Position Model_LinkedList Model_System Model_Agent Spec_Agent Spec_Wall64 Spec_Run Spec_Run2 Spec_Run64.
Import ListNotations.
Local Open Scope R_scope.

(** A limit on the length of a move. *)
Definition modest (l : b64) : Prop := fin l = true /\ / 2 ^ 400 <= B2 l <= 2 ^ 298.
Section R64.
Context {lm : libm}.
(** The exponential of a number that is not positive is one between 0 and 1. *)
Definition decaying : Prop := forall x : b64, fin x = true -> B2 x <= 0 -> let y : b64 := fexp (s := F64 lm) x in fin y = true /\ 0 <= B2 y <= 1.
(** An agent with ordinary coefficients at a place with ordinary coordinates. *)
Definition tame (a : expag (F64 lm)) : Prop :=
  (exists c, ex_mtype a = Brownian c /\ mild c) /\ roomy (ex_gamma a) /\ fin (ex_cforce a : b64) = true /\ Rabs (B2 (ex_cforce a)) <= 2 ^ 100 /\ on_scale (ex_pos a).
(** No two agents at (nearly) the same place. *)
Definition spread (cs : list (expag (F64 lm))) : Prop :=
  forall i j a b, (i < j)%nat -> nth_error cs i = Some a -> nth_error cs j = Some b -> / 2 ^ 390 <= euclid (reals (ex_pos a)) (reals (ex_pos b)).
End R64.
Arguments decaying lm : clear implicits.
Section M64.
Context {lm : libm} {G : rng (F64 lm)}.
(** The agent's position went through a boundary step that succeeded, with a displacement no longer than the limit, up to [slack]. *)
Definition short_move (sy : anysys (F64 lm)) (limit : b64) (a b : expag (F64 lm)) : Prop := exists dp : list b64,
  length dp = sysdim sy /\ finite_pos dp /\ euclid_norm (reals dp) <= B2 limit * (1 + 2 * slack (sysdim sy)) /\
  sc_check_bc (core (G := G) sy) (ex_pos a) dp = (ex_pos b, Ok tt).
(** A crew of ordinary agents. *)
Definition ready_team (n N : nat) (l : llist (expag (F64 lm))) : Prop := exp_crew n N l /\ Forall tame (contents l).
End M64.
Section A64.
Context {lm : libm} {G : rng (F64 lm)}.
(** A force coefficient. *)
Definition coefficient (x : b64) : Prop := fin x = true /\ Rabs (B2 x) <= 2 ^ 100.
(** An agent that becomes a tame one when it is put at its place (a position of the wrong dimension makes the coefficient be computed anew). *)
Definition tamable (a : expag (F64 lm)) : Prop :=
  (exists c, ex_mtype a = Brownian c /\ mild c) /\ roomy (ex_gamma a) /\ coefficient (ex_cforce a) /\ coefficient (div (s := F64 lm) (ex_strength a) (ex_gamma a)).
(** Everybody in the crew is off the target, inside; somebody is on it, inside. *)
Definition team_off (sy : anysys (F64 lm)) (tg : target (F64 lm)) (l : llist (expag (F64 lm))) : Prop :=
  forall i b, nth_error (contents l) i = Some b -> inside_upto sy (ex_pos b) /\ off_upto tg (ex_pos b).
Definition team_on (sy : anysys (F64 lm)) (tg : target (F64 lm)) (l : llist (expag (F64 lm))) : Prop :=
  exists i b, nth_error (contents l) i = Some b /\ inside_upto sy (ex_pos b) /\ on_upto tg (ex_pos b).
(** No two agents come to (nearly) the same place before the last of the steps [dts]. *)
Definition kept_apart (sy : anysys (F64 lm)) (tg : target (F64 lm)) (limit : F64 lm) (dts : list (F64 lm)) l disp mv (g : rstate G) : Prop :=
  forall us ws lj dj mj gj, dts = us ++ ws -> ws <> [] -> exp_after (core (G := G) sy) tg limit us l disp mv g = Some (lj, dj, mj, gj) -> spread (contents lj).
End A64.
