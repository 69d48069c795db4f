(** Specification vocabulary for the search of one searcher and for samples taken one after the other. *)
From Coq Require Import List ZArith.
From Verif Require Import Base Scalar Model_Position Spec_Position Model_System Spec_Run.
Import ListNotations.

Section S.
Context {S : scalar} {G : rng S}.
Notation gen := (rstate G).

(** Where a particle is after the displacements [dps], each through the boundary rule [bc]; [None] when one of them is refused. *)
Fixpoint travel (bc : pos S -> pos S -> pos S * outcome unit) (p : pos S) (dps : list (pos S)) : option (pos S) :=
  match dps with
  | [] => Some p
  | d :: r => match bc p d with (q, Ok _) => travel bc q r | _ => None end
  end.
(** The first [k] Brownian displacements a generator produces: one block of [n] normal samples each. *)
Definition kicks (c dt : S) (n k : nat) (g : gen) : list (pos S) := map (fun j => brownian_kick c dt (nth_block (gauss G) n j g)) (seq 0 k).
(** After [j] displacements the particle has not been refused a step and is at [q]. *)
Definition comes_to bc (c dt : S) n (p : pos S) (g : gen) (j : nat) (q : pos S) : Prop := travel bc p (kicks c dt n j g) = Some q.
(** The target is found after [k] displacements, at [q], and not before. *)
Definition first_visit bc (tg : target S) (c dt : S) n (p : pos S) (g : gen) (k : nat) (q : pos S) : Prop :=
  comes_to bc c dt n p g k q /\ check_find tg q = Ok true /\
  forall j, j < k -> exists q', comes_to bc c dt n p g j q' /\ check_find tg q' = Ok false.
(** No target after any of the first [k] displacements (nor at the start), no refused step. *)
Definition no_visit bc (tg : target S) (c dt : S) n (p : pos S) (g : gen) (k : nat) : Prop :=
  forall j, j <= k -> exists q', comes_to bc c dt n p g j q' /\ check_find tg q' = Ok false.

(** [ts] are the results of samples taken one after the other from state [g] on, [g'] is the state after them. *)
Inductive sampled {X : Type} (sample : gen -> gen * outcome X) : gen -> list X -> gen -> Prop :=
| sampled_none : forall g, sampled sample g [] g
| sampled_one : forall g g1 g2 t ts, sample g = (g1, Ok t) -> sampled sample g1 ts g2 -> sampled sample g (t :: ts) g2.
(** The first sample that does not succeed, and how it fails. *)
Definition fails_after {X : Type} (sample : gen -> gen * outcome X) (g : gen) (k : nat) (g' : gen) (o : outcome X) : Prop :=
  exists ts g1, sampled sample g ts g1 /\ length ts = k /\ sample g1 = (g', o) /\ forall t, o <> Ok t.
End S.
