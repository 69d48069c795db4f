(** Specification vocabulary for the run of exponentially repelling agents (examples/mfpt_exp.rs). *)
From Coq Require Import List Reals.
From Verif Require Import Base Scalar Model_Position Spec_Position Model_System Model_Agent Spec_Agent Model_LinkedList Refine_LinkedList Model_Time Spec_Time Model_Run.
Import ListNotations.

Section E.
Context {S : scalar}.
(** An agent in [n] dimensions that can move. *)
Definition exp_in (n : nat) (a : expag S) : Prop := ex_dim a = n /\ length (ex_pos a) = n /\ exists c, ex_mtype a = Brownian c.
(** The list of planned moves: one vector per agent, in [n] dimensions. *)
Record move_list (n N : nat) (moves : llist (pos S)) : Prop := {
  ml_list : reachable moves;
  ml_slots : length (contents moves) = N;
  ml_live : live_of moves = seq 0 N;
  ml_dim : Forall (fun v => length v = n) (contents moves) }.
(** The agents of a run: [N] of them, all alive. *)
Record exp_crew (n N : nat) (l : llist (expag S)) : Prop := {
  ec_list : reachable l;
  ec_slots : length (contents l) = N;
  ec_live : live_of l = seq 0 N;
  ec_crew : Forall (exp_in n) (contents l) }.

(** An agent that can be renewed for a run in [n] dimensions (its position may be anything). *)
Definition exp_recruit (n : nat) (a : expag S) : Prop := ex_dim a = n /\ exists c, ex_mtype a = Brownian c.
(** Arguments the program accepts for a system of dimension [n]: moving agents, interaction dimension [n], no or an [n]-dimensional start. *)
Definition exp_args_for (n : nat) (a : expag_args S) : Prop :=
  ea_dim a = n /\ (exists c, ea_mtype a = Brownian c) /\
  match ea_itype a with Uniform => True | SpecificPosition p => length p = n \/ length p = 0 end.
(** A value the program writes: 0, or a time of the clock other than its first. *)
Definition exp_value {St : Type} (next : St -> outcome (St * option (S * S))) (clock : St) (t : S) : Prop :=
  t = s0 \/ exists first vs dt s1, collect next (Datatypes.S (Datatypes.S (length vs))) clock = Ok (first :: vs ++ [(t, dt)], s1).

(** The state after steps of the given lengths, in none of which the target was found. *)
Fixpoint exp_after {G : rng S} (sys : syscore S G) (tg : target S) (limit : S) (dts : list S) (l : llist (expag S)) (disp : pos S) (mv : llist (pos S)) (g : rstate G)
  : option (llist (expag S) * pos S * llist (pos S) * rstate G) :=
  match dts with
  | [] => Some (l, disp, mv, g)
  | dt :: r => match exp_step sys tg limit dt l disp mv g with
               | (l1, d1, m1, g1, Ok false) => exp_after sys tg limit r l1 d1 m1 g1
               | _ => None
               end
  end.
End E.

(** Coordinate [c] of vector number [k]. *)
Definition coord (vs : list (list R)) (k c : nat) : R := nth c (nth k vs []) 0%R.
(** The repulsion of agent [b] on agent [a] during [dt] (coordinate [c]): along the line from [b] to [a], of the size of the
    force at their distance. *)
Definition repulsion (dt : R) (a b : expag RR) (c : nat) : R :=
  (expag_force a (euclid (ex_pos a) (ex_pos b)) * dt * ((nth c (ex_pos a) 0 - nth c (ex_pos b) 0) / euclid (ex_pos a) (ex_pos b)))%R.
(** The sum over all other agents. *)
Definition net_repulsion (dt : R) (cs : list (expag RR)) (k c : nat) : R :=
  match nth_error cs k with
  | Some a => rsum (map (fun m => if Nat.eqb m k then 0%R else match nth_error cs m with Some b => repulsion dt a b c | None => 0%R end) (seq 0 (length cs)))
  | None => 0%R
  end.
(** All agents have the same force law. *)
Definition same_law (cs : list (expag RR)) : Prop := forall a b, In a cs -> In b cs -> forall r, expag_force a r = expag_force b r.
