(** Specification vocabulary for whole simulation runs. *)
From Coq Require Import List ZArith.
From Verif Require Import Base Scalar Model_Position Model_System Model_Agent Spec_Agent Model_LinkedList Refine_LinkedList.
Import ListNotations.

Section R.
Context {S : scalar} {G : rng S}.
Notation gen := (rstate G).

(** The state after [k] time steps in none of which the target was found and nothing failed. *)
Fixpoint after_steps {A : Type} (step : llist A -> gen -> llist A * gen * outcome bool) (k : nat) (l : llist A) (g : gen) : option (llist A * gen) :=
  match k with
  | 0 => Some (l, g)
  | Datatypes.S j => match step l g with (l1, g1, Ok false) => after_steps step j l1 g1 | _ => None end
  end.

(** The number of agents alive at the beginning of each of [k] steps, added up. *)
Fixpoint living {A : Type} (step : llist A -> gen -> llist A * gen * outcome bool) (k : nat) (l : llist A) (g : gen) : nat :=
  match k with
  | 0 => 0
  | Datatypes.S j => length (live_of l) + let '(l1, g1, _) := step l g in living step j l1 g1
  end.

(** The same with a time step of its own for every step. *)
Fixpoint after_dts {A : Type} (step : S -> llist A -> gen -> llist A * gen * outcome bool) (dts : list S) (l : llist A) (g : gen) : option (llist A * gen) :=
  match dts with
  | [] => Some (l, g)
  | dt :: r => match step dt l g with (l1, g1, Ok false) => after_dts step r l1 g1 | _ => None end
  end.

(** The clock after [k] steps of length [dt]: [dt] added [k] times to 0. *)
Fixpoint ticks (dt : S) (k : nat) : S := match k with 0 => s0 | Datatypes.S j => add (ticks dt j) dt end.

(** [a] is the element number [i], and it is live. *)
Definition live_at {A : Type} (l : llist A) (i : nat) (a : A) : Prop := In i (live_of l) /\ nth_error (contents l) i = Some a.

(** A merging agent in [n] dimensions that can move. *)
Definition brownian_in (n : nat) (a : merger S) : Prop := mg_dim a = n /\ length (mg_pos a) = n /\ exists c, mg_mtype a = Brownian c.
(** The same for an independent agent. *)
Definition indep_in (n : nat) (a : indep S) : Prop := in_dim a = n /\ length (in_pos a) = n /\ exists c, in_mtype a = Brownian c.

(** Two agents closer than twice the radius. *)
Definition touching (radius : S) (a b : merger S) : Prop := exists d, distance (mg_pos a) (mg_pos b) = Ok d /\ ltb d (mul s2 radius) = true.
(** Inside the system and off (on) the target, by the code's own tests (see C28, C30 for what these mean geometrically). *)
Definition accepts (sy : anysys S) (p : pos S) : Prop :=
  match sy with ACirc s => circ_inclusion s p = Ok true | ACubic s => cubic_inclusion s p = Ok true | ACyl s => cyl_inclusion s p = Ok true end.
Definition searching (sy : anysys S) (t : target S) (p : pos S) : Prop := accepts sy p /\ check_find t p = Ok false.
Definition on_target (sy : anysys S) (t : target S) (p : pos S) : Prop := accepts sy p /\ check_find t p = Ok true.

(** How the mobility of an agent that started with move type [m0] follows its size. *)
Definition mobility_law (m0 : movetype S) (a : merger S) : Prop :=
  (mg_size a = 1 /\ mg_mtype a = m0) \/
  (2 <= mg_size a /\ mg_mtype a = Brownian (fpow (of_Z (Z.of_nat (mg_size a))) (opp (mg_alpha a)))).

(** A member of a merging population: [n] dimensions, started with move type [m0]. *)
Definition crew (n : nat) (m0 : movetype S) (radius alpha : S) (a : merger S) : Prop :=
  brownian_in n a /\ mobility_law m0 a /\ mg_radius a = radius /\ mg_alpha a = alpha.
(** The state of a merging simulation that started with [N] agents of size 1: nobody is lost, only merged. *)
Record population (n : nat) (m0 : movetype S) (radius alpha : S) (N : nat) (l : llist (merger S)) : Prop := {
  pop_list : reachable l;
  pop_slots : length (contents l) = N;
  pop_crew : Forall (crew n m0 radius alpha) (contents l);
  pop_size : total_size mg_size l = N }.
(** An agent that can be renewed for such a population. *)
Definition recruit (n : nat) (radius alpha : S) (a : merger S) : Prop :=
  mg_dim a = n /\ (exists c, mg_mtype a = Brownian c) /\ mg_radius a = radius /\ mg_alpha a = alpha.
(** [N] independent searchers, all alive. *)
Record searchers (n : nat) (m0 : movetype S) (N : nat) (l : llist (indep S)) : Prop := {
  sea_list : reachable l;
  sea_slots : length (contents l) = N;
  sea_live : live_of l = seq 0 N;
  sea_crew : Forall (fun a => indep_in n a /\ in_mtype a = m0) (contents l) }.
(** No two live agents within twice the radius of each other. *)
Definition settled (radius : S) (l : llist (merger S)) : Prop :=
  forall i j a b, live_at l i a -> live_at l j b -> i < j -> ~ touching radius a b.
(** Nobody live has found the target, and everybody live is inside. *)
Definition all_searching {A : Type} (sy : anysys S) (t : target S) (position : A -> pos S) (l : llist A) : Prop :=
  forall i a, live_at l i a -> searching sy t (position a).

(** A Brownian displacement during [dt]: every coordinate is a normal sample times sqrt(2 c dt). *)
Definition brownian_kick (c dt : S) (samples : list S) : pos S := map (fun z => mul z (fsqrt (mul (mul s2 c) dt))) samples.
(** The displacement of a repelling agent: planned move plus Brownian displacement (the code also adds the mean 0). *)
Definition noisy_kick (c dt : S) (plan : pos S) (samples : list S) : pos S :=
  map (fun xz => add (add (fst xz) (mul (snd xz) (fsqrt (mul (mul s2 c) dt)))) s0) (combine plan samples).
End R.

(** What a generator answers to a sequence of requests ([true]: a uniform sample, [false]: a normal one). *)
Fixpoint answers {S : scalar} (G : rng S) (requests : list bool) (g : rstate G) : list S :=
  match requests with
  | [] => []
  | b :: r => let (x, g1) := (if b then unif G g else gauss G g) in x :: answers G r g1
  end.
(** Two generators, possibly of different types, that give the same samples whatever is requested. *)
Definition same_stream {S : scalar} {G1 G2 : rng S} (g1 : rstate G1) (g2 : rstate G2) : Prop := forall requests, answers G1 requests g1 = answers G2 requests g2.
