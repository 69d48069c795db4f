(** What it means to iterate a clock. *)
From Coq Require Import Reals.
From Verif Require Import Base Scalar Model_Time.

(** Call [next] [n] times, or until it returns [None]: the values returned and the state reached. *)
Fixpoint collect {St X : Type} (next : St -> outcome (St * option X)) (n : nat) (s : St) : outcome (list X * St) :=
  match n with
  | 0 => Ok ([], s)
  | S k => do q <- next s;
    match q with
    | (s', Some x) => do r <- collect next k s'; Ok (x :: fst r, snd r)
    | (s', None) => Ok ([], s')
    end
  end.

(** The iteration ends: some number of calls reaches [None]; [vs] are all the values returned. *)
Definition yields_all {St X : Type} (next : St -> outcome (St * option X)) (s : St) (vs : list X) : Prop :=
  exists s1 s2, collect next (length vs) s = Ok (vs, s1) /\ next s1 = Ok (s2, None).

(** [k] additions of [dt] to [t], one after the other. *)
Fixpoint plus_times {S : scalar} (t dt : S) (k : nat) : S :=
  match k with 0 => t | Datatypes.S j => add (plus_times t dt j) dt end.

(** Consecutive elements are related. *)
Inductive chained {X : Type} (R : X -> X -> Prop) : list X -> Prop :=
| ch_nil : chained R []
| ch_one x : chained R [x]
| ch_cons x y l : R x y -> chained R (y :: l) -> chained R (x :: y :: l).

(** A clock at its start: time 0, the minimal step, nothing counted. *)
Definition es_fresh {S : scalar} (s : expstep S) : Prop :=
  exists a b len, es_titype s = Exponential a b len /\ es_current s = s0 /\ es_dt s = a /\ es_count s = 0.

(** The documented step: [dt_min] multiplied by [inc] every [len] steps, capped at [dt_max]. *)
Definition d_at (a b inc : R) (len k : nat) : R := Rmin b (a * inc ^ (k / len))%R.

(** The exponential clocks a program can have, not yet advanced: made by [new] or [convert_from] with number arguments (a minimal
    step above 0), with [set_tmax] and [set_inc] called on them any number of times; [set_inc] with a number, and only on clocks of
    length at least 2. *)
Inductive ready {S : scalar} (ok : S -> Prop) (a b : S) (len : nat) : expstep S -> Prop :=
| rd_new s : es_new a b len = Ok s -> ready ok a b len s
| rd_convert t s : ltb s0 a = true -> es_convert a b len t = Ok s -> ready ok a b len s
| rd_tmax s t : ready ok a b len s -> ready ok a b len (fst (es_set_tmax s t))
| rd_inc s i : ready ok a b len s -> ok i -> 2 <= len -> ready ok a b len (fst (es_set_inc s i)).
