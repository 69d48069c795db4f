(** Base: outcomes of Rust functions and the error codes of the crate. *)
From Coq Require Export List Arith Bool Lia.
Export ListNotations.

(** [enum ErrorCode].  The payloads of [Message] and [Io]
    are dropped in this inner type (they are modelled in [Model_Error]). *)
(* src/error.rs 85-121 *)
Inductive errcode : Set :=
| Message | Io
| InvalidDimension | InvalidType | InvalidConfiguration
| InvalidNumberOfArguments | InvalidArgumentInput | InvalidFormat
| InvalidFile | TooLargeTimeStep | FeatureNotProvided | UnexpectedEnd.

(** Result of running a Rust function: [Ok]/[Err] are the two constructors of
    [Result]; [Panic] is any panicking path (index out of bounds, [panic!],
    [unwrap]/[expect] failure); [Fuel] is used only by models of unbounded
    loops, when the fuel handed to the model is exhausted. *)
(* std: Result, plus panics and non-termination *)
Inductive outcome (A : Type) : Type :=
| Ok (a : A)
| Err (e : errcode)
| Panic
| Fuel.
Arguments Ok {A} a.
Arguments Err {A} e.
Arguments Panic {A}.
Arguments Fuel {A}.

(* std: the ? operator *)
Definition bind {A B} (x : outcome A) (f : A -> outcome B) : outcome B :=
  match x with
  | Ok a => f a
  | Err e => Err e
  | Panic => Panic
  | Fuel => Fuel
  end.

Notation "'do' x <- e ; f" := (bind e (fun x => f))
  (at level 200, x binder, e at level 100, f at level 200, right associativity).

(** [v[i] = f(v[i])] on a [Vec]: panics when out of bounds. *)
(* std: v[i] = .. *)
Fixpoint upd {A} (i : nat) (f : A -> A) (l : list A) : outcome (list A) :=
  match l, i with
  | [], _ => Panic
  | x :: r, O => Ok (f x :: r)
  | x :: r, S j => match upd j f r with Ok r' => Ok (x :: r') | Err e => Err e
                                      | Panic => Panic | Fuel => Fuel end
  end.

(** [v[i]] on a [Vec]: panics when out of bounds. *)
(* std: v[i] *)
Definition idx {A} (l : list A) (i : nat) : outcome A :=
  match nth_error l i with Some x => Ok x | None => Panic end.

(** Total replacement, used in statements only. *)
(* specification only *)
Fixpoint replace_nth {A} (i : nat) (x : A) (l : list A) : list A :=
  match l, i with
  | [], _ => []
  | _ :: r, O => x :: r
  | y :: r, S j => y :: replace_nth j x r
  end.
