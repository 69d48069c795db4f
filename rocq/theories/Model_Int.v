(** [Position<i32>]: the vector operations of src/position.rs 211-353, whose bodies are generic in the coordinate type, at [T = i32];
    indexing and slicing (34-69); the derived comparison of positions (9).
    [checked]: debug build, overflow panics; otherwise it wraps. *)
From Verif Require Import Base Scalar Model_Position.
Local Open Scope Z_scope.

Section Int.
Variable checked : bool.

(** The coordinatewise loop of [add] and [sub]: it stops at the first coordinate that overflows (the process panics). *)
(* src/position.rs 214-225 [add]; src/position.rs 233-244 [add]; src/position.rs 255-266 [sub]; src/position.rs 274-285 [sub] *)
Fixpoint int_zip (op : Z -> Z -> Z) (p q : list Z) : outcome (list Z) :=
  match p, q with
  | x :: p', y :: q' => do z <- i32_res checked (op x y); do r <- int_zip op p' q'; Ok (z :: r)
  | _, _ => Ok []
  end.
(* src/position.rs 214-225 [add]; src/position.rs 233-244 [add] *)
Definition int_add (p q : list Z) : outcome (list Z) :=
  if negb (length p =? length q)%nat then Panic else int_zip Z.add p q.
(* src/position.rs 255-266 [sub]; src/position.rs 274-285 [sub] *)
Definition int_sub (p q : list Z) : outcome (list Z) :=
  if negb (length p =? length q)%nat then Panic else int_zip Z.sub p q.

(* src/position.rs 310-318 [scalar_mul] *)
Fixpoint int_scalar_mul (p : list Z) (c : Z) : outcome (list Z) :=
  match p with
  | [] => Ok []
  | x :: p' => do z <- i32_res checked (x * c); do r <- int_scalar_mul p' c; Ok (z :: r)
  end.
(* src/position.rs 320-324 [mut_scalar_mul] *)
Fixpoint int_mut_scalar_mul (p : list Z) (c : Z) : outcome (list Z) :=
  match p with
  | [] => Ok []
  | x :: p' => do z <- i32_res checked (x * c); do r <- int_mut_scalar_mul p' c; Ok (z :: r)
  end.

(** [*x += y] for the indices of [self]; [other.coordinate[idx]] panics when [other] is shorter. *)
(* src/position.rs 326-332 [mut_add]; src/position.rs 334-340 [mut_sub] *)
Fixpoint int_mut_zip (op : Z -> Z -> Z) (p q : list Z) : outcome (list Z) :=
  match p, q with
  | [], _ => Ok []
  | x :: p', y :: q' => do z <- i32_res checked (op x y); do r <- int_mut_zip op p' q'; Ok (z :: r)
  | _ :: _, [] => Panic
  end.
(* src/position.rs 326-332 [mut_add] *)
Definition int_mut_add := int_mut_zip Z.add.
(* src/position.rs 334-340 [mut_sub] *)
Definition int_mut_sub := int_mut_zip Z.sub.

(* src/position.rs 348-352 [mut_add_bench] *)
Fixpoint int_mut_add_bench (p q : list Z) : outcome (list Z) :=
  match p, q with
  | [], _ => Ok []
  | x :: p', y :: q' => do z <- i32_res checked (x + y); do r <- int_mut_add_bench p' q'; Ok (z :: r)
  | p, [] => Ok p
  end.
End Int.

(* src/position.rs 105-114 [clear] *)
Definition int_clear (p : list Z) : list Z := map (fun _ => 0) p.

(** ** Indexing; for every coordinate type. *)
Section Index.
Context {T : Type}.
Local Open Scope nat_scope.

(* src/position.rs 37-39 [index] *)
Definition pos_index (p : list T) (i : nat) : outcome T := idx p i.
(** [p[i] = v] through [index_mut]. *)
(* src/position.rs 43-45 [index_mut] *)
Definition pos_set (p : list T) (i : nat) (v : T) : outcome (list T) := upd i (fun _ => v) p.
(** [p[a..b]]: [std]'s slice check panics for [a > b] and for [b] beyond the end. *)
(* src/position.rs 51-53 [index] *)
Definition pos_range (p : list T) (a b : nat) : outcome (list T) :=
  if b <? a then Panic else if length p <? b then Panic else Ok (firstn (b - a) (skipn a p)).
(* src/position.rs 59-61 [index] *)
Definition pos_range_to (p : list T) (b : nat) : outcome (list T) :=
  if length p <? b then Panic else Ok (firstn b p).
(* src/position.rs 67-69 [index] *)
Definition pos_range_from (p : list T) (a : nat) : outcome (list T) :=
  if length p <? a then Panic else Ok (skipn a p).
End Index.

(** ** The derived [PartialEq] and [PartialOrd]: [Vec]'s, that is lexicographic by the coordinates' own comparison, stopping at the
    first coordinate that is not equal. *)
Section Order.
Context {S : scalar}.

(** [partial_cmp] of numbers: [None] when a NaN is involved. *)
(* f64::partial_cmp, used by the derive of src/position.rs 9-12 *)
Definition num_cmp (x y : S) : option comparison :=
  if Scalar.ltb x y then Some Lt else if Scalar.ltb y x then Some Gt else if Scalar.leb x y then Some Eq else None.

(* derive(PartialOrd) of src/position.rs 9-12 *)
Fixpoint pos_cmp (p q : list S) : option comparison :=
  match p, q with
  | [], [] => Some Eq
  | [], _ :: _ => Some Lt
  | _ :: _, [] => Some Gt
  | x :: p', y :: q' => match num_cmp x y with Some Eq => pos_cmp p' q' | o => o end
  end.

(* derive(PartialEq) of src/position.rs 9-12 *)
Fixpoint pos_eqb (p q : list S) : bool :=
  match p, q with
  | [], [] => true
  | x :: p', y :: q' => (Scalar.leb x y && Scalar.leb y x)%bool && pos_eqb p' q'
  | _, _ => false
  end.
End Order.
