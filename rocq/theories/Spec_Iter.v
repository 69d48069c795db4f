(** The five ways to advance a single iteration and the three ways to advance a double one,
    what each of them shows, and what it lets the caller write. *)
From Verif Require Import Base Model_LinkedList.

Section S.
Context {A : Type}.

(** [ByGetMut f]: the caller calls [get_mut] and writes [f] of the element through the reference. *)
Inductive way : Type :=
| ByGet | ByGetMut (f : A -> A) | ByEnumerate | ByEnumerateMut (f : A -> A) | ByIndicies.

(** What one call shows the caller. *)
Inductive seen : Type := Elem (x : A) | Both (i : nat) (x : A) | Index (i : nat) | End.

(** What a call should show when the next element is [x], at index [i] ([None]: the iteration is over). *)
Definition shows (w : way) (q : option (nat * A)) : seen :=
  match q with
  | None => End
  | Some (i, x) =>
    match w with
    | ByGet | ByGetMut _ => Elem x
    | ByEnumerate | ByEnumerateMut _ => Both i x
    | ByIndicies => Index i
    end
  end.

(** What it makes of the element shown. *)
Definition writes (w : way) (x : A) : A :=
  match w with ByGetMut f | ByEnumerateMut f => f x | _ => x end.

(** The calls of the program. *)
Definition advance (l : llist A) (w : way) : outcome (llist A * seen) :=
  match w with
  | ByGet => do r <- get l; Ok (fst r, match snd r with Some x => Elem x | None => End end)
  | ByGetMut f => do r <- get_mut l f; Ok (fst r, match snd r with Some x => Elem x | None => End end)
  | ByEnumerate => do r <- enumerate l; Ok (fst r, match snd r with Some (i, x) => Both i x | None => End end)
  | ByEnumerateMut f => do r <- enumerate_mut l f; Ok (fst r, match snd r with Some (i, x) => Both i x | None => End end)
  | ByIndicies => do r <- indicies l; Ok (fst r, match snd r with Some i => Index i | None => End end)
  end.

Fixpoint advance_all (l : llist A) (ws : list way) : outcome (llist A * list seen) :=
  match ws with
  | [] => Ok (l, [])
  | w :: r => do q <- advance l w; do q' <- advance_all (fst q) r; Ok (fst q', snd q :: snd q')
  end.

(** The double iteration. *)
Inductive way2 : Type := ByGet2 | ByEnumerate2 | ByIndicies2.
Inductive seen2 : Type := Elems (x y : A) | Both2 (i : nat) (x : A) (j : nat) (y : A) | Indices (i j : nat) | End2.

Definition shows2 (w : way2) (q : option (nat * A * nat * A)) : seen2 :=
  match q with
  | None => End2
  | Some (i, x, j, y) =>
    match w with ByGet2 => Elems x y | ByEnumerate2 => Both2 i x j y | ByIndicies2 => Indices i j end
  end.

Definition advance2 (l : llist A) (w : way2) : outcome (llist A * seen2) :=
  match w with
  | ByGet2 => do r <- get_double l; Ok (fst r, match snd r with Some (x, y) => Elems x y | None => End2 end)
  | ByEnumerate2 => do r <- enumerate_double l; Ok (fst r, match snd r with Some (i, x, j, y) => Both2 i x j y | None => End2 end)
  | ByIndicies2 => do r <- indicies_double l; Ok (fst r, match snd r with Some (i, j) => Indices i j | None => End2 end)
  end.

Fixpoint advance2_all (l : llist A) (ws : list way2) : outcome (llist A * list seen2) :=
  match ws with
  | [] => Ok (l, [])
  | w :: r => do q <- advance2 l w; do q' <- advance2_all (fst q) r; Ok (fst q', snd q :: snd q')
  end.

(** The element at index [i], with its index. *)
Definition at_index (l : llist A) (i : nat) : option (nat * A) := option_map (pair i) (nth_error (contents l) i).
Definition at_pair (l : llist A) (p : nat * nat) : option (nat * A * nat * A) :=
  match nth_error (contents l) (fst p), nth_error (contents l) (snd p) with
  | Some x, Some y => Some (fst p, x, snd p, y)
  | _, _ => None
  end.
End S.
Arguments way A : clear implicits.
Arguments seen A : clear implicits.
Arguments seen2 A : clear implicits.
