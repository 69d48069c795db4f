(** The concrete list driven by the operations of [Spec_LinkedList.op]. *)
From Coq Require Import Sorted.
From Verif Require Import Base Model_LinkedList Spec_LinkedList.

Section R.
Context {A : Type}.

(** One user operation on the modelled [LinkedList]. *)
Definition step (l : llist A) (o : op A) : outcome (llist A * out A) :=
  match o with
  | OPush x => do l' <- push l x; Ok (l', RUnit)
  | ODel i =>
    let (l', r) := del l i in
    match r with
    | Ok _ => Ok (l', RDel true)
    | Err _ => Ok (l', RDel false)
    | Panic => Panic
    | Fuel => Fuel
    end
  | OConnectAll => do l' <- connect_all l; Ok (l', RUnit)
  | OIntoIter => Ok (into_iter l, RUnit)
  | ONext => do r <- enumerate l; Ok (fst r, RNext (snd r))
  | OIntoDouble => do l' <- into_double_iter l; Ok (l', RUnit)
  | ONextDouble => do r <- enumerate_double l; Ok (fst r, RPair (snd r))
  | OModify i f => do l' <- modify_content l i f; Ok (l', RUnit)
  end.

Fixpoint run (l : llist A) (os : list (op A)) : outcome (llist A * list (out A)) :=
  match os with
  | [] => Ok (l, [])
  | o :: r =>
    do q <- step l o;
    do q' <- run (fst q) r;
    Ok (fst q', snd q :: snd q')
  end.

(** What it means for the arrays to represent an abstract list; readable on its own:
    alive flags = membership, next/prev = neighbours in the live order, head/tail = ends,
    cursors are live indices. *)
Record represents (l : llist A) (s : spec A) : Prop := {
  rp_items : contents l = items s;
  rp_len : length (links l) = length (items s);
  rp_sorted : StronglySorted lt (live s);
  rp_range : forall i, In i (live s) -> i < length (items s);
  rp_alive : forall i n, nth_error (links l) i = Some n ->
               (alive n = true <-> In i (live s));
  rp_next : forall i n, nth_error (links l) i = Some n -> alive n = true ->
               next n = succ_in (live s) i;
  rp_prev : forall i n, nth_error (links l) i = Some n -> alive n = true ->
               prev n = pred_in (live s) i;
  rp_head : head l = first (live s);
  rp_tail : tail l = lastl (live s);
  rp_c0 : cur0 l = c0 s; rp_c1 : cur1 l = c1 s; rp_c2 : cur2 l = c2 s;
  rp_l0 : forall i, c0 s = Some i -> In i (live s);
  rp_l1 : forall i, c1 s = Some i -> In i (live s);
  rp_l2 : forall i, c2 s = Some i -> In i (live s) }.

(** Following [next] (or [prev]) links from [o]; [Fuel] if the chain is longer than [fuel]. *)
Fixpoint walk (dir : node -> option nat) (fuel : nat) (ls : list node) (o : option nat) : outcome (list nat) :=
  match fuel with
  | 0 => Fuel
  | S k =>
    match o with
    | None => Ok []
    | Some i => do n <- idx ls i; do r <- walk dir k ls (dir n); Ok (i :: r)
    end
  end.

(** A list value reachable through the public API. *)
Definition reachable (l : llist A) : Prop :=
  exists cs os l0 outs, ll_from cs = Ok l0 /\ run l0 os = Ok (l, outs).

(** The live indices of a list, read off its alive flags. *)
Definition live_of (l : llist A) : list nat :=
  filter (fun i => match nth_error (links l) i with Some n => alive n | None => false end)
         (seq 0 (length (links l))).

(** Stepping the double iterator [n] times while the callback [dec] decides, for each pair
    just returned, whether its second element is deleted (the coalescence loop);
    returns the pairs, the final list, the final callback state. *)
Fixpoint drun {St} (dec : St -> nat -> nat -> St * bool) (n : nat) (l : llist A) (st : St)
  : outcome (list (nat * nat) * llist A * St) :=
  match n with
  | 0 => Fuel
  | S n' =>
    do r <- indicies_double l;
    match snd r with
    | None => Ok ([], fst r, st)
    | Some (i, j) =>
      let (st1, b) := dec st i j in
      do l1 <- (if b then let (l1, o) := del (fst r) j in do _ <- o; Ok l1 else Ok (fst r));
      do q <- drun dec n' l1 st1;
      Ok ((i, j) :: fst (fst q), snd (fst q), snd q)
    end
  end.
(** Operations allowed while an iteration is running. *)
Definition iter_op (o : op A) : bool :=
  match o with OPush _ | ODel _ | ONext | OModify _ _ => true | _ => false end.

Definition visited (outs : list (out A)) : list nat :=
  flat_map (fun r => match r with RNext (Some (i, _)) => [i] | _ => [] end) outs.

(** Sum of the sizes of the live elements. *)
Definition total_size (size : A -> nat) (l : llist A) : nat :=
  list_sum (map (fun i => match nth_error (contents l) i with Some x => size x | None => 0 end) (live_of l)).

(** Sequences of successful merges of distinct elements into live ones. *)
Inductive merge_steps (size : A -> nat) (add_size : A -> nat -> A * outcome unit)
  : llist A -> llist A -> Prop :=
| ms_refl l : merge_steps size add_size l l
| ms_step l i j l1 l2 : i <> j -> In i (live_of l) ->
    ll_merge size add_size l i j = (l1, Ok tt) ->
    merge_steps size add_size l1 l2 -> merge_steps size add_size l l2.

(** The pairs that repeated calls of [indicies_double] return from [l] on, until the end is reported. *)
Inductive to_come : llist A -> list (nat * nat) -> Prop :=
| tc_end l : indicies_double l = Ok (l, None) -> to_come l []
| tc_next l l' i j ps : indicies_double l = Ok (l', Some (i, j)) -> to_come l' ps -> to_come l ((i, j) :: ps).

(** How many live indices lie strictly between [i] and [j]. *)
Definition between (l : llist A) (i j : nat) : nat :=
  length (filter (fun k => (i <? k) && (k <? j)) (live_of l)).

(** Deleting [x] is harmless for a double iteration about to return [(i, j)]: [x] is neither [i] (unless exactly one live element
    lies between [i] and [j]) nor, when [j] is the last live element, [j] (unless at most one lies between). *)
Definition harmless (l : llist A) (i j x : nat) : Prop :=
  (x = i -> between l i j = 1) /\
  (x = j -> (forall k, In k (live_of l) -> k <= j) -> between l i j <= 1).

(** A double iteration run to its end, with any number of harmless deletions and any changes of contents in between. *)
Inductive calm_run : llist A -> list (nat * nat) -> llist A -> Prop :=
| cr_end l : indicies_double l = Ok (l, None) -> calm_run l [] l
| cr_next l l1 i j ps l2 : indicies_double l = Ok (l1, Some (i, j)) -> calm_run l1 ps l2 -> calm_run l ((i, j) :: ps) l2
| cr_del l l1 x ps l2 : (forall i j qs, to_come l ((i, j) :: qs) -> harmless l i j x) ->
    del l x = (l1, Ok tt) -> calm_run l1 ps l2 -> calm_run l ps l2
| cr_modify l l1 k f ps l2 : modify_content l k f = Ok l1 -> calm_run l1 ps l2 -> calm_run l ps l2.

End R.

(** Lexicographic order on pairs. *)
Definition lexlt (p q : nat * nat) : Prop := fst p < fst q \/ (fst p = fst q /\ snd p < snd q).

(** The pair [p] does not involve [x]. *)
Definition without (x : nat) (p : nat * nat) : bool := negb (fst p =? x) && negb (snd p =? x).
