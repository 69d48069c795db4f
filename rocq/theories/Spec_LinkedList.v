(** Independent specification of the list: a content vector, the strictly
    increasing list of live indices, and three cursors that are indices. *)
From Verif Require Import Base.

Section S.
Context {A : Type}.

(** Smallest element of [live] greater than [i] ([live] is increasing). *)
Definition succ_in (live : list nat) (i : nat) : option nat :=
  find (fun j => i <? j) live.
(** Largest element of [live] smaller than [i]. *)
Definition pred_in (live : list nat) (i : nat) : option nat :=
  find (fun j => j <? i) (rev live).

Definition memb (i : nat) (live : list nat) : bool := existsb (Nat.eqb i) live.
Definition remove_live (i : nat) (live : list nat) : list nat :=
  filter (fun j => negb (j =? i)) live.
Definition first (live : list nat) : option nat := hd_error live.
Definition lastl (live : list nat) : option nat := hd_error (rev live).

Record spec := mkSpec {
  items : list A; live : list nat;
  c0 : option nat; c1 : option nat; c2 : option nat }.

(** The operations a user can perform and what is observed. *)
Inductive op : Type :=
| OPush (x : A) | ODel (i : nat) | OConnectAll
| OIntoIter | ONext | OIntoDouble | ONextDouble
| OModify (i : nat) (f : A -> A).

Inductive out : Type :=
| RUnit | RDel (ok : bool)
| RNext (r : option (nat * A))
| RPair (r : option (nat * A * nat * A)).

(** Cursor on a deleted element moves to the next live one. *)
Definition skip (live : list nat) (i : nat) (c : option nat) : option nat :=
  match c with Some j => if j =? i then succ_in live i else c | None => None end.

Definition obind {X Y} (o : option X) (f : X -> option Y) : option Y :=
  match o with Some x => f x | None => None end.

(** [None] = the program panics; only possible for direct out-of-range access. *)
Definition spec_step (s : spec) (o : op) : option (spec * out) :=
  match o with
  | OPush x =>
    Some (mkSpec (items s ++ [x]) (live s ++ [length (items s)]) (c0 s) (c1 s) (c2 s), RUnit)
  | ODel i =>
    if memb i (live s)
    then Some (mkSpec (items s) (remove_live i (live s))
                 (skip (live s) i (c0 s)) (skip (live s) i (c1 s)) (skip (live s) i (c2 s)), RDel true)
    else Some (s, RDel false)
  | OConnectAll =>
    Some (mkSpec (items s) (seq 0 (length (items s))) (c0 s) (c1 s) (c2 s), RUnit)
  | OIntoIter => Some (mkSpec (items s) (live s) (first (live s)) (c1 s) (c2 s), RUnit)
  | ONext =>
    match c0 s with
    | None => Some (s, RNext None)
    | Some i => obind (nth_error (items s) i) (fun x =>
        Some (mkSpec (items s) (live s) (succ_in (live s) i) (c1 s) (c2 s), RNext (Some (i, x))))
    end
  | OIntoDouble =>
    Some (mkSpec (items s) (live s) (first (live s))
            (obind (first (live s)) (succ_in (live s))) (c2 s), RUnit)
  | ONextDouble =>
    match c0 s, c1 s with
    | Some i, Some j =>
      obind (nth_error (items s) i) (fun x =>
      obind (nth_error (items s) j) (fun y =>
      let s' := match succ_in (live s) j with
                | Some j' => mkSpec (items s) (live s) (c0 s) (Some j') (c2 s)
                | None => mkSpec (items s) (live s) (succ_in (live s) i)
                            (obind (succ_in (live s) i) (succ_in (live s))) (c2 s)
                end in
      Some (s', RPair (Some (i, x, j, y)))))
    | _, _ => Some (s, RPair None)
    end
  | OModify i f =>
    obind (nth_error (items s) i) (fun x =>
      Some (mkSpec (replace_nth i (f x) (items s)) (live s) (c0 s) (c1 s) (c2 s), RUnit))
  end.

Fixpoint spec_run (s : spec) (os : list op) : option (spec * list out) :=
  match os with
  | [] => Some (s, [])
  | o :: r => obind (spec_step s o) (fun q =>
              obind (spec_run (fst q) r) (fun q' => Some (fst q', snd q :: snd q')))
  end.

(** Initial states: [from(contents)] ([new] is the empty case). *)
Definition spec_from (cs : list A) : spec :=
  mkSpec cs (seq 0 (length cs)) None None None.

(** All ordered pairs (earlier, later) of a list, lexicographically. *)
Fixpoint pairs (l : list nat) : list (nat * nat) :=
  match l with [] => [] | x :: r => map (pair x) r ++ pairs r end.

(** What a coalescence sweep over [l] should do: for each element [x] in turn, look at every
    later surviving element [j] once; [dec] (with its own state [st]) decides whether
    [j] is removed.  Returns the pairs looked at, the survivors and the final state. *)
Fixpoint scan {St} (dec : St -> nat -> nat -> St * bool) (x : nat) (r : list nat) (st : St)
  : list nat * St :=
  match r with
  | [] => ([], st)
  | j :: r' =>
    let (st1, b) := dec st x j in
    let (keep, st2) := scan dec x r' st1 in
    ((if b then keep else j :: keep), st2)
  end.

Fixpoint sweep {St} (n : nat) (dec : St -> nat -> nat -> St * bool) (l : list nat) (st : St)
  : list (nat * nat) * list nat * St :=
  match n with
  | 0 => ([], l, st)
  | S n' =>
    match l with
    | [] => ([], [], st)
    | x :: r =>
      let (keep, st1) := scan dec x r st in
      let '(ps, surv, st2) := sweep n' dec keep st1 in
      (map (pair x) r ++ ps, x :: surv, st2)
    end
  end.
End S.
Arguments spec A : clear implicits.
Arguments op A : clear implicits.
Arguments out A : clear implicits.
