(** Model of src/iterator.rs: [Node] and [LinkedList<T>]. *)
From Verif Require Import Base.

(** [struct Node]. *)
(* src/iterator.rs 6-10 *)
Record node := mkNode { next : option nat; prev : option nat; alive : bool }.

(** [Node::new]. *)
(* src/iterator.rs 13-19 [new] *)
Definition node_new : node := mkNode None None true.

(** [Node::from(prev, next)]. *)
(* src/iterator.rs 21-27 [from] *)
Definition node_from (p n : option nat) : node := mkNode n p true.

(* assignment links[i].next = .. in src/iterator.rs 97-112 [push]; src/iterator.rs 115-140 [del] *)
Definition set_next (n : option nat) (x : node) := mkNode n (prev x) (alive x).
(* assignment links[i].prev = .. in src/iterator.rs 115-140 [del] *)
Definition set_prev (p : option nat) (x : node) := mkNode (next x) p (alive x).
(* assignment links[i].alive = .. in src/iterator.rs 115-140 [del]; src/iterator.rs 143-179 [connect_all] *)
Definition set_alive (b : bool) (x : node) := mkNode (next x) (prev x) b.

(** the loop [for idx in 1..=len-2]; [is] is the
    sequence of loop indices, [g] the node-local change for index [i]. *)
(* src/iterator.rs 29-46 [list_with_length]; src/iterator.rs 143-179 [connect_all] *)
Fixpoint for_links (is : list nat) (g : nat -> node -> node) (l : list node) : outcome (list node) :=
  match is with
  | [] => Ok l
  | i :: r => do l' <- upd i (g i) l; for_links r g l'
  end.

(** [Node::list_with_length(len)].  [1..=len-2] is empty for
    [len = 2] and is the index list [seq 1 (len-2)] otherwise. *)
(* src/iterator.rs 29-46 [list_with_length] *)
Definition list_with_length (len : nat) : outcome (list node) :=
  let v := repeat node_new len in
  match len with
  | 0 | 1 => Ok v
  | _ =>
    do v <- upd 0 (set_next (Some 1)) v;
    do v <- upd (len - 1) (set_prev (Some (len - 2))) v;
    for_links (seq 1 (len - 2))
      (fun i x => set_next (Some (i + 1)) (set_prev (Some (i - 1)) x)) v
  end.

Section LL.
Context {A : Type}.

(** [struct LinkedList<T>]; the array [current] of three
    cursors is split into three fields. *)
(* src/iterator.rs 51-57 *)
Record llist := mkLL {
  links : list node; contents : list A;
  head : option nat; tail : option nat;
  cur0 : option nat; cur1 : option nat; cur2 : option nat }.

(* assignment to a field of src/iterator.rs 51-57 *)
Definition with_links l v := mkLL v (contents l) (head l) (tail l) (cur0 l) (cur1 l) (cur2 l).
(* assignment to a field of src/iterator.rs 51-57 *)
Definition with_contents l v := mkLL (links l) v (head l) (tail l) (cur0 l) (cur1 l) (cur2 l).
(* assignment to a field of src/iterator.rs 51-57 *)
Definition with_head l v := mkLL (links l) (contents l) v (tail l) (cur0 l) (cur1 l) (cur2 l).
(* assignment to a field of src/iterator.rs 51-57 *)
Definition with_tail l v := mkLL (links l) (contents l) (head l) v (cur0 l) (cur1 l) (cur2 l).
(* assignment to a field of src/iterator.rs 51-57 *)
Definition with_cur0 l v := mkLL (links l) (contents l) (head l) (tail l) v (cur1 l) (cur2 l).
(* assignment to a field of src/iterator.rs 51-57 *)
Definition with_cur1 l v := mkLL (links l) (contents l) (head l) (tail l) (cur0 l) v (cur2 l).
(* assignment to a field of src/iterator.rs 51-57 *)
Definition with_cur l f :=
  mkLL (links l) (contents l) (head l) (tail l) (f (cur0 l)) (f (cur1 l)) (f (cur2 l)).

(** [LinkedList::new]. *)
(* src/iterator.rs 61-69 [new] *)
Definition ll_new : llist := mkLL [] [] None None None None None.

(** [LinkedList::from]. *)
(* src/iterator.rs 72-94 [from] *)
Definition ll_from (cs : list A) : outcome llist :=
  let len := length cs in
  do ls <- list_with_length len;
  Ok (match len with
      | 0 => mkLL ls cs None None None None None
      | _ => mkLL ls cs (Some 0) (Some (len - 1)) None None None
      end).

(** [push]. *)
(* src/iterator.rs 97-112 [push] *)
Definition push (l : llist) (x : A) : outcome llist :=
  let len := length (links l) in
  do l1 <-
    match tail l with
    | Some i =>
      do ls <- upd i (set_next (Some len)) (links l);
      Ok (with_tail (with_links l (ls ++ [node_from (Some i) None])) (Some len))
    | None =>
      Ok (with_links (with_tail (with_head l (Some len)) (Some len))
            (links l ++ [node_from None None]))
    end;
  Ok (with_contents l1 (contents l1 ++ [x])).

(** the cursor fix-up loop of [del]. *)
(* src/iterator.rs 115-140 [del] *)
Definition fix_cursor (i : nat) (nx : option nat) (c : option nat) : option nat :=
  match c with
  | Some j => if j =? i then nx else c
  | None => None
  end.

(** [del].  The first component is the list afterwards
    (the state when the function panics is irrelevant: the process dies). *)
(* src/iterator.rs 115-140 [del] *)
Definition del (l : llist) (i : nat) : llist * outcome unit :=
  match nth_error (links l) i with
  | None => (l, Err InvalidArgumentInput)
  | Some n0 =>
    if negb (alive n0) then (l, Err InvalidArgumentInput)
    else
      let res :=
        do ls <- upd i (set_alive false) (links l);
        let l := with_links l ls in
        do n <- idx (links l) i;
        let l := with_cur l (fix_cursor i (next n)) in
        do l <- match prev n with
                | Some p => do ls <- upd p (set_next (next n)) (links l); Ok (with_links l ls)
                | None => Ok (with_head l (next n))
                end;
        match next n with
        | Some q => do ls <- upd q (set_prev (prev n)) (links l); Ok (with_links l ls)
        | None => Ok (with_tail l (prev n))
        end in
      match res with
      | Ok l' => (l', Ok tt)
      | Err e => (l, Err e)
      | Panic => (l, Panic)
      | Fuel => (l, Fuel)
      end
  end.

(** [connect_all] (always [Ok(())] unless it panics). *)
(* src/iterator.rs 143-179 [connect_all] *)
Definition connect_all (l : llist) : outcome llist :=
  let len := length (contents l) in
  match len with
  | 0 => Ok (with_tail (with_head l None) None)
  | 1 =>
    do ls <- upd 0 (fun _ => mkNode None None true) (links l);
    Ok (with_links (with_tail (with_head l (Some 0)) (Some 0)) ls)
  | _ =>
    do ls <- upd 0 (fun _ => mkNode (Some 1) None true) (links l);
    do ls <- upd (len - 1) (fun _ => mkNode None (Some (len - 2)) true) ls;
    do ls <- for_links (seq 1 (len - 2))
               (fun i _ => mkNode (Some (i + 1)) (Some (i - 1)) true) ls;
    Ok (with_links (with_tail (with_head l (Some 0)) (Some (len - 1))) ls)
  end.

(** [into_iter]. *)
(* src/iterator.rs 182-184 [into_iter] *)
Definition into_iter (l : llist) : llist := with_cur0 l (head l).

(** [Option<usize>] -> [links[x].next], as in [map_or(None, |x| self.links[x].next)]. *)
(* the expression map_or(None, |x| self.links[x].next) in src/iterator.rs 186-189 [into_double_iter]; src/iterator.rs 247-267 [get_double] *)
Definition next_of (l : llist) (o : option nat) : outcome (option nat) :=
  match o with
  | None => Ok None
  | Some x => do n <- idx (links l) x; Ok (next n)
  end.

(** [into_double_iter]. *)
(* src/iterator.rs 186-189 [into_double_iter] *)
Definition into_double_iter (l : llist) : outcome llist :=
  do c1 <- next_of l (head l);
  Ok (with_cur1 (with_cur0 l (head l)) c1).

(** [enumerate]. *)
(* src/iterator.rs 214-222 [enumerate] *)
Definition enumerate (l : llist) : outcome (llist * option (nat * A)) :=
  match cur0 l with
  | None => Ok (l, None)
  | Some i =>
    do n <- idx (links l) i;
    let l' := with_cur0 l (next n) in
    do x <- idx (contents l') i;
    Ok (l', Some (i, x))
  end.

(** [get]. *)
(* src/iterator.rs 192-200 [get] *)
Definition get (l : llist) : outcome (llist * option A) :=
  match cur0 l with
  | None => Ok (l, None)
  | Some i =>
    do n <- idx (links l) i;
    let l' := with_cur0 l (next n) in
    do x <- idx (contents l') i;
    Ok (l', Some x)
  end.

(** [get_mut]: [f] is what the caller does to the element through the reference returned;
    the value reported is the element as it was when the reference was handed out. *)
(* src/iterator.rs 203-211 [get_mut] *)
Definition get_mut (l : llist) (f : A -> A) : outcome (llist * option A) :=
  match cur0 l with
  | None => Ok (l, None)
  | Some i =>
    do n <- idx (links l) i;
    let l' := with_cur0 l (next n) in
    do x <- idx (contents l') i;
    do cs <- upd i f (contents l');
    Ok (with_contents l' cs, Some x)
  end.

(** [indicies]; reads no content. *)
(* src/iterator.rs 236-244 [indicies] *)
Definition indicies (l : llist) : outcome (llist * option nat) :=
  match cur0 l with
  | None => Ok (l, None)
  | Some i =>
    do n <- idx (links l) i;
    Ok (with_cur0 l (next n), Some i)
  end.

(** [enumerate_mut]: [f] is what the caller does to the element through the reference returned. *)
(* src/iterator.rs 225-233 [enumerate_mut] *)
Definition enumerate_mut (l : llist) (f : A -> A) : outcome (llist * option (nat * A)) :=
  match cur0 l with
  | None => Ok (l, None)
  | Some i =>
    do n <- idx (links l) i;
    let l' := with_cur0 l (next n) in
    do x <- idx (contents l') i;
    do cs <- upd i f (contents l');
    Ok (with_contents l' cs, Some (i, x))
  end.

(** [indicies_double]. *)
(* src/iterator.rs 292-311 [indicies_double] *)
Definition indicies_double (l : llist) : outcome (llist * option (nat * nat)) :=
  match cur0 l with
  | None => Ok (l, None)
  | Some i1 =>
    match cur1 l with
    | None => Ok (l, None)
    | Some i2 =>
      match tail l with
      | None => Panic   (* self.tail.unwrap() *)
      | Some t =>
        if i2 =? t then
          do n1 <- idx (links l) i1;
          do c1 <- next_of l (next n1);
          Ok (with_cur1 (with_cur0 l (next n1)) c1, Some (i1, i2))
        else
          do n2 <- idx (links l) i2;
          Ok (with_cur1 l (next n2), Some (i1, i2))
      end
    end
  end.

(** [enumerate_double]: moves the cursors by the same code as [indicies_double], then reads both contents. *)
(* src/iterator.rs 270-289 [enumerate_double] *)
Definition enumerate_double (l : llist) : outcome (llist * option (nat * A * nat * A)) :=
  do r <- indicies_double l;
  match snd r with
  | None => Ok (fst r, None)
  | Some (i1, i2) =>
    do x <- idx (contents (fst r)) i1;
    do y <- idx (contents (fst r)) i2;
    Ok (fst r, Some (i1, x, i2, y))
  end.

(** [get_double]. *)
(* src/iterator.rs 247-267 [get_double] *)
Definition get_double (l : llist) : outcome (llist * option (A * A)) :=
  match cur0 l with
  | None => Ok (l, None)
  | Some i1 =>
    match cur1 l with
    | None => Ok (l, None)
    | Some i2 =>
      match tail l with
      | None => Panic   (* self.tail.unwrap() *)
      | Some t =>
        do l' <- (if i2 =? t then
                    do n1 <- idx (links l) i1;
                    do c1 <- next_of l (next n1);
                    Ok (with_cur1 (with_cur0 l (next n1)) c1)
                  else
                    do n2 <- idx (links l) i2;
                    Ok (with_cur1 l (next n2)));
        do x <- idx (contents l') i1;
        do y <- idx (contents l') i2;
        Ok (l', Some (x, y))
      end
    end
  end.

(** Direct mutable access [self.contents[i]] by the caller (the field is public and is
    used by the simulation loops, e.g. tests/merge_fpt.rs). *)
(* write access to the public field contents of src/iterator.rs 51-57 *)
Definition modify_content (l : llist) (i : nat) (f : A -> A) : outcome llist :=
  do cs <- upd i f (contents l); Ok (with_contents l cs).

(** [LinkedList<M : Merge>::merge]; the trait methods
    [size] and [add_size] (which mutates even when it returns [Err]) are parameters. *)
(* src/iterator.rs 316-321 [merge] *)
Definition ll_merge (size : A -> nat) (add_size : A -> nat -> A * outcome unit)
    (l : llist) (i1 i2 : nat) : llist * outcome unit :=
  match nth_error (contents l) i2 with
  | None => (l, Panic)
  | Some x2 =>
    match nth_error (contents l) i1 with
    | None => (l, Panic)
    | Some x1 =>
      let (x1', r) := add_size x1 (size x2) in
      let l1 := with_contents l (replace_nth i1 x1' (contents l)) in
      match r with
      | Ok _ => del l1 i2
      | Err e => (l1, Err e)
      | Panic => (l1, Panic)
      | Fuel => (l1, Fuel)
      end
    end
  end.

(** [LinkedList<Position<T>>::clear]; [clr] is
    [Position::clear].  The [while let] loop runs on fuel. *)
(* src/iterator.rs 327-332 [clear] *)
Fixpoint clear_loop (clr : A -> A) (fuel : nat) (l : llist) : outcome llist :=
  match fuel with
  | 0 => Fuel
  | S k =>
    do r <- enumerate_mut l clr;
    match snd r with
    | None => Ok (fst r)
    | Some _ => clear_loop clr k (fst r)
    end
  end.

(* src/iterator.rs 327-332 [clear] *)
Definition ll_clear (clr : A -> A) (fuel : nat) (l : llist) : outcome llist :=
  clear_loop clr fuel (into_iter l).
End LL.
Arguments llist A : clear implicits.
