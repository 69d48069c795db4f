(** Properties C01-C07, C09 and the generic part of C08: the linked list.
    Statements use only [Model_LinkedList] (the code), [Spec_LinkedList] (the abstract list) and
    [Refine_LinkedList] (drivers).  Proofs are in [Proof_LinkedList*]. *)
From Coq Require Import Sorted.
From Verif Require Import Base Model_LinkedList Spec_LinkedList Refine_LinkedList Proof_LinkedList7 Proof_LinkedList6 Proof_LinkedList5 Proof_LinkedList3.

(** C01: any history of operations on the code = the same history on (contents, live indices). *)
Theorem C01_list_refines_live_sequence : forall (A : Type) (cs : list A) (os : list (op A)),
  exists l0, ll_from cs = Ok l0 /\
  match spec_run (spec_from cs) os with
  | Some (s, outs) => exists l, run l0 os = Ok (l, outs) /\ represents l s
  | None => run l0 os = Panic
  end.
Proof. exact @list_refines. Qed.
Print Assumptions C01_list_refines_live_sequence.

(** C01: in every reachable list head/next and tail/prev walk exactly the alive indices. *)
Theorem C01_chains_agree_with_alive_flags : forall (A : Type) (l : llist A), reachable l ->
  StronglySorted lt (live_of l) /\ (forall i, In i (live_of l) -> i < length (contents l)) /\
  length (links l) = length (contents l) /\
  walk next (S (length (live_of l))) (links l) (head l) = Ok (live_of l) /\
  walk prev (S (length (live_of l))) (links l) (tail l) = Ok (rev (live_of l)).
Proof. exact @chains. Qed.
Print Assumptions C01_chains_agree_with_alive_flags.

Theorem C01_push_appends : forall (A : Type) (l : llist A) (x : A), reachable l ->
  exists l', push l x = Ok l' /\ reachable l' /\
  contents l' = contents l ++ [x] /\ live_of l' = live_of l ++ [length (contents l)].
Proof. exact @push_total. Qed.
Print Assumptions C01_push_appends.

(** No history through the API panics, except direct out-of-range content access. *)
Theorem C01_no_panic : forall (A : Type) (os : list (op A)) (l : llist A), reachable l ->
  (forall i f, In (OModify i f) os -> i < length (contents l)) ->
  exists l' outs, run l os = Ok (l', outs).
Proof. exact @run_total. Qed.
Print Assumptions C01_no_panic.

(** C02: [del]. *)
Theorem C02_del_exact : forall (A : Type) (l : llist A) (i : nat), reachable l ->
  (In i (live_of l) -> exists l', del l i = (l', Ok tt) /\ contents l' = contents l /\
      live_of l' = filter (fun k => negb (k =? i)) (live_of l)) /\
  (~ In i (live_of l) -> del l i = (l, Err InvalidArgumentInput)).
Proof. exact @del_total. Qed.
Print Assumptions C02_del_exact.

(** C03: iteration interleaved with deletions, pushes and content updates. *)
Theorem C03_iteration_with_deletions : forall (A : Type) (l l' : llist A) os outs, reachable l ->
  forallb iter_op os = true -> run (into_iter l) os = Ok (l', outs) ->
  StronglySorted lt (visited outs) /\
  (forall i, In i (visited outs) -> i < length (contents l')) /\
  (In (RNext None) outs ->
   forall i, In i (live_of l) -> In i (live_of l') -> In i (visited outs)).
Proof. exact @single_iteration. Qed.
Print Assumptions C03_iteration_with_deletions.

Theorem C03_returned_element_is_live : forall (A : Type) (l l' : llist A) i x, reachable l ->
  step l ONext = Ok (l', RNext (Some (i, x))) ->
  In i (live_of l) /\ nth_error (contents l) i = Some x /\ live_of l' = live_of l /\ contents l' = contents l.
Proof. exact @next_live. Qed.
Print Assumptions C03_returned_element_is_live.

Theorem C03_plain_iteration : forall (A : Type) (l : llist A) (m : nat), reachable l -> exists l',
  run (into_iter l) (repeat ONext (length (live_of l) + m)) =
  Ok (l', map (fun i => RNext (option_map (pair i) (nth_error (contents l) i))) (live_of l)
          ++ repeat (RNext None) m).
Proof. exact @static_iteration. Qed.
Print Assumptions C03_plain_iteration.

(** C04: undisturbed double iteration returns exactly the ordered pairs, then None for ever. *)
Theorem C04_double_iteration_all_pairs : forall (A : Type) (l : llist A) (m : nat), reachable l -> exists l',
  run l (OIntoDouble :: repeat ONextDouble (length (pairs (live_of l)) + m)) =
  Ok (l', RUnit :: map (fun p => RPair (match nth_error (contents l) (fst p), nth_error (contents l) (snd p) with
                                        | Some x, Some y => Some (fst p, x, snd p, y)
                                        | _, _ => None end)) (pairs (live_of l))
          ++ repeat (RPair None) m).
Proof. exact @static_double. Qed.
Print Assumptions C04_double_iteration_all_pairs.

(** [pairs] is the set of pairs i before j. *)
Theorem C04_pairs_are_the_unordered_pairs : forall (l : list nat) i j, StronglySorted lt l ->
  (In (i, j) (pairs l) <-> In i l /\ In j l /\ i < j).
Proof. exact Proof_LinkedList4.pairs_spec. Qed.
Print Assumptions C04_pairs_are_the_unordered_pairs.

(** C05: deletion of the second element of the pair just returned, decided by any callback. *)
Theorem C05_coalescing_double_iteration : forall (A St : Type) (dec : St -> nat -> nat -> St * bool)
    (l : llist A) (st : St), reachable l ->
  exists l0 l' ps st', into_double_iter l = Ok l0 /\
    drun dec (S (length (pairs (live_of l)))) l0 st = Ok (ps, l', st') /\
    sweep (length (live_of l)) dec (live_of l) st = (ps, live_of l', st') /\
    contents l' = contents l /\
    StronglySorted lexlt ps /\
    (forall i j, In (i, j) ps -> In i (live_of l) /\ In j (live_of l) /\ i < j) /\
    (forall i j, In i (live_of l') -> In j (live_of l') -> i < j -> In (i, j) ps).
Proof. exact @coalesce. Qed.
Print Assumptions C05_coalescing_double_iteration.

Theorem C05_returned_pair_is_live : forall (A : Type) (l l' : llist A) i x j y, reachable l ->
  step l ONextDouble = Ok (l', RPair (Some (i, x, j, y))) ->
  In i (live_of l) /\ In j (live_of l) /\ nth_error (contents l) i = Some x /\ nth_error (contents l) j = Some y.
Proof. exact @pair_live. Qed.
Print Assumptions C05_returned_pair_is_live.

(** C06: a deletion during a double iteration about to return [(i, j)] is tolerated — what is still to come is what was to come,
    minus the pairs of the deleted element — exactly when it is [harmless]: the deleted element is not [i] (unless exactly one live
    element lies between [i] and [j]), and is not [j] as the last live element (unless at most one lies between). *)
Theorem C06_deletion_tolerated_iff : forall (A : Type) (l : llist A) i j ps x l',
  reachable l -> to_come l ((i, j) :: ps) -> i < j -> del l x = (l', Ok tt) ->
  (to_come l' (filter (without x) ((i, j) :: ps)) <-> harmless l i j x).
Proof. exact @deletion_tolerated_iff. Qed.
Print Assumptions C06_deletion_tolerated_iff.

(** C06: with only such deletions (any number, anywhere) and any changes of contents, the iteration returns every pair of elements that
    survive, in lexicographic order, without repetition, and only pairs of elements that were live at the start. *)
Theorem C06_calm_iteration_complete : forall (A : Type) (l l0 : llist A) ps l2,
  reachable l -> into_double_iter l = Ok l0 -> calm_run l0 ps l2 ->
  StronglySorted lexlt ps /\
  (forall i j, In (i, j) ps -> In i (live_of l) /\ In j (live_of l) /\ i < j) /\
  (forall i j, In i (live_of l2) -> In j (live_of l2) -> i < j -> In (i, j) ps).
Proof. exact @calm_iteration_complete. Qed.
Print Assumptions C06_calm_iteration_complete.

(** A calm run that deletes: from 0..4, after (0,1) element 3 goes (neither cursor waits on it), after (0,2) element 1 goes. *)
Example calm_run_met : exists (l l0 l2 : llist nat), ll_from [10; 11; 12; 13; 14] = Ok l /\ into_double_iter l = Ok l0 /\
  calm_run l0 [(0, 1); (0, 2); (0, 4); (2, 4)] l2 /\ live_of l2 = [0; 2; 4].
Proof.
  do 3 eexists. split; [vm_compute; reflexivity|]. split; [vm_compute; reflexivity|]. split.
  - eapply cr_next; [vm_compute; reflexivity|]. eapply cr_del.
    2:{ instantiate (2 := 3). vm_compute. reflexivity. }
    { intros i j qs T. inversion T as [|? ? ? ? ? E]; subst. vm_compute in E. injection E as <- <- <-.
      split; [discriminate|discriminate]. }
    eapply cr_next; [vm_compute; reflexivity|]. eapply cr_del.
    2:{ instantiate (2 := 1). vm_compute. reflexivity. }
    { intros i j qs T. inversion T as [|? ? ? ? ? E]; subst. vm_compute in E. injection E as <- <- <-.
      split; [discriminate|discriminate]. }
    eapply cr_next; [vm_compute; reflexivity|]. eapply cr_next; [vm_compute; reflexivity|]. apply cr_end. vm_compute. reflexivity.
  - vm_compute. reflexivity.
Qed.

(** The condition is sharp — first way to fail: deleting the element the second cursor waits on, when it is the last one, ends the
    iteration early.  Here 0..3 are live; after the pairs (0,1), (0,2) element 3 is deleted, the
    iterator reports the end, and the surviving pair (1,2) was never returned. *)
Theorem C06_deleting_last_of_row_ends : exists (l : llist nat) l',
  ll_from [10; 11; 12; 13] = Ok l /\
  run l [OIntoDouble; ONextDouble; ONextDouble; ODel 3; ONextDouble] =
   Ok (l', [RUnit; RPair (Some (0, 10, 1, 11)); RPair (Some (0, 10, 2, 12)); RDel true; RPair None]) /\
  live_of l' = [0; 1; 2].
Proof. do 2 eexists; repeat (split; [vm_compute; reflexivity|]); vm_compute; reflexivity. Qed.
Print Assumptions C06_deleting_last_of_row_ends.

(** Second way to fail: after the last pair of a row, deleting the element the first cursor
    waits on makes the iterator return an element paired with itself. *)
Theorem C06_deleting_first_cursor_self_pair : exists (l : llist nat) l',
  ll_from [10; 11; 12; 13] = Ok l /\
  run l [OIntoDouble; ONextDouble; ONextDouble; ONextDouble; ODel 1; ONextDouble] =
   Ok (l', [RUnit; RPair (Some (0, 10, 1, 11)); RPair (Some (0, 10, 2, 12)); RPair (Some (0, 10, 3, 13));
            RDel true; RPair (Some (2, 12, 2, 12))]).
Proof. do 2 eexists; repeat (split; [vm_compute; reflexivity|]); vm_compute; reflexivity. Qed.
Print Assumptions C06_deleting_first_cursor_self_pair.

(** C07: [connect_all] revives everything, link for link as [from] would build it. *)
Theorem C07_connect_all_restores : forall (A : Type) (l : llist A), reachable l -> exists l' l2,
  connect_all l = Ok l' /\ ll_from (contents l) = Ok l2 /\ contents l' = contents l /\
  live_of l' = seq 0 (length (contents l)) /\
  links l' = links l2 /\ head l' = head l2 /\ tail l' = tail l2.
Proof. exact @connect_all_total. Qed.
Print Assumptions C07_connect_all_restores.

(** C08, for any element type whose [add_size] succeeds and adds. *)
Theorem C08_merge_conserves_total : forall (A : Type) (size : A -> nat) add_size (l : llist A) i j, reachable l ->
  (forall x k, exists x', add_size x k = (x', Ok tt) /\ size x' = size x + k) ->
  In i (live_of l) -> In j (live_of l) -> i <> j ->
  exists l', ll_merge size add_size l i j = (l', Ok tt) /\
    live_of l' = remove_live j (live_of l) /\ total_size size l' = total_size size l /\
    (forall k, k <> i -> nth_error (contents l') k = nth_error (contents l) k).
Proof. exact @merge_conserves. Qed.
Print Assumptions C08_merge_conserves_total.

Theorem C08_any_merge_history_conserves_total : forall (A : Type) (size : A -> nat) add_size (l l' : llist A),
  reachable l ->
  (forall x k, exists x', add_size x k = (x', Ok tt) /\ size x' = size x + k) ->
  merge_steps size add_size l l' ->
  total_size size l' = total_size size l /\ (forall k, In k (live_of l') -> In k (live_of l)).
Proof. exact @merge_steps_conserve. Qed.
Print Assumptions C08_any_merge_history_conserves_total.

(** C09: [clear] on a list of positions ([clr] is [Position::clear]). *)
Theorem C09_clear_live_only : forall (A : Type) (clr : A -> A) (l : llist A) (fuel : nat), reachable l ->
  length (live_of l) < fuel ->
  exists l', ll_clear clr fuel l = Ok l' /\ links l' = links l /\ head l' = head l /\ tail l' = tail l /\
    length (contents l') = length (contents l) /\
    forall j, nth_error (contents l') j =
      if memb j (live_of l) then option_map clr (nth_error (contents l) j) else nth_error (contents l) j.
Proof. exact @clear_ref. Qed.
Print Assumptions C09_clear_live_only.

(** * The hypotheses are met by concrete lists *)
Definition demo_ops : list (op nat) := [OPush 7; OPush 8; ODel 1; OPush 9; ODel 0; ODel 0; OConnectAll; ODel 2].

(** Every list built from contents by operations is reachable ([reachable] says exactly that), so a demo is a
    closed run whose final contents and live indices are computed. *)
Example reachable_demo :
  (do l0 <- ll_from [5; 6]; do q <- run l0 demo_ops; Ok (contents (fst q), live_of (fst q), snd q)) =
  Ok ([5; 6; 7; 8; 9], [0; 1; 3; 4],
      [RUnit; RUnit; RDel true; RUnit; RDel true; RDel false; RUnit; RDel true]).
Proof. vm_compute. reflexivity. Qed.

(** Failing deletions occur: deleting index 0 twice, and an index out of range. *)
Example del_twice_demo :
  (do l0 <- ll_from [5; 6]; do q <- run l0 [ODel 0; ODel 0; ODel 9]; Ok (live_of (fst q), snd q)) =
  Ok ([1], [RDel true; RDel false; RDel false]).
Proof. vm_compute. reflexivity. Qed.

(** An iteration that reaches the end while elements are deleted under the cursor and behind it. *)
Example iteration_demo :
  (do l0 <- ll_from [5; 6; 7; 8];
   do q <- run (into_iter l0) [ONext; ODel 1; ODel 0; ONext; OPush 4; ONext; ONext; ONext];
   Ok (visited (snd q), live_of (A := nat) (fst q), last (snd q) RUnit)) =
  Ok ([0; 2; 3; 4], [2; 3; 4], RNext None).
Proof. vm_compute. reflexivity. Qed.

(** The coalescence of the crate's own test: delete the second index when it is a multiple of 3. *)
Example coalesce_demo :
  (do l0 <- ll_from [0; 1; 2; 3; 4]; do l1 <- into_double_iter l0;
   do q <- drun (fun (_ : unit) _ j => (tt, j mod 3 =? 0)) 12 l1 tt;
   Ok (fst (fst q), live_of (A := nat) (snd (fst q)))) =
  Ok ([(0, 1); (0, 2); (0, 3); (0, 4); (1, 2); (1, 4); (2, 4)], [0; 1; 2; 4]).
Proof. vm_compute. reflexivity. Qed.

(** A merge history over plain sizes. *)
Example merge_demo :
  (do l0 <- ll_from [1; 2; 3];
   let add := fun x k => (x + k, Ok tt) in
   let '(l1, r1) := ll_merge (fun x => x) add l0 0 2 in
   let '(l2, r2) := ll_merge (fun x => x) add l1 1 0 in
   Ok (total_size (fun x => x) l0, r1, total_size (fun x => x) l1, r2, total_size (fun x => x) l2, live_of l2)) =
  Ok (6, Ok tt, 6, Ok tt, 6, [1]).
Proof. vm_compute. reflexivity. Qed.

Example clear_demo :
  (do l0 <- ll_from [3; 4; 5]; do q <- run l0 [ODel 1];
   do l2 <- ll_clear (fun _ => 0) 10 (fst q); Ok (contents l2)) = Ok [0; 4; 0].
Proof. vm_compute. reflexivity. Qed.
