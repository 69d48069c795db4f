(** C03, C04: all ways to advance an iteration; C09 for positions. *)
From Coq Require Import Sorted.
From Verif Require Import Base Scalar Model_LinkedList Spec_LinkedList Refine_LinkedList Proof_LinkedList Proof_LinkedList2 Proof_LinkedList5 Spec_Iter Proof_Iter Model_Position.

(** C03: any mixture [ws] of get, get_mut, enumerate, enumerate_mut and indicies after into_iter: the k-th call shows, in its own form,
    the k-th live element, and the calls after the last one show the end; what the caller writes through the reference of the k-th call
    lands in the k-th live element, and nothing else of the list changes. *)
Theorem C03_any_mix_of_advancing_calls : forall (A : Type) (l : llist A) (ws : list (way A)), reachable l ->
  exists l' outs, advance_all (into_iter l) ws = Ok (l', outs) /\
    links l' = links l /\ head l' = head l /\ tail l' = tail l /\
    length outs = length ws /\ length (contents l') = length (contents l) /\
    (forall k w, nth_error ws k = Some w -> nth_error outs k =
        Some (shows w (match nth_error (live_of l) k with Some i => at_index l i | None => None end))) /\
    (forall k i w, nth_error (live_of l) k = Some i -> nth_error ws k = Some w ->
        nth_error (contents l') i = option_map (writes w) (nth_error (contents l) i)) /\
    (forall j, ~ In j (firstn (length ws) (live_of l)) -> nth_error (contents l') j = nth_error (contents l) j).
Proof. exact @any_mix. Qed.
Print Assumptions C03_any_mix_of_advancing_calls.

(** In the middle of any history: one call, whatever its form, shows a live element, moves on to the next live one and writes that element only. *)
Theorem C03_one_call_any_form : forall (A : Type) (l : llist A) (w : way A), reachable l ->
  (exists i x l', In i (live_of l) /\ nth_error (contents l) i = Some x /\ advance l w = Ok (l', shows w (Some (i, x))) /\
     links l' = links l /\ cur0 l' = succ_in (live_of l) i /\ cur1 l' = cur1 l /\ contents l' = replace_nth i (writes w x) (contents l)) \/
  (cur0 l = None /\ advance l w = Ok (l, End)).
Proof.
  intros A l w HR. apply reachable_rep in HR as (s & R). rewrite (live_of_rep l s R). destruct (c0 s) as [i|] eqn:E; [left|right].
  - destruct (advance_some l s i w R E) as (x & l' & X & E1 & K1 & K2 & K3 & R'). exists i, x, l'.
    split; [exact (rp_l0 _ _ R i E)|]. rewrite (rp_items _ _ R). split; [exact X|]. split; [exact E1|]. split; [exact K1|].
    split; [exact (rp_c0 _ _ R')|]. split; [rewrite (rp_c1 _ _ R'), (rp_c1 _ _ R); reflexivity|exact (rp_items _ _ R')].
  - split; [rewrite (rp_c0 _ _ R); exact E|exact (advance_none l s w R E)].
Qed.
Print Assumptions C03_one_call_any_form.

(** C04: any mixture of get_double, enumerate_double and indicies_double after into_double_iter: the k-th call shows, in its own form, the
    k-th pair, and the calls after the last pair show the end. *)
Theorem C04_any_mix_of_advancing_calls : forall (A : Type) (l : llist A) (ws : list way2), reachable l ->
  exists l0 l' outs, into_double_iter l = Ok l0 /\ advance2_all l0 ws = Ok (l', outs) /\ length outs = length ws /\
    (forall k w, nth_error ws k = Some w -> nth_error outs k =
        Some (shows2 w (match nth_error (pairs (live_of l)) k with Some p => at_pair l p | None => None end))).
Proof. exact @any_mix2. Qed.
Print Assumptions C04_any_mix_of_advancing_calls.

(** At any moment of any history the three calls agree: same outcome, same list afterwards. *)
Theorem C04_one_call_any_form : forall (A : Type) (l l' : llist A) (w : way2) q, reachable l ->
  step l ONextDouble = Ok (l', RPair q) -> advance2 l w = Ok (l', shows2 w q).
Proof. exact @advance2_step. Qed.
Print Assumptions C04_one_call_any_form.

(** C09 for lists of positions of every scalar type: live entries become zero vectors of their own dimension. *)
Theorem C09_positions_zeroed : forall (S : scalar) (l : llist (pos S)) (fuel : nat), reachable l -> length (live_of l) < fuel ->
  exists l', ll_clear pos_clear fuel l = Ok l' /\ links l' = links l /\ head l' = head l /\ tail l' = tail l /\
    length (contents l') = length (contents l) /\
    forall j p, nth_error (contents l) j = Some p ->
      nth_error (contents l') j = Some (if memb j (live_of l) then repeat s0 (length p) else p).
Proof.
  intros S l fuel HR HF. destruct (clear_ref (@pos_clear S) l fuel HR HF) as (l' & E & K1 & K2 & K3 & K4 & K5).
  exists l'. do 5 (split; [assumption|]). intros j p Hp. rewrite K5, Hp. destruct (memb j (live_of l)); cbn [option_map]; [|reflexivity].
  f_equal. unfold pos_clear. clear. induction p as [|x p IH]; cbn; [reflexivity|]. f_equal. exact IH.
Qed.
Print Assumptions C09_positions_zeroed.

(** A list with a deleted element, advanced in all five ways and past its end, with two writes. *)
Example mix_demo : exists l l1 l', ll_from [10; 11; 12; 13; 14] = Ok l /\ del l 2 = (l1, Ok tt) /\ reachable l1 /\
  advance_all (into_iter l1) [ByGet; ByGetMut (Nat.add 100); ByIndicies; ByEnumerateMut (Nat.add 200); ByEnumerate; ByIndicies] =
    Ok (l', [Elem 10; Elem 11; Index 3; Both 4 14; End; End]) /\ contents l' = [10; 111; 12; 13; 214].
Proof.
  do 3 eexists. split; [vm_compute; reflexivity|]. split; [vm_compute; reflexivity|]. split.
  - exists [10; 11; 12; 13; 14], [ODel 2]. do 2 eexists. split; vm_compute; reflexivity.
  - split; vm_compute; reflexivity.
Qed.
Example mix2_demo : exists l l0 l', ll_from [10; 11; 12] = Ok l /\ into_double_iter l = Ok l0 /\
  advance2_all l0 [ByGet2; ByIndicies2; ByEnumerate2; ByGet2] = Ok (l', [Elems 10 11; Indices 0 2; Both2 1 11 2 12; End2]).
Proof. do 3 eexists. split; [vm_compute; reflexivity|]. split; vm_compute; reflexivity. Qed.
