(** The pair pass of the merging simulations. *)
From Coq Require Import Sorted List Lia Arith ZArith.
From Verif Require Import Base Scalar Model_Position Spec_Position Proof_Position Model_System Model_Agent Spec_Agent
  Model_LinkedList Spec_LinkedList Refine_LinkedList Proof_LinkedList Proof_LinkedList2 Proof_LinkedList3
  Proof_LinkedList4 Proof_LinkedList5 Proof_LinkedList6 Proof_Run Model_Run Spec_Run Proof_Run2.
Import ListNotations.
Local Open Scope nat_scope.

Section Pair.
Context {S : scalar}.
Variable radius : merger S -> S.
Hypothesis radius_of : forall a b, mg_radius a = mg_radius b -> radius a = radius b.
Notation cont := (list (merger S)).
Implicit Types (l : llist (merger S)) (cs : cont).

Definition closeb (a b : merger S) : bool := match distance (mg_pos a) (mg_pos b) with Ok d => ltb d (mul s2 (radius a)) | _ => false end.
Definition merge_dec cs (i j : nat) : cont * bool :=
  match nth_error cs i, nth_error cs j with
  | Some a, Some b => if closeb a b then (replace_nth i (fst (merger_add_size a (merger_size b))) cs, true) else (cs, false)
  | _, _ => (cs, false)
  end.

Variable n : nat.
Variable P : merger S -> Prop.
Hypothesis P_fit : forall a, P a -> brownian_in n a.
Hypothesis P_grow : forall a b, P a -> P b -> P (fst (merger_add_size a (merger_size b))).

Lemma grow_ok (a : merger S) k : brownian_in n a -> exists a' : merger S, merger_add_size a k = (a', Ok tt) /\ mg_size a' = mg_size a + k /\ mg_pos a' = mg_pos a /\ mg_radius a' = mg_radius a /\ mg_alpha a' = mg_alpha a.
Proof.
  intros (_ & _ & c & E). unfold merger_add_size, recoeff. destruct a; cbn in *. rewrite E. cbn. eexists. split; [reflexivity|]. cbn. auto.
Qed.

Lemma forall_nth cs i a : Forall P cs -> nth_error cs i = Some a -> P a.
Proof. intros H E. apply (proj1 (Forall_forall P cs) H), (nth_error_In _ _ E). Qed.
Lemma forall_replace cs i a : Forall P cs -> P a -> Forall P (replace_nth i a cs).
Proof.
  intros H Pa. apply Forall_forall. intros x Hx. apply In_nth_error in Hx as (j & Hj). rewrite nth_replace in Hj.
  destruct ((j =? i) && (j <? length cs)); [injection Hj as <-; exact Pa|exact (forall_nth cs j x H Hj)].
Qed.
Lemma dec_P cs i j : Forall P cs -> Forall P (fst (merge_dec cs i j)) /\ length (fst (merge_dec cs i j)) = length cs.
Proof.
  intros H. unfold merge_dec. destruct (nth_error cs i) as [a|] eqn:Ea; [|auto]. destruct (nth_error cs j) as [b|] eqn:Eb; [|auto].
  destruct (closeb a b); [|auto]. cbn [fst]. split; [|apply replace_length]. apply forall_replace; auto.
  apply P_grow; eapply forall_nth; eauto.
Qed.

Lemma pair_loop_drun fuel : forall l cs ps l' cs', reachable l -> length cs = length (contents l) -> Forall P cs ->
  drun merge_dec fuel l cs = Ok (ps, l', cs') -> pair_loop radius fuel (with_contents l cs) = (with_contents l' cs', Ok tt).
Proof.
  induction fuel as [|fuel IH]; intros l cs ps l' cs' HR HL HP E; [discriminate|]. cbn [drun] in E. cbn [pair_loop].
  unfold enumerate_double. rewrite indicies_double_blind. unfold lift.
  destruct (indicies_double l) as [(l1, q)| | |] eqn:Ei; try discriminate. cbn [bind fst snd] in E |- *.
  destruct q as [(i, j)|]; [|injection E as _ <- <-; reflexivity]. cbn [contents with_contents].
  destruct (reachable_rep l HR) as (s & R). pose proof (indicies_double_ref l s R) as ID.
  destruct (c0 s) as [i0|] eqn:C0; [|rewrite Ei in ID; discriminate]. destruct (c1 s) as [j0|] eqn:C1; [|rewrite Ei in ID; discriminate].
  destruct ID as (l1' & Ei' & R1 & Hc1). rewrite Ei in Ei'. injection Ei' as <- <- <-.
  assert (Hi : i < length cs) by (rewrite HL, (rp_items _ _ R); apply (rp_range _ _ R), (rp_l0 _ _ R _ C0)).
  assert (Hj : j < length cs) by (rewrite HL, (rp_items _ _ R); apply (rp_range _ _ R), (rp_l1 _ _ R _ C1)).
  unfold idx. destruct (nth_error cs i) as [a|] eqn:Ea; [|apply nth_error_None in Ea; lia].
  destruct (nth_error cs j) as [b|] eqn:Eb; [|apply nth_error_None in Eb; lia]. cbn [bind].
  pose proof (forall_nth cs i a HP Ea) as Pa. pose proof (forall_nth cs j b HP Eb) as Pb.
  assert (exists d, distance (mg_pos a) (mg_pos b) = Ok d) as (d & Ed).
  { apply (proj2 (distance_cases (mg_pos a) (mg_pos b))). destruct (P_fit a Pa) as (_ & -> & _). destruct (P_fit b Pb) as (_ & -> & _). reflexivity. }
  rewrite Ed. pose proof (dec_P cs i j HP) as (DP & DL). 
  assert (Q : merge_dec cs i j = if ltb d (mul s2 (radius a)) then (replace_nth i (fst (merger_add_size a (merger_size b))) cs, true) else (cs, false))
    by (unfold merge_dec; rewrite Ea, Eb; unfold closeb; rewrite Ed; reflexivity).
  rewrite Q in E, DP, DL.
  assert (HR1 : reachable l1) by (apply (reachable_indicies_double l l1 _ HR Ei)).
  destruct (ltb d (mul s2 (radius a))) eqn:Lt.
  - unfold ll_merge. cbn [contents with_contents]. rewrite Ea, Eb.
    destruct (grow_ok a (merger_size b) (P_fit a Pa)) as (a' & Eg & _). rewrite Eg in E, DP, DL |- *. cbn [fst] in E, DP, DL.
    change (with_contents (with_contents l1 cs) (replace_nth i a' cs)) with (with_contents l1 (replace_nth i a' cs)).
    rewrite del_blind. destruct (del l1 j) as (l2, o) eqn:Edl. cbn [fst snd]. destruct o as [[]| | |]; try discriminate. cbn [bind] in E.
    destruct (drun merge_dec fuel l2 (replace_nth i a' cs)) as [((ps', l''), cs'')| | |] eqn:Er; try discriminate. cbn in E. injection E as _ <- <-.
    apply (IH _ _ ps'); auto.
    + exact (reachable_del l1 j l2 HR1 Edl).
    + assert (contents l2 = contents l1) as -> by (destruct (del_total l1 j HR1) as (D1 & D2); destruct (in_dec Nat.eq_dec j (live_of l1)) as [K|K];
        [destruct (D1 K) as (l3 & E3 & C3 & _); rewrite Edl in E3; injection E3 as <-; exact C3|rewrite (D2 K) in Edl; discriminate]).
      rewrite Hc1. congruence.
  - cbn [bind] in E. destruct (drun merge_dec fuel l1 cs) as [((ps', l''), cs'')| | |] eqn:Er; try discriminate. cbn in E. injection E as _ <- <-.
    apply (IH _ _ ps'); auto. congruence.
Qed.

Lemma pair_loop_reach fuel : forall l l' r, reachable l -> pair_loop radius fuel l = (l', r) -> r = Ok tt -> reachable l'.
Proof.
  induction fuel as [|fuel IH]; intros l l' r HR E Hr; cbn [pair_loop] in E; [injection E as <- <-; exact HR|].
  destruct (enumerate_double l) as [(l1, q)| | |] eqn:En; try (injection E as <- <-; discriminate).
  assert (H1 : reachable l1) by (apply (reachable_step l ONextDouble l1 (RPair q) HR); cbn; now rewrite En).
  destruct q as [(((i, a), j), b)|]; [|injection E as <- _; exact H1].
  destruct (distance _ _) as [d| | |]; try (injection E as <- <-; discriminate).
  destruct (ltb d _); [|exact (IH _ _ _ H1 E Hr)].
  destruct (ll_merge merger_size merger_add_size l1 i j) as (l2, [[]| | |]) eqn:Em; try (injection E as <- <-; discriminate).
  exact (IH _ _ _ (reachable_merge _ _ _ _ _ _ H1 Em) E Hr).
Qed.

(** ** Sizes *)
Definition sz cs k : nat := match nth_error cs k with Some x => merger_size x | None => 0 end.
Definition tot cs (L : list nat) : nat := list_sum (map (sz cs) L).
Lemma tot_ext cs cs' L : (forall k, In k L -> nth_error cs' k = nth_error cs k) -> tot cs' L = tot cs L.
Proof. intros H. unfold tot. f_equal. apply map_ext_in. intros k Hk. unfold sz. now rewrite (H k Hk). Qed.

Lemma dec_facts cs i j : Forall P cs -> i < length cs -> j < length cs -> i <> j ->
  let cs1 := fst (merge_dec cs i j) in
  (forall k, k <> i -> nth_error cs1 k = nth_error cs k) /\ sz cs1 i = sz cs i + (if snd (merge_dec cs i j) then sz cs j else 0).
Proof.
  intros HP Hi Hj N. unfold merge_dec, sz. destruct (nth_error cs i) as [a|] eqn:Ea; [|apply nth_error_None in Ea; lia].
  destruct (nth_error cs j) as [b|] eqn:Eb; [|apply nth_error_None in Eb; lia]. destruct (closeb a b); cbn [fst snd].
  - split.
    + intros k Hk. rewrite nth_replace. destruct (Nat.eqb_spec k i); [contradiction|reflexivity].
    + rewrite nth_replace, Nat.eqb_refl. destruct (Nat.ltb_spec i (length cs)); [|lia]. cbn [andb].
      destruct (grow_ok a (merger_size b) (P_fit a (forall_nth cs i a HP Ea))) as (a' & E & Sz & _). rewrite E. exact Sz.
  - split; [auto|]. rewrite Ea. lia.
Qed.

Lemma scan_tot x r : forall cs, Forall P cs -> x < length cs -> (forall k, In k r -> k < length cs) -> ~ In x r -> NoDup r ->
  let q := scan merge_dec x r cs in
  tot (snd q) (x :: fst q) = tot cs (x :: r) /\ Forall P (snd q) /\ length (snd q) = length cs /\ (forall k, k <> x -> nth_error (snd q) k = nth_error cs k).
Proof.
  induction r as [|j r IH]; intros cs HP Hx Hr Nx ND; [cbn; auto|]. cbn [scan]. apply NoDup_cons_iff in ND as (Nj & ND).
  assert (Hj : j < length cs) by (apply Hr; now left). assert (Nxj : x <> j) by (intros ->; apply Nx; now left).
  destruct (dec_P cs x j HP) as (D1 & D2). destruct (dec_facts cs x j HP Hx Hj Nxj) as (D3 & D4).
  destruct (merge_dec cs x j) as (cs1, b). cbn [fst snd] in *.
  destruct (IH cs1 D1) as (I1 & I2 & I3 & I4); [lia|intros k Hk; rewrite D2; apply Hr; now right|intros K; apply Nx; now right|exact ND|].
  assert (T : tot cs1 r = tot cs r) by (apply tot_ext; intros k Hk; apply D3; intros ->; apply Nx; now right).
  pose proof (scan_incl merge_dec x r cs1) as Inc.
  destruct (scan merge_dec x r cs1) as (keep, cs2) eqn:Es. cbn [fst snd] in *.
  assert (Sj : sz cs2 j = sz cs j) by (unfold sz; rewrite I4, D3 by auto; reflexivity).
  split; [|split; [exact I2|split; [lia|intros k Hk; rewrite I4 by exact Hk; apply D3; exact Hk]]].
  unfold tot in *. cbn [map list_sum fold_right] in I1 |- *. change (fold_right plus 0) with list_sum in *.
  destruct b; cbn [map list_sum fold_right fst snd] in *; change (fold_right plus 0) with list_sum in *; lia.
Qed.

Lemma sweep_tot m : forall L cs ps surv cs', sweep m merge_dec L cs = (ps, surv, cs') -> Forall P cs -> (forall k, In k L -> k < length cs) -> NoDup L ->
  tot cs' surv = tot cs L /\ Forall P cs' /\ length cs' = length cs /\ (forall k, ~ In k L -> nth_error cs' k = nth_error cs k).
Proof.
  induction m as [|m IH]; intros L cs ps surv cs' E HP HL ND; cbn [sweep] in E; [injection E as <- <- <-; auto|].
  destruct L as [|x r]; [injection E as <- <- <-; auto|]. apply NoDup_cons_iff in ND as (Nx & ND).
  destruct (scan_tot x r cs HP (HL x (or_introl eq_refl)) (fun k Hk => HL k (or_intror Hk)) Nx ND) as (I1 & I2 & I3 & I4).
  pose proof (scan_incl merge_dec x r cs) as Inc.
  assert (NDk : NoDup (fst (scan merge_dec x r cs))).
  { clear -ND. revert cs ND. induction r as [|j r IH]; intros cs ND; [constructor|]. cbn [scan]. apply NoDup_cons_iff in ND as (Nj & ND).
    destruct (merge_dec cs x j) as (c1, b). specialize (IH c1 ND). pose proof (scan_incl merge_dec x r c1 j) as Inc.
    destruct (scan merge_dec x r c1) as (k, c2). cbn [fst] in *. destruct b; [exact IH|]. constructor; auto. }
  destruct (scan merge_dec x r cs) as (keep, cs1) eqn:Es. cbn [fst snd] in *.
  destruct (sweep m merge_dec keep cs1) as ((ps', surv'), cs2) eqn:Ew. injection E as <- <- <-.
  destruct (IH _ _ _ _ _ Ew I2) as (J1 & J2 & J3 & J4); [intros k Hk; rewrite I3; apply HL; right; apply Inc, Hk|exact NDk|].
  assert (Nk : ~ In x keep) by (intros K; apply Nx, (Inc x K)).
  split; [|split; [exact J2|split; [lia|]]].
  - unfold tot in *. cbn [map list_sum fold_right] in *. change (fold_right plus 0) with list_sum in *.
    assert (sz cs2 x = sz cs1 x) by (unfold sz; now rewrite (J4 x Nk)). lia.
  - intros k Hk. rewrite J4 by (intros K; apply Hk; right; apply Inc, K). apply I4. intros ->. apply Hk. now left.
Qed.

(** ** Positions do not change *)
Definition same_place cs0 cs : Prop := forall k, option_map (fun a => (mg_pos a, mg_radius a)) (nth_error cs k) = option_map (fun a => (mg_pos a, mg_radius a)) (nth_error cs0 k).
Definition close_at cs0 (i j : nat) : bool := match nth_error cs0 i, nth_error cs0 j with Some a, Some b => closeb a b | _, _ => false end.
Lemma dec_place cs0 cs i j : (Forall P cs /\ same_place cs0 cs) ->
  snd (merge_dec cs i j) = close_at cs0 i j /\ (Forall P (fst (merge_dec cs i j)) /\ same_place cs0 (fst (merge_dec cs i j))).
Proof.
  intros (HP & H). pose proof (dec_P cs i j HP) as (DP & _). pose proof (H i) as Hi. pose proof (H j) as Hj. revert DP. unfold merge_dec, close_at.
  destruct (nth_error cs i) as [a|] eqn:Ea; destruct (nth_error cs0 i) as [a0|]; try discriminate; [|auto].
  destruct (nth_error cs j) as [b|] eqn:Eb; destruct (nth_error cs0 j) as [b0|]; try discriminate; [|auto].
  cbn in Hi, Hj. injection Hi as Hi1 Hi2. injection Hj as Hj1 Hj2.
  assert (C : closeb a b = closeb a0 b0) by (unfold closeb; rewrite Hi1, Hj1, (radius_of a a0 Hi2); reflexivity). rewrite <- C.
  destruct (closeb a b); cbn [fst snd]; intros DP; [|auto]. split; [reflexivity|]. split; [exact DP|]. intros k. rewrite nth_replace.
  destruct (Nat.eqb_spec k i) as [->|]; cbn [andb]; [|apply H]. destruct (Nat.ltb_spec i (length cs)); [|apply H].
  rewrite <- (H i), Ea. destruct (grow_ok a (merger_size b) (P_fit a (forall_nth cs i a HP Ea))) as (a' & E & _ & Ep & Er & _). rewrite E. cbn. now rewrite Ep, Er.
Qed.

Lemma pair_pass_ok l : reachable l -> Forall P (contents l) ->
  exists l', pair_pass radius l = (l', Ok tt) /\ reachable l' /\ Forall P (contents l') /\ length (contents l') = length (contents l) /\
    (forall i a, nth_error (contents l) i = Some a -> exists b, nth_error (contents l') i = Some b /\ mg_pos b = mg_pos a /\ mg_radius b = mg_radius a) /\
    total_size merger_size l' = total_size merger_size l /\
    (forall i, In i (live_of l') -> In i (live_of l)) /\
    (forall i, ~ In i (live_of l) -> nth_error (contents l') i = nth_error (contents l) i) /\
    (forall i j a b, live_at l' i a -> live_at l' j b -> i < j -> closeb a b = false) /\
    (forall j, In j (live_of l) -> ~ In j (live_of l') -> exists i a b, live_at l' i a /\ nth_error (contents l') j = Some b /\ closeb a b = true).
Proof.
  intros HR HP. destruct (chains l HR) as (CS & CR & _).
  destruct (sweep (length (live_of l)) merge_dec (live_of l) (contents l)) as ((ps, surv), cs') eqn:Ew.
  assert (Lp : length ps < Datatypes.S (length (contents l) * length (contents l))).
  { pose proof (sweep_len_pairs _ _ _ _ _ _ _ Ew) as L1. pose proof (pairs_length_sq (live_of l)) as L2.
    assert (L3 : length (live_of l) <= length (contents l)).
    { rewrite <- (seq_length (length (contents l)) 0). apply NoDup_incl_length; [apply sorted_NoDup, CS|]. intros i Hi. apply in_seq. specialize (CR i Hi). lia. }
    nia. }
  destruct (drun_sweep merge_dec l (contents l) ps surv cs' _ HR Ew Lp) as (l0 & l1 & E0 & E1 & E2 & E3).
  assert (C0 : contents l0 = contents l). { unfold into_double_iter in E0. destruct (next_of l (head l)); [|discriminate..]. injection E0 as <-. reflexivity. }
  pose proof (pair_loop_drun _ _ _ _ _ _ (reachable_into_double l l0 HR E0) (eq_sym (f_equal (@length _) C0)) HP E1) as Lo.
  rewrite <- C0, with_contents_id in Lo. exists (with_contents l1 cs').
  destruct (sweep_tot _ _ _ _ _ _ Ew HP CR (sorted_NoDup _ CS)) as (T1 & T2 & T3 & T4).
  destruct (sweep_close merge_dec (close_at (contents l)) _ (fun st i j H => dec_place (contents l) st i j H) _ (live_of l) (contents l) (le_n _) (conj HP (fun k => eq_refl))) as (S1 & _ & S2).
  rewrite Ew in S1, S2. cbn [fst snd] in S1, S2.
  assert (Lv : live_of (with_contents l1 cs') = surv) by exact E2.
  assert (PR : forall i a, nth_error cs' i = Some a -> exists a0, nth_error (contents l) i = Some a0 /\ mg_pos a = mg_pos a0 /\ mg_radius a = mg_radius a0).
  { intros i a Hi. specialize (S2 i). rewrite Hi in S2. destruct (nth_error (contents l) i) as [a0|]; [|discriminate]. cbn in S2. injection S2 as X Y. eauto. }
  assert (CL : forall i j a b, nth_error cs' i = Some a -> nth_error cs' j = Some b -> closeb a b = close_at (contents l) i j).
  { intros i j a b Ha Hb. destruct (PR i a Ha) as (a0 & A1 & A2 & A3). destruct (PR j b Hb) as (b0 & B1 & B2 & B3). unfold close_at. rewrite A1, B1.
    unfold closeb. rewrite A2, B2, (radius_of a a0 A3). reflexivity. }
  split; [unfold pair_pass; rewrite E0; rewrite C0 in Lo; exact Lo|].
  split; [apply (pair_loop_reach _ _ _ _ (reachable_into_double l l0 HR E0) Lo eq_refl)|].
  cbn [contents with_contents]. split; [exact T2|]. split; [exact T3|]. split.
  { intros i a Hi. specialize (S2 i). rewrite Hi in S2. destruct (nth_error cs' i) as [b|]; [|discriminate]. cbn in S2. injection S2 as X Y. eauto. }
  split; [unfold total_size; rewrite Lv; exact T1|].
  split; [intros i; rewrite Lv, S1; apply survivors_incl|]. split; [exact T4|]. split.
  - intros i j a b (Hi & Ha) (Hj & Hb) Hij. rewrite Lv, S1 in Hi, Hj. cbn in Ha, Hb. rewrite (CL i j a b Ha Hb).
    apply (survivors_apart (close_at (contents l)) _ (live_of l) i j (le_n _) CS Hi Hj Hij).
  - intros j Hj Nj. rewrite Lv, S1 in Nj. destruct (survivors_reason (close_at (contents l)) _ _ j (le_n _) Hj Nj) as (i & Hi & Ci).
    assert (Hi' : i < length cs') by (rewrite T3; apply CR, (survivors_incl _ _ _ _ Hi)).
    assert (Hj' : j < length cs') by (rewrite T3; apply CR, Hj).
    destruct (nth_error cs' i) as [a|] eqn:Ea; [|apply nth_error_None in Ea; lia].
    destruct (nth_error cs' j) as [b|] eqn:Eb; [|apply nth_error_None in Eb; lia].
    exists i, a, b. split; [split; [rewrite Lv, S1; exact Hi|exact Ea]|]. split; [reflexivity|]. rewrite (CL i j a b Ea Eb). exact Ci.
Qed.
End Pair.
