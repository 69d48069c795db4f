(** Proofs about tests/arguments.rs: all searchers move in every step, one after the other. *)
From Coq Require Import List Lia Arith ZArith.
From Verif Require Import Base Scalar Model_Position Spec_Position Proof_Position Model_System Spec_System Proof_System Proof_System5 Model_Agent Spec_Agent Proof_Agent
  Model_LinkedList Spec_LinkedList Refine_LinkedList Proof_LinkedList Proof_LinkedList2 Proof_LinkedList3 Proof_LinkedList4 Proof_LinkedList5 Proof_LinkedList6
  Model_Time Model_Run Spec_Run Spec_Search Model_Program3 Spec_Program3
  Proof_Run Proof_Run2 Proof_Run4 Proof_Run5 Proof_Run8 Proof_Run14 Proof_Search Proof_Race.
Import ListNotations.
Local Open Scope nat_scope.

Section C.
Context {S : scalar} {G : rng S}.
Notation gen := (rstate G).

(** The loop over the list is a loop over its elements. *)
Definition crowd_body (sys : syscore S G) (tg : target S) (dt : S) (i : nat) (a : indep S) (st : pos S * gen) : option (indep S) * (pos S * gen) * outcome bool :=
  let (v, g) := st in
  let '(v1, g1, mv) := indep_random_move_to_vec a g dt (pos_clear v) in
  match mv with
  | Ok _ =>
    let (p, r) := sc_check_bc sys (in_pos a) v1 in
    let a1 := in_set a (in_dim a) p in
    match r with Ok _ => (Some a1, (v1, g1), check_find tg p) | Err e => (Some a1, (v1, g1), Err e) | Panic => (Some a1, (v1, g1), Panic) | Fuel => (Some a1, (v1, g1), Fuel) end
  | Err e => (None, (v1, g1), Err e) | Panic => (None, (v1, g1), Panic) | Fuel => (None, (v1, g1), Fuel)
  end.
Lemma crowd_loop_each sys tg dt fuel : forall l v g, crowd_loop sys tg dt fuel l v g =
  let '(l', (v', g'), r) := for_each (crowd_body sys tg dt) fuel l (v, g) in (l', v', g', r).
Proof.
  induction fuel as [|k IH]; intros l v g; [reflexivity|]. cbn [crowd_loop for_each]. destruct (enumerate l) as [(l1, [(i, a)|])| | |]; try reflexivity.
  unfold crowd_body. destruct (indep_random_move_to_vec a g dt (pos_clear v)) as [[v1 g1] [u|e| |]]; try (cbn [write]; now rewrite with_contents_id).
  destruct (sc_check_bc sys (in_pos a) v1) as (p, [u1|e| |]); cbn [write]; try reflexivity.
  destruct (check_find tg p) as [[|]|e| |]; try reflexivity. rewrite IH. reflexivity.
Qed.

Variables (sy : anysys S) (tg : target S) (c dt : S).
Hypothesis (B : built sy) (T : length (tg_pos tg) = sysdim sy).
Notation n := (sysdim sy).
Notation bc := (sc_check_bc (core (G := G) sy)).
Variables (ps : list (pos S)) (g1 : gen).
Notation N := (length ps).
Notation at_ := (crowd_at bc c dt n ps g1).
Notation off := (crowd_off bc tg c dt n ps g1).
Notation now m := (after_blocks (gauss G) n m g1).
Notation stride_at m := (stride c dt n g1 m).
Definition able (a : indep S) : Prop := in_mtype a = Brownian c /\ in_dim a = n /\ length (in_pos a) = n.
(** Before the turn of searcher [i] in step [s]. *)
Definition at_turn (s i : nat) (cs : list (indep S)) : Prop :=
  length cs = N /\ forall i' a, nth_error cs i' = Some a -> able a /\ at_ i' (if i' <? i then Datatypes.S s else s) (in_pos a).

Lemma travel_snoc f d ds : forall p, travel (S := S) f p (ds ++ [d]) = match travel f p ds with Some q => match f q d with (r, Ok _) => Some r | _ => None end | None => None end.
Proof. induction ds as [|e ds IH]; intros p; cbn [app travel]; [reflexivity|]. destruct (f p e) as (q, [u|er| |]); [apply IH|reflexivity..]. Qed.
Lemma at_S i s q r : at_ i s q -> bc q (stride_at (s * N + i)) = (r, Ok tt) -> at_ i (Datatypes.S s) r.
Proof.
  intros (p & Hp & Ht) E. exists p. split; [exact Hp|]. rewrite seq_S, map_app. cbn [map Nat.add]. rewrite travel_snoc, Ht, E. reflexivity.
Qed.
Lemma stride_now m : stride c dt n (now m) 0 = stride_at m.
Proof. reflexivity. Qed.
Lemma now_S m : snd (draws (gauss G) n (now m)) = now (Datatypes.S m).
Proof. clear B T. revert g1. induction m as [|m IH]; intros g; [reflexivity|]. cbn [after_blocks]. apply IH. Qed.

Lemma off_le s i s' i' : off s' i' -> s * N + i <= s' * N + i' -> off s i.
Proof. intros H L u v Hv Hl. apply H; lia. Qed.
Lemma off_next s i q : i < N -> off s i -> at_ i (Datatypes.S s) q -> check_find tg q = Ok false -> off s (Datatypes.S i).
Proof.
  intros Hi H Ha Hc s' i' Hi' L. destruct (Nat.eq_dec (s' * N + i') (s * N + i)) as [E|E]; [|apply H; lia].
  assert (s' = s) by nia. subst s'. assert (i' = i) by lia. subst i'. eauto.
Qed.

Lemma each_crowd s k : forall i cs (v : pos S), i + k = N -> at_turn s i cs -> length v = n -> off s i ->
  exists cs' v' g' r, each (crowd_body (core sy) tg dt) (seq i k) cs (v, now (s * N + i)) = (cs', (v', g'), r) /\ length v' = n /\ length cs' = N /\ Forall able cs' /\
   ((r = Ok false /\ at_turn s N cs' /\ off s N /\ g' = now (s * N + N)) \/
    (exists i', r = Ok true /\ crowd_found bc tg c dt n ps g1 s i' /\ g' = now (s * N + i' + 1)) \/
    (exists i', r = Err TooLargeTimeStep /\ crowd_refused bc tg c dt n ps g1 s i' /\ g' = now (s * N + i' + 1))).
Proof.
  assert (AF : forall s i cs, at_turn s i cs -> Forall able cs).
  { intros s0' i0 cs (_ & H). apply Forall_forall. intros a Ha. apply In_nth_error in Ha. destruct Ha as (j & Hj). exact (proj1 (H j a Hj)). }
  induction k as [|k IH]; intros i cs v Hk Ht Lv Ho.
  - assert (i = N) by lia. subst i. exists cs, v, (now (s * N + N)), (Ok false). split; [reflexivity|]. split; [exact Lv|]. split; [apply Ht|]. split; [exact (AF _ _ _ Ht)|].
    left. auto.
  - cbn [seq each]. assert (Hi : i < N) by lia. destruct Ht as (Lc & Ht). destruct (nth_error cs i) as [a|] eqn:Ea.
    2:{ apply nth_error_None in Ea. lia. }
    destruct (Ht i a Ea) as ((Ma & Da & La) & Aa). rewrite Nat.ltb_irrefl in Aa.
    unfold crowd_body at 1. unfold indep_random_move_to_vec. rewrite Ma, Da, (to_vec_stride c dt n v (now (s * N + i)) Lv), stride_now, now_S.
    set (dp := stride_at (s * N + i)). assert (Ldp : length dp = n) by apply stride_len.
    destruct (core_shape (G := G) sy B (in_pos a) dp) as (_ & _ & Sh). destruct (Sh ltac:(lia) La) as (p1 & Lp & E).
    assert (Ab : able (in_set a n p1)) by (split; [exact Ma|]; split; [reflexivity|exact Lp]).
    assert (Lr : length (replace_nth i (in_set a n p1) cs) = N) by now rewrite replace_length.
    assert (Fr : Forall able (replace_nth i (in_set a n p1) cs)).
    { apply Forall_forall. intros b Hb. apply In_nth_error in Hb. destruct Hb as (j & Hj). rewrite nth_replace in Hj.
      destruct ((j =? i) && (j <? length cs))%bool eqn:X; [injection Hj as <-; exact Ab|]. exact (proj1 (Ht j b Hj)). }
    replace (Datatypes.S (s * N + i)) with (s * N + i + 1) by lia.
    destruct E as [E|E]; rewrite E.
    + pose proof (at_S i s (in_pos a) p1 Aa E) as A1.
      destruct (check_find_cases tg p1) as (_ & K). cbn [write].
      destruct (check_find tg p1) as [[|]|e| |] eqn:F.
      * exists (replace_nth i (in_set a n p1) cs), dp, (now (s * N + i + 1)), (Ok true). split; [reflexivity|]. split; [exact Ldp|]. split; [exact Lr|]. split; [exact Fr|].
        right; left. exists i. split; [reflexivity|]. split; [|reflexivity]. split; [exact Hi|]. split; [exact Ho|]. eauto.
      * assert (Ht' : at_turn s (Datatypes.S i) (replace_nth i (in_set a n p1) cs)).
        { split; [exact Lr|]. intros j b Hj. rewrite nth_replace in Hj. destruct (Nat.eqb_spec j i) as [->|Nj].
          - destruct (i <? length cs) eqn:X; [|apply Nat.ltb_ge in X; lia]. cbn [andb] in Hj. injection Hj as <-. split; [exact Ab|].
            destruct (Nat.ltb_spec i (Datatypes.S i)); [exact A1|lia].
          - cbn [andb] in Hj. destruct (Ht j b Hj) as (X1 & X2). split; [exact X1|].
            replace (j <? Datatypes.S i) with (j <? i); [exact X2|]. destruct (Nat.ltb_spec j i), (Nat.ltb_spec j (Datatypes.S i)); auto; lia. }
        pose proof (off_next s i p1 Hi Ho A1 F) as Ho'.
        replace (s * N + i + 1) with (s * N + Datatypes.S i) by lia.
        exact (IH (Datatypes.S i) _ dp ltac:(lia) Ht' Ldp Ho').
      * exfalso. destruct (K ltac:(congruence)) as (b & X); congruence.
      * exfalso. destruct (K ltac:(congruence)) as (b & X); congruence.
      * exfalso. destruct (K ltac:(congruence)) as (b & X); congruence.
    + exists (replace_nth i (in_set a n p1) cs), dp, (now (s * N + i + 1)), (Err TooLargeTimeStep). split; [reflexivity|]. split; [exact Ldp|]. split; [exact Lr|]. split; [exact Fr|].
      right; right. exists i. split; [reflexivity|]. split; [|reflexivity]. split; [exact Hi|]. split; [exact Ho|]. exists (in_pos a), p1. auto.
Qed.

Definition crowd_list (l : llist (indep S)) : Prop := reachable l /\ live_of l = seq 0 N.

Lemma crowd_step_ok s l (v : pos S) : crowd_list l -> at_turn s 0 (contents l) -> length v = n -> off s 0 ->
  exists l' v' g' r, crowd_step (core sy) tg dt l v (now (s * N)) = (l', v', g', r) /\ crowd_list l' /\ length v' = n /\ length (contents l') = N /\ Forall able (contents l') /\
   ((r = Ok false /\ at_turn (Datatypes.S s) 0 (contents l') /\ off (Datatypes.S s) 0 /\ g' = now (Datatypes.S s * N)) \/
    (exists i', r = Ok true /\ crowd_found bc tg c dt n ps g1 s i' /\ g' = now (s * N + i' + 1)) \/
    (exists i', r = Err TooLargeTimeStep /\ crowd_refused bc tg c dt n ps g1 s i' /\ g' = now (s * N + i' + 1))).
Proof.
  intros (R & L) Ht Lv Ho. unfold crowd_step. rewrite crowd_loop_each.
  destruct (for_each_ref (crowd_body (core sy) tg dt) l (v, now (s * N)) R) as (l' & (v', g') & r & E1 & E2 & R' & L'). rewrite E1. rewrite L in E2, L'.
  destruct (each_crowd s N 0 (contents l) v ltac:(lia) Ht Lv Ho) as (cs' & v2 & g2 & r2 & E3 & Lv' & Lc & Fc & C). replace (s * N + 0) with (s * N) in E3 by lia. rewrite E3 in E2.
  injection E2 as -> <- <- <-. exists l', v2, g2, r2. split; [reflexivity|]. split; [split; [exact R'|exact L']|]. split; [exact Lv'|]. split; [exact Lc|]. split; [exact Fc|].
  destruct C as [(-> & H1 & H2 & H3)|C]; [left|right; exact C]. split; [reflexivity|].
  replace (Datatypes.S s * N) with (s * N + N) by lia. split; [|split; [|exact H3]].
  - destruct H1 as (_ & H1). split; [exact Lc|]. intros i a Ha. destruct (H1 i a Ha) as (X1 & X2). split; [exact X1|].
    assert (i < N) by (rewrite <- Lc; apply nth_error_Some; congruence). destruct (Nat.ltb_spec i N); [|lia]. exact X2.
  - eapply off_le; [exact H2|lia].
Qed.

Notation clock s tm := (ConstStep (Constant dt) (ticks dt s) dt tm).
Lemma crowd_run_ok (tm : S) fuel : forall s l (v : pos S), crowd_list l -> at_turn s 0 (contents l) -> length v = n -> off s 0 -> (forall j, j < s -> leb (ticks dt j) tm = true) ->
  exists l' v' g' r, crowd_run (core sy) tg dt fuel (clock s tm) l v (now (s * N)) = (l', v', g', r) /\ reachable l' /\ length v' = n /\ length (contents l') = N /\ Forall able (contents l') /\
   ((exists k i, s <= k /\ r = Ok (ticks dt k) /\ (forall j, j <= k -> leb (ticks dt j) tm = true) /\ crowd_found bc tg c dt n ps g1 k i /\ g' = now (k * N + i + 1)) \/
    (exists k, s <= k /\ r = Ok s0 /\ (forall j, j < k -> leb (ticks dt j) tm = true) /\ leb (ticks dt k) tm = false /\ off k 0 /\ g' = now (k * N)) \/
    (exists k i, s <= k /\ r = Err TooLargeTimeStep /\ (forall j, j <= k -> leb (ticks dt j) tm = true) /\ crowd_refused bc tg c dt n ps g1 k i) \/
    r = Fuel).
Proof.
  induction fuel as [|fuel IH]; intros s l v HL Ht Lv Ho Htm.
  - assert (Fc : Forall able (contents l)).
    { destruct Ht as (_ & Ht). apply Forall_forall. intros a Ha. apply In_nth_error in Ha. destruct Ha as (j & Hj). exact (proj1 (Ht j a Hj)). }
    exists l, v, (now (s * N)), Fuel. split; [reflexivity|]. split; [apply HL|]. split; [exact Lv|]. split; [apply Ht|]. auto 10.
  - cbn [crowd_run]. unfold cs_next. cbn [cs_current cs_tmax cs_titype cs_dt]. destruct (leb (ticks dt s) tm) eqn:Le.
    + destruct (crowd_step_ok s l v HL Ht Lv Ho) as (l' & v' & g' & r & E & HL' & Lv' & Lc & Fc & C). rewrite E.
      assert (Htm' : forall j, j <= s -> leb (ticks dt j) tm = true).
      { intros j Hj. destruct (Nat.eq_dec j s) as [->|]; [exact Le|]. apply Htm. lia. }
      destruct C as [(-> & H1 & H2 & ->)|[(i' & -> & H1 & ->)|(i' & -> & H1 & ->)]].
      * destruct (IH (Datatypes.S s) l' v' HL' H1 Lv' H2 ltac:(intros j Hj; apply Htm'; lia)) as (l2 & v2 & g2 & r2 & E2 & R2 & X1 & X2 & X3 & X4).
        exists l2, v2, g2, r2. split; [exact E2|]. do 4 (split; [assumption|]).
        destruct X4 as [(k & i & H & X4)|[(k & H & X4)|[(k & i & H & X4)|X4]]]; [left|right; left|right; right; left|auto].
        -- exists k, i. split; [lia|exact X4].
        -- exists k. split; [lia|exact X4].
        -- exists k, i. split; [lia|exact X4].
      * do 4 eexists. split; [reflexivity|]. split; [apply HL'|]. do 3 (split; [assumption|]). left. exists s, i'. auto 10.
      * do 4 eexists. split; [reflexivity|]. split; [apply HL'|]. do 3 (split; [assumption|]). right; right; left. exists s, i'. auto 10.
    + assert (Fc : Forall able (contents l)).
      { destruct Ht as (_ & Ht). apply Forall_forall. intros a Ha. apply In_nth_error in Ha. destruct Ha as (j & Hj). exact (proj1 (Ht j a Hj)). }
      exists l, v, (now (s * N)), (Ok s0). split; [reflexivity|]. split; [apply HL|]. split; [exact Lv|]. split; [apply Ht|]. split; [exact Fc|]. right; left. exists s. auto 10.
Qed.
End C.
