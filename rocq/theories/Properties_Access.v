(** Property C64: access to coordinates, clocks and classes of agents. *)
From Verif Require Import Base Scalar Float64 Model_Position Model_System Model_Agent Model_Time Spec_Time Model_Args Model_Access.
Local Open Scope nat_scope.

Section C64.
Context {S : scalar}.
Lemma idx_Ok (p : pos S) i x : pos_index p i = Ok x <-> nth_error p i = Some x.
Proof. unfold pos_index, idx. destruct (nth_error p i) as [y|]; split; congruence. Qed.
Lemma upd_spec (p : pos S) i x : (i < length p -> exists q, pos_assign p i x = Ok q /\ length q = length p /\ nth_error q i = Some x /\ forall j, j <> i -> nth_error q j = nth_error p j) /\
  (length p <= i -> pos_assign p i x = Panic).
Proof.
  unfold pos_assign. revert i. induction p as [|y p IH]; intros i; cbn [length upd].
  - split; [lia|now destruct i].
  - destruct i as [|i]; cbn [upd].
    + split; [|lia]. intros _. exists (x :: p). repeat split. intros [|j] Hj; [now contradiction Hj|reflexivity].
    + destruct (IH i) as [A B]. split.
      * intros H. destruct A as (q & E & L & N1 & N2); [lia|]. rewrite E. exists (y :: q). cbn. repeat split; auto. intros [|j] Hj; [reflexivity|]. apply N2. lia.
      * intros H. rewrite B by lia. reflexivity.
Qed.
Lemma slice_spec (p : pos S) i j : (i <= j <= length p -> exists q, slice p i j = Ok q /\ length q = j - i /\ forall k, k < j - i -> nth_error q k = nth_error p (i + k)) /\
  (~ (i <= j <= length p) -> slice p i j = Panic).
Proof.
  unfold slice. destruct (Nat.leb_spec i j), (Nat.leb_spec j (length p)); cbn [andb]; (split; [|lia || reflexivity]); intros Hr; try lia.
  exists (firstn (j - i) (skipn i p)). split; [reflexivity|]. split; [rewrite firstn_length, skipn_length; lia|].
  intros k Hk. clear -Hk. revert i j k Hk. induction p as [|y p IH]; intros [|i] [|j] k Hk; try lia.
  - cbn [skipn]. rewrite firstn_nil. now destruct k.
  - cbn [skipn]. rewrite firstn_nil. destruct (Datatypes.S i + k); now destruct k.
  - cbn [skipn Nat.sub]. cbn [firstn Nat.add]. destruct k as [|k]; [reflexivity|]. cbn [nth_error]. specialize (IH 0 j k). cbn [skipn Nat.add] in IH.
    rewrite Nat.sub_0_r in IH. apply IH. lia.
  - cbn [skipn Nat.sub Nat.add nth_error]. apply IH. lia.
Qed.
End C64.

(** C64: a coordinate can be read exactly for the places below the dimension; elsewhere the program crashes (it is never an error and never another coordinate). *)
Theorem C64_read : forall (S : scalar) (p : pos S) i,
  (i < dim p <-> exists x, pos_index p i = Ok x) /\ (dim p <= i <-> pos_index p i = Panic) /\ (forall x, pos_index p i = Ok x <-> nth_error (pos_iter p) i = Some x).
Proof.
  intros S p i. unfold dim, pos_iter. split; [|split].
  - rewrite <- nth_error_Some. unfold pos_index, idx. destruct (nth_error p i) as [y|]; split; try easy. now exists y. now intros (x & E).
  - rewrite <- nth_error_None. unfold pos_index, idx. destruct (nth_error p i) as [y|]; split; easy.
  - intros x. apply idx_Ok.
Qed.
Print Assumptions C64_read.
(** C64: assigning to a coordinate changes this one and nothing else, exactly for the places below the dimension. *)
Theorem C64_assign : forall (S : scalar) (p : pos S) i x,
  (i < dim p -> exists q, pos_assign p i x = Ok q /\ dim q = dim p /\ pos_index q i = Ok x /\ forall j, j <> i -> pos_index q j = pos_index p j) /\
  (dim p <= i -> pos_assign p i x = Panic).
Proof.
  intros S p i x. destruct (upd_spec p i x) as [A B]. split; [|exact B]. intros H. destruct (A H) as (q & E & L & N1 & N2).
  exists q. split; [exact E|]. split; [exact L|]. split; [now apply idx_Ok|]. intros j Hj. unfold pos_index, idx. now rewrite N2.
Qed.
Print Assumptions C64_assign.
(** C64: a range can be read exactly when its ends are in order and not beyond the dimension, and holds the coordinates between them. *)
Theorem C64_ranges : forall (S : scalar) (p : pos S) i j,
  (i <= j <= dim p -> exists q, pos_range p i j = Ok q /\ length q = j - i /\ forall k, k < j - i -> nth_error q k = nth_error p (i + k)) /\
  (~ (i <= j <= dim p) -> pos_range p i j = Panic) /\
  (j <= dim p -> exists a b, pos_range_to p j = Ok a /\ pos_range_from p j = Ok b /\ length a = j /\ a ++ b = p) /\
  (dim p < j -> pos_range_to p j = Panic /\ pos_range_from p j = Panic).
Proof.
  intros S p i j. destruct (slice_spec p i j) as [A B]. split; [exact A|]. split; [exact B|]. unfold dim, pos_range_to, pos_range_from, slice. split.
  - intros H. destruct (Nat.leb_spec j (length p)); [|lia]. rewrite Nat.leb_refl. cbn [Nat.leb andb]. exists (firstn j p), (skipn j p). rewrite Nat.sub_0_r. cbn [skipn].
    split; [reflexivity|]. split; [|split; [rewrite firstn_length; lia|apply firstn_skipn]]. rewrite firstn_all2; [reflexivity|rewrite skipn_length; lia].
  - intros H. destruct (Nat.leb_spec j (length p)); [lia|]. cbn [Nat.leb andb]. split; reflexivity.
Qed.
Print Assumptions C64_ranges.
(** C64: pushing and extending put the new coordinates at the end; changing all coordinates through [iter_mut] changes each one by itself; collecting the coordinates
    and making a position of them gives the position back. *)
Theorem C64_build : forall (S : scalar) (p : pos S) x xs f,
  dim (pos_push p x) = dim p + 1 /\ pos_index (pos_push p x) (dim p) = Ok x /\ (forall i, i < dim p -> pos_index (pos_push p x) i = pos_index p i) /\
  pos_extend p xs = p ++ xs /\
  (forall i, pos_index (pos_iter_mut f p) i = bind (pos_index p i) (fun y => Ok (f y))) /\ dim (pos_iter_mut f p) = dim p /\
  pos_new (pos_iter p) = p /\ pos_new (pos_into_iter p) = p.
Proof.
  intros S p x xs f. unfold dim, pos_push, pos_index, idx. split; [rewrite app_length; cbn; lia|]. split; [rewrite nth_error_app2 by lia; now rewrite Nat.sub_diag|].
  split; [intros i Hi; now rewrite nth_error_app1|]. split.
  - unfold pos_extend. revert p. induction xs as [|y xs IH]; intros p; cbn [fold_left]; [now rewrite app_nil_r|]. rewrite IH. unfold pos_push. rewrite <- app_assoc. reflexivity.
  - split; [|split; [apply map_length|split; reflexivity]]. intros i. unfold pos_iter_mut. rewrite nth_error_map. now destruct (nth_error p i).
Qed.
Print Assumptions C64_build.

(** C64: the clock with differences: its times are those of the clock it was made from, every time is the one before plus the step returned with it (rounded the same way), and when it
    stops the next time would be the last one plus its step. *)
Lemma diff_collect {S : scalar} {St : Type} (next : St -> outcome (St * option S)) (now step : St -> S) (same : forall s s' t, next s = Ok (s', Some t) -> t = now s /\ now s' = add (now s) (step s')) :
  forall n s ts s', collect (diff_next next step) n s = Ok (ts, s') ->
  collect next n s = Ok (map fst ts, s') /\
  (forall t d r, ts = (t, d) :: r -> t = now s) /\
  (forall a t d t' d' r, ts = a ++ (t, d) :: (t', d') :: r -> t' = add t d) /\
  (forall a t d, length ts = n -> ts = a ++ [(t, d)] -> now s' = add t d).
Proof.
  induction n as [|n IH]; intros s ts s' H; cbn [collect] in *.
  - assert (ts = [] /\ s' = s) as [-> ->] by (split; congruence). split; [reflexivity|]. repeat split; intros; try discriminate; now destruct a.
  - unfold diff_next at 1 in H. destruct (next s) as [[s1 [t|]]| | |] eqn:E; cbn [bind] in *; try discriminate.
    + destruct (collect (diff_next next step) n s1) as [[ts1 s2]| | |] eqn:Ec; cbn [bind fst snd] in *; try discriminate.
      assert (ts = (t, step s1) :: ts1 /\ s' = s2) as [-> ->] by (split; congruence).
      destruct (IH s1 ts1 s2 Ec) as (A & B & C & D). destruct (same _ _ _ E) as [T N]. rewrite A. cbn [bind fst snd map]. split; [reflexivity|]. split; [congruence|]. split.
      * intros [|p0 a] t0 d t' d' r X; cbn [app] in X.
        -- assert (t0 = t /\ d = step s1 /\ ts1 = (t', d') :: r) as (-> & -> & X1) by (repeat split; congruence). rewrite (B _ _ _ X1), N. now rewrite T.
        -- apply (C a t0 d t' d' r). congruence.
      * intros a t0 d L X. destruct a as [|p0 a]; cbn [app] in X.
        -- assert (t0 = t /\ d = step s1 /\ ts1 = []) as (-> & -> & ->) by (repeat split; congruence). cbn in L.
           assert (n = 0) by lia. subst n. cbn in Ec. assert (s2 = s1) by congruence. subst s2. now rewrite N, T.
        -- apply (D a t0 d); [cbn in L; lia|congruence].
    + assert (ts = [] /\ s' = s1) as [-> ->] by (split; congruence). split; [reflexivity|]. repeat split; intros; try discriminate; destruct a; discriminate.
Qed.
Theorem C64_clock_with_differences : forall (S : scalar) n,
  (forall (s : conststep S) ts s', collect (diff_next cs_next cs_step) n (cs_into_diff s) = Ok (ts, s') ->
     collect cs_next n s = Ok (map fst ts, s') /\ (forall t d r, ts = (t, d) :: r -> t = cs_current_time s) /\
     (forall a t d t' d' r, ts = a ++ (t, d) :: (t', d') :: r -> t' = add t d) /\
     (forall a t d, length ts = n -> ts = a ++ [(t, d)] -> cs_current_time s' = add t d)) /\
  (forall (s : expstep S) ts s', collect (diff_next es_next es_step) n (es_into_diff s) = Ok (ts, s') ->
     collect es_next n s = Ok (map fst ts, s') /\ (forall t d r, ts = (t, d) :: r -> t = es_current_time s) /\
     (forall a t d t' d' r, ts = a ++ (t, d) :: (t', d') :: r -> t' = add t d) /\
     (forall a t d, length ts = n -> ts = a ++ [(t, d)] -> es_current_time s' = add t d)).
Proof.
  intros S n. split; intros s ts s' H.
  - apply (diff_collect cs_next cs_current_time cs_step); [|exact H]. clear. intros s s' t E. unfold cs_next in E. destruct (leb _ _); [|discriminate].
    assert (X : s' = ConstStep (cs_titype s) (add (cs_current s) (cs_dt s)) (cs_dt s) (cs_tmax s) /\ t = cs_current s) by (split; congruence). destruct X as [-> ->]. now split.
  - apply (diff_collect es_next es_current_time es_step); [|exact H]. clear. intros s s' t E. unfold es_next in E. destruct (es_titype s) as [|a b len]; [discriminate|].
    match type of E with context [if ?b then ?x else (es_dt s, es_count s)] => destruct (if b then x else (es_dt s, es_count s)) as [d c] end. destruct (leb _ _); [|discriminate].
    assert (X : s' = ExpStep (Exponential a b len) (add (es_current s) d) d (es_inc s) (es_tmax s) (c + 1) /\ t = es_current s) by (split; congruence). destruct X as [-> ->]. now split.
Qed.
Print Assumptions C64_clock_with_differences.

(** C64: every type of agent lives in exactly one kind of space, is passive or active and not both, independent or interacting and not both; these three answers determine the type. *)
Theorem C64_agent_classes : 
  (forall a, (in_lattice a = true /\ in_continous a = false /\ in_network a = false) \/ (in_lattice a = false /\ in_continous a = true /\ in_network a = false) \/
             (in_lattice a = false /\ in_continous a = false /\ in_network a = true)) /\
  (forall a, is_active a = negb (is_passive a)) /\ (forall a, is_interacting a = negb (is_independent a)) /\
  (forall a b, in_lattice a = in_lattice b -> in_continous a = in_continous b -> is_passive a = is_passive b -> is_independent a = is_independent b -> a = b) /\
  (forall l c p i, exists a, (l && c = true \/ (in_lattice a = l /\ in_continous a = c /\ is_passive a = p /\ is_independent a = i))) /\
  in_continous ContinuousPassiveIndependent && is_passive ContinuousPassiveIndependent && is_independent ContinuousPassiveIndependent = true /\
  in_continous ContinuousPassiveInteracting && is_passive ContinuousPassiveInteracting && is_interacting ContinuousPassiveInteracting = true.
Proof.
  split; [intros []; cbn; tauto|]. split; [now intros []|]. split; [now intros []|]. split; [intros [] []; cbn; intros; (reflexivity || discriminate)|]. split; [|split; reflexivity].
  intros [] [] [] []; (eexists ContinuousPassiveIndependent; now left) ||
   (first [exists ContinuousPassiveIndependent; right; now repeat split|exists ContinuousPassiveInteracting; right; now repeat split
          |exists ContinuousActiveIndependent; right; now repeat split|exists ContinuousActiveInteracting; right; now repeat split
          |exists LatticePassiveIndependent; right; now repeat split|exists LatticePassiveInteracting; right; now repeat split
          |exists LatticeActiveIndependent; right; now repeat split|exists LatticeActiveInteracting; right; now repeat split
          |exists NetworkPassiveIndependent; right; now repeat split|exists NetworkPassiveInteracting; right; now repeat split
          |exists NetworkActiveIndependent; right; now repeat split|exists NetworkActiveInteracting; right; now repeat split]).
Qed.
Print Assumptions C64_agent_classes.
(** A clock of step 1/2 in double precision gives its first three times with their steps. *)
Example C64_case : forall lm,
  match cs_new (lit (s := F64 lm) 1 2) with
  | Ok s => match collect (diff_next cs_next cs_step) 3 (cs_into_diff s) with Ok (ts, _) => Nat.eqb (length ts) 3 | _ => false end
  | _ => false
  end = true.
Proof. intros lm. vm_compute. reflexivity. Qed.
