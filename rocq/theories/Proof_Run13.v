(** Runs on exact reals: where the agents are, and what the reported times mean. *)
From Coq Require Import List Lia Arith ZArith Reals Lra.
From Verif Require Import Base Scalar Model_Position Spec_Position Proof_Position Model_System Spec_System Proof_System Proof_System2 Proof_System5 Proof_System8 Model_Agent Spec_Agent
  Proof_Agent Model_LinkedList Spec_LinkedList Refine_LinkedList Proof_LinkedList Model_Time Spec_Time Proof_Time Model_Run Spec_Run Proof_Run2 Proof_Run4 Proof_Run5 Spec_Run2 Proof_Run6 Proof_Run7 Proof_Run8 Proof_Run9.
Import ListNotations.
Local Open Scope nat_scope.

Lemma accepts_region (sy : anysys RR) (p : list R) : built sy -> length p = sysdim sy -> (accepts sy p <-> region sy p).
Proof.
  destruct inclusion_iff_R as (I1 & I2 & I3). intros B L. destruct sy as [s|s|s]; cbn in *.
  - now apply I1.
  - now apply I2.
  - destruct (cyl_inv_R s B) as (d & T & _). split.
    + intros H. exists d. split; [exact T|]. now apply (I3 s d p B T L).
    + intros (d' & T' & H). now apply (I3 s d' p B T' L).
Qed.
Lemma searching_R (sy : anysys RR) (tg : target RR) (p : list R) : built sy -> length (tg_pos tg) = sysdim sy -> length p = sysdim sy ->
  (searching sy tg p <-> region sy p /\ off_target tg p).
Proof.
  intros B T L. unfold searching. rewrite (accepts_region sy p B L). unfold off_target. rewrite (proj2 (check_find_R tg p (eq_trans T (eq_sym L)))). reflexivity.
Qed.
Lemma touching_R (radius : R) (a b : merger RR) : length (mg_pos a) = length (mg_pos b) ->
  (touching (S := RR) radius a b <-> (euclid (mg_pos a) (mg_pos b) < 2 * radius)%R).
Proof.
  intros L. unfold touching. split.
  - intros (d & E & H). rewrite (rr_distance_euclid _ _ L) in E. injection E as <-. exact (proj1 (Rltb_spec _ _) H).
  - intros H. exists (euclid (mg_pos a) (mg_pos b)). split; [exact (rr_distance_euclid _ _ L)|exact (proj2 (Rltb_spec _ _) H)].
Qed.

Section Geo.
Context {G : rng RR}.
(** After every step of a merging run that did not end it: sizes add up, nobody is outside or on the target, nobody overlaps. *)
Lemma merge_geometry (sy : anysys RR) (tg : target RR) (m0 : movetype RR) (radius alpha dt : R) N (l : llist (merger RR)) (g : rstate G) k l' g' :
  built sy -> length (tg_pos tg) = sysdim sy -> population (S := RR) (sysdim sy) m0 radius alpha N l ->
  after_steps (merge_step (core sy) tg (fun _ => radius : RR) (dt : RR)) (Datatypes.S k) l g = Some (l', g') ->
  total_size mg_size l' = N /\ (forall i, In i (live_of l') -> In i (live_of l)) /\
  (forall i a, live_at l' i a -> region sy (mg_pos a) /\ off_target tg (mg_pos a) /\ mobility_law m0 a) /\
  (forall i j a b, live_at l' i a -> live_at l' j b -> i < j -> (2 * radius <= euclid (mg_pos a) (mg_pos b))%R).
Proof.
  intros B T P E.
  destruct (run_pop (S := RR) sy tg (fun _ => radius : RR) m0 radius alpha dt N l g (Datatypes.S k) l' g' B T (fun _ _ => eq_refl) (fun _ _ _ => eq_refl) P E) as ([R L C Z] & I & H).
  destruct (H ltac:(lia)) as (HS & HT).
  assert (D : forall i a, live_at l' i a -> length (mg_pos a) = sysdim sy /\ mobility_law m0 a).
  { intros i a (_ & Ha). destruct (proj1 (Forall_forall _ _) C a (nth_error_In _ _ Ha)) as ((_ & La & _) & Ml & _). split; [exact La|exact Ml]. }
  split; [exact Z|]. split; [exact I|]. split.
  - intros i a Ha. destruct (D i a Ha) as (La & Ml). destruct (proj1 (searching_R sy tg (mg_pos a) B T La) (HS i a Ha)) as (X & Y). auto.
  - intros i j a b Ha Hb Hij. specialize (HT i j a b Ha Hb Hij).
    destruct (Rle_or_lt (2 * radius) (euclid (mg_pos a) (mg_pos b))) as [K|K]; [exact K|]. exfalso. apply HT.
    apply touching_R; [exact (eq_trans (proj1 (D i a Ha)) (eq_sym (proj1 (D j b Hb))))|exact K].
Qed.
End Geo.

Lemma ticks_R (dt : R) k : ticks (S := RR) dt k = (INR k * dt)%R.
Proof.
  induction k as [|k IH].
  - cbn. change (@s0 RR) with 0%R. lra.
  - refine (eq_trans (f_equal (fun x => x + dt)%R IH) _). rewrite S_INR. lra.
Qed.

(** The times of a clock are its start plus the steps before. *)
Lemma chain_sum (vs : list (R * R)) : forall c t dt, chained (fun x y => fst y = (fst x + snd x)%R) (vs ++ [(t, dt)]) ->
  (forall x r, vs ++ [(t, dt)] = x :: r -> fst x = c) -> t = (c + rsum (map snd vs))%R.
Proof.
  induction vs as [|x vs IH]; intros c t dt H F.
  - cbn in *. rewrite (F (t, dt) [] eq_refl) || rewrite <- (F (t, dt) [] eq_refl). cbn. lra.
  - cbn [app map rsum fold_right]. pose proof (F x (vs ++ [(t, dt)]) eq_refl) as Fx.
    assert (t = (fst x + snd x) + rsum (map snd vs))%R.
    { apply (IH _ _ dt).
      - cbn in H. remember (vs ++ [(t, dt)]) as w. inversion H; subst; [destruct vs; discriminate|assumption].
      - intros y r Ey. cbn in H. rewrite Ey in H. inversion H; subst. assumption. }
    unfold rsum in *. cbn. lra.
Qed.
Lemma clock_time (c : expstep RR) vs t dt s1 : collect (diff_next es_next es_dt) (Datatypes.S (length vs)) c = Ok (vs ++ [(t, dt)], s1) ->
  t = ((es_current c : R) + rsum (map snd vs))%R /\ (t <= (es_tmax c : R))%R.
Proof.
  intros E. destruct (es_collect_chain _ _ _ _ E) as (Ch & Le & Fi & _). split.
  - exact (chain_sum vs (es_current c) t dt Ch Fi).
  - apply Forall_app in Le as (_ & Le). apply Forall_inv in Le. now apply Rleb_spec in Le.
Qed.
Lemma clock_time_skip (c : expstep RR) first vs t dt s1 : collect (diff_next es_next es_dt) (Datatypes.S (Datatypes.S (length vs))) c = Ok (first :: vs ++ [(t, dt)], s1) ->
  t = ((es_current c : R) + snd first + rsum (map snd vs))%R /\ (t <= (es_tmax c : R))%R.
Proof.
  intros E. change (first :: vs ++ [(t, dt)]) with ((first :: vs) ++ [(t, dt)]) in E. apply (clock_time c (first :: vs)) in E. destruct E as (E & L). split; [|exact L].
  refine (eq_trans E _). exact (eq_sym (Rplus_assoc _ _ _)).
Qed.

(** ** C33: a full pass over the pairs *)
Lemma pair_pass_forces n (dt : R) (l : llist (expag RR)) (disp : list R) (mv : llist (list R)) N : exp_crew (S := RR) n N l -> move_list (S := RR) n N mv -> length disp = n ->
  contents mv = repeat (repeat 0%R n) N ->
  exists l0 l' d' mv', into_double_iter l = Ok l0 /\
    force_loop (S := RR) dt (Datatypes.S (length (contents l) * length (contents l))) l0 disp mv = (l', d', mv', Ok tt) /\
    reachable l' /\ contents l' = contents l /\ live_of l' = live_of l /\
    length (contents mv') = N /\ Forall (fun v => length v = n) (contents mv') /\
    (forall c, c < n -> rsum (map (fun k => coord (contents mv') k c) (seq 0 N)) = 0%R) /\
    (same_law (contents l) -> forall k c, k < N -> c < n -> coord (contents mv') k c = net_repulsion dt (contents l) k c).
Proof.
  intros [CR CS CL CC] [MR MS ML MD] Ld Z.
  destruct (force_pass (S := RR) n dt l disp mv CR CC Ld) as (l0 & l' & d' & E0 & E & R' & C' & L' & _); [exact (eq_trans MS (eq_sym CS))|exact MD|].
  exists l0, l', d'. eexists. split; [exact E0|]. split; [exact E|]. split; [exact R'|]. split; [exact C'|]. split; [exact L'|].
  assert (PL : snd (fold_left (fun st ij => push (S := RR) dt (contents l) st (fst ij) (snd ij)) (pairs (live_of l)) (disp, contents mv)) = plans (S := RR) n dt (contents l) disp).
  { unfold plans. rewrite CL, CS. do 2 f_equal. exact (f_equal (pair disp) Z). }
  cbn [contents with_contents].
  assert (Gd : length (plans (S := RR) n dt (contents l) disp) = N /\ Forall (fun v : list R => length v = n) (plans (S := RR) n dt (contents l) disp)).
  { rewrite <- PL. destruct (fold_good (S := RR) n dt (contents l) N (pairs (live_of l)) CC (disp, contents mv)) as (_ & K1 & K2).
    - split; [exact Ld|]. split; [exact MS|exact MD].
    - split; [exact K1|exact K2]. }
  match goal with |- context [length ?x = N] => replace x with (plans (S := RR) n dt (contents l) disp) by (symmetry; exact PL) end.
  split; [exact (proj1 Gd)|]. split; [exact (proj2 Gd)|]. split.
  - intros c Hc. pose proof (plans_total n dt (contents l) disp c CC Ld Hc) as H. rewrite CS in H. exact H.
  - intros SL k c Hk Hc. apply plans_net; auto. now rewrite CS.
Qed.
