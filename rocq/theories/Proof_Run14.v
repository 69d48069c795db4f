(** Packaging of the run lemmas for [Properties_Run]. *)
From Coq Require Import List Lia Arith ZArith Reals Lra.
From Verif Require Import Base Scalar Model_Position Spec_Position Proof_Position Model_System Spec_System Proof_System Model_Agent Spec_Agent
  Model_LinkedList Spec_LinkedList Refine_LinkedList Proof_LinkedList Model_Time Spec_Time Model_Run Spec_Run Spec_Run2
  Proof_Run2 Proof_Run4 Proof_Run5 Proof_Run6 Proof_Run7 Proof_Run8 Proof_Run9 Proof_Run10 Proof_Run11 Proof_Run12.
Import ListNotations.
Local Open Scope nat_scope.

Section W.
Context {S : scalar} {G : rng S}.
Notation gen := (rstate G).

Lemma indep_walk_pos sy tg dt (l : llist (indep S)) (g : gen) : built sy -> reachable l -> Forall (indep_in (sysdim sy)) (contents l) ->
  exists l' g' r k, move_pass indep_mover (core sy) tg dt l g = (l', g', r) /\ k <= length (live_of l) /\ g' = after_blocks (gauss G) (sysdim sy) k g /\
    (r = Ok false -> k = length (live_of l)) /\
    (forall j i a c, nth_error (live_of l) j = Some i -> nth_error (contents l) i = Some a -> in_mtype a = Brownian c ->
       exists b, nth_error (contents l') i = Some b /\ in_mtype b = Brownian c /\
         in_pos b = if j <? k then fst (sc_check_bc (core (G := G) sy) (in_pos a) (brownian_kick c dt (nth_block (gauss G) (sysdim sy) j g))) else in_pos a).
Proof.
  intros B R F. destruct (indep_walk sy tg dt l g B R F) as (l' & g' & r & k & E & Hk & Hg & Hr & _ & H). exists l', g', r, k.
  split; [exact E|]. split; [exact Hk|]. split; [exact Hg|]. split; [exact Hr|]. intros j i a c Hj Ha Mc. eexists. split; [exact (H j i a Hj Ha)|].
  destruct (j <? k); [|now split]. split; [exact Mc|]. unfold walked, brownian_kick. cbn. rewrite Mc. reflexivity.
Qed.
Lemma merger_walk_pos sy tg dt (l : llist (merger S)) (g : gen) : built sy -> reachable l -> Forall (brownian_in (sysdim sy)) (contents l) ->
  exists l' g' r k, move_pass merger_mover (core sy) tg dt l g = (l', g', r) /\ k <= length (live_of l) /\ g' = after_blocks (gauss G) (sysdim sy) k g /\
    (r = Ok false -> k = length (live_of l)) /\
    (forall j i a c, nth_error (live_of l) j = Some i -> nth_error (contents l) i = Some a -> mg_mtype a = Brownian c ->
       exists b, nth_error (contents l') i = Some b /\ mg_mtype b = Brownian c /\ mg_size b = mg_size a /\
         mg_pos b = if j <? k then fst (sc_check_bc (core (G := G) sy) (mg_pos a) (brownian_kick c dt (nth_block (gauss G) (sysdim sy) j g))) else mg_pos a).
Proof.
  intros B R F. destruct (merger_walk sy tg dt l g B R F) as (l' & g' & r & k & E & Hk & Hg & Hr & _ & H). exists l', g', r, k.
  split; [exact E|]. split; [exact Hk|]. split; [exact Hg|]. split; [exact Hr|]. intros j i a c Hj Ha Mc. eexists. split; [exact (H j i a Hj Ha)|].
  destruct (j <? k); [|now repeat split]. split; [exact Mc|]. split; [reflexivity|]. unfold walked, brownian_kick. cbn. rewrite Mc. reflexivity.
Qed.

Lemma exp_walk_plans sy tg (limit dt : S) N (l : llist (expag S)) disp (mv : llist (pos S)) (g : gen) : built sy -> exp_crew (sysdim sy) N l -> move_list (sysdim sy) N mv -> length disp = sysdim sy ->
  let plan := plans (sysdim sy) dt (contents l) disp in length plan = N /\ Forall (fun v => length v = sysdim sy) plan /\
  exists l' disp' mv' g' r k, exp_step (core sy) tg limit dt l disp mv g = (l', disp', mv', g', r) /\ k <= N /\ g' = after_blocks (gauss G) (sysdim sy) k g /\ (r = Ok false -> k = N) /\
    (forall i a c v, nth_error (contents l) i = Some a -> ex_mtype a = Brownian c -> nth_error plan i = Some v -> exists b, nth_error (contents l') i = Some b /\ ex_mtype b = Brownian c /\
       ex_pos b = if i <? k then fst (sc_check_bc (core (G := G) sy) (ex_pos a) (limit_move limit (noisy_kick c dt v (nth_block (gauss G) (sysdim sy) i g)))) else ex_pos a).
Proof.
  intros B C M D. cbv zeta.
  assert (L : length (plans (sysdim sy) dt (contents l) disp) = N /\ Forall (fun v => length v = sysdim sy) (plans (sysdim sy) dt (contents l) disp)).
  { destruct C as [CR CS CL CC]. unfold plans. rewrite CS. destruct (fold_good (sysdim sy) dt (contents l) N (pairs (seq 0 N)) CC (disp, repeat (repeat s0 (sysdim sy)) N)) as (_ & K1 & K2); [|split; assumption].
    split; [exact D|]. split; [apply repeat_length|]. apply Forall_forall. intros v Hv. apply repeat_spec in Hv. subst. apply repeat_length. }
  split; [exact (proj1 L)|]. split; [exact (proj2 L)|].
  destruct (exp_step_walk (G := G) (sysdim sy) (core sy) tg limit dt (exp_in (sysdim sy)) (fun _ H => H)) with (N := N) (l := l) (disp := disp) (mv := mv) (g := g)
    as (l' & d' & m' & g' & r & k & E & Hk & Hg & Hr & H); try assumption.
  - intros a v Ha Hv. assert (L2 : length (limit_move limit v) = sysdim sy). { unfold limit_move, mut_scalar_mul. match goal with |- context [if ?b then _ else _] => destruct b end; [now rewrite map_length|exact Hv]. }
    pose proof (bc_any (G := G) sy B a (limit_move limit v) Ha L2 I) as K. destruct (sc_check_bc (core (G := G) sy) (ex_pos a) (limit_move limit v)). exact (proj1 K).
  - exact (ec_crew _ _ _ C).
  - exists l', d', m', g', r, k. split; [exact E|]. split; [exact Hk|]. split; [exact Hg|]. split; [exact Hr|]. intros i a c v Ha Mc Hv. eexists. split; [exact (H i a Ha)|].
    destruct (i <? k); [|now split]. split; [exact Mc|]. unfold exp_walked, exp_put, noisy, noisy_kick. cbn [ex_pos]. rewrite Mc. cbn [coef_of].
    assert (En : nth i (plans (sysdim sy) dt (contents l) disp) ([] : pos S) = v) by exact (nth_error_nth _ _ _ Hv). rewrite En. reflexivity.
Qed.

Lemma vec_draws (g : gen) n (p : pos S) mn mx mean sd : 
  get_uniform_vec g n = draws (unif G) n g /\ get_gaussian_vec g n = draws (gauss G) n g /\
  get_uniform_to_vec g p = draws (unif G) (length p) g /\ get_gaussian_to_vec g p = draws (gauss G) (length p) g /\
  get_uniform_to_vec_nonstandard g p mn mx =
    (map (fun xr => add (add (fst xr) (mul (snd xr) (sub mx mn))) mn) (combine p (fst (draws (unif G) (length p) g))), snd (draws (unif G) (length p) g)) /\
  get_gaussian_to_vec_nonstandard g p mean sd =
    (map (fun xr => add (add (fst xr) (mul (snd xr) sd)) mean) (combine p (fst (draws (gauss G) (length p) g))), snd (draws (gauss G) (length p) g)).
Proof.
  assert (Same : forall (xs ys : list S), length xs = length ys -> map (fun xr : S * S => snd xr) (combine xs ys) = ys).
  { induction xs as [|x xs IH]; intros [|y ys] H; try discriminate H; [reflexivity|]. cbn. f_equal. apply IH. now injection H. }
  assert (Eq : forall (draw : gen -> S * gen) (q : pos S) m, length q = m -> sample_map (G := G) draw (fun _ r => r) q g = draws draw m g).
  { intros draw q m <-. rewrite sample_map_spec. rewrite Same by (now rewrite draws_length). symmetry. apply surjective_pairing. }
  split; [apply Eq, repeat_length|]. split; [apply Eq, repeat_length|]. split; [apply Eq, map_length|]. split; [apply Eq, map_length|].
  split; [exact (sample_map_spec (unif G) (fun x r => add (add x (mul r (sub mx mn))) mn) p g)|exact (sample_map_spec (gauss G) (fun x r => add (add x (mul r sd)) mean) p g)].
Qed.
End W.

Lemma exp_walk_R {G : rng RR} (sy : anysys RR) tg (limit dt : R) N (l : llist (expag RR)) (disp : list R) (mv : llist (pos RR)) (g : rstate G) :
  built sy -> exp_crew (sysdim sy) N l -> move_list (sysdim sy) N mv -> length disp = sysdim sy ->
  exists plan : list (list R), length plan = N /\ Forall (fun v => length v = sysdim sy) plan /\
  (forall c, c < sysdim sy -> rsum (map (fun k => coord plan k c) (seq 0 N)) = 0%R) /\
  (same_law (contents l) -> forall k c, k < N -> c < sysdim sy -> coord plan k c = net_repulsion dt (contents l) k c) /\
  exists l' disp' mv' g' r k, exp_step (core sy) tg (limit : RR) (dt : RR) l disp mv g = (l', disp', mv', g', r) /\ k <= N /\ g' = after_blocks (gauss G) (sysdim sy) k g /\ (r = Ok false -> k = N) /\
    (forall i a c v, nth_error (contents l) i = Some a -> ex_mtype a = Brownian c -> nth_error plan i = Some v -> exists b, nth_error (contents l') i = Some b /\ ex_mtype b = Brownian c /\
       ex_pos b = if i <? k then fst (sc_check_bc (core (G := G) sy) (ex_pos a) (limit_move (limit : RR) (noisy_kick c (dt : RR) v (nth_block (gauss G) (sysdim sy) i g)))) else ex_pos a).
Proof.
  intros B C M D. destruct (exp_walk_plans (S := RR) sy tg limit dt N l disp mv g B C M D) as (L1 & L2 & W). exists (plans (S := RR) (sysdim sy) dt (contents l) disp).
  split; [exact L1|]. split; [exact L2|]. split; [|split; [|exact W]].
  - intros c Hc. pose proof (plans_total (sysdim sy) dt (contents l) disp c (ec_crew _ _ _ C) D Hc) as H. rewrite (ec_slots _ _ _ C) in H. exact H.
  - intros SL k c Hk Hc. apply plans_net; auto; [exact (ec_crew _ _ _ C)|]. now rewrite (ec_slots _ _ _ C).
Qed.
