(** Proofs about single searches: the search against the list of one searcher, the reused vector, the tests. *)
From Coq Require Import List Lia Arith ZArith Reals Lra.
From Verif Require Import Base Scalar Model_Position Spec_Position Proof_Position Model_System Spec_System Proof_System Proof_System5 Model_Agent Spec_Agent
  Model_LinkedList Spec_LinkedList Refine_LinkedList Model_Run Spec_Run Model_Search Spec_Search
  Proof_Run2 Proof_Run4 Proof_Run5 Proof_Run6 Proof_Run7 Proof_Run13 Proof_Run14 Proof_Search.
Import ListNotations.
Local Open Scope nat_scope.

Section W.
Context {S : scalar} {G : rng S}.
Notation gen := (rstate G).

(** ** One searcher in a list *)
Definition lone (a : indep S) (c : option nat) : llist (indep S) := mkLL [node_new] [a] (Some 0) (Some 0) c None None.
Lemma pass_lone (sys : syscore S G) tg dt a c g :
  move_pass indep_mover sys tg dt (lone a c) g =
    let (g1, mv) := indep_random_move a g dt in
    match mv with
    | Ok dp =>
      let (p, r) := sc_check_bc sys (in_pos a) dp in
      (lone (in_set a (in_dim a) p) None, g1, do _ <- r; check_find tg p)
    | Err e => (lone a None, g1, Err e) | Panic => (lone a None, g1, Panic) | Fuel => (lone a None, g1, Fuel)
    end.
Proof.
  unfold move_pass. change (into_iter (lone a c)) with (lone a (Some 0)). cbn [lone contents length].
  assert (E0 : enumerate (lone a (Some 0)) = Ok (lone a None, Some (0, a))) by reflexivity.
  assert (E1 : forall b, enumerate (lone b None) = Ok (lone b None, None)) by reflexivity.
  cbn [move_loop]. rewrite E0. cbn [mv_move indep_mover mv_pos mv_put].
  destruct (indep_random_move a g dt) as (g1, [dp|e| |]); try reflexivity.
  destruct (sc_check_bc sys (in_pos a) dp) as (p, r).
  change (with_contents (lone a None) (replace_nth 0 (in_set a (in_dim a) p) (contents (lone a None)))) with (lone (in_set a (in_dim a) p) None).
  destruct r as [u|e| |]; try reflexivity. cbn [bind].
  destruct (check_find tg p) as [[|]|e| |]; try reflexivity.
Qed.

Lemma run_to_search (sys : syscore S G) tg dt fuel : forall time a c g l g' r, check_find tg (in_pos a) = Ok false ->
  fixed_run (move_pass indep_mover sys tg) fuel dt time (lone a c) g = (l, g', r) -> r <> Fuel ->
  exists a', search_loop sys tg dt (Datatypes.S fuel) time a g = (a', g', r).
Proof.
  induction fuel as [|fuel IH]; intros time a c g l g' r F E N.
  - cbn in E. injection E as <- <- <-. congruence.
  - cbn [fixed_run] in E. rewrite pass_lone in E. remember (Datatypes.S fuel) as sf eqn:Esf. cbn [search_loop]. rewrite F. subst sf.
    destruct (indep_random_move a g dt) as (g1, [dp|e| |]); try (injection E as <- <- <-; eauto; fail).
    destruct (sc_check_bc sys (in_pos a) dp) as (p, [u|e| |]); cbn [bind] in E; try (injection E as <- <- <-; eauto; fail).
    destruct (check_find tg p) as [[|]|e| |] eqn:F1.
    + cbn [search_loop]. change (in_pos (in_set a (in_dim a) p)) with p. rewrite F1. injection E as <- <- <-. eauto.
    + exact (IH _ (in_set a (in_dim a) p) _ _ _ _ _ F1 E N).
    + cbn [search_loop]. change (in_pos (in_set a (in_dim a) p)) with p. rewrite F1. injection E as <- <- <-. eauto.
    + cbn [search_loop]. change (in_pos (in_set a (in_dim a) p)) with p. rewrite F1. injection E as <- <- <-. eauto.
    + injection E as <- <- <-. congruence.
Qed.
Lemma search_to_run (sys : syscore S G) tg dt fuel : forall time a c g a' g' r, check_find tg (in_pos a) = Ok false ->
  search_loop sys tg dt fuel time a g = (a', g', r) -> r <> Fuel ->
  exists l, fixed_run (move_pass indep_mover sys tg) fuel dt time (lone a c) g = (l, g', r).
Proof.
  induction fuel as [|fuel IH]; intros time a c g a' g' r F E N.
  - cbn in E. injection E as <- <- <-. congruence.
  - cbn [fixed_run]. rewrite pass_lone. cbn [search_loop] in E. rewrite F in E.
    destruct (indep_random_move a g dt) as (g1, [dp|e| |]); try (injection E as <- <- <-; eauto; fail).
    destruct (sc_check_bc sys (in_pos a) dp) as (p, [u|e| |]); cbn [bind]; try (injection E as <- <- <-; eauto; fail).
    destruct (check_find tg p) as [[|]|e| |] eqn:F1.
    2: exact (IH _ (in_set a (in_dim a) p) _ _ _ _ _ F1 E N).
    all: destruct fuel as [|fuel]; [cbn in E; injection E as <- <- <-; congruence|].
    all: cbn [search_loop] in E; change (in_pos (in_set a (in_dim a) p)) with p in E; rewrite F1 in E; injection E as <- <- <-; eauto.
Qed.
Lemma one_searcher inner pf fuel sy (tg : target S) c dt (g g' : gen) r : built sy -> length (tg_pos tg) = sysdim sy -> r <> Fuel ->
  (indep_fpt inner pf fuel (core sy) tg (Brownian c) dt 1 g = (g', r) -> one_search inner pf (Datatypes.S fuel) (core sy) tg (Brownian c) dt g = (g', r)) /\
  (one_search inner pf fuel (core sy) tg (Brownian c) dt g = (g', r) -> indep_fpt inner pf fuel (core sy) tg (Brownian c) dt 1 g = (g', r)).
Proof.
  intros B T N. unfold indep_fpt, one_search. cbn [build_agents].
  destruct (indep_new_ok sy tg inner pf c g B T) as [(a & g1 & -> & _ & F)|(g1 & ->)]; [|now split; intros H; injection H as <- <-].
  cbn [bind]. change (ll_from [a]) with (Ok (lone a None)).
  split; intros H.
  - destruct (fixed_run (move_pass indep_mover (core sy) tg) fuel dt s0 (lone a None) g1) as [[l g2] t] eqn:E. injection H as <- <-.
    destruct (run_to_search _ _ _ _ _ _ _ _ _ _ _ F E N) as (a' & ->). reflexivity.
  - destruct (search_loop (core sy) tg dt fuel s0 a g1) as [[a' g2] t] eqn:E. injection H as <- <-.
    destruct (search_to_run _ _ _ _ _ _ None _ _ _ _ F E N) as (l & ->). reflexivity.
Qed.

Lemma one_search_cases inner pf fuel sy (tg : target S) c dt (g : gen) : built sy -> length (tg_pos tg) = sysdim sy ->
  let n := sysdim sy in let bc := sc_check_bc (core (G := G) sy) in
  (exists a g0, indep_new_uniform inner pf (core sy) tg g (Brownian c) = (g0, Ok a) /\ length (in_pos a) = n /\ check_find tg (in_pos a) = Ok false /\
     ((exists k q, 1 <= k < fuel /\ first_visit bc tg c dt n (in_pos a) g0 k q /\
         one_search inner pf fuel (core sy) tg (Brownian c) dt g = (after_blocks (gauss G) n k g0, Ok (ticks dt k))) \/
      (exists k p q, k < fuel /\ no_visit bc tg c dt n (in_pos a) g0 k /\ comes_to bc c dt n (in_pos a) g0 k p /\
         bc p (brownian_kick c dt (nth_block (gauss G) n k g0)) = (q, Err TooLargeTimeStep) /\
         one_search inner pf fuel (core sy) tg (Brownian c) dt g = (after_blocks (gauss G) n (Datatypes.S k) g0, Err TooLargeTimeStep)) \/
      ((forall j, j < fuel -> exists q', comes_to bc c dt n (in_pos a) g0 j q' /\ check_find tg q' = Ok false) /\
       one_search inner pf fuel (core sy) tg (Brownian c) dt g = (after_blocks (gauss G) n fuel g0, Fuel)))) \/
  (exists g', indep_new_uniform inner pf (core sy) tg g (Brownian c) = (g', Fuel) /\ one_search inner pf fuel (core sy) tg (Brownian c) dt g = (g', Fuel)).
Proof.
  intros B T n bc. unfold one_search.
  destruct (indep_new_ok sy tg inner pf c g B T) as [(a & g1 & -> & (Ia & Ma) & F)|(g1 & ->)]; [left|right; eauto].
  exists a, g1. split; [reflexivity|]. split; [apply Ia|]. split; [exact F|].
  destruct (search_cases sy tg c dt fuel B T s0 a g1 Ia Ma) as [(k & q & Hk & V & ->)|[(k & p & q & Hk & V & C & R & ->)|(V & a' & ->)]].
  - left. exists k, q. split; [|split; [exact V|now rewrite ticks_from_0]]. split; [|exact Hk]. destruct k; [|lia].
    destruct V as (V1 & V2 & _). unfold comes_to in V1. cbn in V1. injection V1 as <-. congruence.
  - right; left. exists k, p, q. auto.
  - right; right. auto.
Qed.

(** ** The diffusion test *)
Lemma diffusion_fails num steps d c dt (g : gen) : 1 <= num -> 1 <= steps -> 1 <= d ->
  diffusion_test num steps d c dt g = (repeat s0 (steps + 1), g, Err InvalidDimension).
Proof.
  intros Hn Hs Hd. destruct num as [|num]; [lia|]. destruct steps as [|steps]; [lia|]. unfold diffusion_test. cbn [diffusion_loop seq walk_loop].
  unfold indep_random_move_to_vec, indep_new, rnd_move_to_vec. cbn [in_mtype in_dim pos_clear map dim length].
  unfold dim. rewrite repeat_length. destruct d; [lia|]. reflexivity.
Qed.
End W.

(** ** The reused vector, exact reals *)
Section R.
Context {G : rng RR}.
Notation gen := (rstate G).
Lemma to_vec_R (c dt : RR) n (v : pos RR) (g : gen) : length v = n ->
  rnd_move_to_vec (S := RR) (G := G) (Brownian c) n g dt (pos_clear (S := RR) v) =
  (brownian_kick (S := RR) c dt (fst (draws (gauss G) n g)), snd (draws (gauss G) n g), Ok tt).
Proof.
  intros L. unfold rnd_move_to_vec.
  assert (Lc : length (pos_clear (S := RR) v) = n) by (unfold pos_clear; rewrite map_length; exact L).
  unfold dim. rewrite Lc, Nat.eqb_refl. cbn [negb].
  destruct (vec_draws g n (pos_clear (S := RR) v) s0 s0 (s0 (s := RR)) (fsqrt (s := RR) (mul (mul s2 (c : RR)) dt))) as (_ & _ & _ & _ & _ & E).
  rewrite E, Lc. f_equal. f_equal.
  pose proof (draws_len (S := RR) n g) as Ld. revert Ld Lc. generalize (fst (draws (gauss G) n g)). clear E. intros ds.
  unfold pos_clear, brownian_kick. rewrite map_length. intros Ld Lv. clear L. revert ds n Ld Lv.
  induction v as [|x v IH]; intros [|y ds] n Ld Lv; cbn in Ld, Lv; try (exfalso; congruence); [reflexivity|].
  cbn [map combine]. destruct n as [|n]; [discriminate|]. f_equal; [|apply (IH ds n); [now injection Ld|now injection Lv]].
  cbn [fst snd]. change (0 + y * sqrt (2 * c * dt) + 0 = y * sqrt (2 * c * dt))%R. ring.
Qed.
Lemma vec_search sy (tg : target RR) (c dt : RR) fuel : built sy -> forall (time : RR) (a : indep RR) (v : pos RR) (g : gen),
  indep_in (sysdim sy) a -> in_mtype a = Brownian c -> length v = sysdim sy ->
  exists v', length v' = sysdim sy /\
    search_loop_to_vec (core sy) tg dt fuel time a v g = (let '(a', g', t) := search_loop (core sy) tg dt fuel time a g in (a', v', g', t)).
Proof.
  intros B. induction fuel as [|fuel IH]; intros time a v g Ia Ma Lv.
  - exists v. split; [exact Lv|reflexivity].
  - cbn [search_loop search_loop_to_vec]. destruct (check_find tg (in_pos a)) as [[|]|e| |]; try (exists v; split; [exact Lv|reflexivity]).
    destruct Ia as (Da & La & Ca).
    unfold indep_random_move_to_vec, indep_random_move. rewrite Ma, Da, (to_vec_R c dt _ v g Lv), rnd_move_kick.
    set (dp := brownian_kick _ _ _). set (g1 := snd _).
    assert (Ldp : length dp = sysdim sy) by (unfold dp; rewrite kick_len; apply draws_len).
    destruct (core_shape (G := G) sy B (in_pos a) dp) as (_ & _ & Sh). destruct (Sh ltac:(lia) La) as (p1 & Lp & [E|E]); rewrite E.
    + apply IH; [|exact Ma|exact Ldp]. split; [reflexivity|]. split; [exact Lp|exact Ca].
    + exists dp. split; [exact Ldp|reflexivity].
Qed.
Lemma vec_mean inner pf fuel sy (tg : target RR) (c dt : RR) : built sy -> length (tg_pos tg) = sysdim sy -> forall num (data : RR) (v : pos RR) (g : gen), length v = sysdim sy ->
  single_sum inner pf fuel (core sy) tg (Brownian c) dt num data v g = sum_loop (one_search inner pf fuel (core sy) tg (Brownian c) dt) num data g.
Proof.
  intros B T. induction num as [|num IH]; intros data v g Lv; [reflexivity|].
  cbn [single_sum sum_loop]. unfold one_search at 1.
  destruct (indep_new_ok sy tg inner pf c g B T) as [(a & g1 & -> & (Ia & Ma) & F)|(g1 & ->)]; [|reflexivity].
  destruct (vec_search sy tg c dt fuel B s0 a v g1 Ia Ma Lv) as (v' & Lv' & ->).
  destruct (search_loop (core sy) tg dt fuel s0 a g1) as [[a' g2] [t|e| |]]; try reflexivity. apply IH, Lv'.
Qed.
Lemma single_is_mean inner pf fuel sy (tg : target RR) (c dt : RR) num (g : gen) : built sy -> length (tg_pos tg) = sysdim sy ->
  single_mfpt inner pf fuel (core sy) (sysdim sy) tg (Brownian c) dt num g = ensemble_mean (one_search inner pf fuel (core sy) tg (Brownian c) dt) num g.
Proof. intros B T. unfold single_mfpt, ensemble_mean. rewrite vec_mean; [reflexivity|exact B|exact T|apply repeat_length]. Qed.
End R.
