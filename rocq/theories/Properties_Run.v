(** Properties C47, C48 and the whole-pass part of C33: complete runs of the simulations.
    Statements use [Model_Run] (the loops of tests/merge_fpt.rs, tests/n_ptl_rts_iterator.rs, tests/large_n_simulation.rs,
    examples/mfpt_exp.rs) and the vocabulary of [Spec_Run], [Spec_Run2], [Spec_Agent], [Spec_System], [Spec_Position]. *)
From Coq Require Import Reals ZArith List Lra Lia Sorted.
From Flocq.IEEE754 Require Import BinarySingleNaN.
From Verif Require Import Base Scalar Model_Position Spec_Position Model_System Spec_System Properties_System Model_Agent Spec_Agent
  Model_LinkedList Spec_LinkedList Refine_LinkedList Proof_LinkedList Proof_LinkedList2 Proof_LinkedList5 Model_Time Spec_Time Model_Run Spec_Run Spec_Run2
  Properties_Agent Proof_Run4 Proof_Run5 Proof_Run9 Proof_Run10 Proof_Run11 Proof_Run12 Proof_Run13 Proof_Run14.
Import ListNotations.
Local Open Scope nat_scope.

(** * C47: whole runs *)
(** One time step of a merging simulation, any scalar: it always ends, finding the target ([Ok true]), going on ([Ok false]) or
    refusing a move ([TooLargeTimeStep]).  The sizes still add up to [N], nobody comes to life; if the run goes on, everybody
    live is inside and off the target, no two live agents touch, and whoever disappeared touches a live agent. *)
Theorem C47_merging_step : forall (S : scalar) (G : rng S) (sy : anysys S) (tg : target S) (m0 : movetype S) (radius alpha dt : S) N (l : llist (merger S)) (g : rstate G),
  built sy -> length (tg_pos tg) = sysdim sy -> population (sysdim sy) m0 radius alpha N l ->
  exists l' g' r, merge_step (core sy) tg (fun _ => radius) dt l g = (l', g', r) /\ population (sysdim sy) m0 radius alpha N l' /\
    (forall i, In i (live_of l') -> In i (live_of l)) /\
    (r = Ok true \/ r = Ok false \/ r = Err TooLargeTimeStep) /\
    (r <> Ok false -> live_of l' = live_of l) /\
    (r = Ok false -> all_searching sy tg mg_pos l' /\ settled radius l' /\
       (forall j, In j (live_of l) -> ~ In j (live_of l') -> exists i a b, live_at l' i a /\ nth_error (contents l') j = Some b /\ touching radius a b)) /\
    (r = Ok true -> exists i a, live_at l' i a /\ on_target sy tg (mg_pos a)).
Proof. intros S G sy tg m0 radius alpha dt N l g B T P. exact (step_pop sy tg (fun _ => radius) m0 radius alpha dt N l g B T (fun _ _ => eq_refl) (fun _ _ _ => eq_refl) P). Qed.
Print Assumptions C47_merging_step.

(** After any number of steps that did not end the run. *)
Theorem C47_merging_run : forall (S : scalar) (G : rng S) (sy : anysys S) (tg : target S) (m0 : movetype S) (radius alpha dt : S) N (l : llist (merger S)) (g : rstate G) k l' g',
  built sy -> length (tg_pos tg) = sysdim sy -> population (sysdim sy) m0 radius alpha N l ->
  after_steps (merge_step (core sy) tg (fun _ => radius) dt) k l g = Some (l', g') ->
  population (sysdim sy) m0 radius alpha N l' /\ length (live_of l') <= length (live_of l) /\ (forall i, In i (live_of l') -> In i (live_of l)) /\
  (1 <= k -> all_searching sy tg mg_pos l' /\ settled radius l').
Proof.
  intros S G sy tg m0 radius alpha dt N l g k l' g' B T P E.
  destruct (run_pop sy tg (fun _ => radius) m0 radius alpha dt N l g k l' g' B T (fun _ _ => eq_refl) (fun _ _ _ => eq_refl) P E) as (P' & I & H).
  split; [exact P'|]. split; [|split; [exact I|exact H]]. apply NoDup_incl_length; [|exact I].
  destruct P' as [RL _ _ _]. apply reachable_rep in RL as (s & Rs). rewrite (live_of_rep l' s Rs). apply sorted_NoDup. exact (rp_sorted _ _ Rs).
Qed.
Print Assumptions C47_merging_run.

(** Exact reals: after every step of a merging run that did not end it, the sizes add up to the initial number, every live agent is
    inside the system and off the target, moves with the mobility of its size, and live agents keep a distance of two radii. *)
Theorem C47_merging_run_geometry : forall (G : rng RR) (sy : anysys RR) (tg : target RR) (m0 : movetype RR) (radius alpha dt : R) N (l : llist (merger RR)) (g : rstate G) k l' g',
  built sy -> length (tg_pos tg) = sysdim sy -> population (S := RR) (sysdim sy) m0 radius alpha N l ->
  after_steps (merge_step (core sy) tg (fun _ => radius : RR) (dt : RR)) (Datatypes.S k) l g = Some (l', g') ->
  total_size mg_size l' = N /\ (forall i, In i (live_of l') -> In i (live_of l)) /\
  (forall i a, live_at l' i a -> region sy (mg_pos a) /\ off_target tg (mg_pos a) /\ mobility_law m0 a) /\
  (forall i j a b, live_at l' i a -> live_at l' j b -> i < j -> (2 * radius <= euclid (mg_pos a) (mg_pos b))%R).
Proof. exact @merge_geometry. Qed.
Print Assumptions C47_merging_run_geometry.

(** The complete merging simulation, any scalar.  Either placing the agents takes for ever, or [n] agents of size 1 are placed off the
    target; then the run goes on for ever, or ends with a step that finds the target, reporting the number of steps times [dt]
    (added up), or with a step that is refused.  It never panics and gives no other error. *)
Theorem C47_merging_simulation : forall (S : scalar) (G : rng S) inner pf fuel (sy : anysys S) (tg : target S) (c dt : S) n (radius alpha : S) (g : rstate G),
  built sy -> length (tg_pos tg) = sysdim sy ->
  (exists v g0 l0, build_agents (fun g => merger_new_uniform inner pf (core sy) tg g (Brownian c) radius alpha) n g = (g0, Ok v) /\ ll_from v = Ok l0 /\
     population (sysdim sy) (Brownian c) radius alpha n l0 /\ live_of l0 = seq 0 n /\ Forall (fun a => check_find tg (mg_pos a) = Ok false) v /\
     ((exists k l1 g1 l2 g2, k < fuel /\ after_steps (merge_step (core sy) tg (fun _ => radius) dt) k l0 g0 = Some (l1, g1) /\
         ((merge_step (core sy) tg (fun _ => radius) dt l1 g1 = (l2, g2, Ok true) /\
           merge_fpt inner pf fuel (core sy) tg (Brownian c) dt n radius alpha g = (g2, Ok (ticks dt (Datatypes.S k)))) \/
          (merge_step (core sy) tg (fun _ => radius) dt l1 g1 = (l2, g2, Err TooLargeTimeStep) /\
           merge_fpt inner pf fuel (core sy) tg (Brownian c) dt n radius alpha g = (g2, Err TooLargeTimeStep)))) \/
      (exists l1 g1, after_steps (merge_step (core sy) tg (fun _ => radius) dt) fuel l0 g0 = Some (l1, g1) /\
         merge_fpt inner pf fuel (core sy) tg (Brownian c) dt n radius alpha g = (g1, Fuel)))) \/
  (exists g1, build_agents (fun g => merger_new_uniform inner pf (core sy) tg g (Brownian c) radius alpha) n g = (g1, Fuel) /\
     merge_fpt inner pf fuel (core sy) tg (Brownian c) dt n radius alpha g = (g1, Fuel)).
Proof. exact @merge_fpt_ok. Qed.
Print Assumptions C47_merging_simulation.
(** Exact reals: the reported time is the number of steps times [dt]. *)
Theorem C47_reported_time : forall (dt : R) k, ticks (S := RR) dt k = (INR k * dt)%R.
Proof. exact ticks_R. Qed.
Print Assumptions C47_reported_time.
(** Without agents the simulation never ends. *)
Theorem C47_nobody_never_ends : forall (S : scalar) (G : rng S) inner pf fuel (sys : syscore S G) (tg : target S) mt (dt radius alpha : S) (g : rstate G),
  merge_fpt inner pf fuel sys tg mt dt 0 radius alpha g = (g, Fuel).
Proof. exact @merge_fpt_nobody. Qed.
Print Assumptions C47_nobody_never_ends.

(** The simulation of [n] independent searchers, any scalar: the same. *)
Theorem C47_independent_simulation : forall (S : scalar) (G : rng S) inner pf fuel (sy : anysys S) (tg : target S) (c dt : S) n (g : rstate G),
  built sy -> length (tg_pos tg) = sysdim sy ->
  (exists v g0 l0, build_agents (fun g => indep_new_uniform inner pf (core sy) tg g (Brownian c)) n g = (g0, Ok v) /\ ll_from v = Ok l0 /\
     searchers (sysdim sy) (Brownian c) n l0 /\ Forall (fun a => check_find tg (in_pos a) = Ok false) v /\
     ((exists k l1 g1 l2 g2, k < fuel /\ after_steps (move_pass indep_mover (core sy) tg dt) k l0 g0 = Some (l1, g1) /\
         ((move_pass indep_mover (core sy) tg dt l1 g1 = (l2, g2, Ok true) /\
           indep_fpt inner pf fuel (core sy) tg (Brownian c) dt n g = (g2, Ok (ticks dt (Datatypes.S k)))) \/
          (move_pass indep_mover (core sy) tg dt l1 g1 = (l2, g2, Err TooLargeTimeStep) /\
           indep_fpt inner pf fuel (core sy) tg (Brownian c) dt n g = (g2, Err TooLargeTimeStep)))) \/
      (exists l1 g1, after_steps (move_pass indep_mover (core sy) tg dt) fuel l0 g0 = Some (l1, g1) /\
         indep_fpt inner pf fuel (core sy) tg (Brownian c) dt n g = (g1, Fuel)))) \/
  (exists g1, build_agents (fun g => indep_new_uniform inner pf (core sy) tg g (Brownian c)) n g = (g1, Fuel) /\
     indep_fpt inner pf fuel (core sy) tg (Brownian c) dt n g = (g1, Fuel)).
Proof. exact @indep_fpt_ok. Qed.
Print Assumptions C47_independent_simulation.
Theorem C47_independent_step : forall (S : scalar) (G : rng S) (sy : anysys S) (tg : target S) m0 (dt : S) N (l : llist (indep S)) (g : rstate G),
  built sy -> length (tg_pos tg) = sysdim sy -> searchers (sysdim sy) m0 N l ->
  exists l' g' r, move_pass indep_mover (core sy) tg dt l g = (l', g', r) /\ searchers (sysdim sy) m0 N l' /\
    (r = Ok true \/ r = Ok false \/ r = Err TooLargeTimeStep) /\
    (r = Ok false -> all_searching sy tg in_pos l') /\
    (r = Ok true -> exists i a, live_at l' i a /\ on_target sy tg (in_pos a)).
Proof. exact @indep_step. Qed.
Print Assumptions C47_independent_step.

(** The reusable merging simulation driven by an exponential clock, any scalar: renewing makes a population of all agents again
    (whatever the previous run left of them), and the run ends with a time of the clock, a refused step, or [UnexpectedEnd] when
    the clock has run out. *)
Theorem C47_clocked_simulation : forall (S : scalar) (G : rng S) inner pf fuel (sy : anysys S) (tg : target S) (radius alpha : S) (clock : expstep S) (l : llist (merger S)) (g : rstate G) a b len,
  built sy -> length (tg_pos tg) = sysdim sy ->
  reachable l -> Forall (recruit (sysdim sy) radius alpha) (contents l) -> es_titype clock = Model_Time.Exponential a b len ->
  let N := length (contents l) in let m0 := Brownian (fpow (of_Z 1) (opp alpha)) : movetype S in
  exists clock0 l' g' r, es_renew clock = Ok clock0 /\ large_n_fpt inner pf fuel (core sy) tg clock l g = (l', g', r) /\
    reachable l' /\ length (contents l') = N /\ Forall (recruit (sysdim sy) radius alpha) (contents l') /\
    (r = Fuel \/ exists l0 g0, population (sysdim sy) m0 radius alpha N l0 /\ live_of l0 = seq 0 N /\ Forall (fun x => check_find tg (mg_pos x) = Ok false) (contents l0) /\
      population (sysdim sy) m0 radius alpha N l' /\
      ((exists vs t dt s1 l1 g1, collect (diff_next es_next es_dt) (Datatypes.S (length vs)) clock0 = Ok (vs ++ [(t, dt)], s1) /\
          after_dts (merge_step (core sy) tg mg_radius) (map snd vs) l0 g0 = Some (l1, g1) /\
          ((merge_step (core sy) tg mg_radius dt l1 g1 = (l', g', Ok true) /\ r = Ok t) \/
           (merge_step (core sy) tg mg_radius dt l1 g1 = (l', g', Err TooLargeTimeStep) /\ r = Err TooLargeTimeStep))) \/
       (exists vs, yields_all (diff_next es_next es_dt) clock0 vs /\
          after_dts (merge_step (core sy) tg mg_radius) (map snd vs) l0 g0 = Some (l', g') /\ r = Err UnexpectedEnd))).
Proof. exact @large_n_ok. Qed.
Print Assumptions C47_clocked_simulation.
(** Exact reals: the time reported with a step is the clock's start plus the steps before it and at most its end [tmax].  So the
    reported first passage time does not count the step in which the target was found: it is short by that step, [dt]. *)
Theorem C47_clock_reports_start_of_step : forall (c : expstep RR) vs (t dt : R) s1,
  collect (diff_next es_next es_dt) (Datatypes.S (length vs)) c = Ok (vs ++ [(t, dt)], s1) ->
  t = ((es_current c : R) + rsum (map snd vs))%R /\ (t <= (es_tmax c : R))%R.
Proof. exact clock_time. Qed.
Print Assumptions C47_clock_reports_start_of_step.

(** ** The program examples/mfpt_exp.rs *)
(** Any scalar: it writes only zeros (clock run out) and times of the clock, in the order of the samples, and ends after all samples or
    with a refused step; no panic, no other error. *)
Theorem C47_mfpt_exp_outcomes : forall (S : scalar) (G : rng S) (sy : anysys S) (tg : target S) (args : expag_args S) (limit : S) (clock : expstep S) inner pf fuel num (g : rstate G) a b len,
  built sy -> length (tg_pos tg) = sysdim sy -> exp_args_for (sysdim sy) args -> es_titype clock = Model_Time.Exponential a b len ->
  exists ts g' o, mfpt_exp (diff_next es_next es_dt) inner pf fuel num (core sy) (sysdim sy) tg args limit clock g = (ts, g', o) /\
    Forall (exp_value (diff_next es_next es_dt) clock) ts /\
    ((o = Ok tt /\ length ts = num) \/ (length ts < num /\ (o = Fuel \/ o = Err TooLargeTimeStep))).
Proof. exact @mfpt_exp_any. Qed.
Print Assumptions C47_mfpt_exp_outcomes.
(** Exact reals, ball, moves limited to at most a diameter (the program limits them to a tenth of the target): no step is refused. *)
Theorem C47_mfpt_exp_in_a_ball_never_fails : forall (G : rng RR) (s : circ RR) (tg : target RR) (args : expag_args RR) (limit : R) (clock : expstep RR) inner pf fuel num (g : rstate G) a b len,
  built_circ s -> unif_R G -> length (tg_pos tg) = ci_dim s -> exp_args_for (ci_dim s) args -> es_titype clock = Model_Time.Exponential a b len ->
  (0 < limit <= 2 * (ci_size s : R))%R ->
  exists ts g' o, mfpt_exp (diff_next es_next es_dt) inner pf fuel num (core (ACirc s)) (ci_dim s) tg args (limit : RR) clock g = (ts, g', o) /\
    Forall (exp_value (diff_next es_next es_dt) clock) ts /\
    ((o = Ok tt /\ length ts = num) \/ (length ts < num /\ o = Fuel)).
Proof. exact @mfpt_exp_ball. Qed.
Print Assumptions C47_mfpt_exp_in_a_ball_never_fails.
(** The limit: longer moves are shortened to it, the direction kept. *)
Theorem C47_moves_are_limited : forall (limit : R) (v : list R), (0 < limit)%R ->
  exists w, limit_move (limit : RR) (v : pos RR) = w /\ (euclid_norm w <= limit)%R /\
    ((euclid_norm v <= limit)%R -> w = v) /\ ((euclid_norm v > limit)%R -> w = map (fun x => (x * (limit / euclid_norm v))%R) v /\ euclid_norm w = limit).
Proof. exact limit_R. Qed.
Print Assumptions C47_moves_are_limited.
(** Its clock skips the first item: the reported time counts the skipped step, in which nothing moved, and not the step in which the
    target was found. *)
Theorem C47_mfpt_exp_time_counts_skipped_step : forall (c : expstep RR) first vs (t dt : R) s1,
  collect (diff_next es_next es_dt) (Datatypes.S (Datatypes.S (length vs))) c = Ok (first :: vs ++ [(t, dt)], s1) ->
  t = ((es_current c : R) + snd first + rsum (map snd vs))%R /\ (t <= (es_tmax c : R))%R.
Proof. exact clock_time_skip. Qed.
Print Assumptions C47_mfpt_exp_time_counts_skipped_step.

(** * C33: a full pass over the pairs *)
(** Exact reals: after the pair loop the planned moves add up to zero in every coordinate, agents are unchanged, and if all agents have
    the same force law every planned move is the sum of the repulsions by all the others. *)
Theorem C33_pair_pass : forall n (dt : R) (l : llist (expag RR)) (disp : list R) (mv : llist (list R)) N,
  exp_crew (S := RR) n N l -> move_list (S := RR) n N mv -> length disp = n -> contents mv = repeat (repeat 0%R n) N ->
  exists l0 l' d' mv', into_double_iter l = Ok l0 /\
    force_loop (S := RR) dt (Datatypes.S (length (contents l) * length (contents l))) l0 disp mv = (l', d', mv', Ok tt) /\
    reachable l' /\ contents l' = contents l /\ live_of l' = live_of l /\
    length (contents mv') = N /\ Forall (fun v => length v = n) (contents mv') /\
    (forall c, c < n -> rsum (map (fun k => coord (contents mv') k c) (seq 0 N)) = 0%R) /\
    (same_law (contents l) -> forall k c, k < N -> c < n -> coord (contents mv') k c = net_repulsion dt (contents l) k c).
Proof. exact pair_pass_forces. Qed.
Print Assumptions C33_pair_pass.

(** * C48: the samples a run consumes *)
(** The vector routines draw one sample per coordinate, in order. *)
Theorem C48_vector_routines : forall (S : scalar) (G : rng S) (g : rstate G) n (p : pos S) mn mx mean sd,
  get_uniform_vec g n = draws (unif G) n g /\ get_gaussian_vec g n = draws (gauss G) n g /\
  get_uniform_to_vec g p = draws (unif G) (length p) g /\ get_gaussian_to_vec g p = draws (gauss G) (length p) g /\
  get_uniform_to_vec_nonstandard g p mn mx =
    (map (fun xr => add (add (fst xr) (mul (snd xr) (sub mx mn))) mn) (combine p (fst (draws (unif G) (length p) g))), snd (draws (unif G) (length p) g)) /\
  get_gaussian_to_vec_nonstandard g p mean sd =
    (map (fun xr => add (add (fst xr) (mul (snd xr) sd)) mean) (combine p (fst (draws (gauss G) (length p) g))), snd (draws (gauss G) (length p) g)).
Proof. exact @vec_draws. Qed.
Print Assumptions C48_vector_routines.
(** Placing an agent draws whole blocks of uniform samples and nothing else. *)
Theorem C48_placing : forall (S : scalar) (G : rng S) (sy : anysys S) (tg : target S) inner fuel (g : rstate G) (v : pos S),
  built sy -> length (tg_pos tg) = sysdim sy -> length v = sysdim sy ->
  (exists q k, place inner fuel (core sy) tg g v = (q, after_blocks (unif G) (sysdim sy) (Datatypes.S k) g, Ok tt) /\ length q = sysdim sy /\ check_find tg q = Ok false) \/
  (exists q g', place inner fuel (core sy) tg g v = (q, g', Fuel)).
Proof. exact @place_ok. Qed.
Print Assumptions C48_placing.
(** One movement pass: the [j]-th live agent moves by the [j]-th block of normal samples (through the boundary rule), [k] blocks are
    consumed, the agents after the [k]-th have not moved; [k] is the number of live agents unless the pass was cut short. *)
Theorem C48_independent_pass : forall (S : scalar) (G : rng S) (sy : anysys S) (tg : target S) (dt : S) (l : llist (indep S)) (g : rstate G),
  built sy -> reachable l -> Forall (indep_in (sysdim sy)) (contents l) ->
  exists l' g' r k, move_pass indep_mover (core sy) tg dt l g = (l', g', r) /\ k <= length (live_of l) /\ g' = after_blocks (gauss G) (sysdim sy) k g /\
    (r = Ok false -> k = length (live_of l)) /\
    (forall j i a c, nth_error (live_of l) j = Some i -> nth_error (contents l) i = Some a -> in_mtype a = Brownian c ->
       exists b, nth_error (contents l') i = Some b /\ in_mtype b = Brownian c /\
         in_pos b = if j <? k then fst (sc_check_bc (core (G := G) sy) (in_pos a) (brownian_kick c dt (nth_block (gauss G) (sysdim sy) j g))) else in_pos a).
Proof. exact @indep_walk_pos. Qed.
Print Assumptions C48_independent_pass.
Theorem C48_merging_pass : forall (S : scalar) (G : rng S) (sy : anysys S) (tg : target S) (dt : S) (l : llist (merger S)) (g : rstate G),
  built sy -> reachable l -> Forall (brownian_in (sysdim sy)) (contents l) ->
  exists l' g' r k, move_pass merger_mover (core sy) tg dt l g = (l', g', r) /\ k <= length (live_of l) /\ g' = after_blocks (gauss G) (sysdim sy) k g /\
    (r = Ok false -> k = length (live_of l)) /\
    (forall j i a c, nth_error (live_of l) j = Some i -> nth_error (contents l) i = Some a -> mg_mtype a = Brownian c ->
       exists b, nth_error (contents l') i = Some b /\ mg_mtype b = Brownian c /\ mg_size b = mg_size a /\
         mg_pos b = if j <? k then fst (sc_check_bc (core (G := G) sy) (mg_pos a) (brownian_kick c dt (nth_block (gauss G) (sysdim sy) j g))) else mg_pos a).
Proof. exact @merger_walk_pos. Qed.
Print Assumptions C48_merging_pass.
(** Exact reals, repelling agents: the same, where every agent's displacement is its planned move (the pair forces, which cancel) plus its
    block of normal samples, shortened to the limit. *)
Theorem C48_repelling_step : forall (G : rng RR) (sy : anysys RR) tg (limit dt : R) N (l : llist (expag RR)) (disp : list R) (mv : llist (pos RR)) (g : rstate G),
  built sy -> exp_crew (sysdim sy) N l -> move_list (sysdim sy) N mv -> length disp = sysdim sy ->
  exists plan : list (list R), length plan = N /\ Forall (fun v => length v = sysdim sy) plan /\
  (forall c, c < sysdim sy -> rsum (map (fun k => coord plan k c) (seq 0 N)) = 0%R) /\
  (same_law (contents l) -> forall k c, k < N -> c < sysdim sy -> coord plan k c = net_repulsion dt (contents l) k c) /\
  exists l' disp' mv' g' r k, exp_step (core sy) tg (limit : RR) (dt : RR) l disp mv g = (l', disp', mv', g', r) /\ k <= N /\ g' = after_blocks (gauss G) (sysdim sy) k g /\ (r = Ok false -> k = N) /\
    (forall i a c v, nth_error (contents l) i = Some a -> ex_mtype a = Brownian c -> nth_error plan i = Some v -> exists b, nth_error (contents l') i = Some b /\ ex_mtype b = Brownian c /\
       ex_pos b = if i <? k then fst (sc_check_bc (core (G := G) sy) (ex_pos a) (limit_move (limit : RR) (noisy_kick c (dt : RR) v (nth_block (gauss G) (sysdim sy) i g)))) else ex_pos a).
Proof. exact @exp_walk_R. Qed.
Print Assumptions C48_repelling_step.
(** [k] steps of [N] independent searchers consume [k * N] blocks; a merging run consumes one block per agent alive at each step. *)
Theorem C48_independent_run : forall (S : scalar) (G : rng S) (sy : anysys S) (tg : target S) m0 (dt : S) N k (l : llist (indep S)) (g : rstate G) l' g',
  built sy -> length (tg_pos tg) = sysdim sy -> searchers (sysdim sy) m0 N l ->
  after_steps (move_pass indep_mover (core sy) tg dt) k l g = Some (l', g') -> g' = after_blocks (gauss G) (sysdim sy) (k * N) g.
Proof. exact @indep_run_draws. Qed.
Print Assumptions C48_independent_run.
Theorem C48_merging_run : forall (S : scalar) (G : rng S) (sy : anysys S) (tg : target S) m0 (radius alpha dt : S) N k (l : llist (merger S)) (g : rstate G) l' g',
  built sy -> length (tg_pos tg) = sysdim sy -> population (sysdim sy) m0 radius alpha N l ->
  after_steps (merge_step (core sy) tg (fun _ => radius) dt) k l g = Some (l', g') ->
  g' = after_blocks (gauss G) (sysdim sy) (living (merge_step (core sy) tg (fun _ => radius) dt) k l g) g.
Proof. intros S G sy tg m0 radius alpha dt N k l g l' g' B T. exact (merge_run_draws sy tg (fun _ => radius) m0 radius alpha dt N k l g l' g' B T (fun _ _ => eq_refl) (fun _ _ _ => eq_refl)). Qed.
Print Assumptions C48_merging_run.

(** Runs depend on the generator only through its samples: two generators, of whatever kind, that give the same samples give the same
    result, and afterwards still give the same samples. *)
Theorem C48_same_samples_same_merging_simulation : forall (S : scalar) (G1 G2 : rng S) (sy : anysys S) (tg : target S) inner pf fuel mt (dt : S) n (radius alpha : S) (g1 : rstate G1) (g2 : rstate G2),
  same_stream g1 g2 ->
  snd (merge_fpt inner pf fuel (core sy) tg mt dt n radius alpha g1) = snd (merge_fpt inner pf fuel (core sy) tg mt dt n radius alpha g2) /\
  same_stream (fst (merge_fpt inner pf fuel (core sy) tg mt dt n radius alpha g1)) (fst (merge_fpt inner pf fuel (core sy) tg mt dt n radius alpha g2)).
Proof. intros S G1 G2 sy tg inner pf fuel mt dt n radius alpha g1 g2 H. exact (sim_merge_fpt _ _ tg (sim_core sy) inner pf fuel mt dt n radius alpha g1 g2 H). Qed.
Print Assumptions C48_same_samples_same_merging_simulation.
Theorem C48_same_samples_same_independent_simulation : forall (S : scalar) (G1 G2 : rng S) (sy : anysys S) (tg : target S) inner pf fuel mt (dt : S) n (g1 : rstate G1) (g2 : rstate G2),
  same_stream g1 g2 ->
  snd (indep_fpt inner pf fuel (core sy) tg mt dt n g1) = snd (indep_fpt inner pf fuel (core sy) tg mt dt n g2) /\
  same_stream (fst (indep_fpt inner pf fuel (core sy) tg mt dt n g1)) (fst (indep_fpt inner pf fuel (core sy) tg mt dt n g2)).
Proof. intros S G1 G2 sy tg inner pf fuel mt dt n g1 g2 H. exact (sim_indep_fpt _ _ tg (sim_core sy) inner pf fuel mt dt n g1 g2 H). Qed.
Print Assumptions C48_same_samples_same_independent_simulation.
Theorem C48_same_samples_same_clocked_simulation : forall (S : scalar) (G1 G2 : rng S) (sy : anysys S) (tg : target S) inner pf fuel clock (l : llist (merger S)) (g1 : rstate G1) (g2 : rstate G2) l1 h1 r1 l2 h2 r2,
  same_stream g1 g2 -> large_n_fpt inner pf fuel (core sy) tg clock l g1 = (l1, h1, r1) -> large_n_fpt inner pf fuel (core sy) tg clock l g2 = (l2, h2, r2) ->
  l1 = l2 /\ r1 = r2 /\ same_stream h1 h2.
Proof.
  intros S G1 G2 sy tg inner pf fuel clock l g1 g2 l1 h1 r1 l2 h2 r2 H E1 E2. pose proof (sim_large_n _ _ tg (sim_core sy) inner pf fuel clock l g1 g2 H) as K.
  rewrite E1, E2 in K. destruct K as ((K1 & K2) & K3). auto.
Qed.
Print Assumptions C48_same_samples_same_clocked_simulation.
Theorem C48_same_samples_same_mfpt_exp : forall (S : scalar) (G1 G2 : rng S) (sy : anysys S) (tg : target S) inner pf fuel num args (limit : S) (clock : expstep S) (g1 : rstate G1) (g2 : rstate G2) ts1 h1 r1 ts2 h2 r2,
  same_stream g1 g2 ->
  mfpt_exp (diff_next es_next es_dt) inner pf fuel num (core sy) (sysdim sy) tg args limit clock g1 = (ts1, h1, r1) ->
  mfpt_exp (diff_next es_next es_dt) inner pf fuel num (core sy) (sysdim sy) tg args limit clock g2 = (ts2, h2, r2) ->
  ts1 = ts2 /\ r1 = r2 /\ same_stream h1 h2.
Proof.
  intros S G1 G2 sy tg inner pf fuel num args limit clock g1 g2 ts1 h1 r1 ts2 h2 r2 H E1 E2.
  pose proof (sim_mfpt _ _ tg (sim_core sy) (diff_next es_next es_dt) inner pf fuel num (sysdim sy) args limit clock g1 g2 H) as K.
  rewrite E1, E2 in K. destruct K as ((K1 & K2) & K3). auto.
Qed.
Print Assumptions C48_same_samples_same_mfpt_exp.

(** * The hypotheses are met *)
(** Any agents placed by hand form a population; likewise searchers and repelling agents. *)
Example fresh_population : forall (S : scalar) n (c radius alpha : S) (ps : list (pos S)), Forall (fun p => length p = n) ps ->
  exists l, ll_from (map (fun p => merger_new (Brownian c) p radius alpha) ps) = Ok l /\ population n (Brownian c) radius alpha (length ps) l.
Proof.
  intros S n c radius alpha ps H. destruct (from_fresh (map (fun p => merger_new (Brownian c) p radius alpha) ps)) as (l & E & R & C & L). exists l. split; [exact E|].
  rewrite map_length in L. assert (Len : length (contents l) = length ps) by (rewrite C; apply map_length). split; [exact R|exact Len| |].
  - rewrite C. apply Forall_map. eapply Forall_impl; [|exact H]. intros p Hp. split; [|split; [left|]; now split]. split; [exact Hp|]. split; [exact Hp|]. now exists c.
  - rewrite <- Len. apply total_fresh; [now rewrite Len|]. rewrite C. apply Forall_map. eapply Forall_impl; [|exact H]. reflexivity.
Qed.
Example fresh_searchers : forall (S : scalar) n (c : S) (ps : list (pos S)), Forall (fun p => length p = n) ps ->
  exists l, ll_from (map (fun p => indep_new (Brownian c) p) ps) = Ok l /\ searchers n (Brownian c) (length ps) l.
Proof.
  intros S n c ps H. destruct (from_fresh (map (fun p => indep_new (Brownian c) p) ps)) as (l & E & R & C & L). exists l. split; [exact E|].
  rewrite map_length in L. assert (Len : length (contents l) = length ps) by (rewrite C; apply map_length). split; [exact R|exact Len|exact L|].
  rewrite C. apply Forall_map. eapply Forall_impl; [|exact H]. intros p Hp. split; [|reflexivity]. split; [exact Hp|]. split; [exact Hp|]. now exists c.
Qed.

(** Doubles: three agents in a disc of radius 10 with a target of size 1 at the centre, radius 0.5; samples are 0.1, 0.2, ... in turn.
    One step of length 1/2: agents 0 and 1 come together and merge, agent 2 goes on alone. *)
Definition count_rng (lm : libm) : rng (F64 lm) := Rng (S := F64 lm) Z (fun z => (lit (s := F64 lm) (z mod 10) 10, (z + 1)%Z)) (fun z => (lit (s := F64 lm) (z mod 10) 10, (z + 1)%Z)).
Definition demo_disc (lm : libm) : circ (F64 lm) := Circ (S := F64 lm) ContinuousCircular Reflection (of_Z 10) 2.
Definition demo_target (lm : libm) : target (F64 lm) := target_new (S := F64 lm) [of_Z 0; of_Z 0] (of_Z 1).
Definition demo_starts (lm : libm) : list (pos (F64 lm)) := [[of_Z 5; of_Z 5]; [lit 11 2; lit 11 2]; [of_Z (-4); of_Z 4]].
Definition demo_run (lm : libm) (k : nat) : option (llist (merger (F64 lm)) * rstate (count_rng lm)) :=
  match ll_from (map (fun p => merger_new (S := F64 lm) (Brownian (of_Z 1)) p (lit 1 2) (of_Z 1)) (demo_starts lm)) with
  | Ok l => after_steps (merge_step (core (ACirc (demo_disc lm))) (demo_target lm) (fun _ => lit 1 2) (lit 1 2)) k l (1%Z : rstate (count_rng lm))
  | _ => None
  end.
Example demo_disc_built : forall lm, built (ACirc (demo_disc lm)) /\ length (tg_pos (demo_target lm)) = sysdim (ACirc (demo_disc lm)).
Proof. intros lm. split; [|reflexivity]. left. exists (of_Z 10), 2. reflexivity. Qed.
Example demo_run_goes_on : forall lm, match demo_run lm 1 with Some (l, g) => (live_of l, map mg_size (contents l), g) = ([0; 2], [2; 1; 1], 7%Z) | None => False end.
Proof. intros lm. vm_compute. reflexivity. Qed.
(** Repelling agents with one planned move each. *)
Definition plain_exp {S : scalar} (c gamma strength : S) (p : pos S) : expag S :=
  Expag ContinuousPassiveInteracting (Model_Agent.Exponential (length p) gamma) (Brownian c) (SpecificPosition p) (length p) p gamma strength strength (div strength gamma).
Example plain_exp_is_new : forall (S : scalar) (c gamma strength : S) p, expag_new (Model_Agent.Exponential (length p) gamma) (Brownian c) p strength = Ok (plain_exp c gamma strength p).
Proof. intros. unfold expag_new. cbn. unfold dim. rewrite Nat.eqb_refl. reflexivity. Qed.
Example fresh_repelling : forall (S : scalar) n (c gamma strength : S) (ps : list (pos S)), Forall (fun p => length p = n) ps ->
  exists l (mv : llist (pos S)), ll_from (map (plain_exp c gamma strength) ps) = Ok l /\ exp_crew n (length ps) l /\
    ll_from (repeat (repeat (s0 : S) n) (length ps)) = Ok mv /\ move_list n (length ps) mv /\ contents mv = repeat (repeat s0 n) (length ps).
Proof.
  intros S n c gamma strength ps H. destruct (from_fresh (map (plain_exp c gamma strength) ps)) as (l & E & R & C & L).
  destruct (from_fresh (repeat (repeat (s0 : S) n) (length ps))) as (mv & E2 & R2 & C2 & L2). exists l, mv. rewrite map_length in L. rewrite repeat_length in L2.
  split; [exact E|]. split; [|split; [exact E2|split; [|exact C2]]].
  - split; [exact R|rewrite C; apply map_length|exact L|]. rewrite C. apply Forall_map. eapply Forall_impl; [|exact H]. intros p Hp. split; [exact Hp|]. split; [exact Hp|]. now exists c.
  - split; [exact R2|exact (eq_trans (f_equal (@length _) C2) (repeat_length _ _))|exact L2|]. apply Forall_forall. intros v Hv.
    pose proof (eq_ind _ (fun x => In v x) Hv _ C2) as Hv'. apply repeat_spec in Hv'. rewrite Hv'. apply repeat_length.
Qed.
Example fresh_same_law : forall (c gamma strength : R) (ps : list (list R)), same_law (map (plain_exp (S := RR) c gamma strength) ps).
Proof.
  intros c gamma strength ps a b Ha Hb r. apply in_map_iff in Ha as (p & <- & _). apply in_map_iff in Hb as (q & <- & _). reflexivity.
Qed.
(** Arguments the program accepts, a clock, and generators giving the same samples. *)
Example demo_exp_args : exp_args_for (S := RR) 2 (ExpagArgs (S := RR) ContinuousPassiveInteracting (Brownian (1%R : RR)) Uniform 1%R 2 1%R 5).
Proof. split; [reflexivity|]. split; [now exists 1%R|exact I]. Qed.
Example clock_made : forall (S : scalar) (a b : S) len, (ltb a (lit 1 (10 ^ 15)) || ltb b a || (len =? 0))%bool = false ->
  exists c, es_new a b len = Ok c /\ es_titype c = Model_Time.Exponential a b len.
Proof. intros S a b len H. unfold es_new. rewrite H. eexists. split; reflexivity. Qed.
Example demo_clock : forall lm, (ltb (s := F64 lm) (lit 1 100) (lit 1 (10 ^ 15)) || ltb (s := F64 lm) (of_Z 1) (lit 1 100) || (10 =? 0))%bool = false.
Proof. intros lm. vm_compute. reflexivity. Qed.
(** Two generators of different types with the same samples. *)
Definition shifted_rng (lm : libm) : rng (F64 lm) := Rng (S := F64 lm) Z (fun z => (lit (s := F64 lm) ((z + 10) mod 10) 10, (z + 1)%Z)) (fun z => (lit (s := F64 lm) ((z + 10) mod 10) 10, (z + 1)%Z)).
Example demo_same_stream : forall lm (z : Z), same_stream (G1 := count_rng lm) (G2 := shifted_rng lm) (z : rstate (count_rng lm)) (z : rstate (shifted_rng lm)).
Proof.
  intros lm z q. revert z. induction q as [|b q IH]; intros z; [reflexivity|]. cbn [answers].
  assert (E : ((z + 10) mod 10 = z mod 10)%Z). { replace (z + 10)%Z with (z + 1 * 10)%Z by lia. now rewrite Z.mod_add. }
  destruct b; cbn [unif gauss count_rng shifted_rng]; rewrite E; f_equal; apply IH.
Qed.
