(** Property C79: whole runs in double precision.  Statements use [Model_Run] (the loops of tests/merge_fpt.rs) and the vocabulary of [Spec_Run] and
    [Spec_Run64] ([scene], [calm], [mild], [all_off], [all_apart], [one_on]: inside the true system, off the target, apart from each other, on the target, each up to
    [slack], the relative error of a computed norm). *)
From Coq Require Import Reals ZArith List Lra Lia.
From Flocq Require Import Core IEEE754.BinarySingleNaN.
From Verif Require Import Base Scalar Float64 Model_Position Spec_Position Model_LinkedList Spec_LinkedList Refine_LinkedList Model_System Spec_System Model_Agent Spec_Agent Model_Time Spec_Time
  Model_Run Spec_Run Spec_Wall64 Spec_Run64 Properties_Run Properties_Search Proof_Norm64 Proof_Analysis9 Proof_Default64 Proof_Run4 Proof_Run64 Proof_Run64b Proof_Run64c Proof_Run64d.
Import ListNotations.
Local Open Scope R_scope.

(** One boundary step that succeeds. *)
Theorem C79_boundary_step : forall (lm : libm) (G : rng (F64 lm)) (sy : anysys (F64 lm)) (p dp q : list b64), ordinary sy -> built sy ->
  length p = sysdim sy -> length dp = sysdim sy -> on_scale p -> Forall (fun x : b64 => fin x = true /\ Rabs (B2 x) <= 2 ^ 300) dp ->
  sc_check_bc (core (G := G) sy) p dp = (q, Ok tt) -> on_scale q /\ inside_upto sy q.
Proof. exact @step_64. Qed.
Print Assumptions C79_boundary_step.

(** One step of merging agents: afterwards all are inside and off the target, no two live ones are closer than twice the radius, whoever
    disappeared was that close to one who stays; or somebody is inside and on the target. *)
Theorem C79_merging_step : forall (lm : libm) (G : rng (F64 lm)) (sy : anysys (F64 lm)) (tg : target (F64 lm)), scene sy tg -> calm G ->
  forall (c radius alpha dt : F64 lm) N (l : llist (merger (F64 lm))) (g : rstate G) l' g' r, mild c -> mild_growth (lm := lm) alpha N -> mild dt -> roomy radius ->
  population (sysdim sy) (Brownian c) radius alpha N l -> placed mg_pos l -> merge_step (core (G := G) sy) tg (fun _ => radius) dt l g = (l', g', r) ->
  population (sysdim sy) (Brownian c) radius alpha N l' /\
  (r = Ok false -> placed mg_pos l' /\ all_off sy tg mg_pos l' /\ all_apart radius (sysdim sy) l' /\
     forall j, In j (live_of l) -> ~ In j (live_of l') -> exists i a b, live_at l' i a /\ nth_error (contents l') j = Some b /\
       euclid (reals (mg_pos a)) (reals (mg_pos b)) <= 2 * B2 radius * (1 + slack (sysdim sy))) /\
  (r = Ok true -> one_on sy tg mg_pos l').
Proof.
  intros lm G sy tg Sc Cg c radius alpha dt N l g l' g' r Mc Mg Md Rr. exact (merging_step_64 sy tg Sc Cg c (fun _ => radius) radius alpha N dt l g l' g' r Mc Mg Md Rr (fun _ _ => eq_refl) (fun _ _ _ => eq_refl)).
Qed.
Print Assumptions C79_merging_step.

(** The same for independent searchers. *)
Theorem C79_searching_step : forall (lm : libm) (G : rng (F64 lm)) (sy : anysys (F64 lm)) (tg : target (F64 lm)), scene sy tg -> calm G ->
  forall (c : F64 lm) N (dt : F64 lm) (l : llist (indep (F64 lm))) (g : rstate G) l' g' r, mild c -> mild dt ->
  searchers (sysdim sy) (Brownian c) N l -> placed in_pos l -> move_pass indep_mover (core (G := G) sy) tg dt l g = (l', g', r) ->
  searchers (sysdim sy) (Brownian c) N l' /\ (r = Ok false -> placed in_pos l' /\ all_off sy tg in_pos l') /\ (r = Ok true -> one_on sy tg in_pos l').
Proof. exact @searching_step_64. Qed.
Print Assumptions C79_searching_step.

(** Any number of steps, of any lengths. *)
Theorem C79_merging_run : forall (lm : libm) (G : rng (F64 lm)) (sy : anysys (F64 lm)) (tg : target (F64 lm)), scene sy tg -> calm G ->
  forall (c radius alpha : F64 lm) N (dts : list (F64 lm)) (l : llist (merger (F64 lm))) (g : rstate G) l' g', mild c -> mild_growth (lm := lm) alpha N -> roomy radius ->
  Forall (fun dt : F64 lm => mild dt) dts -> population (sysdim sy) (Brownian c) radius alpha N l -> placed mg_pos l ->
  after_dts (merge_step (core (G := G) sy) tg (fun _ => radius)) dts l g = Some (l', g') ->
  population (sysdim sy) (Brownian c) radius alpha N l' /\ placed mg_pos l' /\ (dts <> [] -> all_off sy tg mg_pos l' /\ all_apart radius (sysdim sy) l').
Proof.
  intros lm G sy tg Sc Cg c radius alpha N dts l g l' g' Mc Mg Rr. exact (merging_run_64 sy tg Sc Cg c (fun _ => radius) radius alpha N dts l g l' g' Mc Mg Rr (fun _ _ => eq_refl) (fun _ _ _ => eq_refl)).
Qed.
Print Assumptions C79_merging_run.
Theorem C79_searching_run : forall (lm : libm) (G : rng (F64 lm)) (sy : anysys (F64 lm)) (tg : target (F64 lm)), scene sy tg -> calm G ->
  forall (c : F64 lm) N (dts : list (F64 lm)) (l : llist (indep (F64 lm))) (g : rstate G) l' g', mild c ->
  Forall (fun dt : F64 lm => mild dt) dts -> searchers (sysdim sy) (Brownian c) N l -> placed in_pos l ->
  after_dts (move_pass indep_mover (core (G := G) sy) tg) dts l g = Some (l', g') ->
  searchers (sysdim sy) (Brownian c) N l' /\ placed in_pos l' /\ (dts <> [] -> all_off sy tg in_pos l').
Proof. exact @searching_run_64. Qed.
Print Assumptions C79_searching_run.

(** A merging simulation that reports a time: placed off the target, inside, off and apart after every step before the last, somebody on the target after it. *)
Theorem C79_merging_simulation : forall (lm : libm) (G : rng (F64 lm)) (sy : anysys (F64 lm)) (tg : target (F64 lm)), scene sy tg -> calm G -> unif_64 G ->
  forall inner pf fuel (c dt : F64 lm) n (radius alpha : F64 lm) (g g' : rstate G) t, mild c -> mild dt -> mild_growth (lm := lm) alpha n -> roomy radius ->
  merge_fpt inner pf fuel (core (G := G) sy) tg (Brownian c) dt n radius alpha g = (g', Ok t) ->
  let step := merge_step (core (G := G) sy) tg (fun _ => radius) dt in
  exists l0 g0 k l1 g1 l2, live_of l0 = seq 0 n /\ well_placed tg mg_pos l0 /\
    after_steps step k l0 g0 = Some (l1, g1) /\ step l1 g1 = (l2, g', Ok true) /\ t = ticks dt (Datatypes.S k) /\
    (forall j lj gj, (1 <= j)%nat -> after_steps step j l0 g0 = Some (lj, gj) -> all_off sy tg mg_pos lj /\ all_apart radius (sysdim sy) lj) /\
    one_on sy tg mg_pos l2.
Proof. exact @merging_sim_64. Qed.
Print Assumptions C79_merging_simulation.
(** Independent searchers: all of them are there all the time. *)
Theorem C79_independent_simulation : forall (lm : libm) (G : rng (F64 lm)) (sy : anysys (F64 lm)) (tg : target (F64 lm)), scene sy tg -> calm G -> unif_64 G ->
  forall inner pf fuel (c dt : F64 lm) n (g g' : rstate G) t, mild c -> mild dt ->
  indep_fpt inner pf fuel (core (G := G) sy) tg (Brownian c) dt n g = (g', Ok t) ->
  let step := move_pass indep_mover (core (G := G) sy) tg dt in
  exists l0 g0 k l1 g1 l2, live_of l0 = seq 0 n /\ well_placed tg in_pos l0 /\
    after_steps step k l0 g0 = Some (l1, g1) /\ step l1 g1 = (l2, g', Ok true) /\ t = ticks dt (Datatypes.S k) /\
    (forall j lj gj, (1 <= j)%nat -> after_steps step j l0 g0 = Some (lj, gj) -> live_of lj = seq 0 n /\ all_off sy tg in_pos lj) /\
    live_of l2 = seq 0 n /\ one_on sy tg in_pos l2.
Proof. exact @searching_sim_64. Qed.
Print Assumptions C79_independent_simulation.
(** The simulation with an exponential clock, in any state, on a list that was used before: the steps are those of the clock, renewed. *)
Theorem C79_clocked_simulation : forall (lm : libm) (G : rng (F64 lm)) (sy : anysys (F64 lm)) (tg : target (F64 lm)) inner pf fuel (radius alpha : F64 lm)
    (clock clock0 : expstep (F64 lm)) (l : llist (merger (F64 lm))) (g : rstate G) l' g' t (a b : b64) len,
  scene sy tg -> calm G -> unif_64 G -> roomy radius ->
  reachable l -> Forall (recruit (sysdim sy) radius alpha) (contents l) ->
  es_renew clock = Ok clock0 -> ready (fun i : F64 lm => nan (i : b64) = false) (a : F64 lm) (b : F64 lm) len clock0 -> mild a -> mild b ->
  let N := length (contents l) in let step := merge_step (core (G := G) sy) tg mg_radius in
  mild (fpow (s := F64 lm) (of_Z (s := F64 lm) 1) (opp (s := F64 lm) alpha)) -> mild_growth (lm := lm) alpha N ->
  large_n_fpt inner pf fuel (core (G := G) sy) tg clock l g = (l', g', Ok t) ->
  exists l0 g0 vs dt s1 l1 g1, live_of l0 = seq 0 N /\ well_placed tg mg_pos l0 /\
    collect (diff_next es_next es_dt) (Datatypes.S (length vs)) clock0 = Ok (vs ++ [(t, dt)], s1) /\
    after_dts step (map snd vs) l0 g0 = Some (l1, g1) /\ step dt l1 g1 = (l', g', Ok true) /\
    (forall us ws lj gj, vs = us ++ ws -> us <> [] -> after_dts step (map snd us) l0 g0 = Some (lj, gj) -> all_off sy tg mg_pos lj /\ all_apart radius (sysdim sy) lj) /\
    one_on sy tg mg_pos l'.
Proof. intros lm G sy tg. exact (clocked_sim_ready_64 (G := G) sy tg). Qed.
Print Assumptions C79_clocked_simulation.

(** Limit of C79: with a coefficient that makes the length of a step overflow (2^1000 and a step of 2^100) and a sample 0, the position becomes NaN, is accepted, and
    the searcher never finds the target: the run goes on for ever. *)
Definition still_rng (lm : libm) : rng (F64 lm) := Rng (S := F64 lm) unit (fun z => (lit (s := F64 lm) 1 2, z)) (fun z => (of_Z (s := F64 lm) 0, z)).
Definition lost_searcher (lm : libm) : indep (F64 lm) := indep_new (S := F64 lm) (Brownian (of_Z (2 ^ 1000))) [of_Z 5; of_Z 5].
Definition lost_start (lm : libm) : llist (indep (F64 lm)) := match ll_from [lost_searcher lm] with Ok l => l | _ => mkLL [] [] None None None None None end.
Definition lost_step (lm : libm) (l : llist (indep (F64 lm))) (g : rstate (still_rng lm)) :=
  move_pass (G := still_rng lm) indep_mover (core (G := still_rng lm) (ACirc (demo_disc lm))) (demo_target lm) (of_Z (2 ^ 100)) l g.
Definition lost_at (lm : libm) : llist (indep (F64 lm)) := fst (fst (lost_step lm (lost_start lm) tt)).
Lemma lost_fixed lm : lost_step lm (lost_at lm) tt = (lost_at lm, tt, Ok false).
Proof. exact (eq_refl (lost_at lm, tt, Ok false) <: lost_step lm (lost_at lm) tt = (lost_at lm, tt, Ok false)). Qed.
Lemma lost_begins lm : lost_step lm (lost_start lm) tt = (lost_at lm, tt, Ok false).
Proof. exact (eq_refl (lost_at lm, tt, Ok false) <: lost_step lm (lost_start lm) tt = (lost_at lm, tt, Ok false)). Qed.
Lemma lost_forever lm k : after_steps (lost_step lm) (Datatypes.S k) (lost_start lm) tt = Some (lost_at lm, tt).
Proof.
  assert (K : forall j, after_steps (lost_step lm) j (lost_at lm) tt = Some (lost_at lm, tt)).
  { induction j as [|j IH]; [reflexivity|]. cbn [after_steps]. rewrite lost_fixed. exact IH. }
  cbn [after_steps]. rewrite lost_begins. apply K.
Qed.
Lemma lost_nowhere lm : forallb (fun a : indep (F64 lm) => forallb (fun x : b64 => nan x) (in_pos a : list b64)) (contents (lost_at lm)) = true.
Proof. vm_compute. reflexivity. Qed.
Lemma lost_alive lm : live_of (lost_at lm) = [0%nat].
Proof. vm_compute. reflexivity. Qed.
Theorem C79_lost_searcher_counterexample : forall lm, ll_from [lost_searcher lm] = Ok (lost_start lm) /\ forall k, exists l',
  after_steps (lost_step lm) (Datatypes.S k) (lost_start lm) tt = Some (l', tt) /\ live_of l' = [0%nat] /\
  forall i a, live_at l' i a -> Forall (fun x : b64 => nan x = true) (in_pos a : list b64).
Proof.
  intros lm. split; [exact (eq_refl (Ok (lost_start lm)) <: ll_from [lost_searcher lm] = Ok (lost_start lm))|].
  intros k. exists (lost_at lm). split; [apply lost_forever|]. split; [apply lost_alive|].
  intros i a (_ & N). pose proof (lost_nowhere lm) as A. generalize dependent (lost_at lm). intros l0 N A. rewrite forallb_forall in A.
  specialize (A a (nth_error_In _ _ N)). rewrite forallb_forall in A. apply Forall_forall. exact A.
Qed.
Print Assumptions C79_lost_searcher_counterexample.

(** The hypotheses are met: the disc of radius 10 with the target of radius 1 in its middle, samples -2 and 7/10, steps of 1/2. *)
Lemma whole_value z : (Z.abs z <= 2 ^ 53)%Z -> fin (b64_of_Z z) = true /\ B2 (b64_of_Z z) = IZR z.
Proof. exact (of_Z_exact z). Qed.
Lemma mild_whole lm z : (0 <= z <= 2 ^ 53)%Z -> mild (of_Z (s := F64 lm) z).
Proof.
  intros H. destruct (whole_value z ltac:(lia)) as (A & B). unfold mild. split; [exact A|]. change (0 <= B2 (b64_of_Z z) <= 2 ^ 150). rewrite B.
  destruct H as (H1 & H2). apply IZR_le in H1, H2. change (2 ^ 53)%Z with 9007199254740992%Z in H2. lra.
Qed.
Lemma roomy_whole lm z : (1 <= z <= 2 ^ 53)%Z -> roomy (of_Z (s := F64 lm) z).
Proof.
  intros H. destruct (whole_value z ltac:(lia)) as (A & B). unfold roomy. split; [exact A|]. change (/ 2 ^ 400 <= B2 (b64_of_Z z) <= 2 ^ 300). rewrite B.
  destruct H as (H1 & H2). apply IZR_le in H1, H2. change (2 ^ 53)%Z with 9007199254740992%Z in H2. lra.
Qed.
Lemma half_value lm : fin (lit (s := F64 lm) 1 2 : b64) = true /\ B2 (lit (s := F64 lm) 1 2) = / 2.
Proof.
  destruct (sf_value (lit (s := F64 lm) 1 2) 4503599627370496 (-53) ltac:(vm_compute; reflexivity)) as (A & B). split; [exact A|]. rewrite B.
  change (bpow radix2 (-53)) with (/ IZR (2 ^ 53)). change (2 ^ 53)%Z with 9007199254740992%Z. lra.
Qed.
Lemma seven_tenths lm : fin (lit (s := F64 lm) 7 10 : b64) = true /\ 0 <= B2 (lit (s := F64 lm) 7 10) <= 1.
Proof.
  destruct (sf_value (lit (s := F64 lm) 7 10) 6305039478318694 (-53) ltac:(vm_compute; reflexivity)) as (A & B). split; [exact A|]. rewrite B.
  change (bpow radix2 (-53)) with (/ IZR (2 ^ 53)). change (2 ^ 53)%Z with 9007199254740992%Z. lra.
Qed.
Definition broad_target (lm : libm) : target (F64 lm) := target_new (S := F64 lm) [of_Z 0; of_Z 0] (of_Z 2).
Lemma central_target lm z : (1 <= z <= 2 ^ 53)%Z -> scene (ACirc (demo_disc lm)) (target_new (S := F64 lm) [of_Z 0; of_Z 0] (of_Z z)).
Proof.
  intros Hz. destruct (demo_disc_built lm) as (A & B). split; [|split; [exact A|split; [|exact B]]].
  - split; [cbn [sysdim demo_disc ci_dim INR]; lra|]. apply (roomy_whole lm 10). lia.
  - split; [|apply (roomy_whole lm z); lia]. unfold on_scale, target_new. cbn [tg_pos].
    assert (K : fin (of_Z (s := F64 lm) 0 : b64) = true /\ Rabs (B2 (of_Z (s := F64 lm) 0)) <= 2 ^ 302).
    { destruct (whole_value 0 ltac:(lia)) as (C & D). split; [exact C|]. change (Rabs (B2 (b64_of_Z 0)) <= 2 ^ 302). rewrite D, Rabs_R0. apply pow_le. lra. }
    constructor; [exact K|constructor; [exact K|constructor]].
Qed.
Example demo_scene : forall lm, scene (ACirc (demo_disc lm)) (demo_target lm) /\ scene (ACirc (demo_disc lm)) (broad_target lm).
Proof. intros lm. split; [apply (central_target lm 1)|apply (central_target lm 2)]; lia. Qed.
Example demo_samples : forall lm, calm (down_rng lm) /\ unif_64 (down_rng lm).
Proof.
  intros lm. split; intros g; cbn [gauss unif down_rng fst].
  - destruct (whole_value (-2) ltac:(lia)) as (C & D). split; [exact C|]. change (Rabs (B2 (b64_of_Z (-2))) <= 2 ^ 100). rewrite D. rewrite Rabs_left by lra. lra.
  - exact (seven_tenths lm).
Qed.
Example demo_half : forall lm, mild (lit (s := F64 lm) 1 2) /\ roomy (lit (s := F64 lm) 1 2).
Proof. intros lm. destruct (half_value lm) as (A & B). split; (split; [exact A|]); [change (0 <= B2 (lit (s := F64 lm) 1 2) <= 2 ^ 150)|change (/ 2 ^ 400 <= B2 (lit (s := F64 lm) 1 2) <= 2 ^ 300)]; rewrite B; lra. Qed.
Example demo_growth : forall n, (n <= 1000)%nat -> mild_growth (lm := toy) (of_Z (s := F64 toy) 1) n.
Proof. intros n Hn k (H1 & H2). apply (mild_whole toy (Z.of_nat k)). split; [lia|]. apply Z.le_trans with 1000%Z; [lia|discriminate]. Qed.
(** Two merging agents come together at (2, 2) and find the target of radius 2 together; a searcher alone; and two merging agents with an exponential clock. *)
Example demo_merging_sim :
  found toy (merge_fpt (S := F64 toy) (G := down_rng toy) 3 3 9 (core (ACirc (demo_disc toy))) (broad_target toy) (Brownian (of_Z 1 : F64 toy)) (lit 1 2) 2 (lit 1 2) (of_Z 1) 0%Z) = Some (6%Z, true).
Proof. vm_compute. reflexivity. Qed.
Example demo_searching_sim :
  found toy (indep_fpt (S := F64 toy) (G := down_rng toy) 3 3 9 (core (ACirc (demo_disc toy))) (demo_target toy) (Brownian (of_Z 1 : F64 toy)) (lit 1 2) 1 0%Z) = Some (4%Z, true).
Proof. exact (proj1 (proj2 (demo_search toy))). Qed.
Definition clock64 : outcome (expstep (F64 toy)) := es_new (S := F64 toy) (lit 1 2) (of_Z 1) 2.
Definition recruits64 : list (merger (F64 toy)) := map (fun p => merger_new (S := F64 toy) (Brownian (of_Z 1)) p (lit 1 2) (of_Z 1)) [[of_Z 5; of_Z 5]; [of_Z 6; of_Z 6]].
Example demo_clocked_sim : Forall (recruit 2 (lit (s := F64 toy) 1 2) (of_Z (s := F64 toy) 1)) recruits64 /\
  match clock64, ll_from recruits64 with
  | Ok clock, Ok l => let '(_, g, r) := large_n_fpt (S := F64 toy) (G := down_rng toy) 3 3 9 (core (ACirc (demo_disc toy))) (broad_target toy) clock l 0%Z in
      found toy (g, r)
  | _, _ => None end = Some (6%Z, false).
Proof. split; [repeat constructor; now exists (of_Z 1)|]. vm_compute. reflexivity. Qed.
