(** tests/arguments.rs: samples, the ensemble, the program and its file. *)
From Coq Require Import String Ascii NArith List Lia Arith ZArith.
From Verif Require Import Base Scalar Model_Position Spec_Position Proof_Position Model_System Spec_System Proof_System Proof_System5 Model_Agent Spec_Agent Proof_Agent
  Model_LinkedList Spec_LinkedList Refine_LinkedList Proof_LinkedList Proof_LinkedList2 Proof_LinkedList3 Proof_LinkedList4 Proof_LinkedList5 Proof_LinkedList6
  Model_Time Model_Text Spec_Text Proof_Text Proof_Text3 Proof_Text5 Model_Args Spec_Args Proof_Args Proof_Args2 Proof_Args3 Model_Analysis Spec_Analysis
  Model_Run Spec_Run Spec_Search Model_Program Spec_Program Proof_Program Proof_Program2 Model_Program3 Spec_Program3
  Proof_Run Proof_Run2 Proof_Run4 Proof_Run5 Proof_Run8 Proof_Run14 Proof_Search Proof_Race Proof_Race2 Proof_Crowd.
Import ListNotations.
Local Open Scope nat_scope.
Local Open Scope string_scope.
Local Open Scope list_scope.
Local Notation length := List.length.

Section Sample.
Context {S : scalar} {G : rng S}.
Notation gen := (rstate G).
Variables (inner pf : nat) (p : ind_settings S) (c : S).
Hypothesis (A : race_accepted p).
Notation sy := (ACirc (i_system p)).
Notation sys := (circ_core (G := G) (i_system p)).
Notation tg := (i_the_target p).
Notation n := (i_dim p).
Notation N := (i_agents p).
Notation new := (new_place (G := G) inner pf p c).
Definition renewable (a : indep S) : Prop := in_mtype a = Brownian c /\ in_dim a = length (in_pos a).
Notation ready := (able (S := S) sy c).

Lemma ready_renewable a : ready a -> renewable a.
Proof. intros (H1 & H2 & H3). split; [exact H1|congruence]. Qed.
Lemma out_len : length (sc_out (core (G := G) sy)) = n.
Proof. apply repeat_length. Qed.
Lemma renew_one (a : indep S) (g : gen) : renewable a ->
  (exists a' g', indep_renew inner pf sys tg g a = (a', g', Ok tt) /\ ready a' /\ new g = (g', Ok (in_pos a')) /\ check_find tg (in_pos a') = Ok false) \/
  (exists a' g', indep_renew inner pf sys tg g a = (a', g', Fuel)).
Proof.
  intros (H1 & H2). unfold indep_renew. pose proof (renew_start_cases (G := G) sy (in_pos a)) as R. cbn [core sysdim i_system ci_dim] in R.
  change (core sy) with sys in R. rewrite R. 
  destruct (place_ok (G := G) sy tg inner pf g (sc_out (core sy)) (i_built p A) (ra_target p A) out_len) as [(q & k & E & Lq & F)|(q & g' & E)]; change (core sy) with sys in E; rewrite E.
  - left. eexists. eexists. split; [reflexivity|]. assert (Lq' : length q = n) by exact Lq. split; [|split].
    + split; [exact H1|]. split; [|exact Lq']. cbn [in_set in_dim]. destruct (Nat.eqb_spec (length (in_pos a)) n) as [X|X]; cbn [negb]; [congruence|]. apply out_len.
    + unfold new_place, placed_searcher, indep_new_uniform. rewrite E. reflexivity.
    + exact F.
  - right. eauto.
Qed.
Lemma renew_all cs : forall g : gen, Forall renewable cs ->
  (exists cs' g', crowd_renew inner pf sys tg cs g = (cs', g', Ok tt) /\ length cs' = length cs /\ Forall ready cs' /\ sampled new g (map in_pos cs') g') \/
  (exists cs' g', crowd_renew inner pf sys tg cs g = (cs', g', Fuel)).
Proof.
  induction cs as [|a cs IH]; intros g H.
  - left. exists [], g. split; [reflexivity|]. split; [reflexivity|]. split; constructor.
  - pose proof (Forall_inv H) as Ha. apply Forall_inv_tail in H. cbn [crowd_renew]. destruct (renew_one a g Ha) as [(a' & g1 & -> & Ra & Na & _)|(a' & g1 & ->)].
    + destruct (IH g1 H) as [(cs' & g' & -> & L & F & Sm)|(cs' & g' & ->)].
      * left. exists (a' :: cs'), g'. split; [reflexivity|]. split; [cbn [length]; congruence|]. split; [constructor; auto|]. cbn [map]. econstructor; eauto.
      * right. eauto.
    + right. eauto.
Qed.

Lemma crowd_sample_ok fuel (l : llist (indep S)) (v : pos S) (g : gen) : reachable l -> length (contents l) = N -> Forall renewable (contents l) -> length v = n ->
  exists l' v' g' r, crowd_sample inner pf fuel sys tg (i_dt p) (crowd_clock p) l v g = (l', v', g', r) /\
   ((exists t, r = Ok t /\ reachable l' /\ length (contents l') = N /\ Forall renewable (contents l') /\ length v' = n /\ crowd_value inner pf p c g t g') \/
    (r = Err TooLargeTimeStep /\ crowd_refusal inner pf p c g) \/ r = Fuel).
Proof.
  intros HR HL HF Lv. unfold crowd_sample. destruct (renew_all (contents l) g HF) as [(cs & g1 & E & Lc & Fc & Sm)|(cs & g1 & E)]; rewrite E.
  2:{ do 4 eexists. split; [reflexivity|]. auto. }
  pose proof (contents_reach cs l HR Lc) as R1.
  destruct (reachable_rep _ R1) as (s & Rs). destruct (connect_all_ref _ s Rs) as (l2 & E2 & R2). rewrite E2.
  assert (HR2 : reachable l2) by (apply (reachable_step _ (OConnectAll) l2 RUnit R1); cbn [step]; now rewrite E2).
  assert (C2 : contents l2 = cs) by (rewrite (rp_items _ _ R2); pose proof (rp_items _ _ Rs) as X; cbn in X |- *; congruence).
  set (ps := map in_pos cs). assert (LN : length ps = N) by (unfold ps; rewrite map_length; congruence).
  assert (L2 : live_of l2 = seq 0 (length ps)).
  { rewrite (live_of_rep _ _ R2). cbn [live]. pose proof (rp_items _ _ Rs) as X. cbn in X. rewrite <- X. f_equal. congruence. }
  assert (At : at_turn (G := G) sy c (i_dt p) ps g1 0 0 (contents l2)).
  { rewrite C2. split; [unfold ps; now rewrite map_length|]. intros i a Ha. split; [exact (proj1 (Forall_forall _ _) Fc a (nth_error_In _ _ Ha))|].
    exists (in_pos a). split; [unfold ps; now apply map_nth_error|]. destruct i; reflexivity. }
  assert (O0 : crowd_off (sc_check_bc (core (G := G) sy)) tg c (i_dt p) (sysdim sy) ps g1 0 0) by (intros s' i' _ Hl; lia).
  destruct (crowd_run_ok (G := G) sy tg c (i_dt p) (i_built p A) (ra_target p A) ps g1 (crowd_tmax p) fuel 0 l2 v (conj HR2 L2) At Lv O0 ltac:(intros j Hj; lia))
    as (l' & v' & g' & r & E3 & R3 & Lv' & Lc' & Fc' & C).
  assert (E4 : crowd_run sys tg (i_dt p) fuel (crowd_clock p) l2 v g1 = (l', v', g', r)) by exact E3. rewrite E4.
  assert (Fr : Forall renewable (contents l')) by (eapply Forall_impl; [|exact Fc']; exact ready_renewable).
  exists l', v', g', r. split; [reflexivity|].
  destruct C as [(k & i & _ & -> & Ht & Hf & Hg)|[(k & _ & -> & Ht & Hn & Ho & Hg)|[(k & i & _ & -> & Ht & Hr)| ->]]].
  - left. eexists. split; [reflexivity|]. split; [exact R3|]. split; [congruence|]. split; [exact Fr|]. split; [exact Lv'|].
    exists ps, g1. split; [exact Sm|]. split; [exact LN|]. left. exists k, i. split; [exact Hf|]. split; [exact Ht|]. split; [reflexivity|]. rewrite <- LN. exact Hg.
  - left. eexists. split; [reflexivity|]. split; [exact R3|]. split; [congruence|]. split; [exact Fr|]. split; [exact Lv'|].
    exists ps, g1. split; [exact Sm|]. split; [exact LN|]. right. exists k. split; [exact Ho|]. split; [intros j Hj i Hi; apply Ht; lia|]. split; [exact Hn|]. split; [reflexivity|]. rewrite <- LN. exact Hg.
  - right; left. split; [reflexivity|]. exists ps, g1, k, i. auto.
  - right; right. reflexivity.
Qed.

Lemma crowd_ensemble_ok fuel num : forall (l : llist (indep S)) (v : pos S) (g : gen), reachable l -> length (contents l) = N -> Forall renewable (contents l) -> length v = n ->
  exists ts g' o g1, crowd_ensemble inner pf fuel sys tg (i_dt p) (crowd_clock p) num l v g = (ts, g', o) /\ in_order (crowd_value inner pf p c) g ts g1 /\
   ((o = Ok tt /\ length ts = num) \/ (length ts < num /\ (o = Fuel \/ (o = Err TooLargeTimeStep /\ crowd_refusal inner pf p c g1)))).
Proof.
  induction num as [|num IH]; intros l v g HR HL HF Lv.
  - exists [], g, (Ok tt), g. split; [reflexivity|]. split; [constructor|]. left. split; reflexivity.
  - cbn [crowd_ensemble]. destruct (crowd_sample_ok fuel l v g HR HL HF Lv) as (l' & v' & g' & r & -> & [(t & -> & R' & L' & F' & V' & Ct)|[(-> & Cr)| ->]]).
    + destruct (IH l' v' g' R' L' F' V') as (ts & g2 & o & g1 & -> & Ho & C). exists (t :: ts), g2, o, g1. split; [reflexivity|]. split; [econstructor; eauto|].
      cbn [length]. destruct C as [(-> & C)|(C & D)]; [left; auto|right; split; [lia|exact D]].
    + exists [], g', (Err TooLargeTimeStep), g. split; [reflexivity|]. split; [constructor|]. right. cbn [length]. split; [lia|]. right. auto.
    + exists [], g', Fuel, g. split; [reflexivity|]. split; [constructor|]. right. cbn [length]. split; [lia|]. left. reflexivity.
Qed.
End Sample.

Section Program.
Context {S : scalar} {G : rng S} (nt : numtext S) (as_u128 : S -> N) (rng_seed : N -> rstate G).
Lemma searchers_new (p : ind_settings S) c : i_move p = Brownian c ->
  Forall (renewable c) (indep_convert_from (indep_of_args nt (i_agent_part nt p))) /\ length (indep_convert_from (indep_of_args nt (i_agent_part nt p))) = i_agents p.
Proof.
  intros M. unfold indep_convert_from, indep_of_args, i_agent_part. cbn [ia_itype ia_mtype ia_type ia_num].
  destruct (i_init p) as [q|]; (split; [|apply repeat_length]); apply Forall_forall; intros a Ha; apply repeat_spec in Ha; subst a; (split; [exact M|reflexivity]).
Qed.
Lemma crowd_file (p : ind_settings S) c inner pf fuel sd : faithful nt -> ind_writable p -> crowd_accepted p -> i_move p = Brownian c -> run_seed as_u128 (i_seed p) (i_hash p) = Ok sd ->
  exists head ts g o, crowd_program nt as_u128 rng_seed inner pf fuel (ind_part nt p) =
      RunResult (Some (path_in (i_dir p) (i_name nt crowd_prefix p), head ++ lines_text (map (n_sci nt) ts))%string) o /\
    file_header (ind_structs nt) ind_width (ind_part nt p) = Ok head /\ in_order (crowd_value inner pf p c) (rng_seed sd) ts g /\
    ((o = Ok tt /\ length ts = i_num p) \/ (length ts < i_num p /\ (o = Fuel \/ (o = Err TooLargeTimeStep /\ crowd_refusal inner pf p c g)))).
Proof.
  intros F W A M Hs. destruct (ind_header nt p F W) as (head & Hh). unfold crowd_program. rewrite ind_name_is. pose proof (searchers_new p c M) as (Fs & Ls).
  remember (indep_convert_from (indep_of_args nt (i_agent_part nt p))) as cs eqn:Ecs.
  destruct (from_fresh cs) as (l & El & Rl & Cl & _).
  cbv beta iota zeta delta [ind_part i_sys_part i_target_part i_agent_part i_clock_part i_sim_part] in *.
  cbv beta iota zeta delta [circ_of_args target_of_args indep_of_args] in *. fold (i_system p). fold (i_the_target p).
  change (ind_hash _ _ _ _ _) with (i_hash p). rewrite Hs. cbn [bind]. rewrite (i_system_is p (ca_race p A)). cbn [bind].
  assert (Ec : cs_convert (i_dt p) (i_tmax p) = Ok (crowd_clock p)) by (unfold cs_convert; rewrite (ca_dt p A), (ca_tmax p A); reflexivity).
  rewrite Ec. cbn [bind]. rewrite Hh. cbn [bind]. rewrite <- Ecs, El. change (ci_dim (i_system p)) with (i_dim p).
  destruct (crowd_ensemble_ok inner pf p c (ca_race p A) fuel (i_num p) l (repeat s0 (i_dim p)) (rng_seed sd) Rl ltac:(congruence) ltac:(rewrite Cl; exact Fs) (repeat_length _ _))
    as (ts & g' & o & g1 & E & Ho & C).
  rewrite E. exists head, ts, g1, o. rewrite data_lines. auto.
Qed.
(** Nothing is written if the seed overflows, the system cannot be built, or the clock. *)
Lemma crowd_nothing (p : ind_settings S) inner pf fuel : (run_seed as_u128 (i_seed p) (i_hash p) = Panic \/
    (exists sd, run_seed as_u128 (i_seed p) (i_hash p) = Ok sd) /\ ((i_size p <=? s0)%S = true \/ i_dim p = 0 \/ (i_dt p <? s0)%S = true \/ (i_tmax p <? s0)%S = true)) ->
  crowd_program nt as_u128 rng_seed inner pf fuel (ind_part nt p) = RunResult None Panic.
Proof.
  intros H. unfold crowd_program. cbv beta iota zeta delta [ind_part i_sys_part i_target_part i_agent_part i_clock_part i_sim_part].
  cbv beta iota zeta delta [circ_of_args target_of_args indep_of_args]. fold (i_system p). fold (i_the_target p).
  change (ind_hash _ _ _ _ _) with (i_hash p). destruct H as [->|((sd & ->) & H)]; [reflexivity|]. cbn [bind].
  unfold circ_convert_from. cbn [i_system ci_size ci_dim ci_type ci_bc]. destruct ((i_size p <=? s0)%S) eqn:E1; [reflexivity|].
  destruct (Nat.eqb_spec (i_dim p) 0) as [E2|E2]; [reflexivity|]. cbn [orb bind].
  assert (Ec : cs_convert (i_dt p) (i_tmax p) = Panic).
  { unfold cs_convert. destruct H as [H|[H|[H|H]]]; [congruence|contradiction|rewrite H; now rewrite Bool.orb_true_r|rewrite H; reflexivity]. }
  rewrite Ec. reflexivity.
Qed.
End Program.
