(** A simulation depends on its generator only through the samples drawn. *)
From Coq Require Import List Lia Arith ZArith.
From Verif Require Import Base Scalar Model_Position Spec_Position Model_System Spec_System Model_Agent Spec_Agent Model_LinkedList Refine_LinkedList Model_Time Model_Run Spec_Run.
Import ListNotations.
Local Open Scope nat_scope.

Section Sim.
Context {S : scalar} {G1 G2 : rng S}.
Notation R := (@same_stream S G1 G2).

Lemma stream_unif g1 g2 : R g1 g2 -> fst (unif G1 g1) = fst (unif G2 g2) /\ R (snd (unif G1 g1)) (snd (unif G2 g2)).
Proof.
  intros H. split.
  - specialize (H [true]). cbn in H. destruct (unif G1 g1), (unif G2 g2). now injection H.
  - intros q. specialize (H (true :: q)). cbn in H. destruct (unif G1 g1), (unif G2 g2). now injection H.
Qed.
Lemma stream_gauss g1 g2 : R g1 g2 -> fst (gauss G1 g1) = fst (gauss G2 g2) /\ R (snd (gauss G1 g1)) (snd (gauss G2 g2)).
Proof.
  intros H. split.
  - specialize (H [false]). cbn in H. destruct (gauss G1 g1), (gauss G2 g2). now injection H.
  - intros q. specialize (H (false :: q)). cbn in H. destruct (gauss G1 g1), (gauss G2 g2). now injection H.
Qed.

(** The generator is the last, the first, or the middle component of a result. *)
Definition simR {X} (a : X * rstate G1) (b : X * rstate G2) : Prop := fst a = fst b /\ R (snd a) (snd b).
Definition simL {X} (a : rstate G1 * X) (b : rstate G2 * X) : Prop := snd a = snd b /\ R (fst a) (fst b).
Definition simM {X Y} (a : X * rstate G1 * Y) (b : X * rstate G2 * Y) : Prop := simR (fst a) (fst b) /\ snd a = snd b.

Lemma sim_map d1 d2 f (p : pos S) : (forall g1 g2, R g1 g2 -> fst (d1 g1) = fst (d2 g2) /\ R (snd (d1 g1)) (snd (d2 g2))) ->
  forall g1 g2, R g1 g2 -> simR (sample_map (G := G1) d1 f p g1) (sample_map (G := G2) d2 f p g2).
Proof.
  intros D. induction p as [|x p IH]; intros g1 g2 H; [split; [reflexivity|exact H]|]. cbn [sample_map]. destruct (D g1 g2 H) as (E & H').
  destruct (d1 g1) as (r1, h1), (d2 g2) as (r2, h2). cbn in E, H'. subst r2. destruct (IH h1 h2 H') as (E2 & H2).
  destruct (sample_map d1 f p h1), (sample_map d2 f p h2). cbn in *. subst. split; [reflexivity|exact H2].
Qed.
Ltac sim H := let E := fresh "E" in let K := fresh "K" in let Q := fresh "Q" in
  pose proof H as Q;
  match type of Q with
  | simR ?a ?b => destruct a as (?, ?), b as (?, ?); destruct Q as (E & K)
  | simL ?a ?b => destruct a as (?, ?), b as (?, ?); destruct Q as (E & K)
  | simM ?a ?b => destruct a as ((?, ?), ?), b as ((?, ?), ?); let E2 := fresh "E" in destruct Q as ((E & K) & E2); cbn in E2; subst
  end; cbn in E, K; subst.
Ltac done := repeat split; cbn; assumption || reflexivity.

Definition simcore (s1 : syscore S G1) (s2 : syscore S G2) : Prop :=
  (forall p v, sc_check_bc s1 p v = sc_check_bc s2 p v) /\ sc_out s1 = sc_out s2 /\ (forall p, sc_out_to s1 p = sc_out_to s2 p) /\
  (forall n g1 g2 v, R g1 g2 -> simM (sc_random_to s1 n g1 v) (sc_random_to s2 n g2 v)).

Lemma sim_circ k s : forall g1 g2 v, R g1 g2 -> simM (circ_random_loop (G := G1) k s g1 v) (circ_random_loop (G := G2) k s g2 v).
Proof.
  induction k as [|k IH]; intros g1 g2 v H; cbn [circ_random_loop]; [done|]. unfold get_uniform_to_vec_nonstandard.
  sim (sim_map (unif G1) (unif G2) (fun x r => add (add x (mul r (sub (ci_size s) (opp (ci_size s))))) (opp (ci_size s))) (pos_clear v) stream_unif g1 g2 H).
  destruct (circ_inclusion s _) as [[]| | |]; try done. now apply IH.
Qed.
Lemma sim_cyl k s d : forall g1 g2 v, R g1 g2 -> simM (cyl_random_to_loop (G := G1) k s d g1 v) (cyl_random_to_loop (G := G2) k s d g2 v).
Proof.
  induction k as [|k IH]; intros g1 g2 v H; cbn [cyl_random_to_loop]; [done|]. unfold get_uniform_to_vec_nonstandard.
  sim (sim_map (unif G1) (unif G2) (fun x r => add (add x (mul r (sub s1 (opp s1)))) (opp s1)) (pos_clear v) stream_unif g1 g2 H).
  destruct (_ <? d); [done|]. destruct (ltb _ _); [done|]. now apply IH.
Qed.
Lemma sim_core sy : simcore (core (G := G1) sy) (core (G := G2) sy).
Proof.
  destruct sy as [s|s|s]; (split; [reflexivity|]; split; [reflexivity|]; split; [reflexivity|]; intros n g1 g2 v H; cbn).
  - unfold circ_random_to. destruct (negb _); [done|]. now apply sim_circ.
  - unfold cubic_random_to. destruct (negb _); [done|]. unfold get_uniform_to_vec_nonstandard.
    sim (sim_map (unif G1) (unif G2) (fun x r => add (add x (mul r (sub (cu_size s) (opp (cu_size s))))) (opp (cu_size s))) (pos_clear v) stream_unif g1 g2 H). done.
  - unfold cyl_random_to. destruct (cy_type s); try done. destruct (negb _); [done|]. now apply sim_cyl.
Qed.

Section Sys.
Variables (c1 : syscore S G1) (c2 : syscore S G2) (tg : target S).
Hypothesis C : simcore c1 c2.

Lemma sim_place inner k : forall g1 g2 v, R g1 g2 -> simM (place inner k c1 tg g1 v) (place inner k c2 tg g2 v).
Proof.
  destruct C as (_ & _ & _ & Cr). induction k as [|k IH]; intros g1 g2 v H; cbn [place]; [done|]. sim (Cr inner g1 g2 v H).
  match goal with |- context [match ?o with Ok _ => _ | _ => _ end] => destruct o; try done end.
  destruct (check_find tg _) as [[]| | |]; try done. now apply IH.
Qed.
Lemma sim_start p : renew_start c1 p = renew_start c2 p.
Proof. destruct C as (_ & Co & Ct & _). unfold renew_start. now rewrite Ct, Co. Qed.
Lemma sim_indep_new inner k mt g1 g2 : R g1 g2 -> simL (indep_new_uniform inner k c1 tg g1 mt) (indep_new_uniform inner k c2 tg g2 mt).
Proof. intros H. unfold indep_new_uniform. replace (sc_out c2) with (sc_out c1) by apply C. sim (sim_place inner k g1 g2 (sc_out c1) H). done. Qed.
Lemma sim_merger_new inner k mt r a g1 g2 : R g1 g2 -> simL (merger_new_uniform inner k c1 tg g1 mt r a) (merger_new_uniform inner k c2 tg g2 mt r a).
Proof. intros H. unfold merger_new_uniform. replace (sc_out c2) with (sc_out c1) by apply C. sim (sim_place inner k g1 g2 (sc_out c1) H). done. Qed.
Lemma sim_merger_renew inner k (a : merger S) g1 g2 : R g1 g2 -> simM (merger_renew inner k c1 tg g1 a) (merger_renew inner k c2 tg g2 a).
Proof.
  intros H. unfold merger_renew. rewrite <- sim_start. destruct (renew_start c1 (mg_pos a)) as (p, b). sim (sim_place inner k g1 g2 p H).
  match goal with |- context [match ?o with Ok _ => _ | _ => _ end] => destruct o; try done end. destruct (recoeff _) as (x, y). done.
Qed.
Lemma sim_exp_renew inner k (a : expag S) g1 g2 : R g1 g2 -> simM (expag_renew inner k c1 tg g1 a) (expag_renew inner k c2 tg g2 a).
Proof.
  intros H. unfold expag_renew. rewrite <- sim_start. destruct (renew_start c1 (ex_pos a)) as (p, b). sim (sim_place inner k g1 g2 p H).
  destruct (if b then _ else _) as (x, y). done.
Qed.

Lemma sim_move mt d dt g1 g2 : R g1 g2 -> simL (rnd_move (G := G1) mt d g1 dt) (rnd_move (G := G2) mt d g2 dt).
Proof.
  intros H. destruct mt as [c|]; [|done]. unfold rnd_move, get_gaussian_vec.
  sim (sim_map (gauss G1) (gauss G2) (fun _ r => r) (repeat s0 d) stream_gauss g1 g2 H). done.
Qed.
Lemma sim_move_to mt d dt v g1 g2 : R g1 g2 -> simM (rnd_move_to_vec (G := G1) mt d g1 dt v) (rnd_move_to_vec (G := G2) mt d g2 dt v).
Proof.
  intros H. unfold rnd_move_to_vec. destruct (negb _); [done|]. destruct mt as [c|]; [|done]. unfold get_gaussian_to_vec_nonstandard.
  sim (sim_map (gauss G1) (gauss G2) (fun x r => add (add x (mul r (fsqrt (mul (mul s2 c) dt)))) s0) v stream_gauss g1 g2 H). done.
Qed.

Lemma sim_build {A} (n1 : rstate G1 -> rstate G1 * outcome A) (n2 : rstate G2 -> rstate G2 * outcome A) :
  (forall g1 g2, R g1 g2 -> simL (n1 g1) (n2 g2)) -> forall n g1 g2, R g1 g2 -> simL (build_agents n1 n g1) (build_agents n2 n g2).
Proof.
  intros N. induction n as [|n IH]; intros g1 g2 H; cbn [build_agents]; [done|]. sim (N g1 g2 H).
  match goal with |- context [match ?o with Ok _ => _ | _ => _ end] => destruct o; try done end.
  match goal with K : R ?x ?y |- _ => sim (IH x y K) end. done.
Qed.

Section Mover.
Context {A : Type} (m1 : mover (S := S) (G := G1) A) (m2 : mover (S := S) (G := G2) A).
Hypothesis Mp : forall a, mv_pos m1 a = mv_pos m2 a.
Hypothesis Mq : forall a p, mv_put m1 a p = mv_put m2 a p.
Hypothesis Mm : forall a g1 g2 dt, R g1 g2 -> simL (mv_move m1 a g1 dt) (mv_move m2 a g2 dt).
Lemma sim_loop k dt : forall (l : llist A) g1 g2, R g1 g2 -> simM (move_loop m1 c1 tg k dt l g1) (move_loop m2 c2 tg k dt l g2).
Proof.
  destruct C as (Cb & _). induction k as [|k IH]; intros l g1 g2 H; cbn [move_loop]; [done|].
  destruct (enumerate l) as [(l1, [(i, a)|])| | |]; try done. sim (Mm a g1 g2 dt H).
  match goal with |- context [match ?o with Ok _ => _ | _ => _ end] => destruct o; try done end. rewrite <- Mp, <- Cb.
  destruct (sc_check_bc c1 _ _) as (p', r'). rewrite <- Mq. destruct r'; try done. destruct (check_find tg p') as [[]| | |]; try done. now apply IH.
Qed.
End Mover.
Lemma sim_indep_pass dt (l : llist (indep S)) g1 g2 : R g1 g2 -> simM (move_pass indep_mover c1 tg dt l g1) (move_pass indep_mover c2 tg dt l g2).
Proof. intros H. apply sim_loop; [reflexivity|reflexivity| |exact H]. intros a h1 h2 d K. now apply sim_move. Qed.
Lemma sim_merge_step rf dt (l : llist (merger S)) g1 g2 : R g1 g2 -> simM (merge_step c1 tg rf dt l g1) (merge_step c2 tg rf dt l g2).
Proof.
  intros H. unfold merge_step. assert (P : simM (move_pass merger_mover c1 tg dt l g1) (move_pass merger_mover c2 tg dt l g2)).
  { apply sim_loop; [reflexivity|reflexivity| |exact H]. intros a h1 h2 d K. now apply sim_move. }
  sim P. match goal with |- context [match ?o with Ok _ => _ | _ => _ end] => destruct o as [[]| | |]; try done end. destruct (pair_pass rf _) as (l2, [ | | |]); done.
Qed.
Lemma sim_fixed {A} (s1 : S -> llist A -> rstate G1 -> llist A * rstate G1 * outcome bool) (s2 : S -> llist A -> rstate G2 -> llist A * rstate G2 * outcome bool) dt :
  (forall l g1 g2, R g1 g2 -> simM (s1 dt l g1) (s2 dt l g2)) -> forall k t l g1 g2, R g1 g2 -> simM (fixed_run s1 k dt t l g1) (fixed_run s2 k dt t l g2).
Proof.
  intros N. induction k as [|k IH]; intros t l g1 g2 H; cbn [fixed_run]; [done|]. sim (N l g1 g2 H).
  match goal with |- context [match ?o with Ok _ => _ | _ => _ end] => destruct o as [[]| | |]; try done end. now apply IH.
Qed.
Lemma sim_clocked {A St} next (s1 : S -> llist A -> rstate G1 -> llist A * rstate G1 * outcome bool) (s2 : S -> llist A -> rstate G2 -> llist A * rstate G2 * outcome bool) last :
  (forall dt l g1 g2, R g1 g2 -> simM (s1 dt l g1) (s2 dt l g2)) ->
  forall k (s : St) l g1 g2, R g1 g2 -> simM (clocked_run next s1 last k s l g1) (clocked_run next s2 last k s l g2).
Proof.
  intros N. induction k as [|k IH]; intros s l g1 g2 H; cbn [clocked_run]; [done|]. destruct (next s) as [(st, [(t, dt)|])| | |]; try done. sim (N dt l g1 g2 H).
  match goal with |- context [match ?o with Ok _ => _ | _ => _ end] => destruct o as [[]| | |]; try done end. now apply IH.
Qed.

Lemma sim_merge_fpt inner pf fuel mt dt n radius alpha g1 g2 : R g1 g2 ->
  simL (merge_fpt inner pf fuel c1 tg mt dt n radius alpha g1) (merge_fpt inner pf fuel c2 tg mt dt n radius alpha g2).
Proof.
  intros H. unfold merge_fpt. sim (sim_build _ _ (fun x y => sim_merger_new inner pf mt radius alpha x y) n g1 g2 H).
  match goal with |- context [match ?o with Ok _ => _ | _ => _ end] => destruct o as [v| | |]; try done end. destruct (ll_from v) as [l| | |]; try done.
  match goal with K : R ?x ?y |- _ => sim (sim_fixed _ _ dt (fun l x y => sim_merge_step (fun _ => radius) dt l x y) fuel s0 l x y K) end. done.
Qed.
Lemma sim_indep_fpt inner pf fuel mt dt n g1 g2 : R g1 g2 ->
  simL (indep_fpt inner pf fuel c1 tg mt dt n g1) (indep_fpt inner pf fuel c2 tg mt dt n g2).
Proof.
  intros H. unfold indep_fpt. sim (sim_build _ _ (fun x y => sim_indep_new inner pf mt x y) n g1 g2 H).
  match goal with |- context [match ?o with Ok _ => _ | _ => _ end] => destruct o as [v| | |]; try done end. destruct (ll_from v) as [l| | |]; try done.
  match goal with K : R ?x ?y |- _ => sim (sim_fixed _ _ dt (fun l x y => sim_indep_pass dt l x y) fuel s0 l x y K) end. done.
Qed.
Lemma sim_renew_loop inner pf k : forall (l : llist (merger S)) g1 g2, R g1 g2 -> simM (renew_loop inner pf c1 tg k l g1) (renew_loop inner pf c2 tg k l g2).
Proof.
  induction k as [|k IH]; intros l g1 g2 H; cbn [renew_loop]; [done|]. destruct (enumerate l) as [(l1, [(i, a)|])| | |]; try done.
  sim (sim_merger_renew inner pf a g1 g2 H). match goal with |- context [match ?o with Ok _ => _ | _ => _ end] => destruct o; try done end. now apply IH.
Qed.
Lemma sim_large_n inner pf fuel clock (l : llist (merger S)) g1 g2 : R g1 g2 -> simM (large_n_fpt inner pf fuel c1 tg clock l g1) (large_n_fpt inner pf fuel c2 tg clock l g2).
Proof.
  intros H. unfold large_n_fpt. destruct (es_renew clock) as [ck| | |]; try done. destruct (connect_all l) as [l1| | |]; try done.
  sim (sim_renew_loop inner pf (Datatypes.S (length (contents l1))) (into_iter l1) g1 g2 H).
  match goal with |- context [match ?o with Ok _ => _ | _ => _ end] => destruct o; try done end.
  apply sim_clocked; [|assumption]. intros. now apply sim_merge_step.
Qed.

(** ** The run of repelling agents *)
Lemma sim_exp_loop limit dt k : forall l mv g1 g2, R g1 g2 -> simM (exp_move_loop c1 tg limit dt k l mv g1) (exp_move_loop c2 tg limit dt k l mv g2).
Proof.
  destruct C as (Cb & _). induction k as [|k IH]; intros l mv g1 g2 H; cbn [exp_move_loop]; [done|].
  destruct (enumerate l) as [(l1, [(i, a)|])| | |]; try done. destruct (idx (contents mv) i) as [v| | |]; try done.
  unfold expag_random_move_to_vec. sim (sim_move_to (ex_mtype a) (ex_dim a) dt v g1 g2 H).
  match goal with |- context [match ?o with Ok _ => _ | _ => _ end] => destruct o; try done end.
  rewrite <- Cb. destruct (sc_check_bc c1 _ _) as (p', r'). destruct r'; try done. destruct (check_find tg p') as [[]| | |]; try done. now apply IH.
Qed.
Lemma sim_exp_step limit dt l d mv g1 g2 : R g1 g2 -> simM (exp_step c1 tg limit dt l d mv g1) (exp_step c2 tg limit dt l d mv g2).
Proof.
  intros H. unfold exp_step. destruct (ll_clear pos_clear _ mv) as [mv0| | |]; try done. destruct (into_double_iter l) as [l1| | |]; try done.
  destruct (force_loop dt _ l1 d mv0) as (((l2, d2), mv2), [ | | |]); try done. sim (sim_exp_loop limit dt (Datatypes.S (length (contents l))) (into_iter l2) mv2 g1 g2 H).
  match goal with |- context [let '(_, _) := ?p in _] => destruct p end. done.
Qed.
Lemma sim_exp_run {St} next limit k : forall (s : St) l d mv g1 g2, R g1 g2 -> simM (exp_run next c1 tg limit k s l d mv g1) (exp_run next c2 tg limit k s l d mv g2).
Proof.
  induction k as [|k IH]; intros s l d mv g1 g2 H; cbn [exp_run]; [done|]. destruct (next s) as [(st, [(t, dt)|])| | |]; try done. sim (sim_exp_step limit dt l d mv g1 g2 H).
  match goal with |- context [let '(_, _) := ?p in _] => destruct p as ((?, ?), ?) end.
  match goal with |- context [match ?o with Ok _ => _ | _ => _ end] => destruct o as [[]| | |]; try done end. now apply IH.
Qed.
Lemma sim_slots inner pf cs : forall g1 g2, R g1 g2 -> simM (renew_slots inner pf c1 tg cs g1) (renew_slots inner pf c2 tg cs g2).
Proof.
  induction cs as [|a cs IH]; intros g1 g2 H; cbn [renew_slots]; [done|]. sim (sim_exp_renew inner pf a g1 g2 H).
  match goal with |- context [match ?o with Ok _ => _ | _ => _ end] => destruct o; try done end.
  match goal with K : R ?x ?y |- _ => sim (IH x y K) end. done.
Qed.
Lemma sim_sample {St} next inner pf limit fuel (clock : St) l d mv g1 g2 : R g1 g2 ->
  simM (exp_sample next inner pf c1 tg limit fuel clock l d mv g1) (exp_sample next inner pf c2 tg limit fuel clock l d mv g2).
Proof.
  intros H. unfold exp_sample. sim (sim_slots inner pf (contents l) g1 g2 H).
  match goal with |- context [match ?o with Ok _ => _ | _ => _ end] => destruct o; try done end.
  destruct (connect_all _) as [l2| | |]; try done. destruct (next clock) as [(st, [x|])| | |]; try done. now apply sim_exp_run.
Qed.
Lemma sim_ensemble {St} next inner pf limit fuel (clock : St) num : forall l d mv g1 g2, R g1 g2 ->
  simM (exp_ensemble next inner pf c1 tg limit fuel clock num l d mv g1) (exp_ensemble next inner pf c2 tg limit fuel clock num l d mv g2).
Proof.
  induction num as [|k IH]; intros l d mv g1 g2 H; cbn [exp_ensemble]; [done|]. sim (sim_sample next inner pf limit fuel clock l d mv g1 g2 H).
  match goal with |- context [let '(_, _) := ?p in _] => destruct p as ((?, ?), ?) end.
  match goal with |- context [match ?o with Ok _ => _ | _ => _ end] => destruct o; try done end.
  match goal with K : R ?x ?y |- context [exp_ensemble _ _ _ _ _ _ _ _ _ ?a ?b ?c ?x] => sim (IH a b c x y K) end. done.
Qed.
Lemma sim_mfpt {St} next inner pf fuel num n args limit (clock : St) g1 g2 : R g1 g2 ->
  simM (mfpt_exp next inner pf fuel num c1 n tg args limit clock g1) (mfpt_exp next inner pf fuel num c2 n tg args limit clock g2).
Proof.
  intros H. unfold mfpt_exp. destruct (expag_convert_from args) as [v| | |]; try done. destruct (negb _); [done|].
  destruct (ll_from (repeat _ _)) as [mv| | |]; try done. destruct (ll_from v) as [l| | |]; try done. now apply sim_ensemble.
Qed.
End Sys.
End Sim.
