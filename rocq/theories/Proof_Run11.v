(** The random samples consumed by a pass over the agents, and where every agent goes. *)
From Coq Require Import Sorted List Lia Arith ZArith.
From Verif Require Import Base Scalar Model_Position Spec_Position Proof_Position Model_System Spec_System Proof_System Proof_System5 Model_Agent Spec_Agent Proof_Agent Proof_Agent4
  Model_LinkedList Spec_LinkedList Refine_LinkedList Proof_LinkedList Proof_LinkedList2 Proof_LinkedList3
  Proof_LinkedList4 Proof_LinkedList5 Proof_LinkedList6 Proof_Run Model_Run Spec_Run Proof_Run2 Proof_Run3 Proof_Run4 Proof_Run5 Spec_Run2 Proof_Run6 Proof_Run7 Proof_Run8 Proof_Run9 Proof_Run10.
Import ListNotations.
Local Open Scope nat_scope.

Section Walk.
Context {S : scalar} {G : rng S} {A : Type} (m : mover (S := S) (G := G) A) (coef : A -> S) (n : nat) (P : A -> Prop).
Notation gen := (rstate G).
Variables (sys : syscore S G) (tg : target S) (dt : S).
Notation kicked a zs := (map (fun z => mul z (fsqrt (mul (mul s2 (coef a)) dt))) zs).
Hypothesis Pmove : forall a g, P a -> mv_move m a g dt = (snd (draws (gauss G) n g), Ok (kicked a (fst (draws (gauss G) n g)))).
Hypothesis Pput : forall a p, P a -> length p = n -> P (mv_put m a p).
Hypothesis Pbc : forall a v, P a -> length v = n -> length (fst (sc_check_bc sys (mv_pos m a) v)) = n.

Definition walked (g : gen) (j : nat) (a : A) : A :=
  mv_put m a (fst (sc_check_bc sys (mv_pos m a) (kicked a (nth_block (gauss G) n j g)))).

Lemma each_walk M : forall cs (g : gen) cs' g' r, each (move_body m sys tg dt) M cs g = (cs', g', r) -> NoDup M -> (forall i, In i M -> i < length cs) -> Forall P cs ->
  exists k, k <= length M /\ g' = after_blocks (gauss G) n k g /\ (r = Ok false -> k = length M) /\ (r <> Ok false -> 1 <= k) /\
    (forall j i a, nth_error M j = Some i -> nth_error cs i = Some a -> nth_error cs' i = Some (if j <? k then walked g j a else a)).
Proof.
  induction M as [|i M IH]; intros cs g cs' g' r E ND Hr HP; cbn [each] in E.
  { injection E as <- <- <-. exists 0. split; [auto|]. split; [reflexivity|]. split; [reflexivity|]. split; [contradiction|]. intros [|j] i a H; discriminate H. }
  assert (Hi : i < length cs) by (apply Hr; now left).
  destruct (nth_error cs i) as [a|] eqn:Ea; [|apply nth_error_None in Ea; lia].
  assert (Pa : P a) by (apply (proj1 (Forall_forall P cs) HP), (nth_error_In _ _ Ea)).
  apply NoDup_cons_iff in ND as (Ni & ND).
  assert (exists r1, move_body m sys tg dt i a g = (Some (walked g 0 a), snd (draws (gauss G) n g), r1)) as (r1 & Eb).
  { unfold move_body. rewrite (Pmove a g Pa). unfold walked, nth_block. cbn [after_blocks].
    destruct (sc_check_bc sys (mv_pos m a) _) as (p, q). eexists. reflexivity. }
  rewrite Eb in E. cbn [write] in E.
  assert (Pw : P (walked g 0 a)). { apply Pput; [exact Pa|]. apply Pbc; [exact Pa|]. rewrite map_length. apply draws_length. }
  assert (Stop : r1 <> Ok false -> (cs', g', r) = (replace_nth i (walked g 0 a) cs, snd (draws (gauss G) n g), r1)).
  { destruct r1 as [[]| | |]; intros N; try congruence; now rewrite <- E. }
  destruct (match r1 with Ok false => true | _ => false end) eqn:Q.
  - destruct r1 as [[]| | |]; try discriminate Q. destruct (IH _ _ _ _ _ E ND) as (k & Lk & Eg & F & T & W).
    { intros x Hx. rewrite replace_length. apply Hr. now right. }
    { apply Forall_forall. intros x Hx. apply In_nth_error in Hx as (x' & Hx). rewrite nth_replace in Hx. destruct ((x' =? i) && (x' <? length cs)); [now injection Hx as <-|].
      apply (proj1 (Forall_forall P cs) HP), (nth_error_In _ _ Hx). }
    exists (Datatypes.S k). cbn [length]. split; [lia|]. split; [rewrite Eg, after_blocks_S; reflexivity|]. split; [intros R; rewrite (F R); reflexivity|]. split; [lia|].
    intros [|j] x a0 Hj Ha; cbn in Hj.
    + injection Hj as <-. rewrite Ea in Ha. injection Ha as <-. cbn [Nat.ltb Nat.leb].
      assert (Keep : forall L cs1 (g1 : gen) cs2 g2 r2, each (move_body m sys tg dt) L cs1 g1 = (cs2, g2, r2) -> ~ In i L -> nth_error cs2 i = nth_error cs1 i).
      { clear. induction L as [|x L IHL]; intros cs1 g1 cs2 g2 r2 E N; cbn [each] in E; [now injection E as <- _ _|].
        destruct (nth_error cs1 x) as [y|]; [|now injection E as <- _ _]. destruct (move_body m sys tg dt x y g1) as ((o, g3), q).
        assert (Wr : nth_error (write x o cs1) i = nth_error cs1 i). { destruct o; cbn [write]; [|reflexivity]. rewrite nth_replace. destruct (Nat.eqb_spec i x) as [->|]; [exfalso; apply N; now left|reflexivity]. }
        assert (Nl : ~ In i L) by (intros K; apply N; now right).
        destruct q as [[]| | |]; try (injection E as <- _ _; exact Wr). rewrite (IHL _ _ _ _ _ E Nl). exact Wr. }
      rewrite (Keep _ _ _ _ _ _ E Ni), nth_replace, Nat.eqb_refl. destruct (Nat.ltb_spec i (length cs)); [reflexivity|lia].
    + assert (x <> i) by (intros ->; apply Ni, (nth_error_In _ _ Hj)).
      assert (Hx : nth_error (replace_nth i (walked g 0 a) cs) x = Some a0). { rewrite nth_replace. destruct (Nat.eqb_spec x i); [contradiction|exact Ha]. }
      rewrite (W j x a0 Hj Hx). change (Datatypes.S j <? Datatypes.S k) with (j <? k). destruct (j <? k); [|reflexivity].
      reflexivity.
  - assert (N : r1 <> Ok false) by (destruct r1 as [[]| | |]; congruence). specialize (Stop N). injection Stop as -> -> ->.
    exists 1. cbn [length]. split; [lia|]. split; [now rewrite after_blocks_S|]. split; [contradiction|]. split; [lia|].
    intros [|j] x a0 Hj Ha; cbn in Hj.
    + injection Hj as <-. rewrite Ea in Ha. injection Ha as <-. cbn [Nat.ltb Nat.leb]. rewrite nth_replace, Nat.eqb_refl. destruct (Nat.ltb_spec i (length cs)); [reflexivity|lia].
    + assert (x <> i) by (intros ->; apply Ni, (nth_error_In _ _ Hj)). cbn. rewrite nth_replace. destruct (Nat.eqb_spec x i); [contradiction|exact Ha].
Qed.

Lemma pass_walk l (g : gen) : reachable l -> Forall P (contents l) ->
  exists l' g' r k, move_pass m sys tg dt l g = (l', g', r) /\ k <= length (live_of l) /\ g' = after_blocks (gauss G) n k g /\
    (r = Ok false -> k = length (live_of l)) /\ (r <> Ok false -> 1 <= k) /\
    (forall j i a, nth_error (live_of l) j = Some i -> nth_error (contents l) i = Some a ->
       nth_error (contents l') i = Some (if j <? k then walked g j a else a)).
Proof.
  intros HR HF. unfold move_pass. rewrite move_loop_each.
  destruct (for_each_ref (move_body m sys tg dt) l g HR) as (l' & g' & r & E1 & E2 & R' & L'). rewrite E1. destruct (chains l HR) as (CS & CR & _).
  destruct (each_walk _ _ _ _ _ _ E2 (sorted_NoDup _ CS) CR HF) as (k & H). exists l', g', r, k. split; [reflexivity|exact H].
Qed.
End Walk.

Section Draws.
Context {S : scalar} {G : rng S}.
Notation gen := (rstate G).
Implicit Types (sy : anysys S) (tg : target S) (g : gen).

Lemma bc_length sy p v : built sy -> length p = sysdim sy -> length v = sysdim sy -> length (fst (sc_check_bc (core (G := G) sy) p v)) = sysdim sy.
Proof.
  intros B Lp Lv. destruct (core_shape (G := G) sy B p v) as (_ & _ & Sh). destruct (Sh ltac:(lia) Lp) as (q & Lq & [E|E]); rewrite E; exact Lq.
Qed.

(** Diffusion coefficient of an agent ([Levy] has none). *)
Definition coef_of (mt : movetype S) : S := match mt with Brownian c => c | Levy => s0 end.

Lemma indep_walk sy tg dt (l : llist (indep S)) g : built sy -> reachable l -> Forall (indep_in (sysdim sy)) (contents l) ->
  exists l' g' r k, move_pass indep_mover (core sy) tg dt l g = (l', g', r) /\ k <= length (live_of l) /\ g' = after_blocks (gauss G) (sysdim sy) k g /\
    (r = Ok false -> k = length (live_of l)) /\ (r <> Ok false -> 1 <= k) /\
    (forall j i a, nth_error (live_of l) j = Some i -> nth_error (contents l) i = Some a ->
       nth_error (contents l') i = Some (if j <? k then walked indep_mover (fun a => coef_of (in_mtype a)) (sysdim sy) (core sy) dt g j a else a)).
Proof.
  intros B. apply (pass_walk indep_mover (fun a => coef_of (in_mtype a)) (sysdim sy) (indep_in (sysdim sy)) (core sy) tg dt).
  - intros a g0 (D & L & c & M). pose proof (random_move_draws (AIndep a) g0 dt c M) as R. cbn in R. cbn. rewrite R, M, D. reflexivity.
  - intros a p (D & L & c & M) Lp. split; [exact D|]. split; [exact Lp|exists c; exact M].
  - intros a v (D & L & c & M) Lv. exact (bc_length sy _ _ B L Lv).
Qed.
Lemma merger_walk sy tg dt (l : llist (merger S)) g : built sy -> reachable l -> Forall (brownian_in (sysdim sy)) (contents l) ->
  exists l' g' r k, move_pass merger_mover (core sy) tg dt l g = (l', g', r) /\ k <= length (live_of l) /\ g' = after_blocks (gauss G) (sysdim sy) k g /\
    (r = Ok false -> k = length (live_of l)) /\ (r <> Ok false -> 1 <= k) /\
    (forall j i a, nth_error (live_of l) j = Some i -> nth_error (contents l) i = Some a ->
       nth_error (contents l') i = Some (if j <? k then walked merger_mover (fun a => coef_of (mg_mtype a)) (sysdim sy) (core sy) dt g j a else a)).
Proof.
  intros B. apply (pass_walk merger_mover (fun a => coef_of (mg_mtype a)) (sysdim sy) (brownian_in (sysdim sy)) (core sy) tg dt).
  - intros a g0 (D & L & c & M). pose proof (random_move_draws (AMerger a) g0 dt c M) as R. cbn in R. cbn. rewrite R, M, D. reflexivity.
  - intros a p (D & L & c & M) Lp. split; [exact D|]. split; [exact Lp|exists c; exact M].
  - intros a v (D & L & c & M) Lv. exact (bc_length sy _ _ B L Lv).
Qed.

(** [k] quiet steps of [N] independent searchers consume exactly [k * N * dim] normal samples. *)
Lemma indep_run_draws sy tg m0 dt N k : forall (l : llist (indep S)) g l' g', built sy -> length (tg_pos tg) = sysdim sy -> searchers (sysdim sy) m0 N l ->
  after_steps (move_pass indep_mover (core sy) tg dt) k l g = Some (l', g') -> g' = after_blocks (gauss G) (sysdim sy) (k * N) g.
Proof.
  induction k as [|k IH]; intros l g l' g' B T Se E; cbn [after_steps] in E; [now injection E as <- <-|].
  destruct (indep_step sy tg m0 dt N l g B T Se) as (l1 & g1 & r & E1 & Se1 & _). rewrite E1 in E.
  destruct Se as [R L Lv Cr].
  destruct (indep_walk sy tg dt l g B R) as (l2 & g2 & r2 & q & E2 & _ & Eg & F & _).
  { eapply Forall_impl; [|exact Cr]. intros a H; exact (proj1 H). }
  rewrite E1 in E2. injection E2 as <- <- <-. destruct r as [[]| | |]; try discriminate E.
  rewrite (IH _ _ _ _ B T Se1 E), Eg, (F eq_refl), Lv, seq_length, <- after_blocks_add. f_equal.
Qed.

Lemma merge_step_draws sy tg rf m0 radius alpha dt N (l : llist (merger S)) g : built sy -> population (sysdim sy) m0 radius alpha N l ->
  exists l' g' r k, merge_step (core sy) tg rf dt l g = (l', g', r) /\ k <= length (live_of l) /\ g' = after_blocks (gauss G) (sysdim sy) k g /\
    (r = Ok false -> k = length (live_of l)).
Proof.
  intros B [R _ Cr _]. destruct (merger_walk sy tg dt l g B R) as (l1 & g1 & r1 & k & E & Lk & Eg & F & _).
  { eapply Forall_impl; [|exact Cr]. intros a H; exact (proj1 H). }
  unfold merge_step. rewrite E. destruct r1 as [[]| | |]; try (exists l1, g1; eexists; exists k; (split; [reflexivity|]); split; [exact Lk|]; split; [exact Eg|]; discriminate).
  destruct (pair_pass rf l1) as (l2, q). exists l2, g1. destruct q; eexists; exists k; (split; [reflexivity|]); split; auto; split; auto; discriminate.
Qed.
(** [k] quiet steps of a merging population consume [dim] normal samples per agent alive at the beginning of each step. *)
Lemma merge_run_draws sy tg rf m0 radius alpha dt N k : forall (l : llist (merger S)) g l' g', built sy -> length (tg_pos tg) = sysdim sy ->
  (forall a, mg_radius a = radius -> rf a = radius) -> (forall a b, mg_radius a = mg_radius b -> rf a = rf b) -> population (sysdim sy) m0 radius alpha N l ->
  after_steps (merge_step (core sy) tg rf dt) k l g = Some (l', g') ->
  g' = after_blocks (gauss G) (sysdim sy) (living (merge_step (core sy) tg rf dt) k l g) g.
Proof.
  induction k as [|k IH]; intros l g l' g' B T R1 R2 Po E; cbn [after_steps living] in *; [now injection E as <- <-|].
  destruct (step_pop sy tg rf m0 radius alpha dt N l g B T R1 R2 Po) as (l1 & g1 & r & E1 & P1 & _).
  destruct (merge_step_draws sy tg rf m0 radius alpha dt N l g B Po) as (l2 & g2 & r2 & q & E2 & _ & Eg & F).
  rewrite E1 in *. injection E2 as <- <- <-. destruct r as [[]| | |]; try discriminate E.
  rewrite (IH _ _ _ _ B T R1 R2 P1 E), Eg, (F eq_refl), <- after_blocks_add. f_equal.
Qed.
End Draws.

(** The run of repelling agents. *)
Section ExpWalk.
Context {S : scalar} {G : rng S} (n : nat) (sys : syscore S G) (tg : target S) (limit dt : S) (P : expag S -> Prop).
Notation gen := (rstate G).
Hypothesis P_in : forall a, P a -> exp_in n a.
Hypothesis P_bc : forall a v, P a -> length v = n -> P (exp_put a (fst (sc_check_bc sys (ex_pos a) (limit_move limit v)))).

(** Plan [v] plus the noise made of the normal samples [zs]. *)
Definition noisy (a : expag S) (v : pos S) (zs : list S) : pos S :=
  map (fun xz => add (add (fst xz) (mul (snd xz) (fsqrt (mul (mul s2 (coef_of (ex_mtype a))) dt)))) s0) (combine v zs).
Definition exp_walked (plan : list (pos S)) (g : gen) (j i : nat) (a : expag S) : expag S :=
  exp_put a (fst (sc_check_bc sys (ex_pos a) (limit_move limit (noisy a (nth i plan ([] : pos S)) (nth_block (gauss G) n j g))))).

Lemma walked_eq (ms : list (pos S)) g j i a v : nth_error ms i = Some v ->
  exp_walked ms g j i a = exp_put a (fst (sc_check_bc sys (ex_pos a) (limit_move limit (noisy a v (nth_block (gauss G) n j g))))).
Proof. intros Ev. unfold exp_walked. assert (E : nth i ms ([] : pos S) = v) by exact (nth_error_nth _ _ _ Ev). rewrite E. reflexivity. Qed.
Lemma exp_body_eq i a (ms : list (pos S)) (g : gen) (v : pos S) : P a -> nth_error ms i = Some v -> length v = n ->
  exists r, exp_body sys tg limit dt i a (ms, g) = (Some (exp_walked ms g 0 i a), (replace_nth i (limit_move limit (noisy a v (nth_block (gauss G) n 0 g))) ms, snd (draws (gauss G) n g)), r).
Proof.
  intros Pa Ev Lv. destruct (P_in a Pa) as (D & _ & c & M). pose proof (random_move_to_draws (AExp a) g dt c v M) as R. cbn in R. rewrite D in R. specialize (R Lv).
  unfold exp_body. cbn [fst snd]. rewrite Ev. rewrite R. rewrite (walked_eq ms g 0 i a v Ev). unfold noisy, nth_block. cbn [after_blocks]. rewrite M. cbn [coef_of].
  destruct (sc_check_bc sys (ex_pos a) _) as (p, q). eexists. reflexivity.
Qed.
Lemma noisy_length a v zs : length v = n -> length zs = n -> length (noisy a v zs) = n.
Proof. intros L1 L2. unfold noisy. rewrite map_length, combine_length. lia. Qed.

Lemma each_keep {A St} (body : nat -> A -> St -> option A * St * outcome bool) i L : forall cs1 g1 cs2 g2 r2, each body L cs1 g1 = (cs2, g2, r2) -> ~ In i L -> nth_error cs2 i = nth_error cs1 i.
Proof.
  induction L as [|x L IHL]; intros cs1 g1 cs2 g2 r2 E N; cbn [each] in E; [now injection E as <- _ _|].
  destruct (nth_error cs1 x) as [y|]; [|now injection E as <- _ _]. destruct (body x y g1) as ((o, g3), q).
  assert (Wr : nth_error (write x o cs1) i = nth_error cs1 i). { destruct o; cbn [write]; [|reflexivity]. rewrite nth_replace. destruct (Nat.eqb_spec i x) as [->|]; [exfalso; apply N; now left|reflexivity]. }
  assert (Nl : ~ In i L) by (intros K; apply N; now right).
  destruct q as [[]| | |]; try (injection E as <- _ _; exact Wr). rewrite (IHL _ _ _ _ _ E Nl). exact Wr.
Qed.

Lemma exp_each_walk M : forall cs (ms : list (pos S)) (g : gen) cs' ms' g' r, each (exp_body sys tg limit dt) M cs (ms, g) = (cs', (ms', g'), r) -> NoDup M ->
  (forall i, In i M -> i < length cs) -> Forall P cs -> length ms = length cs -> Forall (fun v => length v = n) ms ->
  exists k, k <= length M /\ g' = after_blocks (gauss G) n k g /\ (r = Ok false -> k = length M) /\
    (forall j i a, nth_error M j = Some i -> nth_error cs i = Some a -> nth_error cs' i = Some (if j <? k then exp_walked ms g j i a else a)).
Proof.
  induction M as [|i M IH]; intros cs ms g cs' ms' g' r E ND Hr HP Lm Dm; cbn [each] in E.
  { injection E as <- _ <- <-. exists 0. split; [auto|]. split; [reflexivity|]. split; [reflexivity|]. intros [|j] i a H; discriminate H. }
  assert (Hi : i < length cs) by (apply Hr; now left).
  destruct (nth_error cs i) as [a|] eqn:Ea; [|apply nth_error_None in Ea; lia].
  assert (Pa : P a) by (apply (proj1 (Forall_forall P cs) HP), (nth_error_In _ _ Ea)).
  apply NoDup_cons_iff in ND as (Ni & ND).
  destruct (nth_error ms i) as [v|] eqn:Ev; [|apply nth_error_None in Ev; exfalso; apply (Nat.lt_irrefl i), (Nat.lt_le_trans _ _ _ Hi), (eq_ind _ (fun z => z <= i) Ev _ Lm)].
  pose proof (nth_dims n _ _ _ Dm Ev) as Lv. destruct (exp_body_eq i a ms g v Pa Ev Lv) as (r1 & Eb). rewrite Eb in E. cbn [write] in E.
  set (w := limit_move limit (noisy a v (nth_block (gauss G) n 0 g))) in *.
  assert (Lz : length (noisy a v (nth_block (gauss G) n 0 g)) = n) by (apply noisy_length; [exact Lv|apply draws_length]).
  assert (Lw : length w = n) by (apply limit_length; exact Lz).
  assert (Pw : P (exp_walked ms g 0 i a)). { rewrite (walked_eq ms g 0 i a v Ev). apply P_bc; [exact Pa|exact Lz]. }
  destruct (match r1 with Ok false => true | _ => false end) eqn:Q.
  - destruct r1 as [[]| | |]; try discriminate Q. destruct (IH _ _ _ _ _ _ _ E ND) as (k & Lk & Eg & F & W).
    { intros x Hx. rewrite replace_length. apply Hr. now right. }
    { apply Forall_forall. intros x Hx. apply In_nth_error in Hx as (x' & Hx). rewrite nth_replace in Hx. destruct ((x' =? i) && (x' <? length cs)); [now injection Hx as <-|].
      apply (proj1 (Forall_forall P cs) HP), (nth_error_In _ _ Hx). }
    { refine (eq_trans (replace_length _ _ _) (eq_trans Lm _)). symmetry. apply replace_length. }
    { exact (replace_dims n _ _ _ Dm Lw). }
    exists (Datatypes.S k). cbn [length]. split; [lia|]. split; [rewrite Eg, after_blocks_S; reflexivity|]. split; [intros R; rewrite (F R); reflexivity|].
    intros [|j] x a0 Hj Ha; cbn in Hj.
    + injection Hj as <-. rewrite Ea in Ha. injection Ha as <-. cbn [Nat.ltb Nat.leb].
      rewrite (each_keep _ _ _ _ _ _ _ _ E Ni), nth_replace, Nat.eqb_refl. destruct (Nat.ltb_spec i (length cs)); [reflexivity|lia].
    + assert (x <> i) by (intros ->; apply Ni, (nth_error_In _ _ Hj)).
      assert (Hx : nth_error (replace_nth i (exp_walked ms g 0 i a) cs) x = Some a0). { rewrite nth_replace. destruct (Nat.eqb_spec x i); [contradiction|exact Ha]. }
      rewrite (W j x a0 Hj Hx). change (Datatypes.S j <? Datatypes.S k) with (j <? k). destruct (j <? k); [|reflexivity].
      f_equal. unfold exp_walked. assert (Em : nth x (replace_nth i w ms) [] = nth x ms []).
      { destruct (nth_error ms x) as [u|] eqn:Eu.
        - transitivity u; [|symmetry; exact (nth_error_nth _ _ [] Eu)]. apply nth_error_nth. refine (eq_trans (nth_replace _ _ _ _) _). destruct (Nat.eqb_spec x i); [contradiction|exact Eu].
        - transitivity (@nil S); [|symmetry; apply nth_overflow, nth_error_None; exact Eu]. apply nth_overflow. apply nth_error_None. refine (eq_trans (nth_replace _ _ _ _) _). destruct (Nat.eqb_spec x i); [contradiction|exact Eu]. }
      rewrite Em. reflexivity.
  - assert (N : r1 <> Ok false) by (destruct r1 as [[]| | |]; congruence).
    assert (Stop : (cs', (ms', g'), r) = (replace_nth i (exp_walked ms g 0 i a) cs, (replace_nth i w ms, snd (draws (gauss G) n g)), r1)) by (destruct r1 as [[]| | |]; try congruence; now rewrite <- E).
    injection Stop as -> _ -> ->.
    exists 1. cbn [length]. split; [lia|]. split; [now rewrite after_blocks_S|]. split; [contradiction|].
    intros [|j] x a0 Hj Ha; cbn in Hj.
    + injection Hj as <-. rewrite Ea in Ha. injection Ha as <-. cbn [Nat.ltb Nat.leb]. rewrite nth_replace, Nat.eqb_refl. destruct (Nat.ltb_spec i (length cs)); [reflexivity|lia].
    + assert (x <> i) by (intros ->; apply Ni, (nth_error_In _ _ Hj)). cbn. rewrite nth_replace. destruct (Nat.eqb_spec x i); [contradiction|exact Ha].
Qed.

(** One step: everybody's plan comes from the positions at its beginning, the noise of agent [i] is the [i]-th block. *)
Lemma exp_step_walk N (l : llist (expag S)) disp (mv : llist (pos S)) (g : gen) : exp_crew n N l -> Forall P (contents l) -> move_list n N mv -> length disp = n ->
  exists l' disp' mv' g' r k, exp_step sys tg limit dt l disp mv g = (l', disp', mv', g', r) /\ k <= N /\ g' = after_blocks (gauss G) n k g /\ (r = Ok false -> k = N) /\
    (forall i a, nth_error (contents l) i = Some a -> nth_error (contents l') i = Some (if i <? k then exp_walked (plans n dt (contents l) disp) g i i a else a)).
Proof.
  intros HC HP HM Ld. destruct (clear_moves n N mv HM) as (mv0 & E0 & M0 & C0). destruct HC as [CR CS CL CC].
  destruct M0 as [MR MS ML MD]. unfold exp_step. rewrite E0.
  destruct (force_pass n dt l disp mv0 CR CC Ld) as (l0 & l2 & d2 & F1 & F2 & F3 & F4 & F5 & F6); [rewrite CS; exact MS|exact MD|].
  rewrite F1, F2.
  assert (PL : snd (fold_left (fun st ij => push dt (contents l) st (fst ij) (snd ij)) (pairs (live_of l)) (disp, contents mv0)) = plans n dt (contents l) disp).
  { unfold plans. rewrite CL, C0, CS. reflexivity. }
  rewrite PL.
  assert (GP : length (plans n dt (contents l) disp) = N /\ Forall (fun v => length v = n) (plans n dt (contents l) disp)).
  { rewrite <- PL. destruct (fold_good n dt (contents l) N (pairs (live_of l)) CC (disp, contents mv0)) as (_ & K1 & K2); [auto|].
    split; [exact K1|exact K2]. }
  destruct GP as (GP1 & GP2). rewrite exp_move_loop_each.
  destruct (for_each_ref (exp_body sys tg limit dt) l2 (contents (with_contents mv0 (plans n dt (contents l) disp)), g) F3) as (l' & (ms', g') & r & E1 & E2 & R' & L').
  rewrite F4 in E1. rewrite E1. destruct (chains l2 F3) as (CS2 & CR2 & _). cbn [contents with_contents] in E2.
  destruct (exp_each_walk _ _ _ _ _ _ _ _ E2 (sorted_NoDup _ CS2) CR2) as (k & Lk & Eg & F & W).
  { rewrite F4; exact HP. } { rewrite F4. refine (eq_trans GP1 (eq_sym CS)). } { exact GP2. }
  rewrite F5, CL, seq_length in Lk, F.
  do 4 eexists. exists r, k. split; [reflexivity|]. split; [exact Lk|]. split; [exact Eg|]. split; [exact F|].
  intros i a Ha. assert (Hi : i < N) by (rewrite <- CS; apply nth_error_Some; congruence).
  apply W; [|rewrite F4; exact Ha]. rewrite F5, CL. rewrite (nth_error_nth' _ 0) by (rewrite seq_length; exact Hi). now rewrite seq_nth.
Qed.
End ExpWalk.
