(** Proofs about single searches. *)
From Coq Require Import List Lia Arith ZArith Reals Lra.
From Verif Require Import Base Scalar Model_Position Spec_Position Proof_Position Model_System Spec_System Proof_System Proof_System5 Model_Agent Spec_Agent
  Model_LinkedList Spec_LinkedList Refine_LinkedList Model_Run Spec_Run Model_Search Spec_Search
  Proof_Run2 Proof_Run4 Proof_Run5 Proof_Run6 Proof_Run7 Proof_Run13 Proof_Run14.
Import ListNotations.
Local Open Scope nat_scope.

Section W.
Context {S : scalar} {G : rng S}.
Notation gen := (rstate G).

Lemma rnd_move_kick c n (g : gen) dt : rnd_move (Brownian c) n g dt = (snd (draws (gauss G) n g), Ok (brownian_kick c dt (fst (draws (gauss G) n g)))).
Proof.
  unfold rnd_move. destruct (vec_draws g n [] s0 s0 s0 s0) as (_ & E & _). rewrite E. destruct (draws (gauss G) n g) as (l, g1). reflexivity.
Qed.
Lemma kicks_S c dt n k (g : gen) : kicks c dt n (Datatypes.S k) g = brownian_kick c dt (fst (draws (gauss G) n g)) :: kicks c dt n k (snd (draws (gauss G) n g)).
Proof. unfold kicks. cbn [seq map]. f_equal. rewrite <- seq_shift, map_map. reflexivity. Qed.
Lemma comes_S bc c dt n p (g : gen) k q d : bc p (brownian_kick c dt (fst (draws (gauss G) n g))) = (d, Ok tt) ->
  (comes_to bc c dt n p g (Datatypes.S k) q <-> comes_to bc c dt n d (snd (draws (gauss G) n g)) k q).
Proof. intros E. unfold comes_to. rewrite kicks_S. cbn [travel]. rewrite E. reflexivity. Qed.

(** The clock after [k] steps from [t]. *)
Fixpoint ticks_from (t dt : S) (k : nat) : S := match k with 0 => t | Datatypes.S j => ticks_from (add t dt) dt j end.
Lemma ticks_from_out t dt k : ticks_from t dt (Datatypes.S k) = add (ticks_from t dt k) dt.
Proof. revert t. induction k as [|k IH]; intros t; [reflexivity|]. exact (IH (add t dt)). Qed.
Lemma ticks_from_0 dt k : ticks_from s0 dt k = ticks dt k.
Proof. induction k as [|k IH]; [reflexivity|]. rewrite ticks_from_out, IH. reflexivity. Qed.

Lemma draws_len n : forall g : gen, length (fst (draws (gauss G) n g)) = n.
Proof. induction n as [|n IH]; intros g; [reflexivity|]. cbn [draws]. destruct (gauss G g) as (x, g1). specialize (IH g1). destruct (draws (gauss G) n g1). cbn in *. now rewrite IH. Qed.
Lemma kick_len c dt l : length (brownian_kick (S := S) c dt l) = length l. Proof. apply map_length. Qed.

Lemma search_cases sy (tg : target S) c dt fuel : built sy -> length (tg_pos tg) = sysdim sy ->
  forall time (a : indep S) (g : gen), indep_in (sysdim sy) a -> in_mtype a = Brownian c ->
  let n := sysdim sy in let bc := sc_check_bc (core (G := G) sy) in
  (exists k q, k < fuel /\ first_visit bc tg c dt n (in_pos a) g k q /\
     search_loop (core sy) tg dt fuel time a g = (in_set a n q, after_blocks (gauss G) n k g, Ok (ticks_from time dt k))) \/
  (exists k p q, k < fuel /\ no_visit bc tg c dt n (in_pos a) g k /\ comes_to bc c dt n (in_pos a) g k p /\
     bc p (brownian_kick c dt (nth_block (gauss G) n k g)) = (q, Err TooLargeTimeStep) /\
     search_loop (core sy) tg dt fuel time a g = (in_set a n q, after_blocks (gauss G) n (Datatypes.S k) g, Err TooLargeTimeStep)) \/
  ((forall j, j < fuel -> exists q', comes_to bc c dt n (in_pos a) g j q' /\ check_find tg q' = Ok false) /\
   exists a', search_loop (core sy) tg dt fuel time a g = (a', after_blocks (gauss G) n fuel g, Fuel)).
Proof.
  intros B T. induction fuel as [|fuel IH]; intros time a g Ia Ma n bc.
  - right; right. split; [intros j Hj; lia|]. exists a. reflexivity.
  - destruct Ia as (Da & La & Ca). cbn [search_loop].
    destruct (check_find_cases tg (in_pos a)) as (_ & K). 
    destruct (check_find tg (in_pos a)) as [[|]|e| |] eqn:F.
    + left. exists 0, (in_pos a). split; [lia|]. split; [split; [reflexivity|split; [exact F|intros j Hj; lia]]|].
      cbn. f_equal. f_equal. unfold n. rewrite <- Da. destruct a; reflexivity.
    + unfold indep_random_move. rewrite Ma, Da, rnd_move_kick.
      set (dp := brownian_kick c dt (fst (draws (gauss G) (sysdim sy) g))). set (g1 := snd (draws (gauss G) (sysdim sy) g)).
      assert (Ldp : length dp = sysdim sy) by (unfold dp; rewrite kick_len; apply draws_len).
      destruct (core_shape (G := G) sy B (in_pos a) dp) as (_ & _ & Sh). destruct (Sh ltac:(lia) La) as (p1 & Lp & [E|E]); rewrite E.
      * assert (I1 : indep_in (sysdim sy) (in_set a (sysdim sy) p1)) by (split; [reflexivity|split; [exact Lp|exact Ca]]).
        assert (CS : forall j q, comes_to bc c dt n (in_pos a) g (Datatypes.S j) q <-> comes_to bc c dt n p1 g1 j q) by (intros j q; exact (comes_S bc c dt n (in_pos a) g j q p1 E)).
        destruct (IH (add time dt) (in_set a (sysdim sy) p1) g1 I1 Ma) as [(k & q & Hk & (V1 & V2 & V3) & E2)|[(k & p & q & Hk & N & C1 & R & E2)|(N & a' & E2)]].
        -- left. exists (Datatypes.S k), q. split; [lia|]. split.
           ++ split; [apply CS; exact V1|]. split; [exact V2|]. intros [|j] Hj; [exists (in_pos a); split; [reflexivity|exact F]|].
              destruct (V3 j ltac:(lia)) as (q' & H1 & H2). exists q'. split; [apply CS; exact H1|exact H2].
           ++ rewrite E2. reflexivity.
        -- right; left. exists (Datatypes.S k), p, q. split; [lia|]. split; [|split; [apply CS; exact C1|split; [exact R|rewrite E2; reflexivity]]].
           intros [|j] Hj; [exists (in_pos a); split; [reflexivity|exact F]|]. destruct (N j ltac:(lia)) as (q' & H1 & H2). exists q'. split; [apply CS; exact H1|exact H2].
        -- right; right. split.
           ++ intros [|j] Hj; [exists (in_pos a); split; [reflexivity|exact F]|]. destruct (N j ltac:(lia)) as (q' & H1 & H2). exists q'. split; [apply CS; exact H1|exact H2].
           ++ exists a'. rewrite E2. reflexivity.
      * right; left. exists 0, (in_pos a), p1. split; [lia|]. split.
        -- intros j Hj. replace j with 0 by lia. exists (in_pos a). split; [reflexivity|exact F].
        -- split; [reflexivity|]. split; [exact E|]. reflexivity.
    + exfalso. destruct (K ltac:(congruence)) as (b & X); congruence.
    + exfalso. destruct (K ltac:(congruence)) as (b & X); congruence.
    + exfalso. destruct (K ltac:(congruence)) as (b & X); congruence.
Qed.

(** ** Samples one after the other *)
Lemma sampled_fun {X} (sample : gen -> gen * outcome X) g ts g1 : sampled sample g ts g1 -> forall us g2, sampled sample g us g2 -> length us = length ts -> us = ts /\ g2 = g1.
Proof.
  induction 1 as [g|g g1 g2 t ts E H IH]; intros us g3 H2 L.
  - destruct us; [|discriminate]. remember [] as e eqn:Ee in H2. destruct H2; [now split|discriminate].
  - destruct us as [|u us]; [discriminate|]. remember (u :: us) as e eqn:Ee in H2. destruct H2 as [|g' g4 g5 t' ts' E' H']; [discriminate|]. injection Ee as -> ->.
    rewrite E in E'. injection E' as <- <-. destruct (IH _ _ H') as (-> & ->); [cbn in L; lia|]. now split.
Qed.
Lemma min_cases (sample : gen -> gen * outcome S) n : forall m0 g,
  (exists ts g', sampled sample g ts g' /\ length ts = n /\ min_loop sample n m0 g = (g', Ok (fold_left (fun m t => if ltb t m then t else m) ts m0))) \/
  (exists k g' o, k < n /\ fails_after sample g k g' o /\ min_loop sample n m0 g = (g', o)).
Proof.
  induction n as [|n IH]; intros m0 g.
  - left. exists [], g. split; [constructor|]. split; reflexivity.
  - cbn [min_loop]. destruct (sample g) as (g1, [t|e| |]) eqn:E.
    2-4: right; exists 0, g1; eexists; (split; [lia|]); (split; [|reflexivity]); exists [], g; (split; [constructor|]); (split; [reflexivity|]); (split; [exact E|discriminate]).
    destruct (IH (if ltb t m0 then t else m0) g1) as [(ts & g' & H & L & ->)|(k & g' & o & Hk & (ts & g2 & H & L & F) & ->)].
    + left. exists (t :: ts), g'. split; [econstructor; eauto|]. split; [cbn; lia|reflexivity].
    + right. exists (Datatypes.S k), g', o. split; [lia|]. split; [|reflexivity]. exists (t :: ts), g2. split; [econstructor; eauto|]. split; [cbn; lia|exact F].
Qed.
Lemma sum_cases (sample : gen -> gen * outcome S) n : forall d0 g,
  (exists ts g', sampled sample g ts g' /\ length ts = n /\ sum_loop sample n d0 g = (g', Ok (fold_left add ts d0))) \/
  (exists k g' o, k < n /\ fails_after sample g k g' o /\ sum_loop sample n d0 g = (g', o)).
Proof.
  induction n as [|n IH]; intros d0 g.
  - left. exists [], g. split; [constructor|]. split; reflexivity.
  - cbn [sum_loop]. destruct (sample g) as (g1, [t|e| |]) eqn:E.
    2-4: right; exists 0, g1; eexists; (split; [lia|]); (split; [|reflexivity]); exists [], g; (split; [constructor|]); (split; [reflexivity|]); (split; [exact E|discriminate]).
    destruct (IH (add d0 t) g1) as [(ts & g' & H & L & ->)|(k & g' & o & Hk & (ts & g2 & H & L & F) & ->)].
    + left. exists (t :: ts), g'. split; [econstructor; eauto|]. split; [cbn; lia|reflexivity].
    + right. exists (Datatypes.S k), g', o. split; [lia|]. split; [|reflexivity]. exists (t :: ts), g2. split; [econstructor; eauto|]. split; [cbn; lia|exact F].
Qed.
(** The running minimum. *)
Lemma min_fold (trans : forall x y z : S, ltb x y = true -> ltb y z = true -> ltb x z = true) (irr : forall x : S, ltb x x = false) (ts : list S) : forall m0 : S,
  let m := fold_left (fun m t => if ltb t m then t else m) ts m0 in
  (m = m0 \/ In m ts) /\ (forall t, In t ts -> ltb t m = false) /\ (m = m0 \/ ltb m m0 = true).
Proof.
  assert (D : forall m m0 : S, m = m0 \/ ltb m m0 = true -> forall x, ltb x m0 = false -> ltb x m = false).
  { intros m m0 [->|H] x Hx; [exact Hx|]. destruct (ltb x m) eqn:X; [|reflexivity]. rewrite (trans _ _ _ X H) in Hx. discriminate. }
  induction ts as [|t ts IH]; intros m0; cbn zeta; cbn [fold_left].
  - split; [now left|]. split; [intros t []|now left].
  - destruct (IH (if ltb t m0 then t else m0)) as (A & B & C). cbn zeta in *. set (m := fold_left _ ts _) in *.
    destruct (ltb t m0) eqn:E.
    + split; [destruct A as [A|A]; [right; left; auto|right; right; exact A]|]. split.
      * intros u [<-|Hu]; [|auto]. exact (D _ _ C t (irr t)).
      * right. destruct C as [->|C]; [exact E|exact (trans _ _ _ C E)].
    + split; [destruct A as [A|A]; [left; exact A|right; right; exact A]|]. split; [|exact C].
      intros u [<-|Hu]; [|auto]. exact (D _ _ C t E).
Qed.
End W.
