(** Proofs about tests/test_setup.rs: searchers one at a time, each given up when its time reaches the best one so far. *)
From Coq Require Import List Lia Arith ZArith.
From Verif Require Import Base Scalar Model_Position Spec_Position Proof_Position Model_System Spec_System Proof_System Proof_System5 Model_Agent Spec_Agent
  Model_LinkedList Model_Run Spec_Run Spec_Search Model_Program3 Spec_Program3
  Proof_Run2 Proof_Run4 Proof_Run5 Proof_Run14 Proof_Search.
Import ListNotations.
Local Open Scope nat_scope.

Section W.
Context {S : scalar} {G : rng S}.
Notation gen := (rstate G).

Lemma clear_is (v : pos S) : pos_clear v = repeat s0 (length v).
Proof. unfold pos_clear. induction v as [|x v IH]; [reflexivity|]. cbn [map length repeat]. now rewrite IH. Qed.
Lemma to_vec_stride (c dt : S) n (v : pos S) (g : gen) : length v = n ->
  rnd_move_to_vec (Brownian c) n g dt (pos_clear v) = (stride c dt n g 0, snd (draws (gauss G) n g), Ok tt).
Proof.
  intros L. rewrite clear_is, L. unfold rnd_move_to_vec, dim. rewrite repeat_length, Nat.eqb_refl. cbn [negb].
  destruct (vec_draws g n (repeat s0 n) s0 s0 s0 (fsqrt (mul (mul s2 c) dt))) as (_ & _ & _ & _ & _ & E).
  rewrite E, repeat_length. reflexivity.
Qed.
Lemma stride_len (c dt : S) n (g : gen) j : length (stride c dt n g j) = n.
Proof. unfold stride, noisy_kick, nth_block. rewrite map_length, combine_length, repeat_length, draws_len. apply Nat.min_id. Qed.
Lemma stride_S (c dt : S) n (g : gen) j : stride c dt n g (Datatypes.S j) = stride c dt n (snd (draws (gauss G) n g)) j.
Proof. reflexivity. Qed.
Lemma strides_S (c dt : S) n (g : gen) k :
  map (stride c dt n g) (seq 0 (Datatypes.S k)) = stride c dt n g 0 :: map (stride c dt n (snd (draws (gauss G) n g))) (seq 0 k).
Proof. cbn [seq map]. f_equal. rewrite <- seq_shift, map_map. reflexivity. Qed.
Lemma walks_S bc (c dt : S) n p (g : gen) k q d : bc p (stride c dt n g 0) = (d, Ok tt) ->
  (walks_to bc c dt n p g (Datatypes.S k) q <-> walks_to bc c dt n d (snd (draws (gauss G) n g)) k q).
Proof. intros E. unfold walks_to. rewrite strides_S. cbn [travel]. rewrite E. reflexivity. Qed.
Lemma walks_fun bc (c dt : S) n p (g : gen) k q q' : walks_to bc c dt n p g k q -> walks_to bc c dt n p g k q' -> q = q'.
Proof. unfold walks_to. congruence. Qed.
Lemma off_S bc tg (c dt : S) n p (g : gen) k d : bc p (stride c dt n g 0) = (d, Ok tt) -> check_find tg p = Ok false ->
  off_until bc tg c dt n d (snd (draws (gauss G) n g)) k -> off_until bc tg c dt n p g (Datatypes.S k).
Proof.
  intros E F H [|j] Hj; [exists p; split; [reflexivity|exact F]|]. destruct (H j ltac:(lia)) as (q & W & Q). exists q. split; [|exact Q].
  now apply (walks_S bc c dt n p g j q d E).
Qed.

(** How one searcher's turn can end, [m] being the best time so far. *)
Lemma race_cases sy (tg : target S) c dt (m : S) fuel : built sy -> length (tg_pos tg) = sysdim sy ->
  forall time (a : indep S) (v : pos S) (g : gen), indep_in (sysdim sy) a -> in_mtype a = Brownian c -> length v = sysdim sy ->
  let n := sysdim sy in let bc := sc_check_bc (core (G := G) sy) in
  exists v', length v' = n /\
  ((exists k q b, k < fuel /\ off_until bc tg c dt n (in_pos a) g k /\ (forall j, j < k -> ltb (ticks_from time dt j) m = true) /\
      walks_to bc c dt n (in_pos a) g k q /\ check_find tg q = Ok b /\ (b = false -> ltb (ticks_from time dt k) m = false) /\
      race_loop (core sy) tg dt m fuel time a v g = (in_set a n q, v', after_blocks (gauss G) n k g, Ok (ticks_from time dt k))) \/
   (exists k p q, k < fuel /\ off_until bc tg c dt n (in_pos a) g (Datatypes.S k) /\ (forall j, j <= k -> ltb (ticks_from time dt j) m = true) /\
      walks_to bc c dt n (in_pos a) g k p /\ bc p (stride c dt n g k) = (q, Err TooLargeTimeStep) /\
      race_loop (core sy) tg dt m fuel time a v g = (in_set a n q, v', after_blocks (gauss G) n (Datatypes.S k) g, Err TooLargeTimeStep)) \/
   (off_until bc tg c dt n (in_pos a) g fuel /\ (forall j, j < fuel -> ltb (ticks_from time dt j) m = true) /\
    exists a', race_loop (core sy) tg dt m fuel time a v g = (a', v', after_blocks (gauss G) n fuel g, Fuel))).
Proof.
  intros B T. induction fuel as [|fuel IH]; intros time a v g Ia Ma Lv n bc.
  - exists v. split; [exact Lv|]. right; right. split; [intros j Hj; lia|]. split; [intros j Hj; lia|]. exists a. reflexivity.
  - destruct Ia as (Da & La & Ca). cbn [race_loop].
    destruct (check_find_cases tg (in_pos a)) as (_ & K).
    assert (Stay : a = in_set a n (in_pos a)) by (unfold n; rewrite <- Da; destruct a; reflexivity).
    destruct (check_find tg (in_pos a)) as [[|]|e| |] eqn:F.
    + exists v. split; [exact Lv|]. left. exists 0, (in_pos a), true. split; [lia|]. split; [intros j Hj; lia|]. split; [intros j Hj; lia|].
      split; [reflexivity|]. split; [exact F|]. split; [discriminate|]. now rewrite <- Stay.
    + destruct (ltb time m) eqn:Lt; cbn [negb].
      2:{ exists v. split; [exact Lv|]. left. exists 0, (in_pos a), false. split; [lia|]. split; [intros j Hj; lia|]. split; [intros j Hj; lia|].
          split; [reflexivity|]. split; [exact F|]. split; [intros _; exact Lt|]. now rewrite <- Stay. }
      unfold indep_random_move_to_vec. rewrite Ma, Da, (to_vec_stride c dt (sysdim sy) v g Lv).
      set (dp := stride c dt (sysdim sy) g 0). set (g1 := snd (draws (gauss G) (sysdim sy) g)).
      assert (Ldp : length dp = sysdim sy) by apply stride_len.
      destruct (core_shape (G := G) sy B (in_pos a) dp) as (_ & _ & Sh). destruct (Sh ltac:(lia) La) as (p1 & Lp & [E|E]); rewrite E.
      * assert (I1 : indep_in (sysdim sy) (in_set a (sysdim sy) p1)) by (split; [reflexivity|split; [exact Lp|exact Ca]]).
        assert (CS : forall j q, walks_to bc c dt n (in_pos a) g (Datatypes.S j) q <-> walks_to bc c dt n p1 g1 j q) by (intros j q; exact (walks_S bc c dt n (in_pos a) g j q p1 E)).
        destruct (IH (add time dt) (in_set a (sysdim sy) p1) dp g1 I1 Ma Ldp) as (v' & Lv' & C). exists v'. split; [exact Lv'|].
        destruct C as [(k & q & b & Hk & O & M & V1 & V2 & V3 & E2)|[(k & p & q & Hk & O & M & C1 & R & E2)|(O & M & a' & E2)]].
        -- left. exists (Datatypes.S k), q, b. split; [lia|]. split; [exact (off_S bc tg c dt n _ g k p1 E F O)|].
           split; [intros [|j] Hj; [exact Lt|exact (M j ltac:(lia))]|]. split; [now apply CS|]. split; [exact V2|]. split; [exact V3|]. rewrite E2. reflexivity.
        -- right; left. exists (Datatypes.S k), p, q. split; [lia|]. split; [exact (off_S bc tg c dt n _ g (Datatypes.S k) p1 E F O)|].
           split; [intros [|j] Hj; [exact Lt|exact (M j ltac:(lia))]|]. split; [now apply CS|]. split; [exact R|]. rewrite E2. reflexivity.
        -- right; right. split; [exact (off_S bc tg c dt n _ g fuel p1 E F O)|]. split; [intros [|j] Hj; [exact Lt|exact (M j ltac:(lia))]|].
           exists a'. rewrite E2. reflexivity.
      * exists dp. split; [exact Ldp|]. right; left. exists 0, (in_pos a), p1. split; [lia|].
        split; [intros j Hj; replace j with 0 by lia; exists (in_pos a); split; [reflexivity|exact F]|].
        split; [intros j Hj; replace j with 0 by lia; exact Lt|]. split; [reflexivity|]. split; [exact E|]. reflexivity.
    + exfalso. destruct (K ltac:(congruence)) as (b & X); congruence.
    + exfalso. destruct (K ltac:(congruence)) as (b & X); congruence.
    + exfalso. destruct (K ltac:(congruence)) as (b & X); congruence.
Qed.

(** The vector's contents do not matter. *)
Lemma race_loop_vec sys (tg : target S) dt m fuel : forall time (a : indep S) (v w : pos S) (g : gen), length v = length w ->
  let '(a1, _, g1, o1) := race_loop sys tg dt m fuel time a v g in let '(a2, _, g2, o2) := race_loop sys tg dt m fuel time a w g in a1 = a2 /\ g1 = g2 /\ o1 = o2.
Proof.
  induction fuel as [|fuel IH]; intros time a v w g L; [now cbn|].
  cbn [race_loop]. rewrite (clear_is v), (clear_is w), L.
  destruct (check_find tg (in_pos a)) as [[|]|e| |]; try now cbn.
  destruct (negb (ltb time m)); [now cbn|].
  destruct (indep_random_move_to_vec a g dt (repeat s0 (length w))) as [[v1 g1] [u|e| |]]; try now cbn.
  destruct (sc_check_bc sys (in_pos a) v1) as (p, [u1|e| |]); try now cbn.
  apply IH. reflexivity.
Qed.
End W.

(** ** A race *)
Section Race.
Context {S : scalar} {G : rng S}.
Notation gen := (rstate G).
Variables (sy : anysys S) (tg : target S) (c dt : S) (inner pf fuel : nat).
Hypothesis (B : built sy) (T : length (tg_pos tg) = sysdim sy).
Notation n := (sysdim sy).
Notation bc := (sc_check_bc (core (G := G) sy)).
Definition newcomer (g : gen) : gen * outcome (indep S) := indep_new_uniform inner pf (core sy) tg g (Brownian c).
Notation new := newcomer.
(** What is known of a searcher that has had its turn, when [m] is the best time. *)
Definition had_turn (m : S) (r : indep S * gen * nat) : Prop := let '(a, g, k) := r in
  length (in_pos a) = n /\ check_find tg (in_pos a) = Ok false /\ off_until bc tg c dt n (in_pos a) g k /\ ltb (ticks dt k) m = false.
Definition winner (m : S) (r : indep S * gen * nat) : Prop := let '(a, g, k) := r in
  1 <= k /\ finds_after bc tg c dt n (in_pos a) g k /\ m = ticks dt k.

Lemma race_ends (trans : forall x y z : S, ltb x y = true -> ltb y z = true -> ltb x z = true) (irr : forall x : S, ltb x x = false) num : forall (m0 : S) (v : pos S) (g : gen), length v = n ->
  exists v', length v' = n /\
  ((exists runs g' m, in_turn new n g runs g' /\ length runs = num /\ Forall (had_turn m) runs /\
      (m = m0 \/ Exists (winner m) runs) /\ (m = m0 \/ ltb m m0 = true) /\ race inner pf fuel (core sy) tg (Brownian c) dt num m0 v g = (v', g', Ok m)) \/
   (exists runs g1 g2 a k p q, in_turn new n g runs g1 /\ length runs < num /\ new g1 = (g2, Ok a) /\ k < fuel /\
      off_until bc tg c dt n (in_pos a) g2 (Datatypes.S k) /\ walks_to bc c dt n (in_pos a) g2 k p /\ bc p (stride c dt n g2 k) = (q, Err TooLargeTimeStep) /\
      race inner pf fuel (core sy) tg (Brownian c) dt num m0 v g = (v', after_blocks (gauss G) n (Datatypes.S k) g2, Err TooLargeTimeStep)) \/
   (exists runs g1 g', in_turn new n g runs g1 /\ length runs < num /\
      (new g1 = (g', Fuel) \/ exists g2 a, new g1 = (g2, Ok a) /\ off_until bc tg c dt n (in_pos a) g2 fuel /\ g' = after_blocks (gauss G) n fuel g2) /\
      race inner pf fuel (core sy) tg (Brownian c) dt num m0 v g = (v', g', Fuel))).
Proof.
  induction num as [|num IH]; intros m0 v g Lv.
  - exists v. split; [exact Lv|]. left. exists [], g, m0. split; [constructor|]. split; [reflexivity|]. split; [constructor|]. split; [now left|]. split; [now left|]. reflexivity.
  - cbn [race].
    destruct (indep_new_ok sy tg inner pf c g B T) as [(a & g1 & En & (Ia & Ma) & F)|(g1 & En)]; rewrite En.
    2:{ exists v. split; [exact Lv|]. right; right. exists [], g, g1. split; [constructor|]. split; [cbn; lia|]. split; [now left|]. reflexivity. }
    destruct (race_cases sy tg c dt m0 fuel B T s0 a v g1 Ia Ma Lv) as (v1 & Lv1 & C). cbn zeta in C.
    destruct C as [(k & q & b & Hk & O & M & W & Q & St & E)|[(k & p & q & Hk & O & M & W & R & E)|(O & M & a' & E)]]; rewrite E.
    + rewrite ticks_from_0 in *. set (m1 := if ltb (ticks dt k) m0 then ticks dt k else m0).
      assert (H1 : ltb (ticks dt k) m1 = false) by (unfold m1; destruct (ltb (ticks dt k) m0) eqn:X; [apply irr|exact X]).
      assert (H2 : m1 = m0 \/ ltb m1 m0 = true) by (unfold m1; destruct (ltb (ticks dt k) m0) eqn:X; [now right|now left]).
      assert (H3 : m1 = m0 \/ (b = true /\ m1 = ticks dt k)).
      { unfold m1. destruct (ltb (ticks dt k) m0) eqn:X; [|now left]. right. split; [|reflexivity]. destruct b; [reflexivity|]. specialize (St eq_refl). congruence. }
      destruct (IH m1 v1 (after_blocks (gauss G) n k g1) Lv1) as (v' & Lv' & C). exists v'. split; [exact Lv'|].
      destruct C as [(runs & g' & m & I & L & Fa & Wn & Le & E2)|[(runs & g3 & g2 & a2 & k2 & p2 & q2 & I & L & N & X)|(runs & g3 & g' & I & L & X & E2)]].
      * left. exists ((a, g1, k) :: runs), g', m. split; [econstructor; [exact En|exact I]|]. split; [cbn; lia|].
        assert (Lm : forall x : S, ltb x m1 = false -> ltb x m = false).
        { intros x Hx. destruct Le as [->|Le]; [exact Hx|]. destruct (ltb x m) eqn:Y; [|reflexivity]. rewrite (trans _ _ _ Y Le) in Hx. discriminate. }
        split; [constructor; [|exact Fa]; split; [apply Ia|split; [exact F|split; [exact O|apply Lm; exact H1]]]|].
        split; [|split; [|exact E2]].
        -- destruct Wn as [Wn|Wn]; [|right; now apply Exists_cons_tl]. rewrite Wn. destruct H3 as [H3|(Hb & H3)]; [left; exact H3|right]. apply Exists_cons_hd.
           subst b. split; [|split; [split; [exact O|exists q; split; [exact W|exact Q]]|exact H3]].
           destruct k as [|k]; [|lia]. unfold walks_to in W. cbn in W. injection W as W0; congruence.
        -- destruct Le as [->|Le]; [exact H2|]. right. destruct H2 as [H2|H2]; [rewrite <- H2; exact Le|exact (trans _ _ _ Le H2)].
      * right; left. exists ((a, g1, k) :: runs), g3, g2, a2, k2, p2, q2. split; [econstructor; [exact En|exact I]|]. split; [cbn; lia|]. split; [exact N|exact X].
      * right; right. exists ((a, g1, k) :: runs), g3, g'. split; [econstructor; [exact En|exact I]|]. split; [cbn; lia|]. split; [exact X|exact E2].
    + exists v1. split; [exact Lv1|]. right; left. exists [], g, g1, a, k, p, q. split; [constructor|]. split; [cbn; lia|]. split; [exact En|]. split; [exact Hk|].
      split; [exact O|]. split; [exact W|]. split; [exact R|]. reflexivity.
    + exists v1. split; [exact Lv1|]. right; right. exists [], g, (after_blocks (gauss G) n fuel g1). split; [constructor|]. split; [cbn; lia|].
      split; [right; exists g1, a; split; [exact En|split; [exact O|reflexivity]]|]. reflexivity.
Qed.

(** Giving up a searcher is harmless: whenever it would have found the target, it would not have been faster. *)
Lemma no_faster (up : forall x m : S, ltb x m = false -> ltb (add x dt) m = false) m r k' : had_turn m r ->
  (let '(a, g, _) := r in finds_after bc tg c dt n (in_pos a) g k') -> ltb (ticks dt k') m = false.
Proof.
  destruct r as [[a g] k]. intros (_ & _ & O & L) (O' & q & W & Q).
  assert (Hk : k <= k').
  { destruct (le_lt_dec k k') as [H|H]; [exact H|]. destruct (O k' H) as (q' & W' & Q'). rewrite (walks_fun _ _ _ _ _ _ _ _ _ W W') in Q. congruence. }
  induction Hk as [|k' Hk IH] using le_ind; [exact L|].
  clear -Hk L up. assert (H : ltb (ticks dt k') m = false). { induction Hk as [|j Hj IH]; [exact L|]. apply up, IH. }
  apply up, H.
Qed.
End Race.

(** ** Many races *)
Section Races.
Context {S : scalar} {G : rng S}.
Notation gen := (rstate G).
Lemma race_loop_len (sys : syscore S G) (tg : target S) dt m fuel : forall time (a : indep S) (v : pos S) (g : gen),
  length (let '(_, v', _, _) := race_loop sys tg dt m fuel time a v g in v') = length v.
Proof.
  induction fuel as [|fuel IH]; intros time a v g; [reflexivity|]. cbn [race_loop].
  destruct (check_find tg (in_pos a)) as [[|]|e| |]; try reflexivity. destruct (negb (ltb time m)); [reflexivity|].
  assert (L : length (fst (fst (indep_random_move_to_vec a g dt (pos_clear v)))) = length v).
  { rewrite clear_is. unfold indep_random_move_to_vec, rnd_move_to_vec, dim. rewrite repeat_length. destruct (Nat.eqb (in_dim a) (length v)); cbn [negb]; [|apply repeat_length].
    destruct (in_mtype a) as [c|]; [|apply repeat_length].
    destruct (vec_draws g 0 (repeat s0 (length v)) s0 s0 s0 (fsqrt (mul (mul s2 c) dt))) as (_ & _ & _ & _ & _ & E). rewrite E. cbn [fst].
    rewrite map_length, combine_length, repeat_length, draws_len. apply Nat.min_id. }
  destruct (indep_random_move_to_vec a g dt (pos_clear v)) as [[v1 g1] [u|e| |]]; try exact L.
  destruct (sc_check_bc sys (in_pos a) v1) as (p, [u1|e| |]); try exact L.
  rewrite IH. exact L.
Qed.
Lemma race_vec inner pf fuel (sys : syscore S G) (tg : target S) mt dt num : forall m (v w : pos S) (g : gen), length v = length w ->
  let '(v1, g1, o1) := race inner pf fuel sys tg mt dt num m v g in let '(w1, g2, o2) := race inner pf fuel sys tg mt dt num m w g in
  length v1 = length v /\ length w1 = length w /\ g1 = g2 /\ o1 = o2.
Proof.
  induction num as [|num IH]; intros m v w g L; [now cbn|]. cbn [race].
  destruct (indep_new_uniform inner pf sys tg g mt) as (g1, [a|e| |]); try now cbn.
  pose proof (race_loop_vec sys tg dt m fuel s0 a v w g1 L) as V. pose proof (race_loop_len sys tg dt m fuel s0 a v g1) as Lv. pose proof (race_loop_len sys tg dt m fuel s0 a w g1) as Lw.
  destruct (race_loop sys tg dt m fuel s0 a v g1) as [[[a1 v1] h1] o1]. destruct (race_loop sys tg dt m fuel s0 a w g1) as [[[a2 v2] h2] o2].
  destruct V as (-> & -> & ->). destruct o2 as [t|e| |]; try (split; [exact Lv|split; [exact Lw|now split]]).
  specialize (IH (if ltb t m then t else m) v1 v2 h2 ltac:(congruence)).
  destruct (race inner pf fuel sys tg mt dt num _ v1 h2) as [[x1 y1] z1]. destruct (race inner pf fuel sys tg mt dt num _ v2 h2) as [[x2 y2] z2].
  destruct IH as (I1 & I2 & I3 & I4). repeat split; congruence.
Qed.
Lemma races_sampled inner pf fuel (sys : syscore S G) (tg : target S) mt dt num d k : forall (v : pos S) (g : gen), length v = d ->
  let sample := race_sample inner pf fuel sys d tg mt dt num in
  let '(ts, g', o) := races inner pf fuel sys tg mt dt num k v g in
  match o with
  | Ok _ => sampled sample g ts g' /\ length ts = k
  | Err e => length ts < k /\ exists g1, sampled sample g ts g1 /\ sample g1 = (g', Err e)
  | Panic => length ts < k /\ exists g1, sampled sample g ts g1 /\ sample g1 = (g', Panic)
  | Fuel => length ts < k /\ exists g1, sampled sample g ts g1 /\ sample g1 = (g', Fuel)
  end.
Proof.
  induction k as [|k IH]; intros v g L sample; [cbn; split; [constructor|reflexivity]|]. cbn [races].
  pose proof (race_vec inner pf fuel sys tg mt dt num fmax v (repeat s0 d) g ltac:(now rewrite repeat_length)) as V.
  assert (Es : sample g = let '(_, g', o) := race inner pf fuel sys tg mt dt num fmax (repeat s0 d) g in (g', o)) by reflexivity.
  destruct (race inner pf fuel sys tg mt dt num fmax v g) as [[v1 g1] o1]. destruct (race inner pf fuel sys tg mt dt num fmax (repeat s0 d) g) as [[w1 g2] o2].
  destruct V as (V1 & _ & -> & ->).
  destruct o2 as [t|e| |]; try (split; [cbn; lia|]; exists g; split; [constructor|exact Es]).
  specialize (IH v1 g2 ltac:(congruence)). cbn zeta in IH. fold sample in IH.
  destruct (races inner pf fuel sys tg mt dt num k v1 g2) as [[ts g'] o].
  destruct o as [u|e| |]; destruct IH as (I1 & I2).
  - split; [econstructor; eauto|cbn; lia].
  - split; [cbn; lia|]. destruct I2 as (g4 & I2 & I3). exists g4. split; [econstructor; eauto|exact I3].
  - split; [cbn; lia|]. destruct I2 as (g4 & I2 & I3). exists g4. split; [econstructor; eauto|exact I3].
  - split; [cbn; lia|]. destruct I2 as (g4 & I2 & I3). exists g4. split; [econstructor; eauto|exact I3].
Qed.
End Races.
