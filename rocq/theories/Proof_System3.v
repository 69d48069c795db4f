From Coq Require Import Reals ZArith List Lra Lia.
From Verif Require Import Base Scalar Float64 Model_Position Spec_Position Proof_Position Proof_Time Model_System Spec_System Proof_System Proof_System2.
Local Open Scope nat_scope.

(** ** Random positions, any scalar *)
Section Gen.
Context {S : scalar} {G : rng S}.
Notation gen := (rstate G).

Lemma combine_repeat {A B} (c : B) (u : list A) n : length u = n -> combine u (repeat c n) = map (fun x => (x, c)) u.
Proof. intros <-. induction u; simpl; congruence. Qed.
Lemma combine_repeat_l {A B} (c : A) (u : list B) n : length u = n -> combine (repeat c n) u = map (fun x => (c, x)) u.
Proof. intros <-. induction u; simpl; congruence. Qed.

Lemma uniform_vec_draws (g : gen) n : get_uniform_vec g n = draws (unif G) n g.
Proof.
  unfold get_uniform_vec. rewrite sample_map_spec. rewrite repeat_length.
  destruct (draws (unif G) n g) as (l, g2) eqn:E. f_equal.
  pose proof (draws_length (unif G) n g) as L. rewrite E in L. simpl in L.
  rewrite combine_repeat_l by auto. rewrite map_map. simpl. apply map_id.
Qed.

Lemma uniform_to_draws (g : gen) (v : pos S) mn mx :
  get_uniform_to_vec_nonstandard g (pos_clear v) mn mx =
  (map (fun r => add (add s0 (mul r (sub mx mn))) mn) (fst (draws (unif G) (length v) g)), snd (draws (unif G) (length v) g)).
Proof.
  unfold get_uniform_to_vec_nonstandard. rewrite sample_map_spec, clear_all, repeat_length.
  destruct (draws (unif G) (length v) g) as (l, g2) eqn:E. simpl. f_equal.
  pose proof (draws_length (unif G) (length v) g) as L. rewrite E in L. simpl in L.
  rewrite combine_repeat_l by auto. rewrite map_map. reflexivity.
Qed.

Lemma add_repeat (u : pos S) c n : length u = n -> pos_add u (repeat c n) = Ok (map (fun x => add x c) u).
Proof.
  intros H. unfold pos_add, dim. rewrite repeat_length, H, Nat.eqb_refl. simpl.
  rewrite combine_repeat by auto. rewrite map_map. reflexivity.
Qed.

(** The candidate made from one block of uniform samples. *)
Definition shifted (w : S) (u : list S) : list S := map (fun x => mul (add x (opp half)) w) u.
Definition spread (w : S) (u : list S) : list S := map (fun r => add (add s0 (mul r (sub w (opp w)))) (opp w)) u.

Lemma circ_random_step k (s : circ S) (g : gen) :
  circ_random_pos (Datatypes.S k) s g =
  let c := shifted (mul s2 (ci_size s)) (fst (draws (unif G) (ci_dim s) g)) in
  if ltb (ci_size s) (norm c) then circ_random_pos k s (snd (draws (unif G) (ci_dim s) g))
  else Ok (c, snd (draws (unif G) (ci_dim s) g)).
Proof.
  cbn [circ_random_pos]. rewrite uniform_vec_draws.
  destruct (draws (unif G) (ci_dim s) g) as (u, g1) eqn:E. cbn [fst snd].
  pose proof (draws_length (unif G) (ci_dim s) g) as L. rewrite E in L. simpl in L.
  rewrite add_repeat by auto. cbn [bind]. unfold mut_scalar_mul. rewrite map_map. fold (shifted (mul s2 (ci_size s)) u).
  rewrite circ_inclusion_eq by (unfold shifted; now rewrite map_length). cbv zeta.
  destruct (ltb (ci_size s) (norm (shifted (mul s2 (ci_size s)) u))); reflexivity.
Qed.

Lemma circ_random_to_step k (s : circ S) (g : gen) v : length v = ci_dim s ->
  circ_random_loop (Datatypes.S k) s g v =
  let c := spread (ci_size s) (fst (draws (unif G) (ci_dim s) g)) in
  if ltb (ci_size s) (norm c) then circ_random_loop k s (snd (draws (unif G) (ci_dim s) g)) c
  else (c, snd (draws (unif G) (ci_dim s) g), Ok tt).
Proof.
  intros Lv. cbn [circ_random_loop]. rewrite uniform_to_draws, Lv.
  fold (spread (ci_size s) (fst (draws (unif G) (ci_dim s) g))).
  pose proof (draws_length (unif G) (ci_dim s) g) as L.
  rewrite circ_inclusion_eq by (unfold spread; now rewrite map_length). cbv zeta.
  destruct (ltb (ci_size s) (norm (spread (ci_size s) (fst (draws (unif G) (ci_dim s) g))))); reflexivity.
Qed.

Notation block := (after_blocks (unif G)).

Lemma circ_random_result fuel (s : circ S) (g : gen) :
  (circ_random_pos fuel s g = Fuel /\
    forall k, k < fuel -> ltb (ci_size s) (norm (shifted (mul s2 (ci_size s)) (fst (draws (unif G) (ci_dim s) (block (ci_dim s) k g))))) = true) \/
  exists k, k < fuel /\
    let d := draws (unif G) (ci_dim s) (block (ci_dim s) k g) in
    let c := shifted (mul s2 (ci_size s)) (fst d) in
    circ_random_pos fuel s g = Ok (c, snd d) /\ ltb (ci_size s) (norm c) = false.
Proof.
  revert g. induction fuel as [|f IH]; intros g; [left; split; [reflexivity|lia]|].
  rewrite circ_random_step. cbv zeta.
  destruct (ltb (ci_size s) (norm (shifted (mul s2 (ci_size s)) (fst (draws (unif G) (ci_dim s) g))))) eqn:E.
  - destruct (IH (snd (draws (unif G) (ci_dim s) g))) as [[H1 H2]|(k & Hk & H)].
    + left. split; auto. intros [|k] Hk; simpl; auto. apply H2. lia.
    + right. exists (Datatypes.S k). split; [lia|]. exact H.
  - right. exists 0. split; [lia|]. simpl. auto.
Qed.

Lemma circ_random_to_result fuel (s : circ S) (g : gen) v : length v = ci_dim s ->
  (snd (circ_random_loop fuel s g v) = Fuel /\
    forall k, k < fuel -> ltb (ci_size s) (norm (spread (ci_size s) (fst (draws (unif G) (ci_dim s) (block (ci_dim s) k g))))) = true) \/
  exists k, k < fuel /\
    let d := draws (unif G) (ci_dim s) (block (ci_dim s) k g) in
    let c := spread (ci_size s) (fst d) in
    circ_random_loop fuel s g v = (c, snd d, Ok tt) /\ ltb (ci_size s) (norm c) = false.
Proof.
  revert g v. induction fuel as [|f IH]; intros g v Lv; [left; split; [reflexivity|lia]|].
  rewrite circ_random_to_step by auto. cbv zeta.
  destruct (ltb (ci_size s) (norm (spread (ci_size s) (fst (draws (unif G) (ci_dim s) g))))) eqn:E.
  - destruct (IH (snd (draws (unif G) (ci_dim s) g)) (spread (ci_size s) (fst (draws (unif G) (ci_dim s) g)))) as [[H1 H2]|(k & Hk & H)].
    + unfold spread. rewrite map_length. apply draws_length.
    + left. split; auto. intros [|k] Hk; simpl; auto. apply H2. lia.
    + right. exists (Datatypes.S k). split; [lia|]. exact H.
  - right. exists 0. split; [lia|]. simpl. auto.
Qed.

Lemma cubic_random_eq fuel (s : cubic S) (g : gen) :
  cubic_random_pos fuel s g = Ok (shifted (mul s2 (cu_size s)) (fst (draws (unif G) (cu_dim s) g)), snd (draws (unif G) (cu_dim s) g)).
Proof.
  unfold cubic_random_pos. rewrite uniform_vec_draws.
  pose proof (draws_length (unif G) (cu_dim s) g) as L. destruct (draws (unif G) (cu_dim s) g) as (u, g1). simpl in L.
  rewrite add_repeat by auto. cbn [bind]. unfold mut_scalar_mul. rewrite map_map. reflexivity.
Qed.

Lemma cubic_random_to_eq fuel (s : cubic S) (g : gen) v :
  (length v <> cu_dim s -> cubic_random_to fuel s g v = (v, g, Err InvalidDimension)) /\
  (length v = cu_dim s ->
    cubic_random_to fuel s g v = (spread (cu_size s) (fst (draws (unif G) (cu_dim s) g)), snd (draws (unif G) (cu_dim s) g), Ok tt)).
Proof.
  unfold cubic_random_to, dim. split; intros L.
  - apply Nat.eqb_neq in L. rewrite L. reflexivity.
  - rewrite uniform_to_draws, L, Nat.eqb_refl. reflexivity.
Qed.

Definition cyl_cand (s : cyl S) d (u : list S) : list S := cyl_scale s d (map (fun x => add x (opp half)) u).
Definition cyl_cand_to (s : cyl S) d (u : list S) : list S :=
  cyl_scale s d (map (fun r => add (add s0 (mul r (sub s1 (opp s1)))) (opp s1)) u).

Lemma cyl_scale_length (s : cyl S) d p : length (cyl_scale s d p) = length p.
Proof. unfold cyl_scale. rewrite app_length, !map_length, <- app_length, firstn_skipn. reflexivity. Qed.

Lemma cyl_random_step k (s : cyl S) d (g : gen) : (d <= cy_dim s) ->
  cyl_random_loop (Datatypes.S k) s d g =
  let c := cyl_cand s d (fst (draws (unif G) (cy_dim s) g)) in
  if ltb (slice_norm (firstn d c)) (cy_radius s) then Ok (c, snd (draws (unif G) (cy_dim s) g))
  else cyl_random_loop k s d (snd (draws (unif G) (cy_dim s) g)).
Proof.
  intros D. cbn [cyl_random_loop]. rewrite uniform_vec_draws.
  pose proof (draws_length (unif G) (cy_dim s) g) as L. destruct (draws (unif G) (cy_dim s) g) as (u, g1). simpl in L.
  rewrite add_repeat by auto. cbn [bind fst snd]. rewrite map_length. destruct (Nat.ltb_spec (length u) d); [lia|].
  reflexivity.
Qed.

Lemma cyl_random_to_step k (s : cyl S) d (g : gen) v : d <= cy_dim s -> length v = cy_dim s ->
  cyl_random_to_loop (Datatypes.S k) s d g v =
  let c := cyl_cand_to s d (fst (draws (unif G) (cy_dim s) g)) in
  if ltb (slice_norm (firstn d c)) (cy_radius s) then (c, snd (draws (unif G) (cy_dim s) g), Ok tt)
  else cyl_random_to_loop k s d (snd (draws (unif G) (cy_dim s) g)) c.
Proof.
  intros D Lv. cbn [cyl_random_to_loop]. rewrite uniform_to_draws, Lv.
  pose proof (draws_length (unif G) (cy_dim s) g) as L. destruct (draws (unif G) (cy_dim s) g) as (u, g1). simpl in L.
  cbn [fst snd]. rewrite map_length. destruct (Nat.ltb_spec (length u) d); [lia|]. reflexivity.
Qed.

Lemma cyl_random_result fuel (s : cyl S) d (g : gen) : d <= cy_dim s ->
  (cyl_random_loop fuel s d g = Fuel /\
    forall k, k < fuel -> ltb (slice_norm (firstn d (cyl_cand s d (fst (draws (unif G) (cy_dim s) (block (cy_dim s) k g)))))) (cy_radius s) = false) \/
  exists k, k < fuel /\
    let e := draws (unif G) (cy_dim s) (block (cy_dim s) k g) in
    let c := cyl_cand s d (fst e) in
    cyl_random_loop fuel s d g = Ok (c, snd e) /\ ltb (slice_norm (firstn d c)) (cy_radius s) = true.
Proof.
  intros D. revert g. induction fuel as [|f IH]; intros g; [left; split; [reflexivity|lia]|].
  rewrite cyl_random_step by auto. cbv zeta.
  destruct (ltb (slice_norm (firstn d (cyl_cand s d (fst (draws (unif G) (cy_dim s) g))))) (cy_radius s)) eqn:E.
  - right. exists 0. split; [lia|]. simpl. auto.
  - destruct (IH (snd (draws (unif G) (cy_dim s) g))) as [[H1 H2]|(k & Hk & H)].
    + left. split; auto. intros [|k] Hk; simpl; auto. apply H2. lia.
    + right. exists (Datatypes.S k). split; [lia|]. exact H.
Qed.

Lemma cyl_random_to_result fuel (s : cyl S) d (g : gen) v : d <= cy_dim s -> length v = cy_dim s ->
  (snd (cyl_random_to_loop fuel s d g v) = Fuel /\
    forall k, k < fuel -> ltb (slice_norm (firstn d (cyl_cand_to s d (fst (draws (unif G) (cy_dim s) (block (cy_dim s) k g)))))) (cy_radius s) = false) \/
  exists k, k < fuel /\
    let e := draws (unif G) (cy_dim s) (block (cy_dim s) k g) in
    let c := cyl_cand_to s d (fst e) in
    cyl_random_to_loop fuel s d g v = (c, snd e, Ok tt) /\ ltb (slice_norm (firstn d c)) (cy_radius s) = true.
Proof.
  intros D. revert g v. induction fuel as [|f IH]; intros g v Lv; [left; split; [reflexivity|lia]|].
  rewrite cyl_random_to_step by auto. cbv zeta.
  destruct (ltb (slice_norm (firstn d (cyl_cand_to s d (fst (draws (unif G) (cy_dim s) g))))) (cy_radius s)) eqn:E.
  - right. exists 0. split; [lia|]. simpl. auto.
  - destruct (IH (snd (draws (unif G) (cy_dim s) g)) (cyl_cand_to s d (fst (draws (unif G) (cy_dim s) g)))) as [[H1 H2]|(k & Hk & H)].
    + unfold cyl_cand_to. rewrite cyl_scale_length, map_length. apply draws_length.
    + left. split; auto. intros [|k] Hk; simpl; auto. apply H2. lia.
    + right. exists (Datatypes.S k). split; [lia|]. exact H.
Qed.

Lemma draws_forall (P : S -> Prop) : (forall g, P (fst (unif G g))) -> forall n g, Forall P (fst (draws (unif G) n g)).
Proof.
  intros H. induction n as [|n IH]; intros g; simpl; [constructor|].
  specialize (H g). destruct (unif G g) as (r, g1). specialize (IH g1). destruct (draws (unif G) n g1). simpl in *. constructor; auto.
Qed.

Lemma circ_random_to_dim fuel (s : circ S) (g : gen) v :
  (length v <> ci_dim s -> circ_random_to fuel s g v = (v, g, Err InvalidDimension)) /\
  (length v = ci_dim s -> circ_random_to fuel s g v = circ_random_loop fuel s g v).
Proof.
  unfold circ_random_to, dim. split; intros L; [apply Nat.eqb_neq in L|apply Nat.eqb_eq in L]; rewrite L; reflexivity.
Qed.
Lemma cyl_random_to_dim fuel (s : cyl S) d (g : gen) v : cy_type s = ContinuousCylindrical d ->
  (length v <> cy_dim s -> cyl_random_to fuel s g v = (v, g, Err InvalidDimension)) /\
  (length v = cy_dim s -> cyl_random_to fuel s g v = cyl_random_to_loop fuel s d g v).
Proof.
  unfold cyl_random_to, dim. intros ->. split; intros L; [apply Nat.eqb_neq in L|apply Nat.eqb_eq in L]; rewrite L; reflexivity.
Qed.
End Gen.
