(** Placement of agents: rejection sampling (C31). *)
From Coq Require Import Reals ZArith List Lra Lia.
From Verif Require Import Base Scalar Float64 Model_Position Spec_Position Proof_Position Proof_Time Model_System Spec_System
  Proof_System Proof_System2 Proof_System3 Proof_System5 Proof_System8 Model_Agent Spec_Agent.
Import ListNotations.
Local Open Scope nat_scope.

Section Gen.
Context {S : scalar} {G : rng S}.
Notation gen := (rstate G).
Notation blk n k g := (nth_block (unif G) n k g).

Lemma after_blocks_S {GG X : Type} (draw : GG -> X * GG) n k (g : GG) :
  after_blocks draw n (Datatypes.S k) g = after_blocks draw n k (snd (draws draw n g)).
Proof. reflexivity. Qed.
Lemma nth_block_S {GG X : Type} (draw : GG -> X * GG) n k (g : GG) :
  nth_block draw n (Datatypes.S k) g = nth_block draw n k (snd (draws draw n g)).
Proof. reflexivity. Qed.
Lemma nth_block_len n k (g : gen) : length (blk n k g) = n.
Proof. unfold nth_block. apply draws_length. Qed.
Lemma after_blocks_add {GG X : Type} (draw : GG -> X * GG) n j k (g : GG) :
  after_blocks draw n (j + k) g = after_blocks draw n k (after_blocks draw n j g).
Proof. revert g. induction j as [|j IH]; intros g; [reflexivity|]. exact (IH _). Qed.
Lemma nth_block_add {GG X : Type} (draw : GG -> X * GG) n j k (g : GG) :
  nth_block draw n (j + k) g = nth_block draw n k (after_blocks draw n j g).
Proof. unfold nth_block. now rewrite after_blocks_add. Qed.

(** A sampler draws blocks of [n] samples and returns the candidate of the first accepted one. *)
Definition sampler (n : nat) (acc : list S -> bool) (cand : list S -> pos S) (rt : nat -> gen -> pos S -> pos S * gen * outcome unit) : Prop :=
  forall inner g v, length v = n ->
   (exists k, acc (blk n k g) = true /\ (forall j, j < k -> acc (blk n j g) = false) /\
      rt inner g v = (cand (blk n k g), after_blocks (unif G) n (Datatypes.S k) g, Ok tt)) \/
   ((forall j, j < inner -> acc (blk n j g) = false) /\ exists q g', rt inner g v = (q, g', Fuel)).

Lemma place_sampler n acc cand (sys : syscore S G) (t : target S) : sampler n acc cand (sc_random_to sys) ->
  (forall u, length u = n -> length (cand u) = n) -> length (tg_pos t) = n ->
  sampler n (fun u => acc u && match check_find t (cand u) with Ok false => true | _ => false end) cand
    (fun m g v => place m m sys t g v) /\
  forall inner fuel g v, length v = n ->
   (exists k, acc (blk n k g) = true /\ check_find t (cand (blk n k g)) = Ok false /\
      (forall j, j < k -> acc (blk n j g) = false \/ check_find t (cand (blk n j g)) = Ok true) /\
      place inner fuel sys t g v = (cand (blk n k g), after_blocks (unif G) n (Datatypes.S k) g, Ok tt)) \/
   ((forall j, j < Nat.min inner fuel -> acc (blk n j g) = false \/ check_find t (cand (blk n j g)) = Ok true) /\
     exists q g', place inner fuel sys t g v = (q, g', Fuel)).
Proof.
  intros SM LC LT.
  assert (CF : forall u, length u = n -> exists b, check_find t (cand u) = Ok b).
  { intros u Lu. destruct (check_find_cases t (cand u)) as (_ & H). apply H. rewrite (LC u Lu). auto. }
  assert (M : forall inner fuel g v, length v = n ->
   (exists k, acc (blk n k g) = true /\ check_find t (cand (blk n k g)) = Ok false /\
      (forall j, j < k -> acc (blk n j g) = false \/ check_find t (cand (blk n j g)) = Ok true) /\
      place inner fuel sys t g v = (cand (blk n k g), after_blocks (unif G) n (Datatypes.S k) g, Ok tt)) \/
   ((forall j, j < Nat.min inner fuel -> acc (blk n j g) = false \/ check_find t (cand (blk n j g)) = Ok true) /\
     exists q g', place inner fuel sys t g v = (q, g', Fuel))).
  { intros inner. induction fuel as [|fuel IH]; intros g v Lv.
    { right. split; [intros j Hj; lia|]. cbn [place]. eauto. }
    cbn [place]. destruct (SM inner g v Lv) as [(k & A & B & E)|(A & q & g' & E)].
    2:{ right. rewrite E. split; [intros j Hj; left; apply A; lia|eauto]. }
    rewrite E. destruct (CF (blk n k g) (nth_block_len n k g)) as (b & F). rewrite F. destruct b.
    2:{ left. exists k. repeat split; auto. }
    specialize (IH (after_blocks (unif G) n (Datatypes.S k) g) (cand (blk n k g)) ltac:(apply LC, nth_block_len)).
    assert (Sh : forall j, blk n j (after_blocks (unif G) n (Datatypes.S k) g) = blk n (Datatypes.S k + j) g) by (intros j; symmetry; apply nth_block_add).
    assert (Lo : forall j, j < Datatypes.S k -> acc (blk n j g) = false \/ check_find t (cand (blk n j g)) = Ok true).
    { intros j Hj. destruct (Nat.eq_dec j k) as [->|]; [now right|left; apply B; lia]. }
    destruct IH as [(k' & A' & F' & B' & E')|(A' & q & g' & E')].
    - left. exists (Datatypes.S k + k'). rewrite Sh in A', F', E'. split; [exact A'|]. split; [exact F'|]. split.
      + intros j Hj. destruct (le_lt_dec (Datatypes.S k) j) as [H|H]; [|apply Lo; lia].
        specialize (B' (j - Datatypes.S k) ltac:(lia)). rewrite Sh in B'. replace (Datatypes.S k + (j - Datatypes.S k)) with j in B' by lia. exact B'.
      + rewrite E'. do 2 f_equal. rewrite <- after_blocks_add. f_equal. lia.
    - right. split; [|eauto]. intros j Hj. destruct (le_lt_dec (Datatypes.S k) j) as [H|H]; [|apply Lo; lia].
      specialize (A' (j - Datatypes.S k) ltac:(lia)). rewrite Sh in A'. replace (Datatypes.S k + (j - Datatypes.S k)) with j in A' by lia. exact A'. }
  split; [|exact M].
  intros m g v Lv. destruct (M m m g v Lv) as [(k & A & F & B & E)|(A & q & g' & E)].
  - left. exists k. rewrite A, F. split; [reflexivity|]. split; [|exact E]. intros j Hj. destruct (B j Hj) as [H|H]; rewrite H; [reflexivity|apply andb_false_r].
  - right. split; [|eauto]. intros j Hj. destruct (A j ltac:(lia)) as [H|H]; rewrite H; [reflexivity|apply andb_false_r].
Qed.

(** The three systems are samplers. *)
Lemma cubic_sampler (s : cubic S) : sampler (cu_dim s) (fun _ => true) (spread (cu_size s)) (fun n => cubic_random_to n s).
Proof. intros inner g v L. left. exists 0. split; [reflexivity|]. split; [intros j Hj; lia|]. exact (proj2 (cubic_random_to_eq inner s g v) L). Qed.

Lemma spread_length w (u : list S) : length (spread w u) = length u.
Proof. unfold spread. apply map_length. Qed.

Lemma circ_sampler (s : circ S) : sampler (ci_dim s) (fun u => negb (ltb (ci_size s) (norm (spread (ci_size s) u)))) (spread (ci_size s)) (fun n => circ_random_to n s).
Proof.
  intros inner g v L. rewrite (proj2 (circ_random_to_dim inner s g v) L). revert g v L. induction inner as [|k IH]; intros g v L.
  { right. split; [intros j Hj; lia|]. cbn. eauto. }
  rewrite circ_random_to_step by exact L. cbv zeta. change (fst (draws (unif G) (ci_dim s) g)) with (blk (ci_dim s) 0 g).
  destruct (ltb (ci_size s) (norm (spread (ci_size s) (blk (ci_dim s) 0 g)))) eqn:E.
  2:{ left. exists 0. rewrite E. split; [reflexivity|]. split; [intros j Hj; lia|]. reflexivity. }
  destruct (IH (snd (draws (unif G) (ci_dim s) g)) (spread (ci_size s) (blk (ci_dim s) 0 g))) as [(i & A & B & F)|(A & F)].
  { rewrite spread_length. apply nth_block_len. }
  - left. exists (Datatypes.S i). split; [exact A|]. split; [|exact F].
    intros [|j] Hj; [now rewrite E|]. rewrite nth_block_S. apply B. lia.
  - right. split; [|exact F]. intros [|j] Hj; [now rewrite E|]. rewrite nth_block_S. apply A. lia.
Qed.

Lemma cyl_sampler (s : cyl S) d : cy_type s = ContinuousCylindrical d -> d <= cy_dim s ->
  sampler (cy_dim s) (fun u => ltb (slice_norm (firstn d (cyl_cand_to s d u))) (cy_radius s)) (cyl_cand_to s d) (fun n => cyl_random_to n s).
Proof.
  intros T D inner g v L. rewrite (proj2 (cyl_random_to_dim inner s d g v T) L). revert g v L. induction inner as [|k IH]; intros g v L.
  { right. split; [intros j Hj; lia|]. cbn. eauto. }
  rewrite cyl_random_to_step by auto. cbv zeta. change (fst (draws (unif G) (cy_dim s) g)) with (blk (cy_dim s) 0 g).
  destruct (ltb (slice_norm (firstn d (cyl_cand_to s d (blk (cy_dim s) 0 g)))) (cy_radius s)) eqn:E.
  { left. exists 0. rewrite E. split; [reflexivity|]. split; [intros j Hj; lia|]. reflexivity. }
  destruct (IH (snd (draws (unif G) (cy_dim s) g)) (cyl_cand_to s d (blk (cy_dim s) 0 g))) as [(i & A & B & F)|(A & F)].
  { unfold cyl_cand_to. rewrite cyl_scale_length, map_length. apply nth_block_len. }
  - left. exists (Datatypes.S i). split; [exact A|]. split; [|exact F].
    intros [|j] Hj; [exact E|]. rewrite nth_block_S. apply B. lia.
  - right. split; [|exact F]. intros [|j] Hj; [exact E|]. rewrite nth_block_S. apply A. lia.
Qed.

(** The starting vector of [renew_uniform] always has the system's dimension. *)
Lemma out_length (a : anysys S) : length (sc_out (core (G := G) a)) = sysdim a.
Proof. destruct a; cbn; unfold circ_out, cubic_out, cyl_out; apply repeat_length. Qed.
Lemma renew_start_cases (a : anysys S) (p : pos S) :
  renew_start (core (G := G) a) p = (sc_out (core (G := G) a), negb (length p =? sysdim a)).
Proof.
  unfold renew_start. destruct (@out_to_agree S) as (H1 & H2 & H3).
  destruct a as [s|s|s]; cbn [core sc_out_to sc_out sysdim circ_core cubic_core cyl_core];
  [destruct (H1 s p) as (A & B)|destruct (H2 s p) as (A & B)|destruct (H3 s p) as (A & B)];
  match goal with |- context [length p =? ?n] => destruct (Nat.eqb_spec (length p) n) as [E|E]; [rewrite (A E)|rewrite (B E)] end; reflexivity.
Qed.
End Gen.

(** ** Exact reals *)
Section PR.
Context {G : rng RR}.
Notation gen := (rstate G).

Lemma cand_spread (a : anysys RR) (g : gen) k : candidate a g k = spread (S := RR) (halfwidth a) (nth_block (unif G) (sysdim a) k g).
Proof. unfold candidate. symmetry. apply spread_R. Qed.

Lemma cand_length (a : anysys RR) (g : gen) k : length (candidate a g k) = sysdim a.
Proof. unfold candidate. rewrite map_length. exact (nth_block_len (S := RR) (sysdim a) k g). Qed.

Lemma unif_blocks n k (g : gen) : unif_R G -> Forall (fun x : R => (0 < x < 1)%R) (nth_block (unif G) n k g).
Proof. intros U. unfold nth_block. apply uniforms_R. exact U. Qed.

(** [random_pos_to_vec] of a ball or cube accepts a block exactly when its candidate is in the region. *)
Lemma box_sampler (a : anysys RR) : built a -> ~ is_cyl a -> unif_R G ->
  exists acc, sampler (S := RR) (sysdim a) acc (spread (S := RR) (halfwidth a)) (sc_random_to (core (G := G) a)) /\
    forall g k, acc (nth_block (unif G) (sysdim a) k g) = true <-> region a (candidate a g k).
Proof.
  intros B NC U. destruct a as [s|s|s]; [| |exfalso; apply NC; exact I].
  - exists (fun u => negb (ltb (ci_size s) (norm (spread (S := RR) (ci_size s) u)))). split; [exact (circ_sampler (S := RR) s)|].
    intros g k. rewrite cand_spread. cbn [halfwidth sysdim region]. rewrite negb_true_iff.
    change (@ltb RR) with Rltb. rewrite rr_norm_euclid. split.
    + intros H. apply Rltb_false in H. split; [|exact H]. exact (eq_trans (spread_length (S := RR) _ _) (nth_block_len (S := RR) _ k g)).
    + intros [_ H]. apply Rltb_false. exact H.
  - exists (fun _ => true). split; [exact (cubic_sampler (S := RR) s)|].
    intros g k. split; [intros _|reflexivity]. cbn [region]. split; [apply cand_length|].
    unfold candidate. cbn [halfwidth]. apply spread_in; [apply Rlt_le, (cubic_pos_R s B)|]. exact (unif_blocks _ k g U).
Qed.

Lemma place_R (a : anysys RR) (t : target RR) inner fuel (g : gen) (v : list R) :
  built a -> ~ is_cyl a -> unif_R G -> length (tg_pos t) = sysdim a -> length v = sysdim a ->
  (exists k, acceptable a t (candidate a g k) /\ (forall j, j < k -> ~ acceptable a t (candidate a g j)) /\
     place inner fuel (core a) t g v = (candidate a g k, after_blocks (unif G) (sysdim a) (Datatypes.S k) g, Ok tt)) \/
  ((forall j, j < Nat.min inner fuel -> ~ acceptable a t (candidate a g j)) /\ exists q g', place inner fuel (core a) t g v = (q, g', Fuel)).
Proof.
  intros B NC U LT Lv. destruct (box_sampler a B NC U) as (acc & SM & AC).
  assert (LC : forall u : list R, length u = sysdim a -> @length R (spread (S := RR) (halfwidth a) u) = sysdim a).
  { intros u <-. exact (spread_length (S := RR) _ _). }
  destruct (place_sampler (S := RR) (sysdim a) acc _ (core a) t SM LC LT) as (_ & M). specialize (M inner fuel g v Lv).
  assert (OT : forall j, check_find t (candidate a g j) = Ok false <-> off_target t (candidate a g j)).
  { intros j. apply check_find_R. rewrite cand_length. exact LT. }
  assert (OT2 : forall j, check_find t (candidate a g j) = Ok true -> ~ off_target t (candidate a g j)).
  { intros j H K. apply OT in K. congruence. }
  assert (NA : forall j, acc (nth_block (unif G) (sysdim a) j g) = false \/ check_find t (spread (S := RR) (halfwidth a) (nth_block (unif G) (sysdim a) j g)) = Ok true ->
    ~ acceptable a t (candidate a g j)).
  { intros j [H|H] (K1 & K2); [apply AC in K1; congruence|]. rewrite <- cand_spread in H. exact (OT2 j H K2). }
  destruct M as [(k & A & F & N & E)|(N & E)].
  - left. exists k. rewrite <- cand_spread in F, E. split; [split; [now apply AC|now apply OT]|]. split; [|exact E].
    intros j Hj. apply NA, N, Hj.
  - right. split; [|exact E]. intros j Hj. apply NA, N, Hj.
Qed.
End PR.

(** [renew_uniform] in terms of [place]. *)
Section Renew.
Context {S : scalar} {G : rng S}.
Lemma renew_form (sy : anysys S) (t : target S) inner fuel (g : rstate G) (a : anyagent S) :
  forall q g1 r, place inner fuel (core sy) t g (sc_out (core (G := G) sy)) = (q, g1, r) ->
  exists b r', a_renew inner fuel (core sy) t g a = (b, g1, r') /\ same_kind a b /\ same_parameters a b /\ a_pos b = q /\
    a_dim b = (if (length (a_pos a) =? sysdim sy)%nat then a_dim a else sysdim sy) /\
    (r' = r \/ (r = Ok tt /\ a_mtype a = Levy /\ r' = Err FeatureNotProvided /\ exists m, a = AMerger m)) /\
    (r = Ok tt -> match a, b with
                  | AMerger x, AMerger y => mg_size y = 1 /\
                       mg_mtype y = match mg_mtype x with Brownian _ => Brownian (fpow (of_Z 1) (opp (mg_alpha x))) | Levy => Levy end
                  | _, _ => True end) /\
    match a, b with
    | AExp x, AExp y => ex_cforce x = div (ex_cpot x) (ex_gamma x) -> ex_cpot x = ex_strength x -> ex_cpot y = ex_cpot x /\ ex_cforce y = ex_cforce x
    | ALj x, ALj y => lj_cpot x = mul (of_Z 4) (lj_strength x) -> lj_cforce x = div (mul (of_Z 24) (lj_strength x)) (lj_psize x) -> lj_cpot y = lj_cpot x /\ lj_cforce y = lj_cforce x
    | _, _ => True end.
Proof.
  pose proof (out_length (G := G) sy) as OL.
  intros q g1 r E. destruct a as [x|x|x|x]; cbn [a_renew a_pos a_dim a_mtype].
  - unfold indep_renew. rewrite renew_start_cases, E. unfold dim. rewrite OL. do 2 eexists. split; [reflexivity|].
    destruct (length (in_pos x) =? sysdim sy); cbn; repeat split; auto.
  - unfold merger_renew. rewrite renew_start_cases, E. unfold dim. rewrite OL.
    destruct r as [[]|e| |].
    + unfold recoeff. cbn. destruct (mg_mtype x) eqn:M; do 2 eexists; (split; [reflexivity|]); destruct (length (mg_pos x) =? sysdim sy); cbn; repeat split; auto.
      all: right; repeat split; eauto.
    + do 2 eexists. split; [reflexivity|]. destruct (length (mg_pos x) =? sysdim sy); cbn; repeat split; auto; discriminate.
    + do 2 eexists. split; [reflexivity|]. destruct (length (mg_pos x) =? sysdim sy); cbn; repeat split; auto; discriminate.
    + do 2 eexists. split; [reflexivity|]. destruct (length (mg_pos x) =? sysdim sy); cbn; repeat split; auto; discriminate.
  - unfold expag_renew. rewrite renew_start_cases. cbn [exp_coeff]. unfold dim.
    destruct (length (ex_pos x) =? sysdim sy) eqn:Q; cbn [negb]; rewrite E, ?OL; do 2 eexists; (split; [reflexivity|]); cbn; repeat split; auto; congruence.
  - unfold ljag_renew. rewrite renew_start_cases. cbn [lj_coeff]. unfold dim.
    destruct (length (lj_pos x) =? sysdim sy) eqn:Q; cbn [negb]; rewrite E, ?OL; do 2 eexists; (split; [reflexivity|]); cbn; repeat split; auto; congruence.
Qed.
End Renew.
