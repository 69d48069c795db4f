(** Property C60: the objects built from a set of arguments ([convert_from] of the systems, the target and the agents). *)
From Coq Require Import Reals ZArith List Lra Lia.
From Flocq Require Import Core.
From Flocq.IEEE754 Require Import BinarySingleNaN.
From Verif Require Import Base Scalar Float64 Model_Position Model_System Model_Agent Proof_Time.
Import ListNotations.
Local Open Scope nat_scope.

(** What an accepted boundary condition of a cube of dimension [d] is. *)
Definition cube_boundary (b : bcond) (d : nat) : Prop := match b with Mixed m => m <= d | _ => True end.
(** What an initial position means for a new agent: its dimension and its position. *)
Definition starts_at {S : scalar} (i : inittype S) (p : pos S) : Prop := match i with SpecificPosition q => p = q | Uniform => p = [] end.

Lemma leb_R0 (x : R) : leb (s := RR) x s0 = false <-> (0 < x)%R.
Proof. change (leb (s := RR) x s0) with (Rleb x 0). unfold Rleb. destruct Rle_dec; split; try discriminate; try lra; auto. Qed.
Lemma ltb_R0 (x : R) : ltb (s := RR) x s0 = false <-> (0 <= x)%R.
Proof. change (ltb (s := RR) x s0) with (Rltb x 0). unfold Rltb. destruct Rlt_dec; split; try discriminate; try lra; auto. Qed.

(** Exact reals: a system is built exactly from valid arguments, and it has these arguments; all other arguments panic. *)
Theorem C60_systems : 
  (forall a : circ RR, circ_convert_from a = (if Rlt_dec 0 (ci_size a) then if 1 <=? ci_dim a then Ok a else Panic else Panic)) /\
  (forall a : cubic RR, (((0 < cu_size a)%R /\ 1 <= cu_dim a /\ cube_boundary (cu_bc a) (cu_dim a)) -> cubic_convert_from a = Ok a) /\
     (~ ((0 < cu_size a)%R /\ 1 <= cu_dim a /\ cube_boundary (cu_bc a) (cu_dim a)) -> cubic_convert_from a = Panic)) /\
  (forall a : cyl RR, let ok := exists c, cy_type a = ContinuousCylindrical c /\ cy_bc a = Mixed c /\ c <= cy_dim a /\ 1 <= cy_dim a /\ (0 <= cy_radius a)%R /\ (0 < cy_length a)%R in
     (ok -> cyl_convert_from a = Ok a) /\ (~ ok -> cyl_convert_from a = Panic)).
Proof.
  split; [|split].
  - intros [t b r d]. unfold circ_convert_from. cbn [ci_size ci_dim ci_type ci_bc]. destruct (leb r s0) eqn:E.
    + destruct Rlt_dec as [H|H]; [apply leb_R0 in H; congruence|reflexivity].
    + apply leb_R0 in E. destruct Rlt_dec as [_|H]; [|now destruct H]. destruct d; reflexivity.
  - intros [t b r d]. unfold cubic_convert_from. cbn [cu_size cu_dim cu_type cu_bc]. split.
    + intros (A & B & C). apply leb_R0 in A. rewrite A. cbn [orb]. destruct (Nat.eqb_spec d 0); [lia|]. destruct b as [| |m]; try reflexivity.
      cbn [cube_boundary] in C. destruct (Nat.ltb_spec d m); [lia|reflexivity].
    + intros N. destruct (leb r s0) eqn:E; [reflexivity|]. apply leb_R0 in E. cbn [orb]. destruct (Nat.eqb_spec d 0); [reflexivity|].
      destruct b as [| |m]; try (exfalso; apply N; cbn [cube_boundary]; repeat split; auto; lia).
      destruct (Nat.ltb_spec d m); [reflexivity|]. exfalso. apply N. cbn [cube_boundary]. repeat split; auto; lia.
  - intros [t b r l d] ok. unfold ok. unfold cyl_convert_from. cbn [cy_type cy_bc cy_radius cy_length cy_dim]. split.
    + intros (c & -> & -> & A & B & C & D). apply ltb_R0 in C. apply leb_R0 in D. rewrite C, D, Nat.eqb_refl. cbn [negb orb].
      destruct (Nat.ltb_spec d c); [lia|]. destruct (Nat.eqb_spec d 0); [lia|reflexivity].
    + intros N. destruct t as [| |c| |]; try reflexivity. destruct b as [| |c2]; try reflexivity.
      destruct (Nat.eqb_spec c c2) as [<-|]; [|reflexivity]. cbn [negb orb]. destruct (Nat.ltb_spec d c); [reflexivity|]. cbn [orb].
      destruct (ltb r s0) eqn:E1; [reflexivity|]. destruct (leb l s0) eqn:E2; [reflexivity|]. cbn [orb]. destruct (Nat.eqb_spec d 0); [reflexivity|].
      exfalso. apply N. exists c. apply ltb_R0 in E1. apply leb_R0 in E2. repeat split; auto; lia.
Qed.
Print Assumptions C60_systems.
(** Any arithmetic: a system built from arguments is the one [new] builds from the same numbers; but for the cylinder only if its radius is not <= 0. *)
Theorem C60_same_as_new : forall (S : scalar) (r l : S) (c d : nat) (b : bcond),
  circ_convert_from (Circ ContinuousCircular Reflection r d) = circ_new r d /\
  cubic_convert_from (Cubic ContinuousRectangular b l d) = cubic_new b l d /\
  (leb r s0 = false -> cyl_convert_from (Cyl (ContinuousCylindrical c) (Mixed c) r l d) = if ltb r s0 then Panic else cyl_new c r l d).
Proof.
  intros S r l c d b. split; [|split].
  - reflexivity.
  - unfold cubic_convert_from, cubic_new. cbn [cu_size cu_dim cu_type cu_bc]. destruct (leb l s0); [reflexivity|]. cbn [orb]. destruct (Nat.eqb d 0); [reflexivity|].
    destruct b; reflexivity.
  - intros H. unfold cyl_convert_from, cyl_new. cbn [cy_type cy_bc cy_radius cy_length cy_dim]. rewrite H, Nat.eqb_refl. cbn [negb orb].
    destruct (Nat.ltb d c), (ltb r s0), (leb l s0), (Nat.eqb d 0); reflexivity.
Qed.
Print Assumptions C60_same_as_new.
(** Any arithmetic: the agents.  The number asked for, all alike, with the movement and the start of the arguments; a specific start gives position and dimension.
    The repelling agents take the dimension from the arguments, and panic if a specific start with at least one coordinate has another one. *)
Theorem C60_agents : forall (S : scalar),
  (forall a : indep_args S, exists x, indep_convert_from a = repeat x (ia_num a) /\
     in_type x = ia_type a /\ in_mtype x = ia_mtype a /\ in_itype x = ia_itype a /\ starts_at (ia_itype a) (in_pos x) /\ in_dim x = length (in_pos x)) /\
  (forall a : merger_args S, exists x, merger_convert_from a = repeat x (ma_num a) /\
     mg_type x = ma_type a /\ mg_mtype x = ma_mtype a /\ mg_itype x = ma_itype a /\ starts_at (ma_itype a) (mg_pos x) /\ mg_dim x = length (mg_pos x) /\
     mg_radius x = ma_radius a /\ mg_alpha x = ma_alpha a /\ mg_size x = 1) /\
  (forall a : expag_args S,
     (exists x, expag_convert_from a = Ok (repeat x (ea_num a)) /\ (forall p, ea_itype a = SpecificPosition p -> p <> [] -> length p = ea_dim a) /\
        ex_mtype x = ea_mtype a /\ ex_itype x = ea_itype a /\ starts_at (ea_itype a) (ex_pos x) /\ ex_dim x = ea_dim a /\ ex_gamma x = ea_gamma a /\ ex_strength x = ea_strength a) \/
     (expag_convert_from a = Panic /\ exists p, ea_itype a = SpecificPosition p /\ p <> [] /\ length p <> ea_dim a)) /\
  (forall a : ljag_args S, exists x, ljag_convert_from a = Ok (repeat x (la_num a)) /\
     lj_mtype x = la_mtype a /\ lj_itype x = la_itype a /\ starts_at (la_itype a) (lj_pos x) /\ lj_dim x = length (lj_pos x) /\ lj_psize x = la_psize a /\ lj_strength x = la_strength a).
Proof.
  intros S. split; [|split; [|split]].
  - intros [t m i n]. unfold indep_convert_from. cbn. destruct i as [p|]; eexists; (split; [reflexivity|]); cbn; auto 10.
  - intros [t m i r al n]. unfold merger_convert_from. cbn. destruct i as [p|]; eexists; (split; [reflexivity|]); cbn; auto 10.
  - intros [t m i ga d st n]. unfold expag_convert_from. cbn [ea_itype ea_dim ea_gamma ea_strength ea_num ea_mtype ea_type]. destruct i as [p|].
    + destruct p as [|x p].
      * left. cbn. eexists. split; [reflexivity|]. cbn. repeat split; auto. intros q E. congruence.
      * change (dim (x :: p)) with (Datatypes.S (length p)). change (Datatypes.S (length p) =? 0) with false. cbv iota.
        destruct (Nat.eqb_spec (Datatypes.S (length p)) d) as [E|E].
        -- left. cbn. eexists. split; [reflexivity|]. cbn. repeat split; auto. intros q Eq _. injection Eq as <-. exact E.
        -- right. split; [reflexivity|]. exists (x :: p). split; [reflexivity|]. split; [discriminate|exact E].
    + left. cbn. eexists. split; [reflexivity|]. cbn. repeat split; auto. intros q E. discriminate.
  - intros [t m i ps st n]. unfold ljag_convert_from. cbn. destruct i as [p|]; eexists; (split; [reflexivity|]); cbn; auto 10.
Qed.
Print Assumptions C60_agents.
(** [new]: the agent is at the given position, with its dimension and the given movement, and records the position as its start; repelling agents need a matching dimension, and an interaction of
    another kind makes the program panic. *)
Theorem C60_new_agents : forall (S : scalar) (m : movetype S) (p : pos S),
  (let x := indep_new m p in in_type x = ContinuousPassiveIndependent /\ in_mtype x = m /\ in_itype x = SpecificPosition p /\ in_dim x = length p /\ in_pos x = p) /\
  (forall radius alpha : S, let x := merger_new m p radius alpha in
     mg_type x = ContinuousPassiveInteracting /\ mg_mtype x = m /\ mg_itype x = SpecificPosition p /\ mg_dim x = length p /\ mg_pos x = p /\ mg_radius x = radius /\ mg_alpha x = alpha /\ mg_size x = 1) /\
  (forall it strength, (expag_new it m p strength = Panic /\ (forall gamma : S, it <> Exponential (length p) gamma)) \/
     exists gamma x, it = Exponential (length p) gamma /\ expag_new it m p strength = Ok x /\ ex_type x = ContinuousPassiveInteracting /\ ex_int x = it /\
       ex_mtype x = m /\ ex_itype x = SpecificPosition p /\ ex_dim x = length p /\ ex_pos x = p /\ ex_gamma x = gamma /\ ex_strength x = strength /\ ex_cpot x = strength /\ ex_cforce x = div strength gamma) /\
  (forall it strength, (ljag_new it m p strength = Panic /\ (forall psize : S, it <> LennardJones psize)) \/
     exists psize x, it = LennardJones psize /\ ljag_new it m p strength = Ok x /\ lj_type x = ContinuousPassiveInteracting /\ lj_int x = it /\
       lj_mtype x = m /\ lj_itype x = SpecificPosition p /\ lj_dim x = length p /\ lj_pos x = p /\ lj_psize x = psize /\ lj_strength x = strength /\
       lj_cpot x = mul (of_Z 4) strength /\ lj_cforce x = div (mul (of_Z 24) strength) psize).
Proof.
  intros S m p. split; [|split; [|split]].
  - cbn. auto.
  - intros radius alpha. cbn. repeat split.
  - intros it strength. destruct it as [d gamma| | |psize]; try (left; split; [reflexivity|intros; discriminate]).
    unfold expag_new, dim. destruct (Nat.eqb_spec d (length p)) as [->|N]; [right|left].
    + cbn [negb exp_coeff]. eexists. eexists. split; [reflexivity|]. split; [reflexivity|]. cbn [ex_type ex_int ex_mtype ex_itype ex_dim ex_pos ex_gamma ex_strength ex_cpot ex_cforce]. repeat split.
    + split; [reflexivity|]. intros g E. apply N. now injection E.
  - intros it strength. destruct it as [d gamma| | |psize]; try (left; split; [reflexivity|intros; discriminate]). right.
    eexists. eexists. split; [reflexivity|]. split; [reflexivity|]. cbn [lj_type lj_int lj_mtype lj_itype lj_dim lj_pos lj_psize lj_strength lj_cpot lj_cforce]. repeat split.
Qed.
Print Assumptions C60_new_agents.
(** Arguments with a specific start give copies of the agent that [new] makes there. *)
Theorem C60_agents_same_as_new : forall (S : scalar) (m : movetype S) (p : pos S) (n : nat),
  indep_convert_from (IndepArgs ContinuousPassiveIndependent m (SpecificPosition p) n) = repeat (indep_new m p) n /\
  (forall radius alpha : S, merger_convert_from (MergerArgs ContinuousPassiveInteracting m (SpecificPosition p) radius alpha n) = repeat (merger_new m p radius alpha) n) /\
  (forall ty (gamma strength : S), p <> [] -> expag_convert_from (ExpagArgs ty m (SpecificPosition p) gamma (length p) strength n) = do x <- expag_new (Exponential (length p) gamma) m p strength; Ok (repeat x n)) /\
  (forall ty (psize strength : S), ljag_convert_from (LjagArgs ty m (SpecificPosition p) psize strength n) = do x <- ljag_new (LennardJones psize) m p strength; Ok (repeat x n)).
Proof.
  intros S m p n. split; [reflexivity|]. split; [reflexivity|]. split; [|reflexivity].
  intros ty gamma strength Np. unfold expag_convert_from, expag_new, dim. cbn [ea_itype ea_dim ea_gamma ea_strength ea_num ea_mtype]. rewrite Nat.eqb_refl.
  destruct p as [|x p]; [contradiction|]. reflexivity.
Qed.
Print Assumptions C60_agents_same_as_new.
(** The target has the arguments' type, position and size, with no test. *)
Theorem C60_target : forall (S : scalar) (a : target S), target_convert_from a = a.
Proof. intros S [t p r]. reflexivity. Qed.
Print Assumptions C60_target.
(** Limit of C60: not-a-number passes every test of a size. *)
Theorem C60_nan_size_counterexample : forall lm (x : b64) d, is_nan x = true -> 1 <= d ->
  circ_convert_from (Circ (S := F64 lm) ContinuousCircular Reflection x d) = Ok (Circ (S := F64 lm) ContinuousCircular Reflection x d) /\
  cubic_convert_from (Cubic (S := F64 lm) ContinuousRectangular Periodic x d) = Ok (Cubic (S := F64 lm) ContinuousRectangular Periodic x d) /\
  cyl_convert_from (Cyl (S := F64 lm) (ContinuousCylindrical 1) (Mixed 1) x x d) = Ok (Cyl (S := F64 lm) (ContinuousCylindrical 1) (Mixed 1) x x d).
Proof.
  intros lm x d N D. destruct x; try discriminate. clear N. destruct d as [|d]; [lia|].
  assert (L : leb (s := F64 lm) B754_nan s0 = false) by (vm_compute; reflexivity). assert (T : ltb (s := F64 lm) B754_nan s0 = false) by (vm_compute; reflexivity).
  unfold circ_convert_from, cubic_convert_from, cyl_convert_from. cbn [ci_size ci_dim ci_type ci_bc cu_size cu_dim cu_type cu_bc cy_type cy_bc cy_radius cy_length cy_dim].
  rewrite L, T. repeat split; reflexivity.
Qed.
Print Assumptions C60_nan_size_counterexample.
(** Limit of C60: a boundary condition that does not fit the kind of system is kept by the disc (which always reflects), and a specific start of any
    dimension is accepted by the other agents. *)
Theorem C60_kind_not_checked_counterexample : forall (S : scalar) (r : S) d n (p : pos S), leb r s0 = false -> 1 <= d ->
  circ_convert_from (Circ Lattice Periodic r d) = Ok (Circ Lattice Periodic r d) /\
  (forall x, In x (indep_convert_from (IndepArgs ContinuousPassiveInteracting (Brownian r) (SpecificPosition p) n)) -> in_type x = ContinuousPassiveInteracting /\ in_dim x = length p).
Proof.
  intros S r d n p H D. split.
  - unfold circ_convert_from. cbn [ci_size ci_dim ci_type ci_bc]. rewrite H. destruct d; [lia|reflexivity].
  - intros x Hx. unfold indep_convert_from in Hx. cbn in Hx. apply repeat_spec in Hx. subst x. auto.
Qed.
Print Assumptions C60_kind_not_checked_counterexample.

(** * The hypotheses are met *)
Example demo_cylinder : exists a : cyl RR, exists c, cy_type a = ContinuousCylindrical c /\ cy_bc a = Mixed c /\ c <= cy_dim a /\ 1 <= cy_dim a /\ (0 <= cy_radius a)%R /\ (0 < cy_length a)%R.
Proof. exists (Cyl (S := RR) (ContinuousCylindrical 1) (Mixed 1) 1%R 2%R 2), 1. cbn. repeat split; try lia; lra. Qed.
Example demo_cube : exists a : cubic RR, (0 < cu_size a)%R /\ 1 <= cu_dim a /\ cube_boundary (cu_bc a) (cu_dim a).
Proof. exists (Cubic (S := RR) ContinuousRectangular (Mixed 1) 5%R 3). cbn. repeat split; try lia; lra. Qed.
