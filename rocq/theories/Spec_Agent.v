(** Specification vocabulary for agents. *)
From Coq Require Import Reals ZArith List.
From Flocq.IEEE754 Require Import BinarySingleNaN.
From Verif Require Import Base Scalar Float64 Model_Position Spec_Position Model_System Spec_System Model_Agent.
Import ListNotations.

(** Any of the three systems, as the trait object the agents receive. *)
Inductive anysys (S : scalar) := ACirc (s : circ S) | ACubic (s : cubic S) | ACyl (s : cyl S).
Arguments ACirc {S}. Arguments ACubic {S}. Arguments ACyl {S}.
Definition core {S : scalar} {G : rng S} (a : anysys S) : syscore S G :=
  match a with ACirc s => circ_core s | ACubic s => cubic_core s | ACyl s => cyl_core s end.
Definition built {S : scalar} (a : anysys S) : Prop :=
  match a with ACirc s => built_circ s | ACubic s => built_cubic s | ACyl s => built_cyl s end.
Definition sysdim {S : scalar} (a : anysys S) : nat :=
  match a with ACirc s => ci_dim s | ACubic s => cu_dim s | ACyl s => cy_dim s end.
Definition is_cyl {S : scalar} (a : anysys S) : Prop := match a with ACyl _ => True | _ => False end.
(** The points of a ball or cube (exact reals). *)
Definition region (a : anysys RR) (q : list R) : Prop :=
  match a with
  | ACirc s => in_ball (ci_dim s) (ci_size s) q
  | ACubic s => in_cube (cu_dim s) (cu_size s) q
  | ACyl s => exists d, cy_type s = ContinuousCylindrical d /\ in_cylinder (cy_dim s) d (cy_radius s) (cy_length s) q
  end.
(** The half-width of the box in which the samples for a ball or cube are drawn. *)
Definition halfwidth (a : anysys RR) : R :=
  match a with ACirc s => ci_size s | ACubic s => cu_size s | ACyl s => 0%R end.
(** The [k]-th candidate: the [k]-th block of uniform samples on (0,1), mapped to the box. *)
Definition candidate {G : rng RR} (a : anysys RR) (g : rstate G) (k : nat) : list R :=
  map (fun u => (2 * u - 1) * halfwidth a)%R (nth_block (unif G) (sysdim a) k g).
(** Outside the target: at least its size away from its centre. *)
Definition off_target (t : target RR) (q : list R) : Prop := (tg_size t <= euclid (tg_pos t) q)%R.
(** A starting position an agent may get. *)
Definition acceptable (a : anysys RR) (t : target RR) (q : list R) : Prop := region a q /\ off_target t q.
(** Rejection sampling: [q] is the first acceptable candidate, and [g'] is the generator after drawing it. *)
Definition first_acceptable {G : rng RR} (a : anysys RR) (t : target RR) (g : rstate G) (q : list R) (g' : rstate G) : Prop :=
  exists k, acceptable a t (candidate a g k) /\ (forall j : nat, (j < k)%nat -> ~ acceptable a t (candidate a g j)) /\
    q = candidate a g k /\ g' = after_blocks (unif G) (sysdim a) (S k) g.
(** Doubles: inside a ball or cube, as ordinary numbers, by the system's own test. *)
Definition inside64 {lm} (a : anysys (F64 lm)) (q : list b64) : Prop :=
  match a with
  | ACirc s => length q = ci_dim s /\ Forall (bounded64 (ci_size s)) q /\ circ_inclusion s q = Ok true
  | ACubic s => length q = cu_dim s /\ Forall (bounded64 (cu_size s)) q /\ cubic_inclusion s q = Ok true
  | ACyl s => False
  end.
Definition fits {lm} (a : anysys (F64 lm)) : Prop :=
  match a with ACirc s => fit (ci_size s) | ACubic s => fit (cu_size s) | ACyl s => fit (cy_radius s) /\ fit (cy_length s) end.

(** Coordinatewise: [e] is the vector from [p] to [q] divided by [d]. *)
Definition direction (p q e : list R) (d : R) : Prop := e = map (fun xy => (snd xy - fst xy) / d)%R (combine p q).
(** The double [y] is the negative of [x] (up to the sign of zero), or neither is a number. *)
Definition opposite64 (x y : b64) : Prop :=
  (nan x = true /\ nan y = true) \/ y = Bopp x \/ (exists s t, x = B754_zero s /\ y = B754_zero t).

(** Any of the four agents. *)
Inductive anyagent (S : scalar) := AIndep (a : indep S) | AMerger (a : merger S) | AExp (a : expag S) | ALj (a : ljag S).
Arguments AIndep {S}. Arguments AMerger {S}. Arguments AExp {S}. Arguments ALj {S}.
Section Any.
Context {S : scalar}.
Definition a_pos (a : anyagent S) : pos S := match a with AIndep x => in_pos x | AMerger x => mg_pos x | AExp x => ex_pos x | ALj x => lj_pos x end.
Definition a_dim (a : anyagent S) : nat := match a with AIndep x => in_dim x | AMerger x => mg_dim x | AExp x => ex_dim x | ALj x => lj_dim x end.
Definition a_mtype (a : anyagent S) : movetype S := match a with AIndep x => in_mtype x | AMerger x => mg_mtype x | AExp x => ex_mtype x | ALj x => lj_mtype x end.
Context {G : rng S}.
(** The method [renew_uniform] of each. *)
Definition a_renew (inner fuel : nat) (sys : syscore S G) (t : target S) (g : rstate G) (a : anyagent S) : anyagent S * rstate G * outcome unit :=
  match a with
  | AIndep x => let '(y, g1, r) := indep_renew inner fuel sys t g x in (AIndep y, g1, r)
  | AMerger x => let '(y, g1, r) := merger_renew inner fuel sys t g x in (AMerger y, g1, r)
  | AExp x => let '(y, g1, r) := expag_renew inner fuel sys t g x in (AExp y, g1, r)
  | ALj x => let '(y, g1, r) := ljag_renew inner fuel sys t g x in (ALj y, g1, r)
  end.
Definition a_mutual_displacement (a b : anyagent S) : outcome (pos S * S) :=
  match a, b with
  | AIndep x, AIndep y => indep_mutual_displacement x y
  | AMerger x, AMerger y => merger_mutual_displacement x y
  | AExp x, AExp y => expag_mutual_displacement x y
  | ALj x, ALj y => ljag_mutual_displacement x y
  | _, _ => Panic
  end.
Definition a_mutual_displacement_to_vec (a b : anyagent S) (v : pos S) : pos S * outcome S :=
  match a, b with
  | AIndep x, AIndep y => indep_mutual_displacement_to_vec x y v
  | AMerger x, AMerger y => merger_mutual_displacement_to_vec x y v
  | AExp x, AExp y => expag_mutual_displacement_to_vec x y v
  | ALj x, ALj y => ljag_mutual_displacement_to_vec x y v
  | _, _ => (v, Panic)
  end.
Definition a_mutual_distance (a b : anyagent S) : outcome S :=
  match a, b with
  | AIndep x, AIndep y => indep_mutual_distance x y
  | AMerger x, AMerger y => merger_mutual_distance x y
  | AExp x, AExp y => expag_mutual_distance x y
  | ALj x, ALj y => ljag_mutual_distance x y
  | _, _ => Panic
  end.
Definition a_random_move (a : anyagent S) (g : rstate G) (dt : S) : rstate G * outcome (pos S) :=
  match a with
  | AIndep x => indep_random_move x g dt | AMerger x => merger_random_move x g dt
  | AExp x => expag_random_move x g dt | ALj x => ljag_random_move x g dt
  end.
Definition a_random_move_to_vec (a : anyagent S) (g : rstate G) (dt : S) (v : pos S) : pos S * rstate G * outcome unit :=
  match a with
  | AIndep x => indep_random_move_to_vec x g dt v | AMerger x => merger_random_move_to_vec x g dt v
  | AExp x => expag_random_move_to_vec x g dt v | ALj x => ljag_random_move_to_vec x g dt v
  end.
End Any.
(** Two agents of the same struct (the methods take [&Self]). *)
Definition same_kind {S : scalar} (a b : anyagent S) : Prop :=
  match a, b with AIndep _, AIndep _ | AMerger _, AMerger _ | AExp _, AExp _ | ALj _, ALj _ => True | _, _ => False end.
(** The dimension field agrees with the position (true of everything the constructors return). *)
Definition coherent {S : scalar} (a : anyagent S) : Prop := a_dim a = length (a_pos a).

(** What renewal may not change: everything but position, dimension and, for merging agents, size and coefficient. *)
Definition same_parameters {S : scalar} (a b : anyagent S) : Prop :=
  match a, b with
  | AIndep x, AIndep y => in_type y = in_type x /\ in_mtype y = in_mtype x /\ in_itype y = in_itype x
  | AMerger x, AMerger y => mg_type y = mg_type x /\ mg_itype y = mg_itype x /\ mg_radius y = mg_radius x /\ mg_alpha y = mg_alpha x
  | AExp x, AExp y => ex_type y = ex_type x /\ ex_int y = ex_int x /\ ex_mtype y = ex_mtype x /\ ex_itype y = ex_itype x /\
                      ex_gamma y = ex_gamma x /\ ex_strength y = ex_strength x
  | ALj x, ALj y => lj_type y = lj_type x /\ lj_int y = lj_int x /\ lj_mtype y = lj_mtype x /\ lj_itype y = lj_itype x /\
                    lj_psize y = lj_psize x /\ lj_strength y = lj_strength x
  | _, _ => False
  end.

(** What [new_uniform] of each agent takes. *)
Inductive recipe (S : scalar) :=
| MkIndep (m : movetype S) | MkMerger (m : movetype S) (radius alpha : S)
| MkExp (it : interacttype S) (m : movetype S) (strength : S) | MkLj (it : interacttype S) (m : movetype S) (strength : S).
Arguments MkIndep {S}. Arguments MkMerger {S}. Arguments MkExp {S}. Arguments MkLj {S}.
(** The associated functions [new_uniform]. *)
Definition a_new_uniform {S : scalar} {G : rng S} (inner fuel : nat) (sys : syscore S G) (t : target S) (g : rstate G) (rc : recipe S) : rstate G * outcome (anyagent S) :=
  match rc with
  | MkIndep m => let '(g1, r) := indep_new_uniform inner fuel sys t g m in (g1, do x <- r; Ok (AIndep x))
  | MkMerger m r a => let '(g1, r) := merger_new_uniform inner fuel sys t g m r a in (g1, do x <- r; Ok (AMerger x))
  | MkExp it m s => let '(g1, r) := expag_new_uniform inner fuel sys t g it m s in (g1, do x <- r; Ok (AExp x))
  | MkLj it m s => let '(g1, r) := ljag_new_uniform inner fuel sys t g it m s in (g1, do x <- r; Ok (ALj x))
  end.
(** The interaction type fits the struct, and its dimension is that of the system. *)
Definition recipe_ok {S : scalar} (n : nat) (rc : recipe S) : Prop :=
  match rc with
  | MkExp it _ _ => exists gamma, it = Exponential n gamma
  | MkLj it _ _ => exists a, it = LennardJones a
  | _ => True
  end.
(** The new agent has the parameters it was asked to have. *)
Definition made_as {S : scalar} (rc : recipe S) (b : anyagent S) : Prop :=
  match rc, b with
  | MkIndep m, AIndep x => in_type x = ContinuousPassiveIndependent /\ in_mtype x = m /\ in_itype x = Uniform
  | MkMerger m r a, AMerger x => mg_type x = ContinuousPassiveInteracting /\ mg_mtype x = m /\ mg_itype x = Uniform /\
                                 mg_radius x = r /\ mg_alpha x = a /\ mg_size x = 1%nat
  | MkExp it m s, AExp x => ex_type x = ContinuousPassiveInteracting /\ ex_int x = it /\ ex_mtype x = m /\ ex_itype x = Uniform /\
                            ex_strength x = s /\ exists d, it = Exponential d (ex_gamma x)
  | MkLj it m s, ALj x => lj_type x = ContinuousPassiveInteracting /\ lj_int x = it /\ lj_mtype x = m /\ lj_itype x = Uniform /\
                          lj_strength x = s /\ it = LennardJones (lj_psize x)
  | _, _ => False
  end.
(** The stored coefficients are those of the stored parameters. *)
Definition exp_set {S : scalar} (x : expag S) : Prop := ex_cpot x = ex_strength x /\ ex_cforce x = div (ex_strength x) (ex_gamma x).
Definition lj_set {S : scalar} (x : ljag S) : Prop :=
  lj_cpot x = mul (of_Z 4) (lj_strength x) /\ lj_cforce x = div (mul (of_Z 24) (lj_strength x)) (lj_psize x).
Definition coefficients_set {S : scalar} (a : anyagent S) : Prop :=
  match a with AExp x => exp_set x | ALj x => lj_set x | _ => True end.
