(** Model of src/agent_mod: cont_passive_indep.rs, cont_passive_merge.rs, cont_passive_exp.rs, cont_passive_lj.rs and the types
    of types.rs.  The four files repeat several method bodies word for word; such a body is modelled once, with the fields it
    reads as arguments, and instantiated for the four structs. *)
From Coq Require Import ZArith List.
From Verif Require Import Base Scalar Model_Position Model_System.
Import ListNotations.

(** [AgentType]. *)
(* src/agent_mod/types.rs 11-24 *)
Inductive agenttype :=
| ContinuousPassiveIndependent | ContinuousPassiveInteracting | ContinuousActiveIndependent | ContinuousActiveInteracting
| LatticePassiveIndependent | LatticePassiveInteracting | LatticeActiveIndependent | LatticeActiveInteracting
| NetworkPassiveIndependent | NetworkPassiveInteracting | NetworkActiveIndependent | NetworkActiveInteracting.

Section Ag.
Context {S : scalar}.
Local Open Scope s_scope.

(** [MoveType]; [InitType]; [InteractType]. *)
(* src/agent_mod/types.rs 152-155 *)
Inductive movetype := Brownian (c : S) | Levy.
(* src/agent_mod/types.rs 203-206 *)
Inductive inittype := SpecificPosition (p : pos S) | Uniform.
(* src/agent_mod/types.rs 261-273 *)
Inductive interacttype := Exponential (d : nat) (g : S) | Coulomb2D | Coulomb3D | LennardJones (a : S).

(** ** Bodies shared by the four files *)

(** [mutual_displacement].  [d1], [d2]: the dimension fields. *)
(* src/agent_mod/cont_passive_indep.rs 120-128 [mutual_displacement]; src/agent_mod/cont_passive_merge.rs 151-159 [mutual_displacement]; src/agent_mod/cont_passive_exp.rs 208-216 [mutual_displacement]; src/agent_mod/cont_passive_lj.rs 184-192 [mutual_displacement] *)
Definition mut_displacement (d1 : nat) (p1 : pos S) (d2 : nat) (p2 : pos S) : outcome (pos S * S) :=
  if negb (d1 =? d2)%nat then Err InvalidDimension
  else do disp <- pos_sub p2 p1;
       let distance := norm disp in
       Ok (mut_scalar_mul disp (s1 / distance), distance).

(** [mutual_displacement_to_vec].  The loop [for i in 0..dim]. *)
(* src/agent_mod/cont_passive_indep.rs 130-148 [mutual_displacement_to_vec]; src/agent_mod/cont_passive_merge.rs 161-179 [mutual_displacement_to_vec]; src/agent_mod/cont_passive_exp.rs 218-236 [mutual_displacement_to_vec]; src/agent_mod/cont_passive_lj.rs 194-212 [mutual_displacement_to_vec] *)
Fixpoint disp_loop (is : list nat) (p1 p2 v : pos S) (s : S) : outcome (pos S * S) :=
  match is with
  | [] => Ok (v, s)
  | i :: r =>
    do x <- idx p1 i;
    do y <- idx p2 i;
    do v' <- upd i (fun _ => y - x) v;
    disp_loop r p1 p2 v' (s + (y - x) * (y - x))
  end.
(* src/agent_mod/cont_passive_indep.rs 130-148 [mutual_displacement_to_vec]; src/agent_mod/cont_passive_merge.rs 161-179 [mutual_displacement_to_vec]; src/agent_mod/cont_passive_exp.rs 218-236 [mutual_displacement_to_vec]; src/agent_mod/cont_passive_lj.rs 194-212 [mutual_displacement_to_vec] *)
Definition mut_displacement_to_vec (d1 : nat) (p1 : pos S) (d2 : nat) (p2 : pos S) (v : pos S) : pos S * outcome S :=
  if (negb (d1 =? d2) || negb (d1 =? dim v))%nat%bool then (v, Err InvalidDimension)
  else match disp_loop (seq 0 d1) p1 p2 v s0 with
       | Ok (v', s) => let distance := fsqrt s in (mut_scalar_mul v' (s1 / distance), Ok distance)
       | Err e => (v, Err e) | Panic => (v, Panic) | Fuel => (v, Fuel)
       end.

Context {G : rng S}.
Notation gen := (rstate G).

(** [random_move]. *)
(* src/agent_mod/cont_passive_indep.rs 156-172 [random_move]; src/agent_mod/cont_passive_merge.rs 187-203 [random_move]; src/agent_mod/cont_passive_exp.rs 244-260 [random_move]; src/agent_mod/cont_passive_lj.rs 220-236 [random_move] *)
Definition rnd_move (m : movetype) (d : nat) (g : gen) (dt : S) : gen * outcome (pos S) :=
  match m with
  | Brownian c =>
    let length := fsqrt (s2 * c * dt) in
    let '(mv, g1) := get_gaussian_vec g d in (g1, Ok (mut_scalar_mul mv length))
  | Levy => (g, Err FeatureNotProvided)
  end.

(** [random_move_to_vec]. *)
(* src/agent_mod/cont_passive_indep.rs 174-192 [random_move_to_vec]; src/agent_mod/cont_passive_merge.rs 205-223 [random_move_to_vec]; src/agent_mod/cont_passive_exp.rs 262-280 [random_move_to_vec]; src/agent_mod/cont_passive_lj.rs 238-256 [random_move_to_vec] *)
Definition rnd_move_to_vec (m : movetype) (d : nat) (g : gen) (dt : S) (v : pos S) : pos S * gen * outcome unit :=
  if negb (d =? dim v)%nat then (v, g, Err InvalidDimension)
  else match m with
       | Brownian c =>
         let length := fsqrt (s2 * c * dt) in
         let '(v', g1) := get_gaussian_to_vec_nonstandard g v s0 length in (v', g1, Ok tt)
       | Levy => (v, g, Err FeatureNotProvided)
       end.

(** The loop of [new_uniform] and [renew_uniform]: draw a position inside the system until it is off the target.  [fuel] bounds this loop, [inner] the
    loop inside [random_pos_to_vec]. *)
(* loops of new_uniform and renew_uniform; src/agent_mod/cont_passive_indep.rs 33-56 [new_uniform]; src/agent_mod/cont_passive_merge.rs 41-69 [new_uniform]; src/agent_mod/cont_passive_exp.rs 75-118 [new_uniform]; src/agent_mod/cont_passive_lj.rs 61-101 [new_uniform]; src/agent_mod/cont_passive_indep.rs 58-78 [renew_uniform]; src/agent_mod/cont_passive_merge.rs 71-104 [renew_uniform]; src/agent_mod/cont_passive_exp.rs 120-146 [renew_uniform]; src/agent_mod/cont_passive_lj.rs 103-129 [renew_uniform] *)
Fixpoint place (inner fuel : nat) (sys : syscore S G) (tg : target S) (g : gen) (v : pos S) : pos S * gen * outcome unit :=
  match fuel with
  | 0%nat => (v, g, Fuel)
  | Datatypes.S k =>
    let '(v1, g1, r) := sc_random_to sys inner g v in
    match r with
    | Ok _ =>
      match check_find tg v1 with
      | Ok false => (v1, g1, Ok tt)
      | Ok true => place inner k sys tg g1 v1
      | Err e => (v1, g1, Err e) | Panic => (v1, g1, Panic) | Fuel => (v1, g1, Fuel)
      end
    | Err e => (v1, g1, Err e) | Panic => (v1, g1, Panic) | Fuel => (v1, g1, Fuel)
    end
  end.

(** The head of [renew_uniform]: the position is put outside the system, and replaced
    when its dimension is wrong; the flag says that it was replaced. *)
(* head of renew_uniform; src/agent_mod/cont_passive_indep.rs 58-78 [renew_uniform]; src/agent_mod/cont_passive_merge.rs 71-104 [renew_uniform]; src/agent_mod/cont_passive_exp.rs 120-146 [renew_uniform]; src/agent_mod/cont_passive_lj.rs 103-129 [renew_uniform] *)
Definition renew_start (sys : syscore S G) (p : pos S) : pos S * bool :=
  match sc_out_to sys p with
  | (p', Ok _) => (p', false)
  | _ => (sc_out sys, true)
  end.

(** ** cont_passive_indep.rs *)
(** [struct ContPassiveIndepAgent]; its arguments struct. *)
(* src/agent_mod/cont_passive_indep.rs 10-16 *)
Record indep := Indep { in_type : agenttype; in_mtype : movetype; in_itype : inittype; in_dim : nat; in_pos : pos S }.
(* src/agent_mod/cont_passive_indep.rs 81-85 *)
Record indep_args := IndepArgs { ia_type : agenttype; ia_mtype : movetype; ia_itype : inittype; ia_num : nat }.
(* assignment to dim and pos of the struct above *)
Definition in_set (a : indep) (d : nat) (p : pos S) : indep := Indep (in_type a) (in_mtype a) (in_itype a) d p.

(** [new]. *)
(* src/agent_mod/cont_passive_indep.rs 20-31 [new] *)
Definition indep_new (m : movetype) (p : pos S) : indep := Indep ContinuousPassiveIndependent m (SpecificPosition p) (dim p) p.
(** [new_uniform]. *)
(* src/agent_mod/cont_passive_indep.rs 33-56 [new_uniform] *)
Definition indep_new_uniform (inner fuel : nat) (sys : syscore S G) (tg : target S) (g : gen) (m : movetype) : gen * outcome indep :=
  let '(p, g1, r) := place inner fuel sys tg g (sc_out sys) in
  (g1, do _ <- r; Ok (Indep ContinuousPassiveIndependent m Uniform (dim p) p)).
(** [renew_uniform]. *)
(* src/agent_mod/cont_passive_indep.rs 58-78 [renew_uniform] *)
Definition indep_renew (inner fuel : nat) (sys : syscore S G) (tg : target S) (g : gen) (a : indep) : indep * gen * outcome unit :=
  let (p, replaced) := renew_start sys (in_pos a) in
  let d := if replaced then dim p else in_dim a in
  let '(p1, g1, r) := place inner fuel sys tg g p in
  (in_set a d p1, g1, r).
(** [convert_from]. *)
(* src/agent_mod/cont_passive_indep.rs 89-111 [convert_from] *)
Definition indep_convert_from (a : indep_args) : list indep :=
  let '(d, p) := match ia_itype a with Uniform => (0%nat, []) | SpecificPosition p => (dim p, p) end in
  repeat (Indep (ia_type a) (ia_mtype a) (ia_itype a) d p) (ia_num a).
(** [AgentCore]; [Passive]. *)
(* src/agent_mod/cont_passive_indep.rs 120-128 [mutual_displacement] *)
Definition indep_mutual_displacement (a b : indep) := mut_displacement (in_dim a) (in_pos a) (in_dim b) (in_pos b).
(* src/agent_mod/cont_passive_indep.rs 130-148 [mutual_displacement_to_vec] *)
Definition indep_mutual_displacement_to_vec (a b : indep) (v : pos S) := mut_displacement_to_vec (in_dim a) (in_pos a) (in_dim b) (in_pos b) v.
(* src/agent_mod/cont_passive_indep.rs 150-152 [mutual_distance] *)
Definition indep_mutual_distance (a b : indep) : outcome S := distance (in_pos a) (in_pos b).
(* src/agent_mod/cont_passive_indep.rs 156-172 [random_move] *)
Definition indep_random_move (a : indep) (g : gen) (dt : S) := rnd_move (in_mtype a) (in_dim a) g dt.
(* src/agent_mod/cont_passive_indep.rs 174-192 [random_move_to_vec] *)
Definition indep_random_move_to_vec (a : indep) (g : gen) (dt : S) (v : pos S) := rnd_move_to_vec (in_mtype a) (in_dim a) g dt v.

(** ** cont_passive_merge.rs *)
(** [struct ContPassiveMergeAgent]; its arguments struct. *)
(* src/agent_mod/cont_passive_merge.rs 9-18 *)
Record merger := Merger { mg_type : agenttype; mg_mtype : movetype; mg_itype : inittype; mg_dim : nat; mg_pos : pos S;
                          mg_radius : S; mg_size : nat; mg_alpha : S }.
(* src/agent_mod/cont_passive_merge.rs 107-114 *)
Record merger_args := MergerArgs { ma_type : agenttype; ma_mtype : movetype; ma_itype : inittype; ma_radius : S; ma_alpha : S; ma_num : nat }.
(* assignment to dim and pos of the struct above *)
Definition mg_set (a : merger) (d : nat) (p : pos S) : merger :=
  Merger (mg_type a) (mg_mtype a) (mg_itype a) d p (mg_radius a) (mg_size a) (mg_alpha a).
(* assignment to size *)
Definition mg_resize (a : merger) (n : nat) : merger :=
  Merger (mg_type a) (mg_mtype a) (mg_itype a) (mg_dim a) (mg_pos a) (mg_radius a) n (mg_alpha a).
(* assignment to mtype *)
Definition mg_remove (a : merger) (m : movetype) : merger :=
  Merger (mg_type a) m (mg_itype a) (mg_dim a) (mg_pos a) (mg_radius a) (mg_size a) (mg_alpha a).

(** [new]. *)
(* src/agent_mod/cont_passive_merge.rs 22-39 [new] *)
Definition merger_new (m : movetype) (p : pos S) (radius alpha : S) : merger :=
  Merger ContinuousPassiveInteracting m (SpecificPosition p) (dim p) p radius 1 alpha.
(** [new_uniform]. *)
(* src/agent_mod/cont_passive_merge.rs 41-69 [new_uniform] *)
Definition merger_new_uniform (inner fuel : nat) (sys : syscore S G) (tg : target S) (g : gen) (m : movetype) (radius alpha : S) : gen * outcome merger :=
  let '(p, g1, r) := place inner fuel sys tg g (sc_out sys) in
  (g1, do _ <- r; Ok (Merger ContinuousPassiveInteracting m Uniform (dim p) p radius 1 alpha)).

(** The match on [self.mtype] after [self.size] was set: lines 93, 229 and 247.  [usize] additions are unbounded here. *)
(* src/agent_mod/cont_passive_merge.rs 71-104 [renew_uniform]; src/agent_mod/cont_passive_merge.rs 227-239 [merge]; src/agent_mod/cont_passive_merge.rs 245-257 [add_size] *)
Definition recoeff (a : merger) : merger * outcome unit :=
  match mg_mtype a with
  | Brownian _ => (mg_remove a (Brownian (fpow (of_Z (Z.of_nat (mg_size a))) (opp (mg_alpha a)))), Ok tt)
  | Levy => (a, Err FeatureNotProvided)
  end.
(** [renew_uniform]. *)
(* src/agent_mod/cont_passive_merge.rs 71-104 [renew_uniform] *)
Definition merger_renew (inner fuel : nat) (sys : syscore S G) (tg : target S) (g : gen) (a : merger) : merger * gen * outcome unit :=
  let (p, replaced) := renew_start sys (mg_pos a) in
  let d := if replaced then dim p else mg_dim a in
  let '(p1, g1, r) := place inner fuel sys tg g p in
  let a1 := mg_set a d p1 in
  match r with
  | Ok _ => let '(a2, r2) := recoeff (mg_resize a1 1) in (a2, g1, r2)
  | _ => (a1, g1, r)
  end.
(** [convert_from]. *)
(* src/agent_mod/cont_passive_merge.rs 118-142 [convert_from] *)
Definition merger_convert_from (a : merger_args) : list merger :=
  let '(d, p) := match ma_itype a with Uniform => (0%nat, []) | SpecificPosition p => (dim p, p) end in
  repeat (Merger (ma_type a) (ma_mtype a) (ma_itype a) d p (ma_radius a) 1 (ma_alpha a)) (ma_num a).
(** [AgentCore], [Passive]. *)
(* src/agent_mod/cont_passive_merge.rs 151-159 [mutual_displacement] *)
Definition merger_mutual_displacement (a b : merger) := mut_displacement (mg_dim a) (mg_pos a) (mg_dim b) (mg_pos b).
(* src/agent_mod/cont_passive_merge.rs 161-179 [mutual_displacement_to_vec] *)
Definition merger_mutual_displacement_to_vec (a b : merger) (v : pos S) := mut_displacement_to_vec (mg_dim a) (mg_pos a) (mg_dim b) (mg_pos b) v.
(* src/agent_mod/cont_passive_merge.rs 181-183 [mutual_distance] *)
Definition merger_mutual_distance (a b : merger) : outcome S := distance (mg_pos a) (mg_pos b).
(* src/agent_mod/cont_passive_merge.rs 187-203 [random_move] *)
Definition merger_random_move (a : merger) (g : gen) (dt : S) := rnd_move (mg_mtype a) (mg_dim a) g dt.
(* src/agent_mod/cont_passive_merge.rs 205-223 [random_move_to_vec] *)
Definition merger_random_move_to_vec (a : merger) (g : gen) (dt : S) (v : pos S) := rnd_move_to_vec (mg_mtype a) (mg_dim a) g dt v.
(** [merge]; [size]; [add_size]. *)
(* src/agent_mod/cont_passive_merge.rs 227-239 [merge] *)
Definition merger_merge (a b : merger) : merger * outcome unit := recoeff (mg_resize a (mg_size a + mg_size b)).
(* src/agent_mod/cont_passive_merge.rs 241-243 [size] *)
Definition merger_size (a : merger) : nat := mg_size a.
(* src/agent_mod/cont_passive_merge.rs 245-257 [add_size] *)
Definition merger_add_size (a : merger) (k : nat) : merger * outcome unit := recoeff (mg_resize a (mg_size a + k)).

(** ** cont_passive_exp.rs *)
(** [struct ContPassiveExpAgent]; its arguments struct. *)
(* src/agent_mod/cont_passive_exp.rs 10-21 *)
Record expag := Expag { ex_type : agenttype; ex_int : interacttype; ex_mtype : movetype; ex_itype : inittype; ex_dim : nat; ex_pos : pos S;
                        ex_gamma : S; ex_strength : S; ex_cpot : S; ex_cforce : S }.
(* src/agent_mod/cont_passive_exp.rs 149-156 *)
Record expag_args := ExpagArgs { ea_type : agenttype; ea_mtype : movetype; ea_itype : inittype; ea_gamma : S; ea_dim : nat; ea_strength : S; ea_num : nat }.
(** [coeff]. *)
(* src/agent_mod/cont_passive_exp.rs 24-41 [coeff] *)
Definition exp_coeff (_ : nat) (gamma strength : S) : outcome (S * S) :=
  let coeff_pot := strength in
  let coeff_force := coeff_pot / gamma in Ok (coeff_pot, coeff_force).
(** [new]. *)
(* src/agent_mod/cont_passive_exp.rs 44-73 [new] *)
Definition expag_new (it : interacttype) (m : movetype) (p : pos S) (strength : S) : outcome expag :=
  match it with
  | Exponential d gamma =>
    if negb (d =? dim p)%nat then Panic
    else match exp_coeff d gamma strength with
         | Ok (cp, cf) => Ok (Expag ContinuousPassiveInteracting it m (SpecificPosition p) d p gamma strength cp cf)
         | _ => Panic
         end
  | _ => Panic
  end.
(** [new_uniform]. *)
(* src/agent_mod/cont_passive_exp.rs 75-118 [new_uniform] *)
Definition expag_new_uniform (inner fuel : nat) (sys : syscore S G) (tg : target S) (g : gen) (it : interacttype) (m : movetype) (strength : S) : gen * outcome expag :=
  match it with
  | Exponential d gamma =>
    if negb (d =? dim (sc_out sys))%nat then (g, Err InvalidArgumentInput)
    else match exp_coeff d gamma strength with
         | Ok (cp, cf) =>
           let '(p, g1, r) := place inner fuel sys tg g (sc_out sys) in
           (g1, do _ <- r; Ok (Expag ContinuousPassiveInteracting it m Uniform (dim p) p gamma strength cp cf))
         | Err e => (g, Err e) | Panic => (g, Panic) | Fuel => (g, Fuel)
         end
  | _ => (g, Err InvalidArgumentInput)
  end.
(** [renew_uniform]; [coeff] always succeeds. *)
(* src/agent_mod/cont_passive_exp.rs 120-146 [renew_uniform] *)
Definition expag_renew (inner fuel : nat) (sys : syscore S G) (tg : target S) (g : gen) (a : expag) : expag * gen * outcome unit :=
  let (p, replaced) := renew_start sys (ex_pos a) in
  let d := if replaced then dim p else ex_dim a in
  let '(cp, cf) := if replaced then match exp_coeff d (ex_gamma a) (ex_strength a) with Ok c => c | _ => (ex_cpot a, ex_cforce a) end
                   else (ex_cpot a, ex_cforce a) in
  let '(p1, g1, r) := place inner fuel sys tg g p in
  (Expag (ex_type a) (ex_int a) (ex_mtype a) (ex_itype a) d p1 (ex_gamma a) (ex_strength a) cp cf, g1, r).
(** [convert_from]. *)
(* src/agent_mod/cont_passive_exp.rs 160-199 [convert_from] *)
Definition expag_convert_from (a : expag_args) : outcome (list expag) :=
  let '(d0, p) := match ea_itype a with Uniform => (0%nat, []) | SpecificPosition p => (dim p, p) end in
  do d <- (if (d0 =? 0)%nat then Ok (ea_dim a) else if negb (d0 =? ea_dim a)%nat then Panic else Ok d0);
  match exp_coeff d (ea_gamma a) (ea_strength a) with
  | Ok (cp, cf) =>
    Ok (repeat (Expag ContinuousPassiveInteracting (Exponential d (ea_gamma a)) (ea_mtype a) (ea_itype a) d p (ea_gamma a) (ea_strength a) cp cf) (ea_num a))
  | _ => Panic
  end.
(** [AgentCore], [Passive]. *)
(* src/agent_mod/cont_passive_exp.rs 208-216 [mutual_displacement] *)
Definition expag_mutual_displacement (a b : expag) := mut_displacement (ex_dim a) (ex_pos a) (ex_dim b) (ex_pos b).
(* src/agent_mod/cont_passive_exp.rs 218-236 [mutual_displacement_to_vec] *)
Definition expag_mutual_displacement_to_vec (a b : expag) (v : pos S) := mut_displacement_to_vec (ex_dim a) (ex_pos a) (ex_dim b) (ex_pos b) v.
(* src/agent_mod/cont_passive_exp.rs 238-240 [mutual_distance] *)
Definition expag_mutual_distance (a b : expag) : outcome S := distance (ex_pos a) (ex_pos b).
(* src/agent_mod/cont_passive_exp.rs 244-260 [random_move] *)
Definition expag_random_move (a : expag) (g : gen) (dt : S) := rnd_move (ex_mtype a) (ex_dim a) g dt.
(* src/agent_mod/cont_passive_exp.rs 262-280 [random_move_to_vec] *)
Definition expag_random_move_to_vec (a : expag) (g : gen) (dt : S) (v : pos S) := rnd_move_to_vec (ex_mtype a) (ex_dim a) g dt v.
(** [potential]; [force]. *)
(* src/agent_mod/cont_passive_exp.rs 284-286 [potential] *)
Definition expag_potential (a : expag) (r : S) : S := ex_cpot a * fexp (opp r / ex_gamma a).
(* src/agent_mod/cont_passive_exp.rs 288-290 [force] *)
Definition expag_force (a : expag) (r : S) : S := ex_cforce a * fexp (opp r / ex_gamma a).

(** ** cont_passive_lj.rs *)
(** [struct ContPassiveLJAgent]; its arguments struct. *)
(* src/agent_mod/cont_passive_lj.rs 10-21 *)
Record ljag := Ljag { lj_type : agenttype; lj_int : interacttype; lj_mtype : movetype; lj_itype : inittype; lj_dim : nat; lj_pos : pos S;
                      lj_psize : S; lj_strength : S; lj_cpot : S; lj_cforce : S }.
(* src/agent_mod/cont_passive_lj.rs 132-138 *)
Record ljag_args := LjagArgs { la_type : agenttype; la_mtype : movetype; la_itype : inittype; la_psize : S; la_strength : S; la_num : nat }.
(** [coeff]. *)
(* src/agent_mod/cont_passive_lj.rs 24-29 [coeff] *)
Definition lj_coeff (psize strength : S) : outcome (S * S) :=
  let coeff_pot := of_Z 4 * strength in
  let coeff_force := of_Z 24 * strength / psize in Ok (coeff_pot, coeff_force).
(** [new]. *)
(* src/agent_mod/cont_passive_lj.rs 32-59 [new] *)
Definition ljag_new (it : interacttype) (m : movetype) (p : pos S) (strength : S) : outcome ljag :=
  match it with
  | LennardJones psize =>
    match lj_coeff psize strength with
    | Ok (cp, cf) => Ok (Ljag ContinuousPassiveInteracting it m (SpecificPosition p) (dim p) p psize strength cp cf)
    | _ => Panic
    end
  | _ => Panic
  end.
(** [new_uniform]; [dim] is read before the loop. *)
(* src/agent_mod/cont_passive_lj.rs 61-101 [new_uniform] *)
Definition ljag_new_uniform (inner fuel : nat) (sys : syscore S G) (tg : target S) (g : gen) (it : interacttype) (m : movetype) (strength : S) : gen * outcome ljag :=
  match it with
  | LennardJones psize =>
    match lj_coeff psize strength with
    | Ok (cp, cf) =>
      let d := dim (sc_out sys) in
      let '(p, g1, r) := place inner fuel sys tg g (sc_out sys) in
      (g1, do _ <- r; Ok (Ljag ContinuousPassiveInteracting it m Uniform d p psize strength cp cf))
    | Err e => (g, Err e) | Panic => (g, Panic) | Fuel => (g, Fuel)
    end
  | _ => (g, Err InvalidArgumentInput)
  end.
(** [renew_uniform]. *)
(* src/agent_mod/cont_passive_lj.rs 103-129 [renew_uniform] *)
Definition ljag_renew (inner fuel : nat) (sys : syscore S G) (tg : target S) (g : gen) (a : ljag) : ljag * gen * outcome unit :=
  let (p, replaced) := renew_start sys (lj_pos a) in
  let d := if replaced then dim p else lj_dim a in
  let '(cp, cf) := if replaced then match lj_coeff (lj_psize a) (lj_strength a) with Ok c => c | _ => (lj_cpot a, lj_cforce a) end
                   else (lj_cpot a, lj_cforce a) in
  let '(p1, g1, r) := place inner fuel sys tg g p in
  (Ljag (lj_type a) (lj_int a) (lj_mtype a) (lj_itype a) d p1 (lj_psize a) (lj_strength a) cp cf, g1, r).
(** [convert_from]. *)
(* src/agent_mod/cont_passive_lj.rs 142-175 [convert_from] *)
Definition ljag_convert_from (a : ljag_args) : outcome (list ljag) :=
  let '(d, p) := match la_itype a with Uniform => (0%nat, []) | SpecificPosition p => (dim p, p) end in
  match lj_coeff (la_psize a) (la_strength a) with
  | Ok (cp, cf) =>
    Ok (repeat (Ljag ContinuousPassiveInteracting (LennardJones (la_psize a)) (la_mtype a) (la_itype a) d p (la_psize a) (la_strength a) cp cf) (la_num a))
  | _ => Panic
  end.
(** [AgentCore], [Passive]. *)
(* src/agent_mod/cont_passive_lj.rs 184-192 [mutual_displacement] *)
Definition ljag_mutual_displacement (a b : ljag) := mut_displacement (lj_dim a) (lj_pos a) (lj_dim b) (lj_pos b).
(* src/agent_mod/cont_passive_lj.rs 194-212 [mutual_displacement_to_vec] *)
Definition ljag_mutual_displacement_to_vec (a b : ljag) (v : pos S) := mut_displacement_to_vec (lj_dim a) (lj_pos a) (lj_dim b) (lj_pos b) v.
(* src/agent_mod/cont_passive_lj.rs 214-216 [mutual_distance] *)
Definition ljag_mutual_distance (a b : ljag) : outcome S := distance (lj_pos a) (lj_pos b).
(* src/agent_mod/cont_passive_lj.rs 220-236 [random_move] *)
Definition ljag_random_move (a : ljag) (g : gen) (dt : S) := rnd_move (lj_mtype a) (lj_dim a) g dt.
(* src/agent_mod/cont_passive_lj.rs 238-256 [random_move_to_vec] *)
Definition ljag_random_move_to_vec (a : ljag) (g : gen) (dt : S) (v : pos S) := rnd_move_to_vec (lj_mtype a) (lj_dim a) g dt v.
(** [powi(6)] by repeated squaring, as compiler-rt does: [x^2 * x^4]. *)
(* f64::powi(6) in src/agent_mod/cont_passive_lj.rs 260-265 [potential]; src/agent_mod/cont_passive_lj.rs 267-272 [force] *)
Definition powi6 (x : S) : S := let x2 := x * x in x2 * (x2 * x2).
(** [potential]; [force]. *)
(* src/agent_mod/cont_passive_lj.rs 260-265 [potential] *)
Definition ljag_potential (a : ljag) (r : S) : S :=
  let x := lj_psize a / r in let x6 := powi6 x in lj_cpot a * x6 * (x6 - s1).
(* src/agent_mod/cont_passive_lj.rs 267-272 [force] *)
Definition ljag_force (a : ljag) (r : S) : S :=
  let x := lj_psize a / r in let x6 := powi6 x in lj_cforce a * x6 * x * (s2 * x6 - s1).
End Ag.
Arguments movetype S : clear implicits.
Arguments inittype S : clear implicits.
Arguments interacttype S : clear implicits.
Arguments indep S : clear implicits.
Arguments merger S : clear implicits.
Arguments expag S : clear implicits.
Arguments ljag S : clear implicits.
Arguments indep_args S : clear implicits.
Arguments merger_args S : clear implicits.
Arguments expag_args S : clear implicits.
Arguments ljag_args S : clear implicits.
