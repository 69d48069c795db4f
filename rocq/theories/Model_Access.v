(** Model of the small accessors: coordinates of a position (src/position.rs 35-95), the readings of a clock (src/time_mod/mod.rs), the classes of agents
    (src/agent_mod/types.rs 26-110).

    Simplification: an iterator over a position is the list of what it returns; a loop over [iter_mut()] that replaces every coordinate by a function [f] of it is [map f]. *)
From Verif Require Import Base Scalar Model_Position Model_System Model_Agent Model_Time Model_Args.

Section Access.
Context {S : scalar}.
(** [p[i]]. *)
(* src/position.rs 37-39 [index] *)
Definition pos_index (p : pos S) (i : nat) : outcome S := idx p i.
(** [p[i] = x]. *)
(* src/position.rs 43-45 [index_mut] *)
Definition pos_assign (p : pos S) (i : nat) (x : S) : outcome (pos S) := upd i (fun _ => x) p.
(** [p[i..j]]; [p[..j]]; [p[i..]]. *)
(* src/position.rs 51-53 [index] *)
Definition pos_range (p : pos S) (i j : nat) : outcome (list S) := slice p i j.
(* src/position.rs 59-61 [index] *)
Definition pos_range_to (p : pos S) (j : nat) : outcome (list S) := slice p 0 j.
(* src/position.rs 67-69 [index] *)
Definition pos_range_from (p : pos S) (i : nat) : outcome (list S) := slice p i (length p).
(* src/position.rs 78-80 [iter_mut] *)
Definition pos_iter_mut (f : S -> S) (p : pos S) : pos S := map f p.
(* src/position.rs 82-84 [iter] *)
Definition pos_iter (p : pos S) : list S := p.
(* src/position.rs 91-93 [into_iter] *)
Definition pos_into_iter (p : pos S) : list S := p.

(* src/time_mod/mod.rs 119-121 [current_time] *)
Definition cs_current_time (s : conststep S) : S := cs_current s.
(* src/time_mod/mod.rs 123-125 [dt] *)
Definition cs_step (s : conststep S) : S := cs_dt s.
(* src/time_mod/mod.rs 145-149 [into_diff] *)
Definition cs_into_diff (s : conststep S) : conststep S := s.
(* src/time_mod/mod.rs 261-263 [current_time] *)
Definition es_current_time (s : expstep S) : S := es_current s.
(* src/time_mod/mod.rs 265-267 [dt] *)
Definition es_step (s : expstep S) : S := es_dt s.
(* src/time_mod/mod.rs 297-301 [into_diff] *)
Definition es_into_diff (s : expstep S) : expstep S := s.
(* src/target_mod/cont_bulk.rs 47-49 [target_type] *)
Definition target_kind (t : target S) : targettype := tg_type t.
End Access.

(* src/agent_mod/types.rs 28-36 [in_lattice] *)
Definition in_lattice (a : agenttype) : bool :=
  match a with LatticePassiveIndependent | LatticePassiveInteracting | LatticeActiveIndependent | LatticeActiveInteracting => true | _ => false end.
(* src/agent_mod/types.rs 39-47 [in_continous] *)
Definition in_continous (a : agenttype) : bool :=
  match a with ContinuousPassiveIndependent | ContinuousPassiveInteracting | ContinuousActiveIndependent | ContinuousActiveInteracting => true | _ => false end.
(* src/agent_mod/types.rs 50-58 [in_network] *)
Definition in_network (a : agenttype) : bool :=
  match a with NetworkPassiveIndependent | NetworkPassiveInteracting | NetworkActiveIndependent | NetworkActiveInteracting => true | _ => false end.
(* src/agent_mod/types.rs 61-71 [is_passive] *)
Definition is_passive (a : agenttype) : bool :=
  match a with
  | ContinuousPassiveIndependent | ContinuousPassiveInteracting | LatticePassiveIndependent | LatticePassiveInteracting
  | NetworkPassiveIndependent | NetworkPassiveInteracting => true
  | _ => false
  end.
(* src/agent_mod/types.rs 74-84 [is_active] *)
Definition is_active (a : agenttype) : bool :=
  match a with
  | ContinuousActiveIndependent | ContinuousActiveInteracting | LatticeActiveIndependent | LatticeActiveInteracting
  | NetworkActiveIndependent | NetworkActiveInteracting => true
  | _ => false
  end.
(* src/agent_mod/types.rs 87-97 [is_independent] *)
Definition is_independent (a : agenttype) : bool :=
  match a with
  | ContinuousPassiveIndependent | ContinuousActiveIndependent | LatticePassiveIndependent | LatticeActiveIndependent
  | NetworkPassiveIndependent | NetworkActiveIndependent => true
  | _ => false
  end.
(* src/agent_mod/types.rs 100-110 [is_interacting] *)
Definition is_interacting (a : agenttype) : bool :=
  match a with
  | ContinuousPassiveInteracting | ContinuousActiveInteracting | LatticePassiveInteracting | LatticeActiveInteracting
  | NetworkPassiveInteracting | NetworkActiveInteracting => true
  | _ => false
  end.
