(** Specification vocabulary for ensembles of simulations (C73): what one experiment with agents of its own gives. *)
From Coq Require Import ZArith List.
From Verif Require Import Base Scalar Model_Position Model_System Model_Agent Model_LinkedList Model_Time Model_Run Spec_Run.
Import ListNotations.

Section Spec.
Context {S : scalar} {G : rng S}.
Notation gen := (rstate G).
(** An agent made by [new_uniform] with these parameters, whatever happened to it since. *)
Definition veteran (n : nat) (radius alpha : S) (a : merger S) : Prop :=
  recruit n radius alpha a /\ mg_type a = ContinuousPassiveInteracting /\ mg_itype a = Uniform.
(** One experiment with [n] merging agents of diffusion coefficient [c], made for it: they are placed, put into a new list and run until the target is found, with a clock that has not been used. *)
Definition fresh_merging_run (inner place_fuel fuel : nat) (sys : syscore S G) (tg : target S) (c : S) (radius alpha : S) (n : nat) (clock : expstep S) (g : gen) : gen * outcome S :=
  let (g1, r) := build_agents (fun g => merger_new_uniform inner place_fuel sys tg g (Brownian c) radius alpha) n g in
  match (do v <- r; ll_from v) with
  | Ok l => let '(_, g2, t) := clocked_run (diff_next es_next es_dt) (merge_step sys tg mg_radius) (Err UnexpectedEnd) fuel clock l g1 in (g2, t)
  | Err e => (g1, Err e) | Panic => (g1, Panic) | Fuel => (g1, Fuel)
  end.
(** The program examples/mfpt_exp.rs asked for one sample: the time it writes. *)
Definition one_sample {St : Type} (next : St -> outcome (St * option (S * S))) (inner place_fuel fuel : nat) (sys : syscore S G) (sys_dim : nat) (tg : target S)
    (args : expag_args S) (limit : S) (clock : St) (g : gen) : gen * outcome S :=
  match mfpt_exp next inner place_fuel fuel 1 sys sys_dim tg args limit clock g with
  | (t :: _, g1, Ok _) => (g1, Ok t)
  | ([], g1, Ok _) => (g1, Panic)
  | (_, g1, Err e) => (g1, Err e) | (_, g1, Panic) => (g1, Panic) | (_, g1, Fuel) => (g1, Fuel)
  end.
End Spec.
