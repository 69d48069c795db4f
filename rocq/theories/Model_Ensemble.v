(** Model of the ensemble that reuses its agents: [ensemble_n_ptl_fpt] of tests/large_n_simulation.rs. *)
From Coq Require Import ZArith List.
From Verif Require Import Base Scalar Model_Position Model_System Model_Agent Model_LinkedList Model_Time Model_Run.
Import ListNotations.

Section Ensemble.
Context {S : scalar} {G : rng S}.
Local Open Scope s_scope.
Notation gen := (rstate G).

(** [for _i in 0..num_ensemble{ let time = n_ptl_fpt(&sys, &target, &mut list_agents, &mut timeiter, rng)?; data += time; }].  The clock that
    [n_ptl_fpt] leaves is the renewed one: [into_diff] works on a copy (src/time_mod/mod.rs 297-301). *)
(* tests/large_n_simulation.rs 48-51 *)
Fixpoint reuse_loop (inner place_fuel fuel : nat) (sys : syscore S G) (tg : target S) (num : nat) (data : S) (clock : expstep S) (l : llist (merger S)) (g : gen)
  : gen * outcome S :=
  match num with
  | 0%nat => (g, Ok data)
  | Datatypes.S k =>
    let '(l1, g1, r) := large_n_fpt inner place_fuel fuel sys tg clock l g in
    match r with
    | Ok time => match es_renew clock with
                 | Ok clock1 => reuse_loop inner place_fuel fuel sys tg k (data + time) clock1 l1 g1
                 | Err e => (g1, Err e) | Panic => (g1, Panic) | Fuel => (g1, Fuel)
                 end
    | Err e => (g1, Err e) | Panic => (g1, Panic) | Fuel => (g1, Fuel)
    end
  end.
(** [ensemble_n_ptl_fpt].  Simplified: system, target, move type and the parameters of the clock are arguments (the test fixes a disc of radius 10, a target of
    size 1 at the origin, [Brownian(1)] and [ExponentialStep::new(1e-10, 1e-5, 10)]). *)
(* tests/large_n_simulation.rs 30-53 [ensemble_n_ptl_fpt] *)
Definition large_n_ensemble (inner place_fuel fuel : nat) (sys : syscore S G) (tg : target S) (mt : movetype S) (dt_min dt_max : S) (len n num : nat) (radius alpha : S) (g : gen)
  : gen * outcome S :=
  match es_new dt_min dt_max len with
  | Ok clock =>
    let (g1, r) := build_agents (fun g => merger_new_uniform inner place_fuel sys tg g mt radius alpha) n g in
    match r with
    | Ok v =>
      match ll_from v with
      | Ok l => let (g2, r2) := reuse_loop inner place_fuel fuel sys tg num s0 clock l g1 in (g2, do data <- r2; Ok (data / of_Z (Z.of_nat num)))
      | Err e => (g1, Err e) | Panic => (g1, Panic) | Fuel => (g1, Fuel)
      end
    | Err e => (g1, Err e) | Panic => (g1, Panic) | Fuel => (g1, Fuel)
    end
  | Err e => (g, Err e) | Panic => (g, Panic) | Fuel => (g, Fuel)
  end.
End Ensemble.
