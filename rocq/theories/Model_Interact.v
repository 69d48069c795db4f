(** Model of the default interaction (src/agent_mod/types.rs 366-370). *)
From Coq Require Import ZArith.
From Verif Require Import Base Scalar Model_Position Model_Agent.

Section Interact.
Context {S : scalar}.
(** [InteractType::default()]. *)
(* src/agent_mod/types.rs 366-370 [default] *)
Definition interacttype_default : interacttype S := Exponential 2 (lit 1 10).
End Interact.
