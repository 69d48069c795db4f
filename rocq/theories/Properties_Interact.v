(** Properties C29 and C60: the default interaction. *)
From Coq Require Import Reals ZArith List String Lra Lia.
From Verif Require Import Base Scalar Float64 Model_Position Model_Agent Model_Text Spec_Text Proof_Text Model_Interact Properties_Text.
Import ListNotations.
Local Open Scope R_scope.

(** C60: with the default interaction ([InteractType::default()]: an exponential one in two dimensions, of typical length 0.1) an agent can be put at every place of the plane, and at no place
    of another dimension; its force is its strength divided by that length (exact reals: ten times the strength). *)
Theorem C60_default_interaction : forall (S : scalar) (m : movetype S) (p : pos S) (strength : S),
  (List.length p = 2%nat -> exists a, expag_new interacttype_default m p strength = Ok a /\ ex_pos a = p /\ ex_mtype a = m /\ ex_dim a = 2%nat /\
     ex_cpot a = strength /\ ex_cforce a = div strength (lit 1 10)) /\
  (List.length p <> 2%nat -> expag_new interacttype_default m p strength = Panic).
Proof.
  intros S m p strength. unfold expag_new, interacttype_default, exp_coeff, dim. split; intros H.
  - rewrite H. cbn [Nat.eqb negb]. eexists. split; [reflexivity|]. cbn [ex_pos ex_mtype ex_dim ex_cpot ex_cforce]. repeat split.
  - apply not_eq_sym in H. apply Nat.eqb_neq in H. change (match List.length p with 2%nat => true | _ => false end) with (Nat.eqb (List.length p) 2).
    rewrite H. reflexivity.
Qed.
Print Assumptions C60_default_interaction.
Theorem C60_default_interaction_force : forall (m : movetype RR) (x y strength : R),
  exists a, expag_new (S := RR) interacttype_default m [x; y] strength = Ok a /\ (ex_cforce a : R) = 10 * strength.
Proof.
  intros m x y strength. destruct (C60_default_interaction RR m [x; y] strength) as [H _]. destruct (H eq_refl) as (a & E & _ & _ & _ & _ & F). exists a. split; [exact E|]. rewrite F.
  change (strength / (1 / 10) = 10 * strength). field.
Qed.
Print Assumptions C60_default_interaction_force.

(** C29: the text of the default interaction, which is read back as the default interaction. *)
Theorem C29_default_interaction : forall (S : scalar) (nt : numtext (car S)), faithful nt ->
  interacttype_show nt interacttype_default = ("Exponential form interaction in 2 D with typical length " ++ n_show nt (lit 1 10))%string /\
  interacttype_parse nt (interacttype_show nt interacttype_default) = Ok interacttype_default.
Proof.
  intros S nt H. split; [reflexivity|]. apply (C29_interact_type S nt interacttype_default H). intros d g E. unfold interacttype_default in E. injection E as <- _. reflexivity.
Qed.
Print Assumptions C29_default_interaction.
