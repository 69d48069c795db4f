(** A data file has no carriage return and its last line is ended. *)
From Coq Require Import String Ascii NArith Lia List.
From Verif Require Import Base Scalar Model_Text Spec_Text Proof_Text Proof_Text3 Model_Args Spec_Args Proof_Args Model_Program Spec_Program Proof_Program Spec_Lines Proof_Lines.
Import ListNotations.
Local Open Scope nat_scope.
Local Open Scope string_scope.
Local Open Scope list_scope.
Section Files.
Context {S : scalar} (nt : numtext S).
Hypothesis F : faithful nt.
Lemma printed_no_cr fs w : names_ok fs -> forall v, all_survive nt fs v -> forall t, print_configuration fs w v = Ok t -> without carriage_return t.
Proof.
  induction fs as [|f fs IH]; intros Hn v Hv t E.
  - assert (X : forall a b : string, Ok a = Ok b -> a = b) by congruence. apply X in E. now subst t.
  - apply Forall_cons_iff in Hn as [H1 H2]. destruct v as [x v]. destruct Hv as [Hx Hv]. cbn [fst snd] in *. destruct (survives_readable nt f x F Hx) as (u & Eu & L & _).
    cbn [print_configuration fst snd] in E. rewrite Eu in E. cbn [bind] in E. destruct (print_configuration fs w v) as [r| | |] eqn:Er; cbn [bind] in E; try discriminate E.
    assert (X : forall a b : string, Ok a = Ok b -> a = b) by congruence. apply X in E. subst t. destruct (line_chars w (f_name f) u H1 L) as [_ C].
    replace (pad w (f_name f) ++ ": " ++ u ++ newline ++ r)%string with ((pad w (f_name f) ++ ": " ++ u) ++ newline ++ r)%string by now rewrite !app_s_assoc.
    apply without_app. split; [exact C|]. split; [discriminate|]. eapply IH; eauto.
Qed.
Lemma header_no_cr specs w v head : known specs -> args_survive nt specs v -> file_header specs w v = Ok head -> without carriage_return head.
Proof.
  intros K Hv E. unfold file_header in E. destruct (print_all specs w v) as [t| | |] eqn:Et; cbn [bind] in E; try discriminate E.
  assert (X : forall a b : string, Ok a = Ok b -> a = b) by congruence. apply X in E. subst head.
  assert (T : without carriage_return t).
  { clear -F K Hv Et. revert v Hv t Et. induction specs as [|sp specs IH]; intros v Hv t E.
    - assert (X : forall a b : string, Ok a = Ok b -> a = b) by congruence. apply X in E. now subst t.
    - apply Forall_cons_iff in K as [K1 K2]. destruct v as [x v]. destruct Hv as [Hx Hv]. cbn [fst snd print_all] in *.
      destruct (print_configuration (a_fields sp) w x) as [t1| | |] eqn:E1; cbn [bind] in E; try discriminate E. destruct (print_all specs w v) as [t2| | |] eqn:E2; cbn [bind] in E; try discriminate E.
      assert (X : forall a b : string, Ok a = Ok b -> a = b) by congruence. apply X in E. subst t. apply without_app. split; [eapply printed_no_cr; eauto|]. eapply IH; eauto. }
  apply without_app. split; [apply lit_without; reflexivity|]. apply without_app. split; [apply lit_without; reflexivity|]. apply without_app. split; [exact T|]. apply lit_without. reflexivity.
Qed.
Lemma lines_no_cr ls : Forall (without carriage_return) ls -> without carriage_return (lines_text ls).
Proof.
  induction 1 as [|l ls H _ IH]; [easy|]. change (lines_text (l :: ls)) with (l ++ newline ++ lines_text ls)%string. apply without_app. split; [exact H|]. split; [discriminate|exact IH].
Qed.
Lemma file_no_cr {L} specs sim w (line_for : string -> L -> Prop) v s xs text : (forall l x, line_for l x -> without carriage_return l) -> known (specs ++ [sim]) ->
  directory_file nt specs sim w line_for (Some (v, s, xs)) text -> without carriage_return text.
Proof.
  intros C K H. remember (Some (v, s, xs)) as f eqn:Ef. destruct H as [v' s' xs' ls head Hv Hh Hl|]; [|discriminate]. apply without_app. split.
  - eapply header_no_cr; eauto.
  - apply lines_no_cr. clear -Hl C. induction Hl; constructor; eauto.
Qed.
Lemma lines_ended ls a : exists s, ((a ++ newline) ++ lines_text ls)%string = (s ++ newline)%string.
Proof.
  revert a. induction ls as [|l ls IH]; intros a; [exists a; now rewrite app_s_nil|]. change (lines_text (l :: ls)) with (l ++ newline ++ lines_text ls)%string.
  destruct (IH ((a ++ newline) ++ l)%string) as (s & E). exists s. rewrite <- E. now rewrite !app_s_assoc.
Qed.
Lemma file_ended {L} specs sim w (line_for : string -> L -> Prop) v s xs text :
  directory_file nt specs sim w line_for (Some (v, s, xs)) text -> exists t, text = (t ++ newline)%string.
Proof.
  intros H. remember (Some (v, s, xs)) as f eqn:Ef. destruct H as [v' s' xs' ls head Hv Hh Hl|]; [|discriminate].
  unfold file_header in Hh. destruct (print_all _ _ _) as [t| | |]; cbn [bind] in Hh; try discriminate Hh.
  assert (X : forall a b : string, Ok a = Ok b -> a = b) by congruence. apply X in Hh. subst head.
  destruct (lines_ended ls (description_line ++ newline ++ t ++ data_line)%string) as (q & E). exists q. rewrite <- E. now rewrite !app_s_assoc.
Qed.
End Files.
