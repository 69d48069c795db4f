(** Generated programs: names of the structures, failing calls, calls exist. *)
From Coq Require Import String Ascii NArith ZArith Lia List.
From Verif Require Import Base Scalar Model_LinkedList Model_Position Model_System Model_Agent Model_Time Model_Text Spec_Text Proof_Text Model_Args Spec_Args Proof_Args Proof_Args2 Proof_Args3 Model_Analysis Model_Usage
  Model_Run Model_Program Spec_Program Proof_Program Proof_Program6 Model_Generated Spec_Generated Proof_Generated Proof_Generated2.
Import ListNotations.
Local Open Scope nat_scope.
Local Open Scope string_scope.
Local Open Scope list_scope.
Local Notation length := List.length.

Lemma build_each qs : forall v, build_parts qs v = Ok tt <-> each_accepts qs v.
Proof.
  induction qs as [|q r IH]; intros v; cbn [build_parts each_accepts]; [tauto|]. destruct (pt_build q (fst v)) as [[]| | |]; cbn [bind].
  - rewrite IH. tauto.
  - split; [discriminate|intros [H _]; discriminate H].
  - split; [discriminate|intros [H _]; discriminate H].
  - split; [discriminate|intros [H _]; discriminate H].
Qed.
Section Gen.
Context {S : scalar} (nt : numtext S).
Lemma invoked_names p a sy ta ag ti si :
  In sy systems -> In ta targets -> In ag agents -> In ti clocks -> In si simulations -> sy <> "ContCylindricalSystem" -> ag <> "ContPassiveMergeAgent" ->
  exists g ps sm, simulation_macro (invocation p a sy ta ag ti si) = Some g /\ g_prefix g = p /\ gen_parts nt g = Some (ps, sm) /\
    map (fun q => a_name (pt_spec q)) ps = [sy; ta; ag; ti] /\ a_name (sp_spec sm) = si.
Proof.
  intros H1 H2 H3 H4 H5 N1 N2. cbn in H1, H2, H3, H4, H5. destruct H2 as [<-|[]].
  destruct H1 as [<-|[<-|[<-|[]]]], H3 as [<-|[<-|[<-|[<-|[]]]]]; try (now elim N1); try (now elim N2); destruct H4 as [<-|[<-|[]]], H5 as [<-|[<-|[<-|[]]]];
    (eexists; eexists; eexists; split; [reflexivity|]; split; [reflexivity|]; split; [reflexivity|]; split; reflexivity).
Qed.
Lemma gen_unreadable p g ps sm body analysis prog ws blocks : gen_parts nt g = Some (ps, sm) ->
  blocks_of (part_specs ps ++ [sp_spec sm]) ws blocks -> (forall w, ~ reads (part_specs ps ++ [sp_spec sm]) blocks w) ->
  fst (gen_main p ps sm body analysis (prog :: ws)) = [] /\ snd (gen_main p ps sm body analysis (prog :: ws)) <> Ok tt.
Proof.
  intros E B R. destruct (gen_parts_inv nt g ps sm E) as (L & I1 & I2 & _). pose proof (gen_specs_many nt ps sm L I1 I2) as M. pose proof (block_lengths _ _ _ B) as Lw.
  apply gen_panic with (blocks := blocks); [lia|lia|exact B|exact R].
Qed.
Lemma gen_refused p g ps sm body analysis prog ws blocks v s : gen_parts nt g = Some (ps, sm) ->
  blocks_of (part_specs ps ++ [sp_spec sm]) ws blocks -> reads (part_specs ps ++ [sp_spec sm]) blocks (join_args (part_specs ps) v s) -> build_parts ps v <> Ok tt ->
  fst (gen_main p ps sm body analysis (prog :: ws)) = [] /\ snd (gen_main p ps sm body analysis (prog :: ws)) <> Ok tt.
Proof.
  intros E B R N. destruct (gen_parts_inv nt g ps sm E) as (L & I1 & I2 & _). pose proof (gen_specs_many nt ps sm L I1 I2) as M. pose proof (block_lengths _ _ _ B) as Lw.
  rewrite (gen_simulate p ps sm body analysis prog ws blocks v s); [|lia|lia|exact B|exact R]. cbv zeta. unfold gen_run.
  destruct (build_parts ps v) as [[]| | |]; [now elim N| | |]; cbn [bind rr_file rr_end fst snd]; (split; [reflexivity|discriminate]).
Qed.
(** Calls exist. *)
Lemma survive_vars fs gs : forall (a : Model_Args.vals fs) (b : Model_Args.vals gs), all_survive nt (fs ++ gs) (vals_app a b) -> all_survive nt gs b.
Proof. induction fs as [|f fs IH]; intros a b H; [exact H|]. destruct a as [x a]. destruct H as [_ H]. exact (IH a b H). Qed.
Lemma spec_num sp : In sp (all_specs nt) -> a_num sp = length (a_vars sp).
Proof. intros H. unfold all_specs in H. repeat (destruct H as [<-|H]; [reflexivity|]). destruct H. Qed.
Lemma call_exists : faithful nt -> forall specs v, incl specs (all_specs nt) -> args_typed specs v -> args_survive nt specs v ->
  exists ws blocks, blocks_of specs ws blocks /\ reads specs blocks v.
Proof.
  intros F. induction specs as [|sp r IH]; intros v I T W; [exists [], []; repeat split|].
  destruct v as [x v]. cbn [args_typed args_survive fst snd] in T, W. destruct T as [(u & Eu) T], W as [W1 W2]. assert (Ir : incl r (all_specs nt)) by (intros y Hy; apply I; now right).
  destruct (IH v Ir T W2) as (ws & blocks & [B1 B2] & R).
  rewrite Eu in W1. apply survive_vars in W1. destruct (words_exist nt F (a_vars sp) u W1) as (b & Hb).
  assert (N : a_num sp = length (a_vars sp)) by (apply spec_num, I; now left). pose proof (proj2 (read_words_spec (a_vars sp) b u) Hb) as [Rb Lb].
  exists (b ++ ws), (b :: blocks). split; [split|].
  - cbn [List.concat]. now rewrite B1.
  - cbn [map]. rewrite B2, Lb, N. reflexivity.
  - cbn [reads fst snd]. split; [|exact R]. unfold read_args_from_vec. rewrite Lb, N, Nat.eqb_refl. cbn [negb]. rewrite Rb. cbn [bind]. now rewrite Eu.
Qed.
End Gen.
