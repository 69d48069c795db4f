(** Names of data files; the analysis after a sequence of calls. *)
From Coq Require Import String Ascii NArith ZArith List Lia Permutation.
From Verif Require Import Base Scalar Model_LinkedList Model_Position Model_System Spec_System Model_Agent Spec_Agent Model_Time Model_Text Spec_Text Proof_Text Proof_Text3 Proof_Text4
  Model_Args Spec_Args Proof_Args Proof_Args2 Proof_Args3 Model_Analysis Spec_Analysis Proof_Analysis3 Model_Run Spec_Run Spec_Run2 Model_Program Spec_Program
  Proof_Program Proof_Program2 Proof_Program3 Proof_Program4 Model_Disk Spec_Disk Proof_Disk Proof_Disk2.
Import ListNotations.
Local Open Scope nat_scope.
Local Open Scope string_scope.
Local Open Scope list_scope.
Local Notation length := List.length.

Section Disk.
Context {S : scalar} {G : rng S} (nt : numtext S) (as_u128 : S -> N) (rng_seed : N -> rstate G) (inner place_fuel fuel : nat) (show_e : S -> string) (sip : list Z -> Z).
Hypothesis F : faithful nt.
(** Two calls use the same file exactly when directory, parameters of the data set and index agree. *)
Lemma same_path (p q : settings S) : run_path nt p = run_path nt q <-> p_dir p = p_dir q /\ exp_entries nt (data_part nt p) = exp_entries nt (data_part nt q) /\ p_idx p = p_idx q.
Proof.
  split.
  - intros E. destruct (run_name nt F p) as (n & En & Hn). destruct (run_name nt F q) as (m & Em & Hm). rewrite En, Em in E.
    pose proof (one_dir _ _ _ _ Hn Hm E) as D. split; [exact D|]. rewrite D in E. apply app_slash in E. subst m.
    assert (L : Forall (listable nt) (exp_structs nt)).
    { apply Forall_forall. intros sp [<-|[<-|[<-|[<-|[]]]]]; apply (all_listable nt); cbn; tauto. }
    assert (L' : listable nt varsim_spec) by (apply (all_listable nt); cbn; tauto).
    destruct (output_file_names nt exp_prefix (exp_structs nt) varsim_spec F L L' (data_part nt p) (data_part nt q) (sim_part p) (sim_part q)) as (f & g & E1 & E2 & I).
    destruct (path_is nt p) as (f' & E1' & P1). destruct (path_is nt q) as (g' & E2' & P2). rewrite E1 in E1'. rewrite E2 in E2'.
    assert (X : forall x y : string, Some x = Some y -> x = y) by congruence. apply X in E1'. apply X in E2'. subst f' g'.
    rewrite En in P1. rewrite Em in P2. apply app_slash in P1. apply app_slash in P2. subst f g. destruct I as [I _]. specialize (I eq_refl) as [A B].
    clear -A B. destruct p as [a0 a1 a2 a3 a4 a5 a6 a7 a8 a9 a10 a11 a12 a13 a14 a15 a16 a17], q as [b0 b1 b2 b3 b4 b5 b6 b7 b8 b9 b10 b11 b12 b13 b14 b15 b16 b17]. cbn in A, B. decompose [and] A. decompose [and] B. clear A B. cbn [exp_entries data_part sys_part target_part agent_part clock_part p_size p_dim p_tsize p_gamma p_strength p_agents p_dtmin p_dtmax p_len p_tmax p_idx].
    split; [repeat f_equal|]; match goal with H : _ -> ?x = ?y |- ?x = ?y => clear -H; apply H; tauto end.
  - intros (H1 & H2 & H3). unfold run_path. cbv zeta. destruct p as [a0 a1 a2 a3 a4 a5 a6 a7 a8 a9 a10 a11 a12 a13 a14 a15 a16 a17], q as [b0 b1 b2 b3 b4 b5 b6 b7 b8 b9 b10 b11 b12 b13 b14 b15 b16 b17]. cbn [exp_entries data_part sys_part target_part agent_part clock_part p_size p_dim p_tsize p_gamma p_strength p_agents p_dtmin p_dtmax p_len p_tmax p_idx p_dir] in *.
    injection H2. intros. congruence.
Qed.
(** The call of an analysis. *)
Lemma main_analyzes ws req dir prog texts summary : analysis_words nt ws req dir ->
  exp_main nt as_u128 rng_seed inner place_fuel fuel show_e sip texts summary (prog :: ws) =
    match exp_analyze nt show_e sip (summary dir) req (texts dir) with
    | Ok fs => (fs, Ok tt) | Err e => ([], Err e) | Panic => ([], Panic) | Fuel => ([], Fuel)
    end.
Proof.
  intros H. unfold exp_main. assert (L : length ws = 4 \/ length ws = 5) by (destruct H; [left|right]; reflexivity).
  rewrite (setup_analyze false exp_skip analysis_num_args (exp_specs nt) (prog :: ws)); [|cbn; unfold exp_skip; lia|cbn [List.length]; unfold exp_skip, analysis_num_args; lia].
  change (skipn exp_skip (prog :: ws)) with ws.
  assert (E : analyze_args nt ws = Ok (req, dir)).
  { destruct H as [w1 w2 w3 dir mn mx n E1 E2 E3|w1 w2 w3 w4 dir mn mx b lb E1 E2 E3 E4]; unfold analyze_args; cbn [List.length idx nth_error bind]; rewrite ?E1, ?E2, ?E3, ?E4; cbn [expect bind];
      rewrite ?E1, ?E2, ?E3, ?E4; cbn [expect bind]; rewrite ?E1, ?E2, ?E3, ?E4; cbn [expect bind]; reflexivity. }
  rewrite E. cbn [bind]. reflexivity.
Qed.
(** Each value belongs to one group. *)
Lemma once (ks : list (list S)) w n : ForallOrdPairs (fun u v => same_dataset sip u v = false) ks -> (exists k, In k ks /\ same_dataset sip k w = true) ->
  fold_right (fun k acc => (if same_dataset sip k w then n else 0) + acc) 0 ks = n.
Proof.
  intros H (k & Hk & Es). induction H as [|x ks Hx Hp IH]; [destruct Hk|]. cbn [fold_right]. rewrite Forall_forall in Hx. destruct Hk as [->|Hk].
  - rewrite Es. enough (fold_right (fun k acc => (if same_dataset sip k w then n else 0) + acc) 0 ks = 0) by lia.
    clear IH Hp. induction ks as [|y ks IH]; [reflexivity|]. cbn [fold_right]. rewrite IH by (intros z Hz; apply Hx; now right).
    specialize (Hx y (or_introl eq_refl)). destruct (same_dataset sip y w) eqn:Ey; [|reflexivity]. apply same_iff in Es, Ey. unfold same_dataset in Hx. apply Z.eqb_neq in Hx. congruence.
  - rewrite (IH Hk). destruct (same_dataset sip x w) eqn:Ex; [|lia]. specialize (Hx k Hk). apply same_iff in Es, Ex. unfold same_dataset in Hx. apply Z.eqb_neq in Hx. congruence.
Qed.
Lemma sum_plus {X} (f g : X -> nat) l : fold_right (fun x acc => f x + g x + acc) 0 l = fold_right (fun x acc => f x + acc) 0 l + fold_right (fun x acc => g x + acc) 0 l.
Proof. induction l as [|x l IH]; cbn [fold_right]; lia. Qed.
Lemma none_lost {L} (vs : list (all_args (exp_structs nt))) (files : list (option (all_args (exp_structs nt) * args_of varsim_spec * list L))) :
  ForallOrdPairs (fun v w => same_dataset sip (exp_values nt v) (exp_values nt w) = false) vs ->
  (forall v s xs, In (Some (v, s, xs)) files -> exists w, In w vs /\ same_dataset sip (exp_values nt w) (exp_values nt v) = true) ->
  fold_right (fun v acc => length (data_of sip (exp_values nt) v files) + acc) 0 vs = length (values_in files).
Proof.
  intros HP. induction files as [|f files IH]; intros HE.
  - cbn. clear. induction vs as [|v vs IH]; cbn; auto.
  - unfold data_of, values_in in *. cbn [flat_map]. rewrite app_length, <- IH by (intros v s xs H; apply (HE v s xs); now right). clear IH.
    transitivity (fold_right (fun v acc => (match f with Some (w, _, xs) => if same_dataset sip (exp_values nt v) (exp_values nt w) then length xs else 0 | None => 0 end) +
        length (flat_map (fun f0 => match f0 with Some (w, _, xs) => if same_dataset sip (exp_values nt v) (exp_values nt w) then xs else [] | None => [] end) files) + acc) 0 vs).
    { clear. induction vs as [|v vs IH]; [reflexivity|]. cbn [fold_right]. rewrite IH, app_length. destruct f as [[[w s] xs]|]; [|reflexivity]. destruct (same_dataset _ _ _); reflexivity. }
    rewrite sum_plus. f_equal. destruct f as [[[w s] xs]|].
    + destruct (HE w s xs (or_introl eq_refl)) as (k & Hk & Es).
      rewrite <- (once (map (exp_values nt) vs) (exp_values nt w) (length xs)) at 1.
      * clear. induction vs as [|v vs IH]; [reflexivity|]. cbn [fold_right map]. now rewrite IH.
      * clear -HP. induction HP as [|v vs Hv _ IH]; [constructor|]. cbn [map]. constructor; [|exact IH]. apply Forall_map. exact Hv.
      * exists (exp_values nt k). split; [now apply in_map|exact Es].
    + clear. induction vs as [|v vs IH]; cbn; auto.
Qed.
End Disk.
