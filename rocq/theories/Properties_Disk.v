(** Property C58: sequences of calls of the program examples/mfpt_exp.rs - runs that end, runs that are killed, analyses - on one disk; and the command line of an
    analysis (C55).  Statements use [Model_Disk] ([process]: what one call does to the disk) and the vocabulary of [Spec_Disk]: [history] (the calls, in order),
    [runs_into] (those that created a file in a directory), [surviving] (those whose file was not replaced later), [left_by] (the configuration and values they left). *)
From Coq Require Import String Ascii NArith ZArith List Lia Permutation.
From Verif Require Import Base Scalar Float64 Model_LinkedList Model_Position Model_System Spec_System Model_Agent Spec_Agent Model_Time Model_Text Spec_Text Proof_Text Proof_Text3 Proof_Text4
  Model_Args Spec_Args Proof_Args Proof_Args2 Proof_Args3 Model_Analysis Spec_Analysis Proof_Analysis9 Model_Run Spec_Run Spec_Run2 Model_Program Spec_Program
  Proof_Program Proof_Program2 Proof_Program3 Proof_Program4 Proof_Program6 Model_Disk Spec_Disk Proof_Disk Proof_Disk2 Proof_Disk3 Properties_Analysis Properties_Program Properties_Program2.
Import ListNotations.
Local Open Scope nat_scope.
Local Open Scope string_scope.
Local Open Scope list_scope.
Local Notation length := List.length.

(** * C55, the command line *)
(** A call with four or five words that can be read is the analysis of the named directory, and writes exactly its files. *)
Theorem C55_command_line : forall (S : scalar) (G : rng S) (nt : numtext S) as_u128 (rng_seed : N -> rstate G) inner pf fuel show_e sip ws req dir prog texts summary,
  analysis_words nt ws req dir ->
  exp_main nt as_u128 rng_seed inner pf fuel show_e sip texts summary (prog :: ws) =
    match exp_analyze nt show_e sip (summary dir) req (texts dir) with
    | Ok fs => (fs, Ok tt) | Err e => ([], Err e) | Panic => ([], Panic) | Fuel => ([], Fuel)
    end.
Proof. exact @main_analyzes. Qed.
Print Assumptions C55_command_line.

(** * C58: sequences of calls *)
(** Two calls use the same data file exactly when directory, index and the ten parameters of the data set agree. *)
Theorem C58_same_file_iff : forall (S : scalar) (nt : numtext S) (p q : settings S), faithful nt ->
  run_path nt p = run_path nt q <->
  p_dir p = p_dir q /\ p_idx p = p_idx q /\
  (p_size p, p_dim p, p_tsize p, p_gamma p, p_strength p, p_agents p, p_dtmin p, p_dtmax p, p_len p, p_tmax p) =
  (p_size q, p_dim q, p_tsize q, p_gamma q, p_strength q, p_agents q, p_dtmin q, p_dtmax q, p_len q, p_tmax q).
Proof.
  intros S nt p q F. rewrite (same_path nt F p q). destruct p as [a0 a1 a2 a3 a4 a5 a6 a7 a8 a9 a10 a11 a12 a13 a14 a15 a16 a17], q as [b0 b1 b2 b3 b4 b5 b6 b7 b8 b9 b10 b11 b12 b13 b14 b15 b16 b17].
  cbn [exp_entries data_part sys_part target_part agent_part clock_part p_size p_dim p_tsize p_gamma p_strength p_agents p_dtmin p_dtmax p_len p_tmax p_idx p_dir].
  split; intros (H1 & H2 & H3); (split; [exact H1|]); (split; [congruence|congruence]).
Qed.
Print Assumptions C58_same_file_iff.

(** After any sequence of calls a directory that was empty holds, in some order, exactly the files of the surviving runs: complete, or with the configuration and
    the first values, or empty. *)
Theorem C58_directory_after_calls : forall (S : scalar) (G : rng S) (nt : numtext S) as_u128 (rng_seed : N -> rstate G) inner pf fuel show_e sip, faithful nt ->
  forall dir d es d' texts, (forall a x, dir <> a ++ "/analysis_" ++ x)%string -> files_in dir d = [] ->
  (forall p how, In (Run p how) es -> p_dir p = dir -> writable p /\ accepted p) -> history nt as_u128 rng_seed inner pf fuel show_e sip d es d' -> Permutation texts (files_in dir d') ->
  exists times order, (forall p how, In (Run p how) es -> p_dir p = dir -> writes_values nt as_u128 rng_seed inner pf fuel p (times p)) /\
    Permutation order (surviving nt (runs_into dir es)) /\
    Forall2 (directory_file nt (exp_structs nt) varsim_spec 15 (number_line nt)) (map (left_by nt times) order) texts.
Proof.
  intros S G nt as_u128 rng_seed inner pf fuel show_e sip F dir d es d' texts N E WA H HP.
  destruct (directory_after nt as_u128 rng_seed inner pf fuel show_e sip F dir d es d' texts N E WA H HP) as (order & PO & HF).
  exists (run_times as_u128 rng_seed inner pf fuel), order. split; [|auto]. intros p how Hp Hd. destruct (WA p how Hp Hd). now apply writes_hold.
Qed.
Print Assumptions C58_directory_after_calls.

(** The analysis of the directory after any sequence of calls: if it ends normally, its summary has one row for each data set, with number, mean and deviation of
    the values of all surviving runs of this data set, and no value is lost or counted twice. *)
Theorem C58_analysis_after_calls : forall (S : scalar) (G : rng S) (nt : numtext S) as_u128 (rng_seed : N -> rstate G) inner pf fuel show_e sip r,
  faithful nt -> rereads nt r -> (forall x, number_word (show_e x)) ->
  forall dir d es d' texts summary ws req prog out, (forall a x, dir <> a ++ "/analysis_" ++ x)%string -> files_in dir d = [] ->
  (forall p how, In (Run p how) es -> p_dir p = dir -> writable p /\ accepted p) -> history nt as_u128 rng_seed inner pf fuel show_e sip d es d' ->
  Permutation (texts dir) (files_in dir d') -> analysis_words nt ws req dir ->
  exp_main nt as_u128 rng_seed inner pf fuel show_e sip texts summary (prog :: ws) = (out, Ok tt) ->
  exists times order gs brief,
    (forall p how, In (Run p how) es -> p_dir p = dir -> writes_values nt as_u128 rng_seed inner pf fuel p (times p)) /\ Permutation order (surviving nt (runs_into dir es)) /\
    let files := map (left_by nt times) order in
    In (path_in (summary dir) "brief_result.dat", brief) out /\
    rows_of brief (["sys_size"; "dim"; "target_size"; "gamma"; "strength"; "num_agent"; "dt_min"; "dt_max"; "length"; "tmax"; "ensemble"; "mean"; "stddev"] ::
                   map (fun g => summary_words show_e (exp_entries nt (fst g)) (snd g)) gs) /\
    (forall v a, In (v, a) gs -> let xs := map r (data_of sip (exp_values nt) v files) in let n := of_Z (Z.of_nat (length xs)) in
       ta_ens a = length xs /\ ta_mean a = (fold_left add xs s0 / n)%S /\
       ta_sq a = fsqrt (fold_left (fun s x => s + x * x) xs s0 / n - fold_left add xs s0 / n * (fold_left add xs s0 / n))%S) /\
    fold_right (fun g acc => ta_ens (snd g) + acc) 0 gs = length (values_in files).
Proof.
  intros S G nt as_u128 rng_seed inner pf fuel show_e sip r F RR Sh dir d es d' texts summary ws req prog out N E WA H HP HW HM.
  destruct (C58_directory_after_calls S G nt as_u128 rng_seed inner pf fuel show_e sip F dir d es d' (texts dir) N E WA H HP) as (times & order & HT & PO & HF).
  rewrite (C55_command_line S G nt as_u128 rng_seed inner pf fuel show_e sip ws req dir prog texts summary HW) in HM.
  destruct (exp_analyze nt show_e sip (summary dir) req (texts dir)) as [out'| | |] eqn:Ex; try discriminate HM.
  assert (X : forall (x y : list (string * string)) (z z' : outcome unit), (x, z) = (y, z') -> x = y) by congruence. apply X in HM. subst out'.
  destruct (C55_result_files S nt show_e r F RR Sh sip (summary dir) req _ _ out HF Ex) as (gs & brief & Eg & _ & _ & Hb & Hr & _).
  destruct (C54_groups S nt r F RR sip req _ _ gs HF Eg) as (G1 & G2 & G3).
  exists times, order, gs, brief. split; [exact HT|]. split; [exact PO|]. cbv zeta. split; [exact Hb|]. split; [exact Hr|]. split; [intros v a Hva; exact (proj2 (G1 v a Hva))|].
  assert (Hlen : forall v a, In (v, a) gs -> ta_ens a = length (data_of sip (exp_values nt) v (map (left_by nt times) order))).
  { intros v a Hva. destruct (G1 v a Hva) as (_ & Hn & _). cbv zeta in Hn. rewrite Hn. apply map_length. }
  transitivity (fold_right (fun v acc => length (data_of sip (exp_values nt) v (map (left_by nt times) order)) + acc) 0 (map fst gs)).
  - clear -Hlen. induction gs as [|[v a] gs IH]; [reflexivity|]. cbn [fold_right map fst snd]. rewrite IH by (intros; apply Hlen; now right). now rewrite (Hlen v a (or_introl eq_refl)).
  - apply none_lost.
    + clear -G3. induction G3 as [|[v a] gs Hv _ IH]; [constructor|]. cbn [map fst]. constructor; [|exact IH]. apply Forall_map. revert Hv. apply Forall_impl. intros g Hg. exact Hg.
    + intros v s xs Hv. destruct (G2 v s xs Hv) as (w & a & Hw & Hs). exists w. split; [|exact Hs]. change w with (fst (w, a)). now apply in_map.
Qed.
Print Assumptions C58_analysis_after_calls.

(** A run that was killed (or whose file was damaged by other settings) and is repeated leaves the directory as if it had only been done at the end. *)
Theorem C58_repeated_run_repairs : forall (S : scalar) (G : rng S) (nt : numtext S) as_u128 (rng_seed : N -> rstate G) inner pf fuel show_e sip, faithful nt ->
  forall dir d1 d2 es es2 p how d1' d2', (forall a x, dir <> a ++ "/analysis_" ++ x)%string -> files_in dir d1 = [] -> files_in dir d2 = [] -> p_dir p = dir ->
  (forall q h, In (Run q h) (es ++ Run p how :: es2 ++ [Run p Finished]) -> p_dir q = dir -> writable q /\ accepted q) ->
  history nt as_u128 rng_seed inner pf fuel show_e sip d1 (es ++ Run p how :: es2 ++ [Run p Finished]) d1' ->
  history nt as_u128 rng_seed inner pf fuel show_e sip d2 (es ++ es2 ++ [Run p Finished]) d2' ->
  Permutation (files_in dir d1') (files_in dir d2').
Proof. exact @again_same. Qed.
Print Assumptions C58_repeated_run_repairs.

(** Limit of C58: runs that differ only in the position of the target, the movement, the start, the number of searches or the seed use one file: only the last one's
    values are left. *)
Theorem C58_other_target_replaces_counterexample : forall (S : scalar) (G : rng S) (nt : numtext S) as_u128 (rng_seed : N -> rstate G) inner pf fuel show_e sip, faithful nt ->
  forall dir d d' (p : settings S) target move init num seed,
  let q := Settings S (p_size p) (p_dim p) target (p_tsize p) move init (p_gamma p) (p_idim p) (p_strength p) (p_agents p) (p_dtmin p) (p_dtmax p) (p_len p) (p_tmax p) num (p_idx p) seed (p_dir p) in
  (forall a x, dir <> a ++ "/analysis_" ++ x)%string -> files_in dir d = [] -> p_dir p = dir -> writable p -> accepted p -> writable q -> accepted q ->
  history nt as_u128 rng_seed inner pf fuel show_e sip d [Run p Finished; Run q Finished] d' ->
  exists times text, writes_values nt as_u128 rng_seed inner pf fuel q times /\ files_in dir d' = [text] /\
    directory_file nt (exp_structs nt) varsim_spec 15 (number_line nt) (Some (data_part nt q, sim_part q, times)) text.
Proof.
  intros S G nt as_u128 rng_seed inner pf fuel show_e sip F dir d d' p target move init num seed q N E Ed Wp Ap Wq Aq H.
  assert (WA : forall x how, In (Run x how) [Run p Finished; Run q Finished] -> p_dir x = dir -> writable x /\ accepted x) by (intros x how [[= <- _]|[[= <- _]|[]]] _; auto).
  destruct (C58_directory_after_calls S G nt as_u128 rng_seed inner pf fuel show_e sip F dir d _ d' _ N E WA H (Permutation_refl _)) as (times & order & HT & PO & HF).
  assert (Eq : p_dir q = dir) by exact Ed. cbn [runs_into] in PO. rewrite Ed, Eq, String.eqb_refl in PO. cbn [surviving existsb fst] in PO.
  assert (Er : run_path nt q = run_path nt p) by (apply C58_same_file_iff; auto). rewrite Er, String.eqb_refl in PO. cbn [orb] in PO.
  apply Permutation_sym, Permutation_length_1_inv in PO. subst order. cbn [map] in HF. set (ts := files_in dir d') in *. clearbody ts. destruct ts as [|t ts]; [inversion HF|].
  exists (times q), t. split; [apply (HT q Finished); cbn; auto|]. inversion HF as [|? ? ? ? HD HN]; subst. inversion HN. subst. split; [reflexivity|exact HD].
Qed.
Print Assumptions C58_other_target_replaces_counterexample.

(** * The hypotheses are met *)
(** Every run that could be called for can be called and can end in each way. *)
Lemma run_possible (S : scalar) (G : rng S) (nt : numtext S) as_u128 (rng_seed : N -> rstate G) inner pf fuel show_e sip (p : settings S) how d : faithful nt -> writable p -> accepted p ->
  exists ws d', command nt p ws /\ process nt as_u128 rng_seed inner pf fuel show_e sip d ("mfpt_exp" :: ws) how d'.
Proof.
  intros F W A. destruct (command_exists nt F p W) as (ws & C). exists ws.
  destruct (run_writes nt as_u128 rng_seed inner pf fuel F p W A) as (o & E).
  set (texts := fun dir => files_in dir d). set (summary := fun dir : string => (dir ++ "/analysis_" ++ "20240101")%string).
  pose proof (main_runs nt as_u128 rng_seed p ws "mfpt_exp" inner pf fuel show_e sip texts summary C) as Em. rewrite E in Em. cbn [rr_file rr_end] in Em. cbv zeta in Em.
  pose proof (command_reads nt p ws "mfpt_exp" C) as Es. destruct how as [| | |n]; eexists; (split; [exact C|]).
  - eapply process_finished; [intros dir; apply Permutation_refl|intros dir; exists "20240101"; reflexivity|exact Em].
  - apply process_killed_first.
  - eapply process_killed_empty; [exact Es|exact Em].
  - eapply (process_killed_after nt as_u128 rng_seed inner pf fuel show_e sip d _ _ _ _ _ _ n); [exact Es|exact Em|]. exact (head_is nt F p W).
Qed.
(** The demo call of Properties_Program killed after one value, a call without arguments, the next index, and the demo call again. *)
Definition demo_next (lm : libm) : settings (F64 lm) := with_index (demo_p lm) 2 42 "data".
Definition demo_events (lm : libm) : list (event (F64 lm)) := [Run (demo_p lm) (KilledAfter 1); Other [] Finished; Run (demo_next lm) Finished; Run (demo_p lm) Finished].
Lemma demo_next_ok lm : writable (demo_next lm) /\ accepted (demo_next lm).
Proof.
  split.
  - destruct (demo_writable lm) as [W1 W2 W3 W4 W5 W6 W7 W8 W9 W10]. constructor; auto; reflexivity.
  - destruct (demo_accepted lm) as [A1 A2 A3 A4 A5 A6 A7 A8 A9 A10]. constructor; auto.
Qed.
Lemma demo_data a x : "data" <> (a ++ "/analysis_" ++ x)%string.
Proof.
  intros E. assert (H : has_char "/" "data" = false) by reflexivity. rewrite E, has_app in H. cbn in H. rewrite Bool.orb_true_r in H. discriminate.
Qed.
Example demo_history : forall lm (G : rng (F64 lm)) (rng_seed : N -> rstate G) inner pf fuel show_e sip, exists d',
  history (prog_text lm) b64_as_u128 rng_seed inner pf fuel show_e sip [] (demo_events lm) d' /\
  (forall a x, "data" <> (a ++ "/analysis_" ++ x)%string) /\ files_in "data" [] = [] /\
  (forall p how, In (Run p how) (demo_events lm) -> p_dir p = "data" -> writable p /\ accepted p) /\
  surviving (prog_text lm) (runs_into "data" (demo_events lm)) = [(demo_next lm, Finished); (demo_p lm, Finished)].
Proof.
  intros lm G rng_seed inner pf fuel show_e sip. destruct (prog_text_faithful lm) as [F _]. destruct (demo_next_ok lm) as [Wn An]. pose proof (demo_writable lm) as W. pose proof (demo_accepted lm) as A.
  destruct (run_possible (F64 lm) G (prog_text lm) b64_as_u128 rng_seed inner pf fuel show_e sip (demo_p lm) (KilledAfter 1) [] F W A) as (w1 & d1 & C1 & P1).
  assert (P2 : process (prog_text lm) b64_as_u128 rng_seed inner pf fuel show_e sip d1 ["mfpt_exp"] Finished (fold_left put [] d1)).
  { apply (process_finished _ _ _ _ _ _ _ _ d1 ["mfpt_exp"] (fun dir => files_in dir d1) (fun dir => (dir ++ "/analysis_" ++ "20240101")%string) [] (Err InvalidNumberOfArguments));
      [intros dir; apply Permutation_refl|intros dir; exists "20240101"; reflexivity|reflexivity]. }
  destruct (run_possible (F64 lm) G (prog_text lm) b64_as_u128 rng_seed inner pf fuel show_e sip (demo_next lm) Finished d1 F Wn An) as (w3 & d3 & C3 & P3).
  destruct (run_possible (F64 lm) G (prog_text lm) b64_as_u128 rng_seed inner pf fuel show_e sip (demo_p lm) Finished d3 F W A) as (w4 & d4 & C4 & P4).
  exists d4. split.
  { eapply history_run; [exact C1|exact P1|]. eapply history_other; [|exact P2|]; [cbn; lia|]. eapply history_run; [exact C3|exact P3|]. eapply history_run; [exact C4|exact P4|]. constructor. }
  split; [apply demo_data|]. split; [reflexivity|]. split; [intros p how [[= <- _]|[[=]|[[= <- _]|[[= <- _]|[]]]]] _; auto|].
  change (runs_into "data" (demo_events lm)) with [(demo_p lm, KilledAfter 1); (demo_next lm, Finished); (demo_p lm, Finished)].
  assert (Ne : String.eqb (run_path (prog_text lm) (demo_p lm)) (run_path (prog_text lm) (demo_next lm)) = false).
  { apply String.eqb_neq. intros E. apply C58_same_file_iff in E; [|exact F]. destruct E as (_ & E & _). discriminate E. }
  cbn [surviving existsb fst]. rewrite String.eqb_refl, Ne. rewrite Bool.orb_true_r. reflexivity.
Qed.
(** An analysis of this directory with bins given by their size ends normally (C55_f64_analysis_succeeds). *)
Example demo_words : analysis_words (prog_text toy) [b64_show (b64_of_Z 1); b64_show (b64_of_Z 4); b64_show (b64_of_Z 1); b64_show (b64_of_Z 2); "data"]
  (BySize (S := F64 toy) (b64_of_Z 1) (b64_of_Z 4) (b64_of_Z 1) (b64_of_Z 2)) "data".
Proof. apply words_by_size; apply b64_faithful. Qed.
Example demo_analysis_ends : forall (G : rng (F64 toy)) (rng_seed : N -> rstate G) inner pf fuel, exists d' out,
  let texts := fun dir => files_in dir d' in
  history (prog_text toy) b64_as_u128 rng_seed inner pf fuel b64_show demo_sum [] (demo_events toy) d' /\
  exp_main (prog_text toy) b64_as_u128 rng_seed inner pf fuel b64_show demo_sum texts (fun dir => dir ++ "/analysis_20240101")%string
    ["mfpt_exp"; b64_show (b64_of_Z 1); b64_show (b64_of_Z 4); b64_show (b64_of_Z 1); b64_show (b64_of_Z 2); "data"] = (out, Ok tt).
Proof.
  intros G rng_seed inner pf fuel. destruct (prog_text_faithful toy) as [F RR]. destruct (demo_history toy G rng_seed inner pf fuel b64_show demo_sum) as (d' & H & N & E & WA & _).
  destruct (C58_directory_after_calls (F64 toy) G (prog_text toy) b64_as_u128 rng_seed inner pf fuel b64_show demo_sum F "data" [] (demo_events toy) d' (files_in "data" d') N E WA H (Permutation_refl _))
    as (times & order & _ & _ & HF).
  destruct C37_f64_hypotheses as ((a0 & Ea) & H1 & H2 & H3 & H4 & H5 & H6 & H7 & H8 & H9 & H10 & H11 & H12).
  destruct (C55_f64_analysis_succeeds toy (prog_text toy) whole b64_show demo_sum "data/analysis_20240101" (b64_of_Z 1) (b64_of_Z 4) (b64_of_Z 1) (b64_of_Z 2) a0 _ _ F RR Ea C37_sane_log2
    H1 H2 H3 H4 H5 H6 H7 H8 H9 H10 H11 H12 HF) as (out & Eo).
  exists d', out. cbv zeta. split; [exact H|].
  rewrite (C55_command_line (F64 toy) G (prog_text toy) b64_as_u128 rng_seed inner pf fuel b64_show demo_sum _ _ _ "mfpt_exp" _ _ demo_words).
  change ("data" ++ "/analysis_20240101")%string with "data/analysis_20240101". rewrite Eo. reflexivity.
Qed.
