(** Property C57: the files written by the analyses of vectors of times ([TimeVecAnalysis]) and of processes ([ProcessAnalysis]).
    Statements use [Model_Program2] and the vocabulary of [Spec_Program], [Spec_Program2]: [directory_file] (a data file with its configuration and data, or a file whose
    configuration cannot be read), [rows_of] (the lines of a text, cut at white space), [has_moments] (mean and deviation of numbers). *)
From Coq Require Import String Ascii NArith ZArith List Lia.
From Flocq.IEEE754 Require Import BinarySingleNaN.
From Verif Require Import Base Scalar Float64 Model_LinkedList Model_Position Model_System Spec_System Model_Agent Spec_Agent Model_Time Model_Text Spec_Text Proof_Text Proof_Text3 Proof_Text4
  Model_Args Spec_Args Proof_Args Proof_Args2 Proof_Args3 Model_Analysis Spec_Analysis Proof_Analysis9 Proof_Analysis10 Model_Run Spec_Run Spec_Run2 Model_Program Spec_Program
  Proof_Program Proof_Program2 Proof_Program3 Proof_Program4 Proof_Program5 Proof_Program6 Model_Program2 Spec_Program2 Proof_Program7 Proof_Program8 Properties_Program.
Import ListNotations.
Local Open Scope nat_scope.
Local Open Scope string_scope.
Local Open Scope list_scope.
Local Notation length := List.length.
Local Notation concat := List.concat.

(** * C57: vectors of times *)
(** One group for each data set with at least one line of data; its number of samples is the number of lines of all its files, every line has [nvar] numbers, and
    each column has the mean and deviation of the numbers of this column. *)
Theorem C57_vector_groups : forall (S : scalar) (nt : numtext S) r, faithful nt -> rereads nt r -> forall sip nvar req files texts gs, nvar <> 0 ->
  Forall2 (directory_file nt (exp_structs nt) varsim_spec 15 (vector_line nt)) files texts -> vec_groups nt sip nvar req texts = Ok gs ->
  (forall v a, In (v, a) gs -> (exists s xs, In (Some (v, s, xs)) files) /\
     let rows := map (map r) (data_of sip (exp_values nt) v files) in
     rows <> [] /\ Forall (fun row => length row = nvar) rows /\ tv_ens a = length rows /\ length (tv_means a) = nvar /\ length (tv_sqs a) = nvar /\
     forall k, k < nvar -> exists m q, nth_error (tv_means a) k = Some m /\ nth_error (tv_sqs a) k = Some q /\ has_moments (length rows) (map (fun row => nth k row s0) rows) m q) /\
  (forall v s xs, In (Some (v, s, xs)) files -> xs <> [] -> exists w a, In (w, a) gs /\ same_dataset sip (exp_values nt w) (exp_values nt v) = true) /\
  ForallOrdPairs (fun e e' => same_dataset sip (exp_values nt (fst e)) (exp_values nt (fst e')) = false) gs.
Proof. exact @vec_groups_hold. Qed.
Print Assumptions C57_vector_groups.

(** The files: one summary and two distributions for each group, all with different names.  A row of the summary has the parameters, the number of samples and mean
    and deviation of each column; the rows of the distributions are those of C38. *)
Theorem C57_vector_files : forall (S : scalar) (nt : numtext S) (show_e : S -> string) r, faithful nt -> rereads nt r -> (forall x, number_word (show_e x)) ->
  forall fuel sip dir nvar req files texts out, Forall2 (directory_file nt (exp_structs nt) varsim_spec 15 (vector_line nt)) files texts ->
  vec_analyze nt show_e fuel sip dir nvar req texts = Ok out ->
  exists gs text, vec_groups nt sip nvar req texts = Ok gs /\
    map fst out = path_in dir "brief_result.dat" :: flat_map (fun g => [linear_path dir (group_name nt (fst g)); logarithmic_path dir (group_name nt (fst g))]) gs /\
    NoDup (map fst out) /\ In (path_in dir "brief_result.dat", text) out /\
    rows_of text (["sys_size"; "dim"; "target_size"; "gamma"; "strength"; "num_agent"; "dt_min"; "dt_max"; "length"; "tmax"; "ensemble"; "meantime"; "stddev"] ::
                  map (fun g => vec_summary_words show_e (exp_entries nt (fst g)) (snd g)) gs) /\
    (forall v a, In (v, a) gs -> exists lin lg t1 t2, tv_export_lin fuel a = Ok lin /\ tv_export_log fuel a = Ok lg /\
       In (linear_path dir (group_name nt v), t1) out /\ rows_of t1 (map (vec_histogram_words show_e) lin) /\
       In (logarithmic_path dir (group_name nt v), t2) out /\ rows_of t2 (map (vec_histogram_words show_e) lg)).
Proof. exact @vector_writes. Qed.
Print Assumptions C57_vector_files.

(** A single line with another number of values makes the whole analysis fail. *)
Theorem C57_wrong_width_fails : forall (S : scalar) (nt : numtext S) (show_e : S -> string) r, faithful nt -> rereads nt r ->
  forall fuel sip dir nvar req files texts v s xs x, nvar <> 0 -> Forall2 (directory_file nt (exp_structs nt) varsim_spec 15 (vector_line nt)) files texts ->
  In (Some (v, s, xs)) files -> In x xs -> length x <> nvar -> forall out, vec_analyze nt show_e fuel sip dir nvar req texts <> Ok out.
Proof.
  intros S nt show_e r F RR fuel sip dir nvar req files texts v s xs x Hn H Hf Hx Hl out E. unfold vec_analyze in E.
  destruct (vec_groups nt sip nvar req texts) as [gs| | |] eqn:Eg; cbn [bind] in E; try discriminate.
  destruct (C57_vector_groups S nt r F RR sip nvar req files texts gs Hn H Eg) as (G1 & G2 & _).
  destruct (G2 v s xs Hf) as (w & a & Hw & Hs); [intros ->; destruct Hx|]. destruct (G1 w a Hw) as (_ & _ & G3 & _).
  rewrite Forall_forall in G3. apply Hl. rewrite <- (map_length r x). apply G3. apply in_map. unfold data_of. apply in_flat_map. exists (Some (v, s, xs)). split; [exact Hf|]. now rewrite Hs.
Qed.
Print Assumptions C57_wrong_width_fails.

(** Limit of C57: with any other number of columns than one the title line does not fit the rows: it always has three titles, a row 1 + 2 nvar values. *)
Theorem C57_vector_titles_counterexample : forall (S : scalar) (show_e : S -> string) (nt : numtext S) v (a : tvec S) n, length (tv_means a) = n -> length (tv_sqs a) = n -> n <> 1 ->
  length (vec_summary_words show_e (exp_entries nt v) a) = length (exp_entries nt v) + 1 + 2 * n /\
  length (vec_summary_words show_e (exp_entries nt v) a) <> length (exp_names ++ ["ensemble"; "meantime"; "stddev"]).
Proof.
  intros S show_e nt v a n H1 H2 Hn. assert (L : length (vec_summary_words show_e (exp_entries nt v) a) = length (exp_entries nt v) + 1 + 2 * n).
  { unfold vec_summary_words, parameter_words. rewrite app_length, map_length. cbn [length]. assert (X : forall l : list (S * S), length (flat_map (fun mq => [show_e (fst mq); show_e (snd mq)]) l) = 2 * length l).
    { induction l as [|y l IH]; [reflexivity|]. cbn [flat_map app length]. rewrite IH. lia. }
    rewrite X, combine_length, H1, H2. lia. }
  split; [exact L|]. rewrite L. assert (E : length (exp_entries nt v) = 10) by (destruct v as ((? & ? & ? & ? & ?) & (? & ? & ? & ?) & (? & ? & ? & ? & ? & ? & ? & ?) & (? & ? & ? & ? & ?) & ?); reflexivity).
  rewrite E. cbn. lia.
Qed.
Print Assumptions C57_vector_titles_counterexample.

(** * C57: processes *)
(** One group for each data set with at least one line; its number of runs is the number of lines of all its files, mean and deviation are those of the values of all
    pairs of all lines. *)
Theorem C57_process_groups : forall (S : scalar) (nt : numtext S) r, faithful nt -> rereads nt r -> forall sip req files texts gs,
  Forall2 (directory_file nt (exp_structs nt) varsim_spec 15 (process_line nt)) files texts -> proc_groups nt sip req texts = Ok gs ->
  (forall v a, In (v, a) gs -> (exists s xs, In (Some (v, s, xs)) files) /\
     let runs := map (map (both r)) (data_of sip (exp_values nt) v files) in
     runs <> [] /\ pa_ens a = length runs /\ has_moments (length (concat runs)) (map snd (concat runs)) (pa_mean a) (pa_sq a)) /\
  (forall v s xs, In (Some (v, s, xs)) files -> xs <> [] -> exists w a, In (w, a) gs /\ same_dataset sip (exp_values nt w) (exp_values nt v) = true) /\
  ForallOrdPairs (fun e e' => same_dataset sip (exp_values nt (fst e)) (exp_values nt (fst e')) = false) gs.
Proof. exact @proc_groups_hold. Qed.
Print Assumptions C57_process_groups.

(** The files; the summary is called brief_data.dat. *)
Theorem C57_process_files : forall (S : scalar) (nt : numtext S) (show_e : S -> string) r, faithful nt -> rereads nt r -> (forall x, number_word (show_e x)) ->
  forall fuel sip dir req files texts out, Forall2 (directory_file nt (exp_structs nt) varsim_spec 15 (process_line nt)) files texts ->
  proc_analyze nt show_e fuel sip dir req texts = Ok out ->
  exists gs text, proc_groups nt sip req texts = Ok gs /\
    map fst out = path_in dir "brief_data.dat" :: flat_map (fun g => [linear_path dir (group_name nt (fst g)); logarithmic_path dir (group_name nt (fst g))]) gs /\
    NoDup (map fst out) /\ In (path_in dir "brief_data.dat", text) out /\
    rows_of text (["sys_size"; "dim"; "target_size"; "gamma"; "strength"; "num_agent"; "dt_min"; "dt_max"; "length"; "tmax"; "ensemble"; "long_term_mean"; "long_term_stddev"] ::
                  map (fun g => proc_summary_words show_e (exp_entries nt (fst g)) (snd g)) gs) /\
    (forall v a, In (v, a) gs -> exists lin lg t1 t2, pa_export_lin fuel a = Ok lin /\ pa_export_log fuel a = Ok lg /\
       In (linear_path dir (group_name nt v), t1) out /\ rows_of t1 (map (proc_histogram_words show_e) lin) /\
       In (logarithmic_path dir (group_name nt v), t2) out /\ rows_of t2 (map (proc_histogram_words show_e) lg)).
Proof. exact @process_writes. Qed.
Print Assumptions C57_process_files.

(** Limit of C57: in every row of the summary of processes the word under the title "ensemble" is the mean, and the number of runs stands under "long_term_stddev". *)
Theorem C57_process_ensemble_column_counterexample : forall (S : scalar) (nt : numtext S) (show_e : S -> string) (v : all_args (exp_structs nt)) (a : pana S),
  nth_error (exp_names ++ ["ensemble"; "long_term_mean"; "long_term_stddev"]) 10 = Some "ensemble" /\
  nth_error (proc_summary_words show_e (exp_entries nt v) a) 10 = Some (show_e (pa_mean a)) /\
  nth_error (proc_summary_words show_e (exp_entries nt v) a) 12 = Some (show_usize (pa_ens a)).
Proof.
  intros S nt show_e v a. destruct v as ((? & ? & ? & ? & ?) & (? & ? & ? & ?) & (? & ? & ? & ? & ? & ? & ? & ?) & (? & ? & ? & ? & ?) & ?). repeat split.
Qed.
Print Assumptions C57_process_ensemble_column_counterexample.

(** * The hypotheses are met *)
(** The demo call of Properties_Program with the libm of C38, two lines of two times, and two lines of pairs. *)
Definition two (x y : b64) : list b64 := [x; y].
Definition vec_data : list (list b64) := [two (b64_of_Z 2) (b64_of_Z 3); two (b64_of_Z 4) (b64_of_Z 9)].
Definition proc_data : list (list (b64 * b64)) := [[(b64_of_Z 2, b64_of_Z 3)]; [(b64_of_Z 4, b64_of_Z 9); (b64_of_Z 5, b64_of_Z 1)]].
Definition vec_lines_of (nt : numtext (car (F64 toy))) : list string := map (fun l => fold_right (fun x acc => n_sci nt x ++ " " ++ acc)%string "" l) vec_data.
Definition proc_lines_of (nt : numtext (car (F64 toy))) : list string := map (fun l => fold_right (fun p acc => pair_word (S := F64 toy) nt p ++ " " ++ acc)%string "" l) proc_data.
Definition demo_head : outcome string := file_header (exp_structs (prog_text toy) ++ [varsim_spec]) 15 (join_args (exp_structs (prog_text toy)) (data_part (prog_text toy) (demo_p toy)) (sim_part (demo_p toy))).
Definition demo_sum (ks : list Z) : Z := fold_right (fun k acc => (k + 7 * acc) mod 2 ^ 64)%Z 0%Z ks.
Definition demo_request : bin_request (F64 toy) := BySize (S := F64 toy) (b64_of_Z 1) (b64_of_Z 17) (b64_of_Z 2) (b64_of_Z 2).
Lemma spaced_words (ws : list string) : Forall good ws -> let l := fold_right (fun w acc => w ++ " " ++ acc)%string "" ws in Words l ws /\ clean l.
Proof.
  induction 1 as [|w ws [H1 H2] _ [W C]]; [split; [constructor; exact I|split; exact I]|]. cbn [fold_right]. split.
  - apply Words_cons; auto. unfold whitespace. cbn. auto 10.
  - apply clean_app; [now apply solid_clean|]. apply clean_app; [exact (spaces_clean 1)|exact C].
Qed.
Lemma folded {X} (f : X -> string) l : fold_right (fun x acc => f x ++ " " ++ acc)%string "" l = fold_right (fun w acc => w ++ " " ++ acc)%string "" (map f l).
Proof. induction l as [|x l IH]; [reflexivity|]. cbn [fold_right map]. now rewrite IH. Qed.
Lemma sci_good (nt : numtext (car (F64 toy))) x : faithful nt -> good (n_sci nt x).
Proof. intros F. apply num_good. apply (sci_word (S := F64 toy) nt F). Qed.
Lemma pair_good (nt : numtext (car (F64 toy))) p : faithful nt -> good (pair_word (S := F64 toy) nt p).
Proof.
  intros F. unfold pair_word. split; [discriminate|]. destruct (sci_good nt (fst p) F) as [_ H1], (sci_good nt (snd p) F) as [_ H2]. unfold solid in *.
  assert (O : forall c, ~ whitespace c -> all_chars (fun c => ~ whitespace c) (String c "")) by (intros c Hc; split; [exact Hc|exact I]).
  assert (W : forall c, In c ["("; ","; ")"]%char -> ~ whitespace c) by (intros c [<-|[<-|[<-|[]]]]; unfold whitespace; cbn; intuition discriminate).
  apply all_app. split; [apply O, W; cbn; auto|]. apply all_app. split; [exact H1|].
  apply all_app. split; [apply O, W; cbn; auto|]. apply all_app. split; [exact H2|]. apply O, W. cbn. auto.
Qed.
Lemma demo_file {L} (line_for : string -> L -> Prop) ls xs : Forall2 line_for ls xs -> exists head, demo_head = Ok head /\
  directory_file (prog_text toy) (exp_structs (prog_text toy)) varsim_spec 15 line_for (Some (data_part (prog_text toy) (demo_p toy), sim_part (demo_p toy), xs)) (head ++ lines_text ls)%string.
Proof.
  intros H. destruct (prog_text_faithful toy) as [F _]. destruct (header_is (prog_text toy) (demo_p toy) F (demo_writable toy)) as (head & E). exists head. split; [exact E|].
  constructor; auto. apply settings_survive, demo_writable.
Qed.
(** C57_vector_groups and C57_vector_files. *)
Example demo_vectors : exists text out, Forall2 (directory_file (prog_text toy) (exp_structs (prog_text toy)) varsim_spec 15 (vector_line (S := F64 toy) (prog_text toy)))
    [Some (data_part (prog_text toy) (demo_p toy), sim_part (demo_p toy), vec_data)] [text] /\
  vec_analyze (S := F64 toy) (prog_text toy) b64_show 30 demo_sum "data/analysis_1" 2 demo_request [text] = Ok out /\ length out = 3.
Proof.
  assert (H : Forall2 (vector_line (S := F64 toy) (prog_text toy)) (vec_lines_of (prog_text toy)) vec_data).
  { unfold vec_lines_of. destruct (prog_text_faithful toy) as [F _]. generalize vec_data. intros l. induction l as [|x l IH]; [constructor|]. cbn [map]. constructor; [|exact IH].
    rewrite folded. unfold vector_line. apply spaced_words. apply Forall_map, Forall_forall. intros y _. now apply sci_good. }
  destruct (demo_file _ _ _ H) as (head & E & D). exists (head ++ lines_text (vec_lines_of (prog_text toy)))%string.
  assert (C : match demo_head with Ok h => match vec_analyze (S := F64 toy) (prog_text toy) b64_show 30 demo_sum "data/analysis_1" 2 demo_request [h ++ lines_text (vec_lines_of (prog_text toy))]%string
    with Ok o => Nat.eqb (length o) 3 | _ => false end | _ => false end = true) by (vm_compute; reflexivity).
  rewrite E in C. destruct (vec_analyze _ _ _ _ _ _ _ _) as [out| | |]; try discriminate. exists out. split; [constructor; [exact D|constructor]|]. split; [reflexivity|]. now apply Nat.eqb_eq.
Qed.
(** C57_process_groups and C57_process_files. *)
Example demo_processes : exists text out, Forall2 (directory_file (prog_text toy) (exp_structs (prog_text toy)) varsim_spec 15 (process_line (S := F64 toy) (prog_text toy)))
    [Some (data_part (prog_text toy) (demo_p toy), sim_part (demo_p toy), proc_data)] [text] /\
  proc_analyze (S := F64 toy) (prog_text toy) b64_show 30 demo_sum "data/analysis_1" demo_request [text] = Ok out /\ length out = 3.
Proof.
  assert (H : Forall2 (process_line (S := F64 toy) (prog_text toy)) (proc_lines_of (prog_text toy)) proc_data).
  { unfold proc_lines_of. destruct (prog_text_faithful toy) as [F _]. generalize proc_data. intros l. induction l as [|x l IH]; [constructor|]. cbn [map]. constructor; [|exact IH].
    rewrite folded. unfold process_line. apply spaced_words. apply Forall_map, Forall_forall. intros y _. now apply pair_good. }
  destruct (demo_file _ _ _ H) as (head & E & D). exists (head ++ lines_text (proc_lines_of (prog_text toy)))%string.
  assert (C : match demo_head with Ok h => match proc_analyze (S := F64 toy) (prog_text toy) b64_show 30 demo_sum "data/analysis_1" demo_request [h ++ lines_text (proc_lines_of (prog_text toy))]%string
    with Ok o => Nat.eqb (length o) 3 | _ => false end | _ => false end = true) by (vm_compute; reflexivity).
  rewrite E in C. destruct (proc_analyze _ _ _ _ _ _ _) as [out| | |]; try discriminate. exists out. split; [constructor; [exact D|constructor]|]. split; [reflexivity|]. now apply Nat.eqb_eq.
Qed.
(** C57_wrong_width_fails: the same file analysed with three columns. *)
Example demo_width : forall text, Forall2 (directory_file (prog_text toy) (exp_structs (prog_text toy)) varsim_spec 15 (vector_line (S := F64 toy) (prog_text toy)))
    [Some (data_part (prog_text toy) (demo_p toy), sim_part (demo_p toy), vec_data)] [text] ->
  forall out, vec_analyze (S := F64 toy) (prog_text toy) b64_show 30 demo_sum "data/analysis_1" 3 demo_request [text] <> Ok out.
Proof.
  intros text H out. destruct (prog_text_faithful toy) as [F RR].
  refine (C57_wrong_width_fails (F64 toy) (prog_text toy) b64_show whole F RR 30 demo_sum "data/analysis_1" 3 demo_request
    [Some (data_part (prog_text toy) (demo_p toy), sim_part (demo_p toy), vec_data)] [text] (data_part (prog_text toy) (demo_p toy)) (sim_part (demo_p toy)) vec_data
    (nth 0 vec_data []) _ H _ _ _ out); [discriminate|now left|now left|discriminate].
Qed.
