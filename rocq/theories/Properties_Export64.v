(** C55, C57 and C62, continued: in double precision the analyses do not fail. *)
From Coq Require Import Reals String ZArith List Lra Lia Bool.
From Flocq Require Import Core.
From Flocq.IEEE754 Require Import BinarySingleNaN.
From Verif Require Import Base Scalar Float64 Spec_Position Proof_Norm64 Proof_System4 Model_Text Spec_Text Proof_Text Model_Args Spec_Args Model_Analysis Spec_Analysis Proof_Analysis Proof_Analysis8 Spec_Hist64 Proof_Hist64e Spec_Export64 Proof_Export64 Proof_Export64c
  Model_Run Model_Program Spec_Program Proof_Text3 Proof_Text4 Proof_Args Proof_Args2 Proof_Args3 Proof_Program Proof_Program2 Proof_Program3 Proof_Program6 Model_Program2 Spec_Program2 Properties_Program Properties_Program2.
Import ListNotations.
Local Open Scope string_scope.
Local Open Scope list_scope.
Local Notation length := List.length.
Local Open Scope R_scope.

(** * C62 *)
(** With an ample request and a fine log2 a new analysis of vectors is made, it accepts every sequence of rows of the right width - whatever the numbers in them, NaN and infinities
    included -, and both its exports succeed: their loops stop, after at most [N] steps, before they leave the columns. *)
Theorem C62_f64_vector_exports_succeed : forall lm (mn mx size lsize : b64) n, ample_lin lm mn mx size -> ample_log lsize -> fine_log2 lm -> n <> 0%nat ->
  exists a0, tv_fresh (S := F64 lm) mn mx size lsize n = Ok a0 /\
  (forall rows : list (list b64), Forall (fun row => length row = n) rows -> exists a, tv_adds a0 rows = Ok a) /\
  exists N, forall rows a d, tv_adds a0 rows = Ok a -> tv_draw a = Ok d -> exists lin lg, forall fuel, (N < fuel)%nat -> tv_export_lin fuel d = Ok lin /\ tv_export_log fuel d = Ok lg.
Proof. intros lm mn mx size lsize n H1 H2 H3. exact (vec64 lm mn mx size lsize H1 H2 H3 n). Qed.
Print Assumptions C62_f64_vector_exports_succeed.
(** The same for processes. *)
Theorem C62_f64_process_exports_succeed : forall lm (mn mx size lsize : b64), ample_lin lm mn mx size -> ample_log lsize -> fine_log2 lm ->
  exists a0, pa_fresh (S := F64 lm) mn mx size lsize = Ok a0 /\
  (forall ls : list (list (b64 * b64)), exists a, add_lines (pa_line (S := F64 lm)) a0 ls = Ok a) /\
  exists N, forall ls a d, add_lines (pa_line (S := F64 lm)) a0 ls = Ok a -> pa_draw a = Ok d -> exists lin lg, forall fuel, (N < fuel)%nat -> pa_export_lin fuel d = Ok lin /\ pa_export_log fuel d = Ok lg.
Proof. exact proc64. Qed.
Print Assumptions C62_f64_process_exports_succeed.

(** * C55, C57 *)
(** The analysis of a directory succeeds, whatever numbers its data files hold. *)
Theorem C55_f64_ample_analysis_succeeds : forall lm (nt : numtext (car (F64 lm))) r show_e sip dir (mn mx size lsize : b64) files texts,
  ample_lin lm mn mx size -> ample_log lsize -> fine_log2 lm -> faithful nt -> rereads nt r ->
  Forall2 (directory_file nt (exp_structs nt) varsim_spec 15 (number_line nt)) files texts ->
  exists out, exp_analyze nt show_e sip dir (BySize (S := F64 lm) mn mx size lsize) texts = Ok out.
Proof.
  intros lm nt r show_e sip dir mn mx size lsize files texts H1 H2 H3 F R H. destruct (fresh64 lm mn mx size lsize H1 H2 H3) as (t0 & E).
  apply (analysis_succeeds nt r show_e sip dir (BySize (S := F64 lm) mn mx size lsize) mn mx size lsize t0 files texts F R eq_refl E); [|exact H].
  intros xs. pose proof (ta_adds_cases (S := F64 lm) xs (f64_usize_ok lm) t0) as C. replace (existsb (offends t0) xs) with false in C; [exact C|].
  symmetry. apply not_true_iff_false. intros X. apply existsb_exists in X. destruct X as (x & _ & X). rewrite (safe64 lm mn mx size lsize H1 H2 H3 t0 E x) in X. discriminate.
Qed.
Print Assumptions C55_f64_ample_analysis_succeeds.
(** For vectors: if every line of every file has the requested number of values (otherwise the analysis fails, C57_wrong_width_fails). *)
Theorem C57_f64_vector_analysis_succeeds : forall lm (nt : numtext (car (F64 lm))) r show_e sip dir nvar (mn mx size lsize : b64) files texts,
  ample_lin lm mn mx size -> ample_log lsize -> fine_log2 lm -> faithful nt -> rereads nt r -> nvar <> 0%nat ->
  Forall2 (directory_file nt (exp_structs nt) varsim_spec 15 (vector_line nt)) files texts ->
  (forall v s xs x, In (Some (v, s, xs)) files -> In x xs -> length x = nvar) ->
  exists N out, forall fuel, (N < fuel)%nat -> vec_analyze nt show_e fuel sip dir nvar (BySize (S := F64 lm) mn mx size lsize) texts = Ok out.
Proof.
  intros lm nt r show_e sip dir nvar mn mx size lsize files texts H1 H2 H3 F R Hn H W.
  exact (vec_dir64 lm mn mx size lsize H1 H2 H3 nt r show_e F R sip dir nvar (BySize (S := F64 lm) mn mx size lsize) files texts Hn eq_refl H W).
Qed.
Print Assumptions C57_f64_vector_analysis_succeeds.
Theorem C57_f64_process_analysis_succeeds : forall lm (nt : numtext (car (F64 lm))) r show_e sip dir (mn mx size lsize : b64) files texts,
  ample_lin lm mn mx size -> ample_log lsize -> fine_log2 lm -> faithful nt -> rereads nt r ->
  Forall2 (directory_file nt (exp_structs nt) varsim_spec 15 (process_line nt)) files texts ->
  exists N out, forall fuel, (N < fuel)%nat -> proc_analyze nt show_e fuel sip dir (BySize (S := F64 lm) mn mx size lsize) texts = Ok out.
Proof.
  intros lm nt r show_e sip dir mn mx size lsize files texts H1 H2 H3 F R H.
  exact (proc_dir64 lm mn mx size lsize H1 H2 H3 nt r show_e F R sip dir (BySize (S := F64 lm) mn mx size lsize) files texts eq_refl H).
Qed.
Print Assumptions C57_f64_process_analysis_succeeds.

(** * The hypotheses are met *)
(** With a correctly rounded log2: times from 1 to 17, bins of 2, factor 2; and the values [default] uses (up to 1e13 in bins of 1e10, but the factor 2 in place of 1.2). *)
Example good_is_fine : fine_log2 good. Proof. exact good_fine. Qed.
Lemma raised_one : raised (S := F64 good) (b64_of_Z 1) = b64_of_Z 1.
Proof. unfold raised. replace (Scalar.ltb (s := F64 good) (b64_of_Z 1) (lit (s := F64 good) 1 (10 ^ 15))) with false; [reflexivity|]. symmetry. vm_compute. reflexivity. Qed.
Lemma ample_Z (a b c : Z) : (raised (S := F64 good) (b64_of_Z a) : b64) = b64_of_Z a -> (0 <= a <= b)%Z -> (b <= 2 ^ 53)%Z -> (0 < c <= 2 ^ 53)%Z -> (b <= 2 ^ 24 * c)%Z -> ample_lin good (b64_of_Z a) (b64_of_Z b) (b64_of_Z c).
Proof.
  intros E A B C D. unfold ample_lin. rewrite E. destruct (of_Z_exact a ltac:(lia)) as (F1 & V1), (of_Z_exact b ltac:(lia)) as (F2 & V2), (of_Z_exact c ltac:(lia)) as (F3 & V3). rewrite V1, V2, V3.
  assert (P : forall n, (53 <= n)%nat -> IZR (2 ^ 53) <= 2 ^ n). { intros n Hn. apply Rle_trans with (2 ^ 53); [rewrite pow_IZR; apply IZR_le; reflexivity || (apply IZR_le; vm_compute; discriminate)|]. apply Rle_pow; [lra|exact Hn]. }
  do 3 (split; [assumption|]). split; [apply (IZR_le 0); lia|]. split; [split; [apply IZR_le; lia|]|split; [split; [apply (IZR_lt 0); lia|]|]].
  - apply Rle_trans with (2 := P 700%nat ltac:(lia)). apply IZR_le. lia.
  - apply Rle_trans with (2 := P 800%nat ltac:(lia)). apply IZR_le. lia.
  - rewrite pow_IZR, <- mult_IZR. apply IZR_le. change (2 ^ Z.of_nat 24)%Z with (2 ^ 24)%Z. lia.
Qed.
Example ample_small : ample_lin good (b64_of_Z 1) (b64_of_Z 17) (b64_of_Z 2). Proof. apply ample_Z; try lia. exact raised_one. Qed.
Example ample_default : ample_lin good (b64_of_Z 1) (b64_of_Z (10 ^ 13)) (b64_of_Z (10 ^ 10)). Proof. apply ample_Z; try lia. exact raised_one. Qed.
Example ample_two : ample_log (b64_of_Z 2).
Proof. destruct (of_Z_exact 2 ltac:(lia)) as (F & V). unfold ample_log. rewrite V. split; [exact F|]. simpl. lra. Qed.

(** The two files of Properties_Program2, read on a platform with that log2, together with a file that is no data file. *)
Definition vec_text (lm : libm) : list string := map (fun l => fold_right (fun w acc => w ++ " " ++ acc)%string ""%string (map (n_sci (prog_text lm)) l)) vec_data.
Definition proc_text (lm : libm) : list string := map (fun l => fold_right (fun w acc => w ++ " " ++ acc)%string ""%string (map (pair_word (S := F64 lm) (prog_text lm)) l)) proc_data.
Lemma sci_fine lm (x : b64) : Proof_Program4.good (n_sci (prog_text lm) x).
Proof. destruct (prog_text_faithful lm) as [F _]. apply Proof_Program4.num_good. exact (sci_word (S := F64 lm) (prog_text lm) F x). Qed.
Lemma pair_fine lm (p : b64 * b64) : Proof_Program4.good (pair_word (S := F64 lm) (prog_text lm) p).
Proof.
  unfold pair_word. split; [discriminate|]. destruct (sci_fine lm (fst p)) as [_ H1], (sci_fine lm (snd p)) as [_ H2]. unfold solid in *.
  assert (O : forall c, ~ whitespace c -> all_chars (fun c => ~ whitespace c) (String c "")) by (intros c Hc; split; [exact Hc|exact I]).
  assert (W : forall c, In c ["("; ","; ")"]%char -> ~ whitespace c) by (intros c [<-|[<-|[<-|[]]]]; unfold whitespace; cbn; intuition discriminate).
  apply all_app. split; [apply O, W; cbn; auto|]. apply all_app. split; [exact H1|].
  apply all_app. split; [apply O, W; cbn; auto|]. apply all_app. split; [exact H2|]. apply O, W. cbn. auto.
Qed.
Lemma written_file lm {L} (line_for : string -> L -> Prop) ls xs : Forall2 line_for ls xs ->
  exists text, directory_file (prog_text lm) (exp_structs (prog_text lm)) varsim_spec 15 line_for (Some (data_part (prog_text lm) (demo_p lm), sim_part (demo_p lm), xs)) text.
Proof.
  intros H. destruct (prog_text_faithful lm) as [F _]. destruct (header_is (prog_text lm) (demo_p lm) F (demo_writable lm)) as (head & E). exists (head ++ lines_text ls)%string.
  constructor; auto. apply settings_survive, demo_writable.
Qed.
Definition demo_set lm {L} (xs : list L) := Some (data_part (prog_text lm) (demo_p lm), sim_part (demo_p lm), xs).
Example vec_demo : exists text N out, Forall2 (directory_file (prog_text good) (exp_structs (prog_text good)) varsim_spec 15 (vector_line (S := F64 good) (prog_text good))) [demo_set good vec_data] [text] /\
  forall fuel, (N < fuel)%nat -> vec_analyze (S := F64 good) (prog_text good) b64_show fuel demo_sum "data/analysis_1"%string 2 (BySize (S := F64 good) (b64_of_Z 1) (b64_of_Z 17) (b64_of_Z 2) (b64_of_Z 2)) [text] = Ok out.
Proof.
  assert (H : Forall2 (vector_line (S := F64 good) (prog_text good)) (vec_text good) vec_data).
  { unfold vec_text. generalize vec_data. intros l. induction l as [|x l IH]; [constructor|]. cbn [map]. constructor; [|exact IH].
    unfold vector_line. apply spaced_words. apply Forall_map, Forall_forall. intros y _. apply sci_fine. }
  destruct (written_file good _ _ _ H) as (text & D). destruct (prog_text_faithful good) as [F R]. exists text.
  assert (A : Forall2 (directory_file (prog_text good) (exp_structs (prog_text good)) varsim_spec 15 (vector_line (S := F64 good) (prog_text good))) [demo_set good vec_data] [text]) by (constructor; [exact D|constructor]).
  destruct (C57_f64_vector_analysis_succeeds good (prog_text good) whole b64_show demo_sum "data/analysis_1"%string 2 (b64_of_Z 1) (b64_of_Z 17) (b64_of_Z 2) (b64_of_Z 2) _ _ ample_small ample_two good_fine F R ltac:(discriminate) A) as (N & out & HN).
  { intros v s xs x [E|[]] Hx. unfold demo_set in E. assert (Ex : xs = vec_data) by congruence. subst xs. destruct Hx as [<-|[<-|[]]]; reflexivity. }
  exists N, out. split; [exact A|exact HN].
Qed.
Example proc_demo : exists text N out, Forall2 (directory_file (prog_text good) (exp_structs (prog_text good)) varsim_spec 15 (process_line (S := F64 good) (prog_text good))) [demo_set good proc_data] [text] /\
  forall fuel, (N < fuel)%nat -> proc_analyze (S := F64 good) (prog_text good) b64_show fuel demo_sum "data/analysis_1"%string (BySize (S := F64 good) (b64_of_Z 1) (b64_of_Z 17) (b64_of_Z 2) (b64_of_Z 2)) [text] = Ok out.
Proof.
  assert (H : Forall2 (process_line (S := F64 good) (prog_text good)) (proc_text good) proc_data).
  { unfold proc_text. generalize proc_data. intros l. induction l as [|x l IH]; [constructor|]. cbn [map]. constructor; [|exact IH].
    unfold process_line. apply spaced_words. apply Forall_map, Forall_forall. intros y _. apply pair_fine. }
  destruct (written_file good _ _ _ H) as (text & D). destruct (prog_text_faithful good) as [F R]. exists text.
  assert (A : Forall2 (directory_file (prog_text good) (exp_structs (prog_text good)) varsim_spec 15 (process_line (S := F64 good) (prog_text good))) [demo_set good proc_data] [text]) by (constructor; [exact D|constructor]).
  destruct (C57_f64_process_analysis_succeeds good (prog_text good) whole b64_show demo_sum "data/analysis_1"%string (b64_of_Z 1) (b64_of_Z 17) (b64_of_Z 2) (b64_of_Z 2) _ _ ample_small ample_two good_fine F R A) as (N & out & HN).
  exists N, out. split; [exact A|exact HN].
Qed.
