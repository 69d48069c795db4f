(** Property C68: line ends of data files.
    [with_crlf] (Spec_Lines) writes each end of a line as "\r\n"; [read_data] and [analyze_dir] are the reading of a data file and of a directory (Model_Program),
    for any structures and any of the three kinds of analysis. *)
From Coq Require Import String Ascii NArith Reals ZArith List Lra Lia.
From Verif Require Import Base Scalar Float64 Model_LinkedList Model_Position Model_System Model_Text Spec_Text Proof_Text Proof_Text4 Model_Args Spec_Args Proof_Args Model_Agent Model_Time Model_Analysis Model_Run Model_Program Spec_Program Proof_Program Proof_Program3 Spec_Lines Proof_Lines Proof_Lines2 Properties_Program.
Import ListNotations.
Local Open Scope nat_scope.
Local Open Scope string_scope.
Local Open Scope list_scope.
Local Notation length := List.length.

(** * C68 *)
(** The lines of a text are the same with "\r\n" at each end of a line, *)
Theorem C68_lines : forall s, without carriage_return s -> text_lines (with_crlf s) = text_lines s.
Proof. exact crlf_lines. Qed.
Print Assumptions C68_lines.
(** and so are the configuration and the data read from a file, and the results for a directory of such files, some or all of them changed. *)
Theorem C68_file : forall specs sim s, without carriage_return s -> read_data specs sim (with_crlf s) = read_data specs sim s.
Proof. exact crlf_read. Qed.
Print Assumptions C68_file.
Theorem C68_directory : forall specs sim (S : scalar) (values : all_args specs -> list S) (A : Type) sip (fresh : outcome A) line draw empty texts, Forall (without carriage_return) texts ->
  analyze_dir specs sim values sip fresh line draw empty (map with_crlf texts) = analyze_dir specs sim values sip fresh line draw empty texts.
Proof. intros specs sim S values A sip fresh line draw empty texts H. unfold analyze_dir. now rewrite read_dir_crlf. Qed.
Print Assumptions C68_directory.
(** In particular for the files of runs, whose texts have no carriage return. *)
Theorem C68_run_files : forall (S : scalar) (nt : numtext S) (L : Type) specs sim w (line_for : string -> L -> Prop) v s xs text, faithful nt -> incl (specs ++ [sim]) (all_specs nt) ->
  (forall l x, line_for l x -> without carriage_return l) -> directory_file nt specs sim w line_for (Some (v, s, xs)) text ->
  read_data specs sim (with_crlf text) = read_data specs sim text.
Proof. intros S nt L specs sim w line_for v s xs text F I C D. apply crlf_read. exact (file_no_cr nt F specs sim w line_for v s xs text C (known_incl nt _ I) D). Qed.
Print Assumptions C68_run_files.
(** The end of the last line may be missing. *)
Theorem C68_last_line : forall s l, without line_feed l -> l <> "" -> text_lines ((s ++ l) ++ newline)%string = text_lines (s ++ l)%string.
Proof. exact last_line_any. Qed.
Print Assumptions C68_last_line.
(** Whatever is appended to a data file whose last line is ended adds to the data and changes nothing else: configuration and earlier data stay as they are. *)
Theorem C68_appended : forall specs sim s t v w ls, read_data specs sim (s ++ newline)%string = Ok (v, w, ls) ->
  read_data specs sim ((s ++ newline) ++ t)%string = Ok (v, w, (ls ++ text_lines t)%list).
Proof. exact more_data. Qed.
Print Assumptions C68_appended.

(** Limit of C68: a file that ends inside a number (the beginning [t] of it was written) is not recognised as incomplete: what stands there is one more line of data,
    counted with the number [y] it happens to show, and the analysis panics if it shows none. *)
Theorem C68_cut_number_counterexample : forall specs sim (S : scalar) (nt : numtext S) s t v w ls, read_data specs sim (s ++ newline)%string = Ok (v, w, ls) ->
  without line_feed t -> without carriage_return t -> t <> "" ->
  read_data specs sim ((s ++ newline) ++ t)%string = Ok (v, w, (ls ++ [t])%list) /\
  (forall y (a : tana S), n_parse nt (trim t) = Some y -> ta_text_line nt a t = ta_add a y) /\
  (forall a : tana S, n_parse nt (trim t) = None -> ta_text_line nt a t = Panic).
Proof.
  intros specs sim S nt s t v w ls E H1 H2 N. split; [rewrite (more_data _ _ _ t _ _ _ E), text_line_one by assumption; reflexivity|].
  split; unfold ta_text_line; [intros y a ->; reflexivity|intros a ->; reflexivity].
Qed.
Print Assumptions C68_cut_number_counterexample.

(** * The hypotheses are met *)
(** A text of three lines; the same with "\r\n". *)
Example crlf_case : text_lines ("a" ++ newline ++ "b c" ++ newline ++ newline)%string = ["a"; "b c"; ""] /\
  with_crlf ("a" ++ newline ++ "b c" ++ newline)%string = ("a" ++ String (ascii_of_nat 13) newline ++ "b c" ++ String (ascii_of_nat 13) newline)%string.
Proof. split; reflexivity. Qed.
(** The file of a run of C54 has no carriage return, its last line is ended and it is read, so all theorems above apply to it. *)
Example run_case : forall lm (G : rng (F64 lm)) (rng_seed : N -> rstate G) inner pf fuel, exists path text o s v w ls,
  exp_program (prog_text lm) b64_as_u128 rng_seed inner pf fuel (data_part (prog_text lm) (demo_p lm)) (sim_part (demo_p lm)) = RunResult (Some (path, text)) o /\
  without carriage_return text /\ text = (s ++ newline)%string /\ read_data (exp_structs (prog_text lm)) varsim_spec text = Ok (v, w, ls).
Proof.
  intros lm G rng_seed inner pf fuel. destruct (prog_text_faithful lm) as [F R]. destruct (demo_run lm G rng_seed inner pf fuel) as (text & o & ts & E & D).
  destruct (file_ended (prog_text lm) _ _ _ _ _ _ _ _ D) as (s & Es).
  destruct (C54_run_again _ (prog_text lm) whole (demo_p lm) G b64_as_u128 rng_seed inner pf fuel _ F R (demo_writable lm) (demo_accepted lm) (demo_seed lm)) as (path & text' & o' & v & w & ls & E' & Hr & _).
  assert (X : text' = text) by congruence. subst text'.
  exists path, text, o', s, v, w, ls. split; [exact E'|]. split; [|split; [exact Es|exact Hr]].
  refine (file_no_cr (prog_text lm) F _ _ _ _ _ _ _ _ _ _ D); [intros l x Hl; exact (proj1 (proj2 (number_line_ok (prog_text lm) whole F R l x Hl)))|apply exp_known].
Qed.
