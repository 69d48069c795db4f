(** Model of the files [analyze] writes for [TimeVecAnalysis] (src/analysis.rs 773-861, 864-979) and [ProcessAnalysis] (1175-1243, 1246-1362), for the data set
    of examples/mfpt_exp.rs.  Simplifications as in [Model_Program]; when an export fails the files already written are not shown;
    [fuel] bounds the [while] loops of the exports. *)
From Coq Require Import String Ascii NArith ZArith.
From Verif Require Import Base Scalar Model_Text Model_Args Model_Analysis Model_Program.
Local Open Scope nat_scope.
Local Open Scope string_scope.
Local Open Scope list_scope.

(** ** The texts of one analysis *)
Section Texts.
Context {S : scalar} (show_e : S -> string).
(** [export_mean_stddev] and the line feed of [export]. *)
(* src/analysis.rs 773-780 [export_mean_stddev]; src/analysis.rs 844-846 [export] *)
Definition vec_mean_text (width : nat) (a : tvec S) : string :=
  (pad width (show_usize (tv_ens a)) ++ tab ++
   fold_right (fun mq acc => pad width (show_e (fst mq)) ++ tab ++ pad width (show_e (snd mq)) ++ tab ++ acc)%string newline (combine (tv_means a) (tv_sqs a)))%string.
(** a line of a distribution: time, then count and density of each column. *)
(* src/analysis.rs 783-811 [export_distribution]; src/analysis.rs 814-841 [export_log_scaled_distribution] *)
Definition vec_row_text (width : nat) (row : S * list (nat * S)) : string :=
  (lpad width (show_e (fst row)) ++ tab ++
   fold_right (fun nx acc => lpad width (show_usize (fst nx)) ++ tab ++ lpad width (show_e (snd nx)) ++ tab ++ acc)%string newline (snd row))%string.
(* src/analysis.rs 783-811 [export_distribution]; src/analysis.rs 814-841 [export_log_scaled_distribution] *)
Definition vec_dist_text (width : nat) (rows : list (S * list (nat * S))) : string :=
  fold_right (fun r acc => vec_row_text width r ++ acc)%string "" rows.
(** [export_mean_stddev] of a process: a blank precedes the ensemble. *)
(* src/analysis.rs 1175-1180 [export_mean_stddev]; src/analysis.rs 1226-1228 [export] *)
Definition proc_mean_text (width : nat) (a : pana S) : string :=
  (pad width (show_e (pa_mean a)) ++ tab ++ pad width (show_e (pa_sq a)) ++ tab ++ " " ++ pad width (show_usize (pa_ens a)) ++ tab ++ newline)%string.
(* src/analysis.rs 1183-1202 [export_distribution]; src/analysis.rs 1205-1223 [export_log_scaled_distribution] *)
Definition proc_dist_text (width : nat) (rows : list (S * nat * S * S)) : string :=
  fold_right (fun r acc => let '(t, n, x, dx) := r in
    lpad width (show_e t) ++ tab ++ lpad width (show_usize n) ++ tab ++ lpad width (show_e x) ++ tab ++ lpad width (show_e dx) ++ newline ++ acc)%string "" rows.
End Texts.

(** ** The files of an analysis: the summary and two files for each group.  [titles]: [export_form!]; [brief]: name of the summary;
    [row]: [export_mean_stddev]; [lin], [lg]: the two distributions. *)
Section Files.
Context {S : scalar} {A : Type} (show_e : S -> string) (titles : list string) (brief : string).
Variables (row : nat -> A -> string) (lin lg : A -> outcome string).
(* src/analysis.rs 844-861 [export]; src/analysis.rs 1226-1243 [export] *)
Fixpoint kind_files (dir : string) (groups : list (string * A)) : outcome (list (string * string)) :=
  match groups with
  | [] => Ok []
  | (name, a) :: r =>
    do t1 <- lin a; do t2 <- lg a; do rest <- kind_files dir r;
    Ok ((path_in dir (path_in "linear_distribution" name), t1) :: (path_in dir (path_in "logarithmic_distribution" name), t2) :: rest)
  end.
(* src/analysis.rs 921-931; src/analysis.rs 967-977; src/analysis.rs 1300-1310; src/analysis.rs 1350-1360 *)
Definition kind_results (width : nat) (dir : string) (names : list string) (groups : list (string * list (entry S) * A)) : outcome (list (string * string)) :=
  do fs <- kind_files dir (map (fun g => (fst (fst g), snd g)) groups);
  Ok ((path_in dir brief,
       export_form width names ++ export_form width titles ++ newline ++
       fold_right (fun g acc => export_data (entry_text show_e) width (snd (fst g)) ++ row width (snd g) ++ acc) "" groups)%string :: fs).
End Files.

(** ** [analyze] on the texts found in the data directory *)
Section Analyses.
Context {S : scalar} (nt : numtext S) (show_e : S -> string).
(* src/analysis.rs 967-977; src/analysis.rs 1350-1360 *)
Fixpoint label_groups {A : Type} (gs : list (all_args (exp_structs nt) * A)) : option (list (string * list (entry S) * A)) :=
  match gs with
  | [] => Some []
  | (v, a) :: r => match exp_name nt v, label_groups r with Some n, Some l => Some ((n, exp_entries nt v, a) :: l) | _, _ => None end
  end.
(* src/analysis.rs 864-979 [analyze] *)
Definition vec_groups (sip : list Z -> Z) (nvar : nat) (req : bin_request S) (texts : list string) : outcome (list (all_args (exp_structs nt) * tvec S)) :=
  do b <- bin_sizes req; let '(mn, mx, size, lsize) := b in
  analyze_dir (exp_structs nt) varsim_spec (exp_values nt) sip (tv_fresh mn mx size lsize nvar) (tv_text_line nt) tv_draw (fun a => (tv_ens a =? 0)%nat) texts.
(* src/analysis.rs 1246-1362 [analyze] *)
Definition proc_groups (sip : list Z -> Z) (req : bin_request S) (texts : list string) : outcome (list (all_args (exp_structs nt) * pana S)) :=
  do b <- bin_sizes req; let '(mn, mx, size, lsize) := b in
  analyze_dir (exp_structs nt) varsim_spec (exp_values nt) sip (pa_fresh mn mx size lsize) (pa_text_line nt) pa_draw (fun a => (pa_ens a =? 0)%nat) texts.
(* src/analysis.rs 770; src/analysis.rs 844-861 [export]; src/analysis.rs 864-979 [analyze] *)
Definition vec_analyze (fuel : nat) (sip : list Z -> Z) (summary : string) (nvar : nat) (req : bin_request S) (texts : list string) : outcome (list (string * string)) :=
  do gs <- vec_groups sip nvar req texts;
  match label_groups gs with
  | Some l => kind_results show_e ["ensemble"; "meantime"; "stddev"] "brief_result.dat" (vec_mean_text show_e)
                (fun a => do rows <- tv_export_lin fuel a; Ok (vec_dist_text show_e exp_width rows))
                (fun a => do rows <- tv_export_log fuel a; Ok (vec_dist_text show_e exp_width rows)) exp_width summary exp_names l
  | None => Panic
  end.
(* src/analysis.rs 1172; src/analysis.rs 1226-1243 [export]; src/analysis.rs 1246-1362 [analyze] *)
Definition proc_analyze (fuel : nat) (sip : list Z -> Z) (summary : string) (req : bin_request S) (texts : list string) : outcome (list (string * string)) :=
  do gs <- proc_groups sip req texts;
  match label_groups gs with
  | Some l => kind_results show_e ["ensemble"; "long_term_mean"; "long_term_stddev"] "brief_data.dat" (proc_mean_text show_e)
                (fun a => do rows <- pa_export_lin fuel a; Ok (proc_dist_text show_e exp_width rows))
                (fun a => do rows <- pa_export_log fuel a; Ok (proc_dist_text show_e exp_width rows)) exp_width summary exp_names l
  | None => Panic
  end.
End Analyses.
