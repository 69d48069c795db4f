(** Specification vocabulary for the whole program and for the analysis of a directory of data files. *)
From Coq Require Import String Ascii NArith ZArith.
From Verif Require Import Base Scalar Model_LinkedList Model_Position Model_System Model_Agent Model_Time Model_Text Spec_Text Model_Args Spec_Args Model_Analysis Spec_Analysis Model_Run Spec_Run2 Model_Program.
Local Open Scope nat_scope.
Local Open Scope string_scope.
Local Open Scope list_scope.
Local Notation length := List.length.

(** The text of consecutive lines. *)
Definition lines_text (ls : list string) : string := fold_right (fun l acc => l ++ newline ++ acc)%string "" ls.
(** A number written with five digits is read back as [r] of it. *)
Definition rereads {S : scalar} (nt : numtext S) (r : S -> S) : Prop := forall x, n_parse nt (n_sci nt x) = Some (r x).

(** How the three kinds of data stand on a line: one number; numbers separated by white space; pairs separated by white space. *)
Section Formats.
Context {S : scalar} (nt : numtext S).
Definition number_line (l : string) (x : S) : Prop := l = n_sci nt x.
Definition vector_line (l : string) (xs : list S) : Prop := Words l (map (n_sci nt) xs) /\ without line_feed l /\ without carriage_return l.
Definition pair_word (p : S * S) : string := ("(" ++ n_sci nt (fst p) ++ "," ++ n_sci nt (snd p) ++ ")")%string.
Definition process_line (l : string) (ps : list (S * S)) : Prop := Words l (map pair_word ps) /\ without line_feed l /\ without carriage_return l.

(** A file of the data directory: the configuration of a run followed by its data, or a file whose configuration cannot be read
    ([DataSet::from_file] returns an error). *)
Inductive directory_file (specs : list argspec) (sim : argspec) (width : nat) {L : Type} (line_for : string -> L -> Prop) :
    option (all_args specs * args_of sim * list L) -> string -> Prop :=
| DF_data v s xs ls head : args_survive nt (specs ++ [sim]) (join_args specs v s) ->
    file_header (specs ++ [sim]) width (join_args specs v s) = Ok head -> Forall2 line_for ls xs ->
    directory_file specs sim width line_for (Some (v, s, xs)) (head ++ lines_text ls)%string
| DF_foreign text e : read_data specs sim text = Err e -> directory_file specs sim width line_for None text.
End Formats.
(** The parameters and the data of a file, the data as they are read back. *)
Definition as_read {S : scalar} {specs sim} {L : Type} (values : all_args specs -> list S) (r : L -> L) (f : option (all_args specs * args_of sim * list L)) :
    option (list S * list L) :=
  match f with Some (v, s, xs) => Some (values v, map r xs) | None => None end.
(** The data of the files with the same data set as [v], in the order in which they are read. *)
Definition data_of {S : scalar} {specs sim} {L : Type} (sip : list Z -> Z) (values : all_args specs -> list S) (v : all_args specs)
    (files : list (option (all_args specs * args_of sim * list L))) : list L :=
  flat_map (fun f => match f with Some (w, _, xs) => if same_dataset sip (values v) (values w) then xs else [] | None => [] end) files.
Definition both {A : Type} (r : A -> A) (p : A * A) : A * A := (r (fst p), r (snd p)).
(** Results of an analysis with the data sets replaced by their numbers. *)
Definition report {S : scalar} {specs A} (values : all_args specs -> list S) (o : outcome (list (all_args specs * A))) : outcome (list (list S * A)) :=
  match o with
  | Ok r => Ok (map (fun e => (values (fst e), snd e)) r)
  | Err e => Err e | Panic => Panic | Fuel => Fuel
  end.
(** [rows_of text rows]: the lines of the text, cut at white space, are the given rows. *)
Definition rows_of (text : string) (rows : list (list string)) : Prop := Forall2 Words (text_lines text) rows.

(** The name of the histogram files of a data set: its parameters in the order of the column titles. *)
Definition shown {S : scalar} (nt : numtext S) (e : entry S) : string := match e with EFloat x => n_show nt x | EInt n => show_usize n end.
Definition group_name {S : scalar} (nt : numtext S) (v : all_args (exp_structs nt)) : string :=
  ("RTS_N_PTL_EXP_Agent" ++ fold_right (fun ne acc => "_" ++ fst ne ++ "_" ++ shown nt (snd ne) ++ acc) "" (combine exp_names (exp_entries nt v)) ++ ".dat")%string.
(** A row of the summary: the parameters, then mean, deviation and number of samples; a row of a histogram. *)
Definition summary_words {S : scalar} (show_e : S -> string) (entries : list (entry S)) (a : tana S) : list string :=
  map (fun e => match e with EFloat x => show_e x | EInt n => show_usize n end) entries ++ [show_e (ta_mean a); show_e (ta_sq a); show_usize (ta_ens a)].
Definition histogram_words {S : scalar} (show_e : S -> string) (row : S * nat * S) : list string :=
  let '(t, n, x) := row in [show_e t; show_usize n; show_e x].

(** The settings of one call of the program examples/mfpt_exp.rs. *)
Record settings (S : scalar) := Settings {
  p_size : S; p_dim : nat; p_target : pos S; p_tsize : S; p_move : movetype S; p_init : inittype S; p_gamma : S; p_idim : nat; p_strength : S; p_agents : nat;
  p_dtmin : S; p_dtmax : S; p_len : nat; p_tmax : S; p_num : nat; p_idx : nat; p_seed : N; p_dir : string }.
Arguments p_size {S}. Arguments p_dim {S}. Arguments p_target {S}. Arguments p_tsize {S}. Arguments p_move {S}. Arguments p_init {S}. Arguments p_gamma {S}. Arguments p_idim {S}.
Arguments p_strength {S}. Arguments p_agents {S}. Arguments p_dtmin {S}. Arguments p_dtmax {S}. Arguments p_len {S}. Arguments p_tmax {S}. Arguments p_num {S}. Arguments p_idx {S}.
Arguments p_seed {S}. Arguments p_dir {S}.
Section Settings.
Context {S : scalar} (nt : numtext S).
(** ... as the values of its structures, *)
Definition sys_part (p : settings S) : args_of (circ_spec nt) := (ContinuousCircular, (Reflection, (p_size p, (p_dim p, tt)))).
Definition target_part (p : settings S) : args_of (bulk_spec nt) := (ContinuousInBulk, (p_target p, (p_tsize p, tt))).
Definition agent_part (p : settings S) : args_of (exp_spec nt) :=
  (ContinuousPassiveInteracting, (p_move p, (p_init p, (p_gamma p, (p_idim p, (p_strength p, (p_agents p, tt))))))).
Definition clock_part (p : settings S) : args_of (expstep_spec nt) := (p_dtmin p, (p_dtmax p, (p_len p, (p_tmax p, tt)))).
Definition sim_part (p : settings S) : args_of varsim_spec := (p_num p, (p_idx p, (p_seed p, (p_dir p, tt)))).
Definition data_part (p : settings S) : all_args (exp_structs nt) := (sys_part p, (target_part p, (agent_part p, (clock_part p, tt)))).
(** ... and as the words of a command line. *)
Definition command (p : settings S) (ws : list string) : Prop := exists b1 b2 b3 b4 b5,
  ws = b1 ++ b2 ++ b3 ++ b4 ++ b5 /\
  word_values (a_vars (circ_spec nt)) b1 (p_size p, (p_dim p, tt)) /\
  word_values (a_vars (bulk_spec nt)) b2 (p_target p, (p_tsize p, tt)) /\
  word_values (a_vars (exp_spec nt)) b3 (p_move p, (p_init p, (p_gamma p, (p_idim p, (p_strength p, (p_agents p, tt)))))) /\
  word_values (a_vars (expstep_spec nt)) b4 (clock_part p) /\
  word_values (a_vars varsim_spec) b5 (sim_part p).
(** Settings whose texts can be written to a data file and read back. *)
Record writable (p : settings S) : Prop := Writable {
  w_dim : usize_fits (p_dim p); w_target : p_target p <> []; w_init : forall q, p_init p = SpecificPosition q -> q <> [];
  w_idim : usize_fits (p_idim p); w_agents : usize_fits (p_agents p); w_len : usize_fits (p_len p); w_num : usize_fits (p_num p);
  w_idx : usize_fits (p_idx p); w_seed : (p_seed p < 2 ^ 128)%N; w_dir : one_line (p_dir p) /\ trimmed (p_dir p) }.
(** Settings a run accepts: a system, a clock, a target and agents of one dimension that move. *)
Record accepted (p : settings S) : Prop := Accepted {
  a_size : (p_size p <=? s0)%S = false; a_dim : p_dim p <> 0; a_target : length (p_target p) = p_dim p;
  a_idim : p_idim p = p_dim p; a_move : exists c, p_move p = Brownian c; a_init : forall q, p_init p = SpecificPosition q -> length q = p_dim p;
  a_tmax : (p_tmax p <? s0)%S = false; a_dtmin : (p_dtmin p <? s0)%S = false; a_dts : (p_dtmax p <? p_dtmin p)%S = false; a_len : 10 <= p_len p }.
(** The clock such a run uses. *)
Definition run_clock (p : settings S) : expstep S :=
  ExpStep (Model_Time.Exponential (p_dtmin p) (p_dtmax p) (p_len p)) s0 (p_dtmin p) (lit 12 10) (if (p_tmax p <? lit 1 (10 ^ 15))%S then fmax else p_tmax p) 0.
(** The number added to the seed. *)
Definition run_hash (p : settings S) : S := seed_hash (p_size p) (p_dim p) (p_tsize p) (p_agents p) (p_strength p) (p_gamma p) (p_idx p).
(** The path of the data file. *)
Definition run_path (p : settings S) : string :=
  let num n v := ("_" ++ n ++ "_" ++ n_show nt v)%string in let int n v := ("_" ++ n ++ "_" ++ show_usize v)%string in
  (p_dir p ++ "/" ++ "RTS_N_PTL_EXP_Agent" ++ num "sys_size" (p_size p) ++ int "dim" (p_dim p) ++ num "target_size" (p_tsize p) ++
   num "gamma" (p_gamma p) ++ num "strength" (p_strength p) ++ int "num_agent" (p_agents p) ++
   num "dt_min" (p_dtmin p) ++ num "dt_max" (p_dtmax p) ++ int "length" (p_len p) ++ num "tmax" (p_tmax p) ++ int "idx_set" (p_idx p) ++ ".dat")%string.
(** The same settings with another index, seed and directory. *)
Definition with_index (p : settings S) (idx : nat) (seed : N) (dir : string) : settings S :=
  Settings S (p_size p) (p_dim p) (p_target p) (p_tsize p) (p_move p) (p_init p) (p_gamma p) (p_idim p) (p_strength p) (p_agents p)
    (p_dtmin p) (p_dtmax p) (p_len p) (p_tmax p) (p_num p) idx seed dir.
End Settings.
