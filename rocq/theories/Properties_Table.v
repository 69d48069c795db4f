(** Property C69: tables and configurations are laid out in columns.
    [cell_of], [right_cell_of], [config_line], [room] (Spec_Table) describe a line by the positions of its characters. *)
From Coq Require Import String Ascii NArith ZArith List Lia.
From Verif Require Import Base Scalar Float64 Model_Text Spec_Text Proof_Text Proof_Text4 Model_Args Spec_Args Model_Analysis Model_Table Model_Program Spec_Program Spec_Disk Spec_Table Proof_Table Proof_Table2.
Import ListNotations.
Local Open Scope nat_scope.
Local Open Scope string_scope.
Local Open Scope list_scope.
Local Notation length := List.length.

(** * C69 *)
(** A configuration has one line for each field, in their order; the colons of all names not longer than the width stand in one column. *)
Theorem C69_configuration : forall fs w v text, print_configuration fs w v = Ok text ->
  exists ts ls, texts_of fs v ts /\ length ls = length fs /\ length ts = length fs /\ text = lines_text ls /\
  forall i f t, nth_error fs i = Some f -> nth_error ts i = Some t -> exists l, nth_error ls i = Some l /\ config_line l w (f_name f) t.
Proof. exact config_lines. Qed.
Print Assumptions C69_configuration.
(** Titles: one cell for each name, nothing between the cells and nothing after them. *)
Theorem C69_titles : forall w names, String.length (export_form w names) = room w 0 names (length names) /\
  (forall k s, nth_error names k = Some s -> cell_of (export_form w names) w 0 names k s) /\ pub_export_form w names = export_form w names.
Proof.
  intros w names. split; [|split; [|reflexivity]].
  - rewrite form_cells, cells_length. cbn [String.length]. lia.
  - intros k s E. rewrite form_cells. exact (proj1 (cells_at w "" "" names k s E)).
Qed.
Print Assumptions C69_titles.
(** Data: numbers only; one cell for each, and a tab after each. *)
Theorem C69_data : forall (S : scalar) (show_e : S -> string) w (vs : list (tableval S)), Forall numeric vs ->
  exists line, export_row show_e w vs = Ok line /\ String.length line = room w 1 (map (val_text show_e) vs) (length vs) /\
  forall k s, nth_error (map (val_text show_e) vs) k = Some s ->
    cell_of line w 1 (map (val_text show_e) vs) k s /\ String.get (room w 1 (map (val_text show_e) vs) k + Nat.max w (String.length s)) line = Some (ascii_of_nat 9).
Proof.
  intros S show_e w vs H. eexists. split; [exact (row_ok show_e w vs H)|]. rewrite data_cells. split.
  - rewrite cells_length, map_length. cbn [String.length]. lia.
  - intros k s E. destruct (cells_at w (String (ascii_of_nat 9) "") "" (map (val_text show_e) vs) k s E) as [A B]. split; [exact A|].
    set (l := cells_line w (String (ascii_of_nat 9) "") (map (val_text show_e) vs) "") in *. set (c := room w (String.length (String (ascii_of_nat 9) "")) (map (val_text show_e) vs) k + Nat.max w (String.length s)) in *.
    change (String.get c l = Some (ascii_of_nat 9)). clearbody l c. clear -B. unfold stands_at in B. cbn [String.length] in B.
    revert c B. induction l as [|a l IH]; intros c B; [destruct c; discriminate B|]. destruct c as [|c]; [|exact (IH c B)]. cbn [String.substring] in B.
    assert (E' : a = ascii_of_nat 9) by (apply (f_equal (fun t => match t with String q _ => q | _ => a end)) in B; exact B). now rewrite E'.
Qed.
Print Assumptions C69_data.
(** Cutting a line of data at its tabs gives the cells back, as long as no number is written with a tab; the last piece is empty. *)
Theorem C69_data_cut : forall (S : scalar) (show_e : S -> string) w (vs : list (tableval S)), (forall x, without (ascii_of_nat 9) (show_e x)) -> Forall numeric vs ->
  exists line, export_row show_e w vs = Ok line /\ split_on (is_char (ascii_of_nat 9)) line = map (fun v => pad w (val_text show_e v)) vs ++ [""].
Proof. intros S show_e w vs Hs H. eexists. split; [exact (row_ok show_e w vs H)|]. exact (row_cut show_e w vs Hs H). Qed.
Print Assumptions C69_data_cut.
Theorem C69_public_data_cut : forall (S : scalar) (show_p : nat -> S -> string) w (vs : list (tableval S)), (forall n x, without (ascii_of_nat 9) (show_p n x)) -> Forall numeric vs ->
  exists line, pub_export_row show_p w vs = Ok line /\ split_on (is_char (ascii_of_nat 9)) line = map (pub_cell show_p w) vs ++ [""].
Proof. intros S show_p w vs. exact (pub_row_ok show_p w vs). Qed.
Print Assumptions C69_public_data_cut.
(** A variable that is not a number makes the whole line an error, wherever it stands. *)
Theorem C69_text_refused : forall (S : scalar) (show_e : S -> string) (show_p : nat -> S -> string) w (vs : list (tableval S)), ~ Forall numeric vs ->
  export_row show_e w vs = Err InvalidType /\ pub_export_row show_p w vs = Err InvalidType.
Proof. intros S show_e show_p w vs H. split; [now apply row_err|now apply pub_row_err]. Qed.
Print Assumptions C69_text_refused.
(** Cells whose texts fit stand in columns of equal width. *)
Theorem C69_columns : forall w gap texts k, Forall (fun s => String.length s <= w) texts -> k <= length texts -> room w gap texts k = k * (w + gap).
Proof. exact room_fit. Qed.
Print Assumptions C69_columns.
(** A line of the summary of an analysis of times: the variables of the data set, then the two numbers of the mean and the number of values. *)
Theorem C69_summary_line : forall (S : scalar) (show_e : S -> string) w (es : list (entry S)) (a : tana S) k u,
  nth_error (map (entry_text show_e) es ++ [show_e (ta_mean a); show_e (ta_sq a); show_usize (ta_ens a)]) k = Some u ->
  cell_of (summary_row show_e w es a) w 1 (map (entry_text show_e) es ++ [show_e (ta_mean a); show_e (ta_sq a); show_usize (ta_ens a)]) k u.
Proof. intros S show_e w es a k u. exact (summary_cells show_e w es a k u). Qed.
Print Assumptions C69_summary_line.
Theorem C69_summary_titles : forall w names k u, nth_error (names ++ ["ensemble"; "mean"; "stddev"]) k = Some u ->
  cell_of (summary_head w names) w 0 (names ++ ["ensemble"; "mean"; "stddev"]) k u.
Proof. intros w names k u E. rewrite head_cells. exact (proj1 (cells_at w "" newline (names ++ ["ensemble"; "mean"; "stddev"]) k u E)). Qed.
Print Assumptions C69_summary_titles.
(** A distribution: one line for each bin, three numbers at the ends of their cells. *)
Theorem C69_distribution : forall (S : scalar) (show_e : S -> string) w rows, exists ls, dist_text show_e w rows = lines_text ls /\ length ls = length rows /\
  forall i t n x, nth_error rows i = Some (t, n, x) -> exists l, nth_error ls i = Some l /\
    forall k u, nth_error [show_e t; show_usize n; show_e x] k = Some u -> right_cell_of l w 1 [show_e t; show_usize n; show_e x] k u.
Proof. intros S show_e w rows. exact (dist_cells show_e w rows). Qed.
Print Assumptions C69_distribution.
(** Limit of C69: titles have nothing between them and data have a tab, so that from the second column on no cell of a line stands under its title, *)
Theorem C69_shifted_counterexample : forall w names texts k, Forall (fun s => String.length s <= w) names -> Forall (fun s => String.length s <= w) texts ->
  length names = length texts -> 0 < k < length texts -> room w 1 texts k = room w 0 names k + k /\ room w 1 texts k <> room w 0 names k.
Proof. intros w names texts k H1 H2 L Hk. rewrite !room_fit by (auto; lia). lia. Qed.
Print Assumptions C69_shifted_counterexample.
(** and two titles of which the first fills its cell are not separated at all: the line is the one of their joined text. *)
Theorem C69_joined_counterexample : forall w a b r, w <= String.length a -> w <= String.length b -> export_form w (a :: b :: r) = export_form w ((a ++ b)%string :: r).
Proof.
  intros w a b r Ha Hb. unfold export_form. cbn [fold_right]. unfold pad. rewrite length_app_s. replace (w - String.length a) with 0 by lia. replace (w - String.length b) with 0 by lia.
  replace (w - (String.length a + String.length b)) with 0 by lia. cbn [spaces]. now rewrite !app_s_nil, app_s_assoc.
Qed.
Print Assumptions C69_joined_counterexample.
(** Non-vacuous: *)
Example C69_case lm : let vs := [TInt 10; @TFloat (F64 lm) (b64_of_Z 1); TInt (-5)] in
  export_row (fun _ : F64 lm => "1e0") 5 vs = Ok ("10   " ++ tab ++ "1e0  " ++ tab ++ "-5   " ++ tab)%string /\ Forall numeric vs /\ room 5 1 (map (val_text (S := F64 lm) (fun _ => "1e0")) vs) 2 = 12.
Proof. repeat split. repeat constructor. Qed.
Example C69_shift_case : let names := ["sys_size"; "dim"; "mean"] in Forall (fun s => String.length s <= 15) names /\ room 15 0 names 2 = 30 /\ room 15 1 names 2 = 32.
Proof. repeat split; repeat constructor; cbn; lia. Qed.
Example C69_config_case lm : exists text, print_configuration [fld_usize "dim" "d"; fld_usize "num_agent" "n"] 15 (2, (7, tt)) = Ok text /\
  text = ("dim            : 2" ++ newline ++ "num_agent      : 7" ++ newline)%string /\ (lm = lm :> libm).
Proof. eexists. split; [vm_compute; reflexivity|]. split; vm_compute; reflexivity. Qed.

(** * C43: the words of an analysis *)
(** The words accepted are exactly those of [analysis_words] and, for vectors, [vec_words] (the number of columns comes first), and the request and the directory are what they say. *)
Theorem C43_analysis_words : forall (S : scalar) (nt : numtext S) args req dir, analyze_args nt args = Ok (req, dir) <-> analysis_words nt args req dir.
Proof. intros S nt. exact (plain_words_read nt). Qed.
Print Assumptions C43_analysis_words.
Theorem C43_vector_analysis_words : forall (S : scalar) (nt : numtext S) args nv req dir, analyze_vec_args nt args = Ok (nv, req, dir) <-> vec_words nt args nv req dir.
Proof. intros S nt. exact (vec_words_read nt). Qed.
Print Assumptions C43_vector_analysis_words.
Example C43_vector_case : forall (S : scalar) (nt : numtext S) (x y : S), faithful nt -> vec_words nt ["3"; n_show nt x; n_show nt y; "8"; "dir"] 3 (ByNumber x y 8) "dir".
Proof. intros S nt x y F. constructor; [reflexivity|]. constructor; [exact (proj1 (F x))|exact (proj1 (F y))|reflexivity]. Qed.
