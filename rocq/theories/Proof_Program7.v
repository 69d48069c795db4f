(** The files written by the analyses of vectors of times and of processes (C57). *)
From Coq Require Import String Ascii NArith ZArith Lia.
From Verif Require Import Base Scalar Model_Position Model_System Model_Agent Model_Time Model_Text Spec_Text Proof_Text Proof_Text3 Proof_Text5
  Model_Args Spec_Args Proof_Args Proof_Args3 Model_Analysis Spec_Analysis Proof_Analysis3 Model_Run Model_Program Spec_Program Proof_Program Proof_Program3 Proof_Program4
  Model_Program2 Spec_Program2.
Local Open Scope nat_scope.
Local Open Scope string_scope.
Local Open Scope list_scope.
Local Notation length := List.length.

Section Rows.
Context {S : scalar} (show_e : S -> string).
Hypothesis show_ok : forall x, number_word (show_e x).
Let ns := show_usize_word.
Lemma n_good n : good (show_usize n). Proof. apply num_good, ns. Qed.
Lemma e_good x : good (show_e x). Proof. apply num_good, show_ok. Qed.
(** pairs of padded columns, each followed by a tab *)
Lemma pad_pairs {X} (w : nat) (f g : X -> string) (l : list X) : (forall x, good (f x)) -> (forall x, good (g x)) ->
  exists body, fold_right (fun x acc => pad w (f x) ++ tab ++ pad w (g x) ++ tab ++ acc)%string newline l = (body ++ newline)%string /\ clean body /\
    Words body (flat_map (fun x => [f x; g x]) l).
Proof.
  intros Hf Hg. induction l as [|x l (body & E & C & W)].
  - exists "". split; [reflexivity|]. split; [split; exact I|]. constructor. exact I.
  - exists (pad w (f x) ++ tab ++ pad w (g x) ++ tab ++ body)%string. cbn [fold_right flat_map app]. rewrite E. split; [now rewrite !app_s_assoc|]. split.
    + repeat (apply clean_app; [first [apply pad_clean; first [apply Hf|apply Hg]|apply tab_clean]|]). exact C.
    + apply pad_row; auto. apply pad_row; auto.
Qed.
Lemma lpad_pairs {X} (w : nat) (f g : X -> string) (l : list X) : (forall x, good (f x)) -> (forall x, good (g x)) ->
  exists body, fold_right (fun x acc => lpad w (f x) ++ tab ++ lpad w (g x) ++ tab ++ acc)%string newline l = (body ++ newline)%string /\ clean body /\
    Words body (flat_map (fun x => [f x; g x]) l).
Proof.
  intros Hf Hg. induction l as [|x l (body & E & C & W)].
  - exists "". split; [reflexivity|]. split; [split; exact I|]. constructor. exact I.
  - exists (lpad w (f x) ++ tab ++ lpad w (g x) ++ tab ++ body)%string. cbn [fold_right flat_map app]. rewrite E. split; [now rewrite !app_s_assoc|]. split.
    + repeat (apply clean_app; [first [apply lpad_clean; first [apply Hf|apply Hg]|apply tab_clean]|]). exact C.
    + apply lpad_row; auto. apply lpad_row; auto.
Qed.
Lemma vec_summary_rows w es (a : tvec S) s rows : rows_of s rows ->
  rows_of (export_data (entry_text show_e) w es ++ vec_mean_text show_e w a ++ s)%string (vec_summary_words show_e es a :: rows).
Proof.
  intros H. unfold vec_mean_text.
  destruct (pad_pairs w (fun mq : S * S => show_e (fst mq)) (fun mq => show_e (snd mq)) (combine (tv_means a) (tv_sqs a)) ltac:(intros; apply e_good) ltac:(intros; apply e_good)) as (body & E & C & W).
  rewrite E.
  replace (export_data (entry_text show_e) w es ++ (pad w (show_usize (tv_ens a)) ++ tab ++ body ++ newline) ++ s)%string with
    ((export_data (entry_text show_e) w es ++ pad w (show_usize (tv_ens a)) ++ tab ++ body) ++ newline ++ s)%string by now rewrite !app_s_assoc.
  apply rows_cons; auto.
  - apply clean_app; [now apply data_clean|]. apply clean_app; [apply pad_clean, n_good|]. apply clean_app; [apply tab_clean|exact C].
  - unfold vec_summary_words, parameter_words. apply data_words; auto. apply pad_row; [apply n_good|exact W].
Qed.
Lemma vec_dist_rows w rows : rows_of (vec_dist_text show_e w rows) (map (vec_histogram_words show_e) rows).
Proof.
  induction rows as [|r rows IH]; [exact rows_nil|]. cbn [vec_dist_text fold_right map]. fold (vec_dist_text show_e w rows). unfold vec_row_text.
  destruct (lpad_pairs w (fun nx : nat * S => show_usize (fst nx)) (fun nx => show_e (snd nx)) (snd r) ltac:(intros; apply n_good) ltac:(intros; apply e_good)) as (body & E & C & W).
  rewrite E. replace ((lpad w (show_e (fst r)) ++ tab ++ body ++ newline) ++ vec_dist_text show_e w rows)%string with
    ((lpad w (show_e (fst r)) ++ tab ++ body) ++ newline ++ vec_dist_text show_e w rows)%string by now rewrite !app_s_assoc.
  apply rows_cons; auto.
  - apply clean_app; [apply lpad_clean, e_good|]. apply clean_app; [apply tab_clean|exact C].
  - unfold vec_histogram_words. apply lpad_row; [apply e_good|exact W].
Qed.
Lemma blank_one : blank " ". Proof. split; [unfold whitespace; cbn; auto 10|exact I]. Qed.
Lemma tab_end : Words tab []. Proof. constructor. split; [apply tab_white|exact I]. Qed.
Lemma app_r (t : string) : (tab = tab ++ "")%string. Proof. reflexivity. Qed.
Lemma proc_summary_rows w es (a : pana S) s rows : rows_of s rows ->
  rows_of (export_data (entry_text show_e) w es ++ proc_mean_text show_e w a ++ s)%string (proc_summary_words show_e es a :: rows).
Proof.
  intros H. unfold proc_mean_text. set (sp := " ").
  replace (export_data (entry_text show_e) w es ++ (pad w (show_e (pa_mean a)) ++ tab ++ pad w (show_e (pa_sq a)) ++ tab ++ sp ++ pad w (show_usize (pa_ens a)) ++ tab ++ newline) ++ s)%string with
    ((export_data (entry_text show_e) w es ++ pad w (show_e (pa_mean a)) ++ tab ++ pad w (show_e (pa_sq a)) ++ tab ++ sp ++ pad w (show_usize (pa_ens a)) ++ tab ++ "") ++ newline ++ s)%string
    by (rewrite app_s_nil, !app_s_assoc; reflexivity).
  apply rows_cons; auto.
  - apply clean_app; [now apply data_clean|]. apply clean_app; [apply pad_clean, e_good|]. apply clean_app; [apply tab_clean|]. apply clean_app; [apply pad_clean, e_good|].
    apply clean_app; [apply tab_clean|]. apply clean_app; [exact (spaces_clean 1)|]. apply clean_app; [apply pad_clean, n_good|]. apply clean_app; [apply tab_clean|]. split; exact I.
  - unfold proc_summary_words, parameter_words. apply data_words; auto. apply pad_row; [apply e_good|]. apply pad_row; [apply e_good|].
    apply Words_skip; [exact blank_one|]. apply pad_row; [apply n_good|]. constructor. exact I.
Qed.
Lemma proc_dist_rows w rows : rows_of (proc_dist_text show_e w rows) (map (proc_histogram_words show_e) rows).
Proof.
  induction rows as [|[[[t n] x] dx] rows IH]; [exact rows_nil|]. cbn [proc_dist_text fold_right map]. fold (proc_dist_text show_e w rows).
  replace (lpad w (show_e t) ++ tab ++ lpad w (show_usize n) ++ tab ++ lpad w (show_e x) ++ tab ++ lpad w (show_e dx) ++ newline ++ proc_dist_text show_e w rows)%string with
    ((lpad w (show_e t) ++ tab ++ lpad w (show_usize n) ++ tab ++ lpad w (show_e x) ++ tab ++ lpad w (show_e dx)) ++ newline ++ proc_dist_text show_e w rows)%string by now rewrite !app_s_assoc.
  apply rows_cons; auto.
  - apply clean_app; [apply lpad_clean, e_good|]. apply clean_app; [apply tab_clean|]. apply clean_app; [apply lpad_clean, n_good|]. apply clean_app; [apply tab_clean|].
    apply clean_app; [apply lpad_clean, e_good|]. apply clean_app; [apply tab_clean|]. apply lpad_clean, e_good.
  - cbn [proc_histogram_words]. apply lpad_row; [apply e_good|]. apply lpad_row; [apply n_good|]. apply lpad_row; [apply e_good|]. apply lpad_last, e_good.
Qed.
End Rows.

(** ** the files *)
Section Kind.
Context {S : scalar} (nt : numtext S) (show_e : S -> string) {A Row : Type} (titles : list string) (brief : string).
Variables (row : nat -> A -> string) (rw : list (entry S) -> A -> list string) (lin lg : A -> outcome (list Row)) (dist : list Row -> string) (hw : Row -> list string).
Hypothesis F : faithful nt.
Hypothesis show_ok : forall x, number_word (show_e x).
Hypothesis titles_ok : clean (export_form exp_width titles) /\ Words (export_form exp_width titles) titles.
Hypothesis row_ok : forall es a s rows, rows_of s rows -> rows_of (export_data (entry_text show_e) exp_width es ++ row exp_width a ++ s)%string (rw es a :: rows).
Hypothesis dist_ok : forall rows, rows_of (dist rows) (map hw rows).
Hypothesis brief_ok : forall n, brief <> path_in "linear_distribution" n /\ brief <> path_in "logarithmic_distribution" n.
Let linf (a : A) := do rows <- lin a; Ok (dist rows).
Let lgf (a : A) := do rows <- lg a; Ok (dist rows).
Lemma kind_out dir gs : forall fs, kind_files linf lgf dir gs = Ok fs ->
  map fst fs = flat_map (fun g : string * A => [path_in dir (path_in "linear_distribution" (fst g)); path_in dir (path_in "logarithmic_distribution" (fst g))]) gs /\
  forall n a, In (n, a) gs -> exists l1 l2 t1 t2, lin a = Ok l1 /\ lg a = Ok l2 /\
    In (path_in dir (path_in "linear_distribution" n), t1) fs /\ rows_of t1 (map hw l1) /\
    In (path_in dir (path_in "logarithmic_distribution" n), t2) fs /\ rows_of t2 (map hw l2).
Proof.
  induction gs as [|[n a] gs IH]; intros fs; cbn [kind_files].
  - intros E. injection E as <-. split; [reflexivity|]. intros ? ? [].
  - unfold linf at 1, lgf at 1. destruct (lin a) as [l1| | |] eqn:E1; cbn [bind]; try discriminate. destruct (lg a) as [l2| | |] eqn:E2; cbn [bind]; try discriminate.
    destruct (kind_files linf lgf dir gs) as [rest| | |]; cbn [bind]; try discriminate. intros E. injection E as <-. destruct (IH _ eq_refl) as [I1 I2]. split.
    + cbn [map fst flat_map app]. now rewrite I1.
    + intros n' a' [E|Hi].
      * injection E as <- <-. exists l1, l2, (dist l1), (dist l2). do 2 (split; [assumption|]). split; [now left|]. split; [now apply dist_ok|].
        split; [now right; left|now apply dist_ok].
      * destruct (I2 n' a' Hi) as (k1 & k2 & t1 & t2 & X1 & X2 & X3 & X4 & X5 & X6). exists k1, k2, t1, t2. repeat (split; [assumption || (now right; right)|]). assumption.
Qed.
Lemma labels_are (gs : list (all_args (exp_structs nt) * A)) : label_groups nt gs = Some (map (fun g => (group_name nt (fst g), exp_entries nt (fst g), snd g)) gs).
Proof. induction gs as [|[v a] gs IH]; [reflexivity|]. cbn [label_groups map fst snd]. now rewrite name_is, IH. Qed.
Lemma kind_writes sip dir (gs : list (all_args (exp_structs nt) * A)) out :
  ForallOrdPairs (fun e e' => same_dataset sip (exp_values nt (fst e)) (exp_values nt (fst e')) = false) gs ->
  kind_results show_e titles brief row linf lgf exp_width dir exp_names (map (fun g => (group_name nt (fst g), exp_entries nt (fst g), snd g)) gs) = Ok out ->
  exists text, 
    map fst out = path_in dir brief :: flat_map (fun g => [path_in dir (path_in "linear_distribution" (group_name nt (fst g))); path_in dir (path_in "logarithmic_distribution" (group_name nt (fst g)))]) gs /\
    NoDup (map fst out) /\ In (path_in dir brief, text) out /\
    rows_of text ((exp_names ++ titles) :: map (fun g => rw (exp_entries nt (fst g)) (snd g)) gs) /\
    (forall v a, In (v, a) gs -> exists l1 l2 t1 t2, lin a = Ok l1 /\ lg a = Ok l2 /\
       In (path_in dir (path_in "linear_distribution" (group_name nt v)), t1) out /\ rows_of t1 (map hw l1) /\
       In (path_in dir (path_in "logarithmic_distribution" (group_name nt v)), t2) out /\ rows_of t2 (map hw l2)).
Proof.
  intros P E. unfold kind_results in E. rewrite map_map in E. cbn [fst snd] in E.
  destruct (kind_files linf lgf dir _) as [fs| | |] eqn:Ef; cbn [bind] in E; try discriminate.
  assert (X : forall x y : list (string * string), Ok x = Ok y -> x = y) by congruence. apply X in E. clear X. subst out.
  destruct (kind_out _ _ _ Ef) as [G1 G2]. rewrite flat_map_concat_map, map_map, <- flat_map_concat_map in G1. cbn [fst] in G1.
  eexists. cbn [map fst]. rewrite G1. split; [reflexivity|]. split; [|split; [now left|split]].
  - assert (N : NoDup (map (fun g => group_name nt (fst g)) gs)).
    { clear -P F. induction P as [|g gs Hg _ IH]; [constructor|]. cbn. constructor; auto. rewrite in_map_iff. intros (g' & E & Hi). rewrite Forall_forall in Hg. specialize (Hg _ Hi).
      apply (name_inj nt _ _ F) in E. assert (Ev : exp_values nt (fst g') = exp_values nt (fst g)) by exact (f_equal (map entry_value) E).
      assert (Hg' : same_dataset sip (exp_values nt (fst g)) (exp_values nt (fst g')) = false) by exact Hg. rewrite Ev in Hg'. unfold same_dataset in Hg'. now rewrite Z.eqb_refl in Hg'. }
    constructor.
    + rewrite in_flat_map. intros (g & _ & [E|[E|[]]]); apply app_slash in E; symmetry in E; revert E; apply brief_ok.
    + clear -N. induction gs as [|g gs IH]; [constructor|]. cbn [map] in N. apply NoDup_cons_iff in N as [N1 N2]. cbn [flat_map app]. constructor; [|constructor; [|now apply IH]].
      * intros [E|Hi]; [apply app_slash in E; now apply (linear_first _ _ (eq_sym E))|]. apply in_flat_map in Hi as (g' & Hg & [E|[E|[]]]); apply app_slash in E.
        -- apply app_slash in E. apply N1. rewrite <- E. now apply (in_map (fun g => group_name nt (fst g))).
        -- now apply (linear_first _ _ (eq_sym E)).
      * intros Hi. apply in_flat_map in Hi as (g' & Hg & [E|[E|[]]]); apply app_slash in E.
        -- now apply (linear_first _ _ E).
        -- apply app_slash in E. apply N1. rewrite <- E. now apply (in_map (fun g => group_name nt (fst g))).
  - destruct titles_ok as [T1 T2].
    match goal with |- rows_of (?a ++ ?b ++ newline ++ ?c)%string _ => replace (a ++ b ++ newline ++ c)%string with ((a ++ b) ++ newline ++ c)%string by now rewrite !app_s_assoc end.
    apply rows_cons.
    + apply clean_app; [apply form_clean, names_short|exact T1].
    + apply form_words; [exact names_short|exact T2].
    + clear -row_ok. induction gs as [|g gs IH]; [exact rows_nil|]. cbn [map fold_right fst snd]. now apply row_ok.
  - intros v a Hi. destruct (G2 (group_name nt v) a) as (l1 & l2 & t1 & t2 & X1 & X2 & X3 & X4 & X5 & X6).
    + apply in_map_iff. exists (v, a). auto.
    + exists l1, l2, t1, t2. repeat (split; [assumption || (now right)|]). assumption.
Qed.
End Kind.

Lemma path_lin dir name : path_in dir (path_in "linear_distribution" name) = linear_path dir name. Proof. reflexivity. Qed.
Lemma path_log dir name : path_in dir (path_in "logarithmic_distribution" name) = logarithmic_path dir name. Proof. reflexivity. Qed.

Section Result.
Context {S : scalar} (nt : numtext S) (show_e : S -> string) (r : S -> S).
Hypothesis F : faithful nt.
Hypothesis RR : rereads nt r.
Hypothesis show_ok : forall x, number_word (show_e x).
Lemma titles_good w (l : list string) (last : string) : Forall (fun n => good n /\ String.length n < w) l -> good last ->
  clean (export_form w (l ++ [last])) /\ Words (export_form w (l ++ [last])) (l ++ [last]).
Proof.
  intros H L. assert (E : export_form w (l ++ [last]) = (export_form w l ++ export_form w [last])%string).
  { clear. induction l as [|a l IH]; [reflexivity|]. cbn [app export_form fold_right]. fold (export_form w (l ++ [last])). rewrite IH. fold (export_form w l). now rewrite app_s_assoc. }
  rewrite E. split.
  - apply clean_app; [now apply form_clean|]. cbn [export_form fold_right]. rewrite app_s_nil. apply pad_clean, L.
  - apply form_words; auto. cbn [export_form fold_right]. rewrite app_s_nil. now apply pad_last.
Qed.
Ltac tit := repeat constructor; cbn; try lia; try discriminate; unfold whitespace; cbn; intuition discriminate.
Lemma vec_titles : clean (export_form exp_width ["ensemble"; "meantime"; "stddev"]) /\ Words (export_form exp_width ["ensemble"; "meantime"; "stddev"]) ["ensemble"; "meantime"; "stddev"].
Proof. apply (titles_good exp_width ["ensemble"; "meantime"] "stddev"); tit. Qed.
Lemma proc_titles : clean (export_form exp_width ["ensemble"; "long_term_mean"; "long_term_stddev"]) /\
  Words (export_form exp_width ["ensemble"; "long_term_mean"; "long_term_stddev"]) ["ensemble"; "long_term_mean"; "long_term_stddev"].
Proof. apply (titles_good exp_width ["ensemble"; "long_term_mean"] "long_term_stddev"); tit. Qed.
Lemma vector_writes fuel sip dir nvar req files texts out : Forall2 (directory_file nt (exp_structs nt) varsim_spec exp_width (vector_line nt)) files texts ->
  vec_analyze nt show_e fuel sip dir nvar req texts = Ok out ->
  exists gs text, vec_groups nt sip nvar req texts = Ok gs /\
    map fst out = path_in dir "brief_result.dat" :: flat_map (fun g => [linear_path dir (group_name nt (fst g)); logarithmic_path dir (group_name nt (fst g))]) gs /\
    NoDup (map fst out) /\ In (path_in dir "brief_result.dat", text) out /\
    rows_of text ((exp_names ++ ["ensemble"; "meantime"; "stddev"]) :: map (fun g => vec_summary_words show_e (exp_entries nt (fst g)) (snd g)) gs) /\
    (forall v a, In (v, a) gs -> exists lin lg t1 t2, tv_export_lin fuel a = Ok lin /\ tv_export_log fuel a = Ok lg /\
       In (linear_path dir (group_name nt v), t1) out /\ rows_of t1 (map (vec_histogram_words show_e) lin) /\
       In (logarithmic_path dir (group_name nt v), t2) out /\ rows_of t2 (map (vec_histogram_words show_e) lg)).
Proof.
  intros H E. unfold vec_analyze in E. destruct (vec_groups nt sip nvar req texts) as [gs| | |] eqn:Eg; cbn [bind] in E; try discriminate. rewrite labels_are in E.
  assert (P : ForallOrdPairs (fun e e' => same_dataset sip (exp_values nt (fst e)) (exp_values nt (fst e')) = false) gs).
  { unfold vec_groups in Eg. destruct (bin_sizes req) as [[[[mn mx] size] lsize]| | |]; cbn [bind] in Eg; try discriminate.
    apply (dir_groups nt (exp_structs nt) varsim_spec exp_width (exp_values nt) sip _ (tv_text_line nt) tv_add tv_draw _ (vector_line nt) (map r) (vector_line_ok nt r RR) files texts gs F (exp_known nt) H Eg). }
  destruct (kind_writes nt show_e ["ensemble"; "meantime"; "stddev"] "brief_result.dat" (vec_mean_text show_e) (vec_summary_words show_e) (tv_export_lin fuel) (tv_export_log fuel) (vec_dist_text show_e exp_width) (vec_histogram_words show_e)
    F vec_titles (fun es a s rows => vec_summary_rows show_e show_ok exp_width es a s rows) (fun rows => vec_dist_rows show_e show_ok exp_width rows)
    ltac:(intros n; split; discriminate) sip dir gs out P E) as (text & X). exists gs, text. split; [reflexivity|exact X].
Qed.
Lemma process_writes fuel sip dir req files texts out : Forall2 (directory_file nt (exp_structs nt) varsim_spec exp_width (process_line nt)) files texts ->
  proc_analyze nt show_e fuel sip dir req texts = Ok out ->
  exists gs text, proc_groups nt sip req texts = Ok gs /\
    map fst out = path_in dir "brief_data.dat" :: flat_map (fun g => [linear_path dir (group_name nt (fst g)); logarithmic_path dir (group_name nt (fst g))]) gs /\
    NoDup (map fst out) /\ In (path_in dir "brief_data.dat", text) out /\
    rows_of text ((exp_names ++ ["ensemble"; "long_term_mean"; "long_term_stddev"]) :: map (fun g => proc_summary_words show_e (exp_entries nt (fst g)) (snd g)) gs) /\
    (forall v a, In (v, a) gs -> exists lin lg t1 t2, pa_export_lin fuel a = Ok lin /\ pa_export_log fuel a = Ok lg /\
       In (linear_path dir (group_name nt v), t1) out /\ rows_of t1 (map (proc_histogram_words show_e) lin) /\
       In (logarithmic_path dir (group_name nt v), t2) out /\ rows_of t2 (map (proc_histogram_words show_e) lg)).
Proof.
  intros H E. unfold proc_analyze in E. destruct (proc_groups nt sip req texts) as [gs| | |] eqn:Eg; cbn [bind] in E; try discriminate. rewrite labels_are in E.
  assert (P : ForallOrdPairs (fun e e' => same_dataset sip (exp_values nt (fst e)) (exp_values nt (fst e')) = false) gs).
  { unfold proc_groups in Eg. destruct (bin_sizes req) as [[[[mn mx] size] lsize]| | |]; cbn [bind] in Eg; try discriminate.
    apply (dir_groups nt (exp_structs nt) varsim_spec exp_width (exp_values nt) sip _ (pa_text_line nt) pa_line pa_draw _ (process_line nt) (map (both r)) (process_line_ok nt r F RR) files texts gs F (exp_known nt) H Eg). }
  destruct (kind_writes nt show_e ["ensemble"; "long_term_mean"; "long_term_stddev"] "brief_data.dat" (proc_mean_text show_e) (proc_summary_words show_e) (pa_export_lin fuel) (pa_export_log fuel) (proc_dist_text show_e exp_width) (proc_histogram_words show_e)
    F proc_titles (fun es a s rows => proc_summary_rows show_e show_ok exp_width es a s rows) (fun rows => proc_dist_rows show_e show_ok exp_width rows)
    ltac:(intros n; split; discriminate) sip dir gs out P E) as (text & X). exists gs, text. split; [reflexivity|exact X].
Qed.
End Result.
