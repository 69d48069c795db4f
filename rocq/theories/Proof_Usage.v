(** Proofs about the message on the expected arguments and about [clear]. *)
From Coq Require Import String Ascii NArith Lia.
From Verif Require Import Base Scalar Model_Position Model_System Model_Agent Model_Time Model_Text Spec_Text Proof_Text Proof_Text2 Proof_Text3
  Model_Args Spec_Args Proof_Args Proof_Args2 Proof_Args3 Model_Usage Spec_Usage.
Local Open Scope string_scope.
Local Open Scope list_scope.
Local Notation length := List.length.
Local Notation concat := List.concat.

(** ** When it is printed *)
Lemma stderr_usage width fixed skip an specs ai args : (skip <= length args)%nat ->
  (length args - skip <> an)%nat -> (length args - skip <> an + 1)%nat -> (length args - skip <> total_num_args specs)%nat ->
  setup_stderr width skip an specs ai args = usage width skip specs ai args /\ setup fixed skip an specs args = Err InvalidNumberOfArguments.
Proof.
  intros H H1 H2 H3. split; [|now apply setup_wrong]. unfold setup_stderr.
  destruct (Nat.ltb_spec (length args) skip); [lia|].
  rewrite (proj2 (Nat.eqb_neq _ _) H1), (proj2 (Nat.eqb_neq _ _) H2), (proj2 (Nat.eqb_neq _ _) H3). reflexivity.
Qed.
Lemma stderr_quiet width skip an specs ai args :
  (length args < skip \/ length args - skip = an \/ length args - skip = an + 1 \/ length args - skip = total_num_args specs)%nat ->
  setup_stderr width skip an specs ai args = "".
Proof.
  intros H. unfold setup_stderr. destruct (Nat.ltb_spec (length args) skip); [reflexivity|].
  destruct H as [H|[H|[H|H]]]; [lia| | |]; rewrite H, ?Nat.eqb_refl; cbn [orb]; rewrite ?orb_true_r; try reflexivity.
  cbn [negb]. now destruct (_ || _).
Qed.

(** ** Its lines *)
Lemma lines_nil : text_lines "" = []. Proof. reflexivity. Qed.
Lemma lines_cons l s : no_break l -> text_lines (l ++ newline ++ s)%string = l :: text_lines s.
Proof. intros [A B]. now apply text_lines_cons. Qed.
Lemma lines_println l s : no_break l -> text_lines (println l ++ s)%string = l :: text_lines s.
Proof. intros A. unfold println. rewrite app_s_assoc. now apply lines_cons. Qed.
Lemma break_app a b : no_break a -> no_break b -> no_break (a ++ b)%string.
Proof. intros [A1 A2] [B1 B2]. split; apply without_app; auto. Qed.
Lemma break_lit s : forallb (fun c => negb (Ascii.eqb c line_feed) && negb (Ascii.eqb c carriage_return)) (list_ascii_of_string s) = true -> no_break s.
Proof.
  intros H. split; apply lit_without; apply forallb_forall; intros c Hc;
    apply (proj1 (forallb_forall _ _) H) in Hc; apply andb_prop in Hc as [Hc2 Hc3]; auto.
Qed.
Lemma break_pad w s : no_break s -> no_break (pad w s).
Proof. intros [A B]. split; apply pad_without; auto; discriminate. Qed.
Lemma break_usize n : no_break (show_usize n).
Proof. destruct (number_one_line (show_usize n)) as (_ & A & B); [apply show_usize_word|]. now split. Qed.
(** a field whose name and description stand on one line. *)
Definition nice (f : field) : Prop := no_break (f_name f) /\ no_break (f_desc f) /\ without ":" (f_name f) /\ without "(" (f_name f) /\ without ")" (f_name f).
Definition nice_spec (sp : argspec) : Prop := a_num sp = length (a_vars sp) /\ no_break (a_desc sp) /\ without "(" (a_desc sp) /\ Forall nice (a_vars sp).
Lemma break_line w f : nice f -> no_break (pad w (f_name f) ++ ": " ++ f_desc f)%string.
Proof. intros (A & B & _). apply break_app; [now apply break_pad|]. apply break_app; [now apply break_lit|auto]. Qed.
Lemma lines_info w fs s : Forall nice fs -> text_lines (info fs w ++ s)%string = map (fun f => pad w (f_name f) ++ ": " ++ f_desc f)%string fs ++ text_lines s.
Proof.
  induction fs as [|f fs IH]; intros H; [reflexivity|]. apply Forall_cons_iff in H as [Hf H].
  cbn [info map]. set (c := ": "). rewrite !app_s_assoc.
  rewrite <- (app_s_assoc c (f_desc f)), <- (app_s_assoc (pad w (f_name f)) (c ++ f_desc f)%string).
  rewrite (lines_cons _ _ (break_line w f Hf)). cbn [List.app]. f_equal. now apply IH.
Qed.
Lemma break_brief d fs : no_break d -> Forall nice fs -> no_break (brief_info d fs).
Proof.
  intros Hd H. unfold brief_info. apply break_app; auto. apply break_app; [now apply break_lit|].
  induction fs as [|f fs IH]; [now apply break_lit|]. apply Forall_cons_iff in H as [(Hn & _) H]. cbn [fold_right].
  apply break_app; [now apply break_lit|]. apply break_app; auto. apply break_app; [now apply break_lit|auto].
Qed.
Lemma lines_briefs specs s : Forall nice_spec specs ->
  text_lines (prints (map (fun sp => println (brief_info (a_desc sp) (a_vars sp))) specs) ++ s)%string =
  map (fun sp => brief_info (a_desc sp) (a_vars sp)) specs ++ text_lines s.
Proof.
  induction specs as [|sp r IH]; intros H; [reflexivity|]. apply Forall_cons_iff in H as [(_ & Hd & _ & Hv) H].
  unfold prints. cbn [map fold_right]. rewrite app_s_assoc, lines_println by now apply break_brief. cbn [List.app]. f_equal. now apply IH.
Qed.
Lemma lines_infos w specs s : Forall nice_spec specs ->
  text_lines (prints (map (fun sp => println (info (a_vars sp) w)) specs) ++ s)%string =
  concat (map (fun sp => map (fun f => pad w (f_name f) ++ ": " ++ f_desc f)%string (a_vars sp) ++ [""]) specs) ++ text_lines s.
Proof.
  induction specs as [|sp r IH]; intros H; [reflexivity|]. apply Forall_cons_iff in H as [(_ & Hd & _ & Hv) H].
  unfold prints. cbn [map fold_right List.concat]. unfold println at 1. rewrite !app_s_assoc, lines_info by auto.
  change (newline ++ ?x)%string with ("" ++ newline ++ x)%string. rewrite (lines_cons ""); [|now apply break_lit].
  rewrite <- !List.app_assoc. cbn [List.app]. do 2 f_equal. now apply IH.
Qed.
Lemma break_prints l : Forall no_break l -> no_break (prints l).
Proof. unfold prints. induction 1; [now apply break_lit|]. cbn [fold_right]. now apply break_app. Qed.

(** ** The names in parentheses *)
Lemma paren_skip a s : without "(" a -> in_parentheses (a ++ s)%string = in_parentheses s.
Proof.
  unfold in_parentheses. induction a as [|c a IH]; intros H; [reflexivity|]. destruct H as [H1 H2].
  cbn [append in_parentheses_from]. rewrite (proj2 (Ascii.eqb_neq _ _) H1). now apply IH.
Qed.
Lemma paren_inside n a s : without ")" a -> in_parentheses_from (Some n) (a ++ String ")" s)%string = (n ++ a)%string :: in_parentheses s.
Proof.
  revert n. induction a as [|c a IH]; intros n H.
  - cbn [append in_parentheses_from]. now rewrite Ascii.eqb_refl, app_s_nil.
  - destruct H as [H1 H2]. cbn [append in_parentheses_from]. rewrite (proj2 (Ascii.eqb_neq _ _) H1), IH by auto. now rewrite app_s_assoc.
Qed.
Lemma brief_names d fs : without "(" d -> Forall nice fs -> in_parentheses (brief_info d fs) = map f_name fs.
Proof.
  intros Hd H. unfold brief_info. rewrite paren_skip by auto. rewrite paren_skip by now apply lit_without.
  induction H as [|f fs (_ & _ & _ & _ & Hn) H IH]; [reflexivity|]. cbn [fold_right map].
  change ("(" ++ ?x)%string with (String "(" x). unfold in_parentheses at 1. cbn [in_parentheses_from]. rewrite Ascii.eqb_refl.
  change (") " ++ ?x)%string with (String ")" (String " " x)). rewrite paren_inside by auto. cbn [append]. f_equal. exact IH.
Qed.

(** ** The whole message *)
Lemma spaces_blank n : all_chars (fun c => c = " "%char) (spaces n).
Proof. induction n; [exact I|]. now split. Qed.
Lemma spaces_length n : String.length (spaces n) = n.
Proof. induction n; [reflexivity|]. cbn. now rewrite IHn. Qed.
Lemma line_explains w f : nice f -> explains w f (pad w (f_name f) ++ ": " ++ f_desc f)%string.
Proof.
  intros (_ & _ & H & _). exists (spaces (w - String.length (f_name f))). split; [unfold pad; now rewrite app_s_assoc|].
  split; [exact H|]. split; [apply spaces_blank|]. rewrite length_app_s, spaces_length. lia.
Qed.
Lemma lines_explain w fs : Forall nice fs -> Forall2 (explains w) fs (map (fun f => pad w (f_name f) ++ ": " ++ f_desc f)%string fs).
Proof. induction 1; constructor; auto. now apply line_explains. Qed.
Lemma infos_explain w specs : Forall nice_spec specs ->
  explanations w specs (concat (map (fun sp => map (fun f => pad w (f_name f) ++ ": " ++ f_desc f)%string (a_vars sp) ++ [""]) specs)).
Proof.
  induction 1 as [|sp r (_ & _ & _ & Hv) H IH]; [constructor|]. cbn [map List.concat]. rewrite <- List.app_assoc. cbn [List.app].
  constructor; auto. now apply lines_explain.
Qed.
Lemma usage_lines w skip specs ai args : Forall nice_spec specs -> no_break (ai_desc ai) -> without "(" (ai_desc ai) -> Forall nice (ai_labels ai) -> Forall no_break args ->
  exists overview details brief adetails,
    text_lines (usage w skip specs ai args) =
      [(show_usize (length args - skip) ++ " arguments given.")%string;
       ("Given Arguments : " ++ prints (map (fun x => x ++ "  ")%string (skipn skip args)))%string;
       ("You should give " ++ show_usize (length (argument_names specs)) ++ " arguments like below")%string;
       overview_bar] ++ overview ++ [details_bar] ++ details ++ [analysis_bar; brief] ++ adetails /\
    concat (map in_parentheses overview) = argument_names specs /\ Forall2 (fun sp l => in_parentheses l = map f_name (a_vars sp)) specs overview /\
    explanations w specs details /\
    in_parentheses brief = map f_name (ai_labels ai) /\ Forall2 (explains w) (ai_labels ai) adetails.
Proof.
  intros Hs Ha1 Ha2 Hl Hargs.
  exists (map (fun sp => brief_info (a_desc sp) (a_vars sp)) specs).
  exists (concat (map (fun sp => map (fun f => pad w (f_name f) ++ ": " ++ f_desc f)%string (a_vars sp) ++ [""]) specs)).
  exists (brief_info (ai_desc ai) (ai_labels ai)), (map (fun f => pad w (f_name f) ++ ": " ++ f_desc f)%string (ai_labels ai)).
  assert (T : total_num_args specs = length (argument_names specs)).
  { unfold argument_names. rewrite map_length. induction Hs as [|sp r (E & _) H IH]; [reflexivity|].
    cbn [map List.concat]. rewrite app_length, <- IH, <- E. reflexivity. }
  assert (Fi : Forall no_break (map (fun x => x ++ "  ")%string (skipn skip args))).
  { apply Forall_forall. intros y Hy. apply in_map_iff in Hy as (x & <- & Hx). apply break_app; [|now apply break_lit].
    apply (proj1 (Forall_forall _ _) Hargs). rewrite <- (firstn_skipn skip args). apply in_or_app. now right. }
  assert (N : Forall2 (fun sp l => in_parentheses l = map f_name (a_vars sp)) specs (map (fun sp => brief_info (a_desc sp) (a_vars sp)) specs)).
  { clear -Hs. induction Hs as [|sp r (_ & _ & Hd & Hv) H IH]; [constructor|]. cbn [map]. constructor; auto. now apply brief_names. }
  split; [|split; [|split; [|split; [|split]]]].
  - unfold usage. rewrite T.
    set (n1 := show_usize (length args - skip)). set (n2 := show_usize (length (argument_names specs))).
    set (c1 := " arguments given."). set (c2 := "Given Arguments : "). set (c3 := "You should give "). set (c4 := " arguments like below").
    assert (B1 : no_break c1) by now apply break_lit. assert (B2 : no_break c2) by now apply break_lit.
    assert (B3 : no_break c3) by now apply break_lit. assert (B4 : no_break c4) by now apply break_lit.
    set (given := prints (map (fun x => x ++ "  ")%string (skipn skip args))).
    assert (Bg : no_break given) by now apply break_prints.
    unfold println at 1. rewrite !app_s_assoc.
    rewrite <- (app_s_assoc n1 c1). rewrite lines_cons by (apply break_app; auto; apply break_usize).
    rewrite <- (app_s_assoc c2 given). rewrite lines_cons by now apply break_app.
    rewrite <- (app_s_assoc n2 c4), <- (app_s_assoc c3 (n2 ++ c4)%string). rewrite lines_cons by (apply break_app; auto; apply break_app; auto; apply break_usize).
    rewrite lines_println by now apply break_lit.
    rewrite lines_briefs by auto. rewrite lines_println by now apply break_lit. rewrite lines_infos by auto.
    rewrite lines_println by now apply break_lit. rewrite lines_println by now apply break_brief.
    rewrite <- (app_s_nil (info (ai_labels ai) w)), lines_info by auto. rewrite lines_nil, List.app_nil_r.
    cbn [List.app]. rewrite <- ?List.app_assoc. reflexivity.
  - unfold argument_names. clear -N. induction specs as [|sp r IH]; [reflexivity|]. cbn [map] in N. inversion N; subst.
    cbn [map List.concat]. rewrite map_app, IH by auto. now f_equal.
  - exact N.
  - now apply infos_explain.
  - now apply brief_names.
  - now apply lines_explain.
Qed.

(** ** The structures of the crate *)
Definition avoids (ds : list ascii) (s : string) : bool := forallb (fun c => negb (existsb (Ascii.eqb c) ds)) (list_ascii_of_string s).
Lemma avoids_without ds d s : In d ds -> avoids ds s = true -> without d s.
Proof.
  intros Hd H. apply lit_without. apply forallb_forall. intros c Hc. apply (proj1 (forallb_forall _ _) H) in Hc.
  destruct (Ascii.eqb c d) eqn:E; [|reflexivity]. exfalso. apply negb_true_iff in Hc. assert (X : existsb (Ascii.eqb c) ds = true) by (apply existsb_exists; now exists d). congruence.
Qed.
Lemma nice_of f : avoids [line_feed; carriage_return; ":"%char; "("%char; ")"%char] (f_name f) = true -> avoids [line_feed; carriage_return] (f_desc f) = true -> nice f.
Proof. intros A B. repeat split; (eapply avoids_without; [|eassumption]); cbn; tauto. Qed.
Lemma nice_spec_of sp : a_num sp = length (a_vars sp) -> avoids [line_feed; carriage_return; "("%char] (a_desc sp) = true -> Forall nice (a_vars sp) -> nice_spec sp.
Proof. intros A B C. repeat split; auto; (eapply avoids_without; [|eassumption]); cbn; tauto. Qed.
Lemma all_nice {S : scalar} (nt : numtext S) : Forall nice_spec (all_specs nt).
Proof.
  unfold all_specs. repeat (apply Forall_cons; [apply nice_spec_of; [reflexivity|reflexivity|]|]); try apply Forall_nil;
    cbn [a_vars circ_spec cubic_spec cyl_spec bulk_spec indep_spec merge_spec exp_spec lj_spec const_spec expstep_spec varsim_spec parsim_spec procsim_spec];
    repeat (apply Forall_cons; [apply nice_of; reflexivity|]); apply Forall_nil.
Qed.
Lemma nice_in {S : scalar} (nt : numtext S) specs : incl specs (all_specs nt) -> Forall nice_spec specs.
Proof. intros H. apply Forall_forall. intros sp Hs. exact (proj1 (Forall_forall _ _) (all_nice nt) sp (H sp Hs)). Qed.
Lemma analyses_nice ai : In ai [time_info; vec_info; process_info] -> no_break (ai_desc ai) /\ without "(" (ai_desc ai) /\ Forall nice (ai_labels ai).
Proof.
  intros [<-|[<-|[<-|[]]]]; (split; [now apply break_lit|split; [now apply lit_without|]]); cbn [ai_labels time_info vec_info process_info histogram_labels];
    repeat (apply Forall_cons; [apply nice_of; reflexivity|]); apply Forall_nil.
Qed.
Lemma usage_spec {S : scalar} (nt : numtext S) w skip specs ai args : incl specs (all_specs nt) -> In ai [time_info; vec_info; process_info] -> Forall no_break args ->
  exists overview details brief adetails,
    text_lines (usage w skip specs ai args) =
      [(show_usize (length args - skip) ++ " arguments given.")%string;
       ("Given Arguments : " ++ prints (map (fun x => x ++ "  ")%string (skipn skip args)))%string;
       ("You should give " ++ show_usize (length (argument_names specs)) ++ " arguments like below")%string;
       overview_bar] ++ overview ++ [details_bar] ++ details ++ [analysis_bar; brief] ++ adetails /\
    concat (map in_parentheses overview) = argument_names specs /\ Forall2 (fun sp l => in_parentheses l = map f_name (a_vars sp)) specs overview /\
    explanations w specs details /\
    in_parentheses brief = map f_name (ai_labels ai) /\ Forall2 (explains w) (ai_labels ai) adetails.
Proof. intros H Ha Hargs. destruct (analyses_nice ai Ha) as (A & B & C). apply usage_lines; auto. now apply (nice_in nt). Qed.

(** ** Following the message *)
Lemma total_names specs : Forall nice_spec specs -> total_num_args specs = length (argument_names specs).
Proof.
  intros Hs. unfold argument_names. rewrite map_length. induction Hs as [|sp r (E & _) H IH]; [reflexivity|].
  cbn [map List.concat]. rewrite app_length, <- IH, <- E. reflexivity.
Qed.
Lemma reads_assigned {S : scalar} (nt : numtext S) specs blocks v : incl specs (all_specs nt) -> map (@length string) blocks = map a_num specs ->
  reads specs blocks v -> assigned specs (argument_names specs) (concat blocks) v.
Proof.
  revert blocks. induction specs as [|sp r IH]; intros bs Hin L H.
  - destruct bs; [|discriminate]. now split.
  - destruct bs as [|b bs]; [discriminate|]. cbn [map] in L. assert (L1 : length b = a_num sp) by congruence.
    assert (L2 : map (@length string) bs = map a_num r) by congruence. destruct v as [v vs]. destruct H as [H1 H2]. cbn [fst snd] in *.
    assert (In sp (all_specs nt)) by (apply Hin; now left).
    destruct (read_vec_spec nt sp H b) as [_ Q]. destruct (Q L1) as [Q1 _]. apply Q1 in H1 as (u & Eu & Hu).
    exists u, (map f_name (a_vars sp)), (argument_names r), b, (concat bs). cbn [fst snd].
    split; [unfold argument_names; cbn [map List.concat]; now rewrite map_app|]. split; [reflexivity|]. split; [reflexivity|].
    split; [exact Eu|]. split; [exact Hu|]. apply IH; auto. intros x Hx. apply Hin. now right.
Qed.
Lemma follow_usage {S : scalar} (nt : numtext S) fixed skip an specs args v : incl specs (all_specs nt) -> (skip <= length args)%nat ->
  (length args - skip <> an)%nat -> (length args - skip <> an + 1)%nat ->
  setup fixed skip an specs args = Ok (Simulate v) -> assigned specs (argument_names specs) (skipn skip args) v.
Proof.
  intros Hin H H1 H2 E. destruct (Nat.eq_dec (length args - skip) (total_num_args specs)) as [T|T]; [|rewrite setup_wrong in E by auto; discriminate].
  destruct (setup_run fixed skip an specs args H H1 H2 T) as (bs & [B1 B2] & R). apply R in E as (v' & Ev & Rv).
  assert (v = v') by congruence. subst v'. rewrite B1. now apply (reads_assigned nt).
Qed.

(** ** [new] and [clear] *)
Lemma word_values_length fs args (u : vals fs) : word_values fs args u -> length args = length fs.
Proof. revert args u. induction fs as [|f fs IH]; intros [|w ws] u; try easy. intros [_ W]. cbn. f_equal. now apply IH with (u := snd u). Qed.
Lemma vec_new {S : scalar} (nt : numtext S) sp : In sp (all_specs nt) -> forall args v,
  read_args_from_vec sp args = Ok v <-> exists u, v = args_new sp u /\ word_values (a_vars sp) args u.
Proof.
  intros H args v. destruct (read_vec_spec nt sp H args) as [A B]. destruct (Nat.eq_dec (length args) (a_num sp)) as [L|L].
  - destruct (B L) as [Q _]. apply Q.
  - rewrite A by auto. split; [discriminate|]. intros (u & _ & W). exfalso. apply L.
    assert (N : a_num sp = length (a_vars sp)) by (exact (proj1 (proj1 (Forall_forall _ _) (all_nice nt) sp H))).
    rewrite N. now apply word_values_length with (u := u).
Qed.
(** The same type fields as every structure that was read, and nothing of the old values. *)
Lemma clear_forgets sp {d : default (vals (a_vars sp))} v w : args_clear sp v = args_clear sp w.
Proof. reflexivity. Qed.

(** The structures of which the cleared value can be written to a file and read back. *)
Lemma clear_survives {S : scalar} (nt : numtext S) :
  (forall v, all_survive nt (a_fields (circ_spec nt)) (args_clear (circ_spec nt) v)) /\ (forall v, all_survive nt (a_fields (cubic_spec nt)) (args_clear (cubic_spec nt) v)) /\
  (forall v, all_survive nt (a_fields (cyl_spec nt)) (args_clear (cyl_spec nt) v)) /\ (forall v, all_survive nt (a_fields (indep_spec nt)) (args_clear (indep_spec nt) v)) /\
  (forall v, all_survive nt (a_fields (merge_spec nt)) (args_clear (merge_spec nt) v)) /\ (forall v, all_survive nt (a_fields (exp_spec nt)) (args_clear (exp_spec nt) v)) /\
  (forall v, all_survive nt (a_fields (lj_spec nt)) (args_clear (lj_spec nt) v)) /\ (forall v, all_survive nt (a_fields (const_spec nt)) (args_clear (const_spec nt) v)) /\
  (forall v, all_survive nt (a_fields (expstep_spec nt)) (args_clear (expstep_spec nt) v)) /\ (forall v, all_survive nt (a_fields varsim_spec) (args_clear varsim_spec v)) /\
  (forall v, all_survive nt (a_fields parsim_spec) (args_clear parsim_spec v)) /\ (forall v, all_survive nt (a_fields (procsim_spec nt)) (args_clear (procsim_spec nt) v)).
Proof.
  assert (E : one_line "" /\ trimmed "") by (repeat split; now left).
  repeat match goal with |- _ /\ _ => split end; intros v;
    cbn [all_survive a_fields a_types a_vars app circ_spec cubic_spec cyl_spec indep_spec merge_spec exp_spec lj_spec const_spec expstep_spec varsim_spec parsim_spec procsim_spec fst snd
         args_clear vals_app a_defaults];
    repeat match goal with |- _ /\ _ => split | |- True => exact I end; constructor; try discriminate; try reflexivity; try apply E.
Qed.
Lemma clear_bulk {S : scalar} (nt : numtext S) w v : print_configuration (a_fields (bulk_spec nt)) w (args_clear (bulk_spec nt) v) = Panic.
Proof. reflexivity. Qed.
Lemma expect_parsed {A} (o : option A) a : expect_ok (parsed o) = Ok a -> o = Some a.
Proof. destruct o as [x|]; cbn; [intros E; assert (x = a) by congruence; now subst|discriminate]. Qed.
Lemma simulation_parameters {S : scalar} (nt : numtext S) words :
  (forall v, read_args_from_vec varsim_spec words = Ok v -> exists n i s d, words = [n; i; s; d] /\
     parse_usize (trim n) = Some (vs_num_ensemble (varsim_of_args v)) /\ parse_usize (trim i) = Some (vs_idx_set (varsim_of_args v)) /\
     parse_uint u128_maxN (trim s) = Some (vs_seed (varsim_of_args v)) /\ trim d = vs_output_dir (varsim_of_args v)) /\
  (forall v, read_args_from_vec parsim_spec words = Ok v -> exists n s k d, words = [n; s; k; d] /\
     parse_usize (trim n) = Some (ps_num_ensemble (parsim_of_args v)) /\ parse_uint u128_maxN (trim s) = Some (ps_seed (parsim_of_args v)) /\
     parse_usize (trim k) = Some (ps_n_thrd (parsim_of_args v)) /\ trim d = ps_output_dir (parsim_of_args v)) /\
  (forall v, read_args_from_vec (procsim_spec nt) words = Ok v -> exists n p i s d, words = [n; p; i; s; d] /\
     parse_usize (trim n) = Some (pc_num_ensemble (procsim_of_args nt v)) /\ n_parse nt (trim p) = Some (pc_period (procsim_of_args nt v)) /\
     parse_usize (trim i) = Some (pc_idx_set (procsim_of_args nt v)) /\ parse_uint u128_maxN (trim s) = Some (pc_seed (procsim_of_args nt v)) /\ trim d = pc_output_dir (procsim_of_args nt v)).
Proof.
  split; [|split]; intros v H; unfold read_args_from_vec in H.
  - destruct words as [|n [|i [|s [|d [|]]]]]; try discriminate H. cbn [List.length a_num varsim_spec Nat.eqb negb a_vars read_words fld_usize fld_u128 fld_string f_parse] in H.
    destruct (parse_usize (trim n)) as [a|] eqn:E1; [cbn [parsed or_err expect_ok bind] in H|discriminate H].
    destruct (parse_usize (trim i)) as [b|] eqn:E2; [cbn [parsed or_err expect_ok bind] in H|discriminate H].
    destruct (parse_uint u128_maxN (trim s)) as [c|] eqn:E3; [cbn [parsed or_err expect_ok bind] in H|discriminate H].
    cbn in H. assert (X : v = (a, (b, (c, (trim d, tt))))) by congruence. subst v.
    exists n, i, s, d. split; [reflexivity|]. cbn [varsim_of_args vs_num_ensemble vs_idx_set vs_seed vs_output_dir]. now rewrite E3.
  - destruct words as [|n [|s [|k [|d [|]]]]]; try discriminate H. cbn [List.length a_num parsim_spec Nat.eqb negb a_vars read_words fld_usize fld_u128 fld_string f_parse] in H.
    destruct (parse_usize (trim n)) as [a|] eqn:E1; [cbn [parsed or_err expect_ok bind] in H|discriminate H].
    destruct (parse_uint u128_maxN (trim s)) as [c|] eqn:E3; [cbn [parsed or_err expect_ok bind] in H|discriminate H].
    destruct (parse_usize (trim k)) as [b|] eqn:E2; [cbn [parsed or_err expect_ok bind] in H|discriminate H].
    cbn in H. assert (X : v = (a, (c, (b, (trim d, tt))))) by congruence. subst v.
    exists n, s, k, d. split; [reflexivity|]. cbn [parsim_of_args ps_num_ensemble ps_seed ps_n_thrd ps_output_dir]. now rewrite E3.
  - destruct words as [|n [|p [|i [|s [|d [|]]]]]]; try discriminate H. cbn [List.length a_num procsim_spec Nat.eqb negb a_vars read_words fld_usize fld_u128 fld_string fld_f64 f_parse] in H.
    destruct (parse_usize (trim n)) as [a|] eqn:E1; [cbn [parsed or_err expect_ok bind] in H|discriminate H].
    destruct (n_parse nt (trim p)) as [q|] eqn:E4; [cbn [parsed or_err expect_ok bind] in H|discriminate H].
    destruct (parse_usize (trim i)) as [b|] eqn:E2; [cbn [parsed or_err expect_ok bind] in H|discriminate H].
    destruct (parse_uint u128_maxN (trim s)) as [c|] eqn:E3; [cbn [parsed or_err expect_ok bind] in H|discriminate H].
    cbn in H. assert (X : v = (a, (q, (b, (c, (trim d, tt)))))) by congruence. subst v.
    exists n, p, i, s, d. split; [reflexivity|]. cbn [procsim_of_args pc_num_ensemble pc_period pc_idx_set pc_seed pc_output_dir]. now rewrite E3.
Qed.
