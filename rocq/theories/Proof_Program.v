(** Reading back the data files of runs (C54). *)
From Coq Require Import String Ascii NArith ZArith Lia.
From Verif Require Import Base Scalar Model_Position Model_System Model_Agent Model_Time Model_Text Spec_Text Proof_Text Proof_Text3 Proof_Text5
  Model_Args Spec_Args Proof_Args Proof_Args3 Model_Analysis Spec_Analysis Proof_Analysis3 Model_Program Spec_Program.
Local Open Scope nat_scope.
Local Open Scope string_scope.
Local Open Scope list_scope.
Local Notation length := List.length.

Lemma lines_of_text ls : Forall (fun l => without line_feed l /\ without carriage_return l) ls -> text_lines (lines_text ls) = ls.
Proof.
  induction 1 as [|l ls [H1 H2] _ IH]; [reflexivity|]. change (lines_text (l :: ls)) with (l ++ newline ++ lines_text ls)%string.
  rewrite text_lines_cons by auto. now rewrite IH.
Qed.
Lemma data_lines {S : scalar} (nt : numtext S) ts : data_text nt ts = lines_text (map (n_sci nt) ts).
Proof. induction ts as [|t ts IH]; [reflexivity|]. cbn [data_text fold_right map lines_text]. unfold data_text in IH. now rewrite IH. Qed.

Section Dir.
Context {S : scalar} (nt : numtext S) (specs : list argspec) (sim : argspec) (width : nat) (values : all_args specs -> list S) {A L : Type}.
Variables (sip : list Z -> Z) (fresh : outcome A) (text_line : A -> string -> outcome A) (add_line : A -> L -> outcome A) (draw : A -> outcome A) (empty : A -> bool).
Variables (line_for : string -> L -> Prop) (r : L -> L).
Hypothesis line_ok : forall l x, line_for l x -> without line_feed l /\ without carriage_return l /\ forall a, text_line a l = add_line a (r x).

Lemma read_joined sp : forall lines (v : all_args sp) (s : args_of sim) rest, read_all (sp ++ [sim]) lines = Ok (join_args sp v s, rest) ->
  exists ls, read_all sp lines = Ok (v, ls) /\ read_args_from_lines sim ls = Ok (s, rest).
Proof.
  induction sp as [|p sp IH]; intros lines v s rest; cbn [app read_all join_args].
  - destruct (read_args_from_lines sim lines) as [[s1 ls1]| | |] eqn:E1; cbn [bind]; try discriminate. intros E. injection E as -> ->. destruct v. exists lines. auto.
  - destruct (read_args_from_lines p lines) as [[v0 ls0]| | |]; cbn [bind]; try discriminate.
    destruct (read_all (sp ++ [sim]) ls0) as [[v1 ls1]| | |] eqn:E1; cbn [bind]; try discriminate. intros E. injection E as -> -> ->.
    destruct (IH _ _ _ _ E1) as (ls & E2 & E3). exists ls. rewrite E2. cbn [bind]. destruct v. auto.
Qed.
Lemma add_text_lines ls xs : Forall2 line_for ls xs -> forall a, add_lines text_line a ls = add_lines add_line a (map r xs).
Proof.
  induction 1 as [|l x ls xs H _ IH]; intros a; [reflexivity|]. cbn [add_lines map]. destruct (line_ok _ _ H) as (_ & _ & E). rewrite E.
  destruct (add_line a (r x)); cbn [bind]; auto.
Qed.
Lemma read_run v s xs text : faithful nt -> known (specs ++ [sim]) -> directory_file nt specs sim width line_for (Some (v, s, xs)) text ->
  exists ls, read_data specs sim text = Ok (v, s, data_line :: ls) /\ Forall2 line_for ls xs.
Proof.
  intros F I H. remember (Some (v, s, xs)) as f eqn:Ef. destruct H as [v' s' xs' ls head Hv Hh Hl|]; [|discriminate]. injection Ef as -> -> ->.
  destruct (file_read_known nt (specs ++ [sim]) width (join_args specs v s) (lines_text ls) F I Hv) as (t & Et & Er).
  rewrite Hh in Et. injection Et as <-. exists ls. split; [|exact Hl].
  rewrite lines_of_text in Er.
  - unfold from_file in Er. destruct (read_joined specs _ v s _ Er) as (ls0 & E1 & E2). unfold read_data. rewrite E1. cbn [bind]. rewrite E2. reflexivity.
  - clear -Hl line_ok. induction Hl as [|l x ls xs Hlx _ IH]; constructor; [|exact IH]. destruct (line_ok _ _ Hlx) as (? & ? & _). auto.
Qed.
Let keyed (m : list (all_args specs * A)) := map (fun e => (values (fst e), snd e)) m.
Lemma insert_same ds ls xs : (forall a, add_lines text_line a ls = add_lines add_line a xs) -> forall m,
  report values (insert_data specs values sip fresh text_line ds ls m) = insert_file sip fresh add_line (values ds) xs (keyed m).
Proof.
  intros E. induction m as [|[d a] m IH]; cbn [insert_data insert_file keyed map fst snd].
  - destruct fresh as [f| | |]; cbn [bind report]; auto. rewrite E. destruct (add_lines add_line f xs); cbn [bind report]; auto.
  - destruct (same_dataset sip (values d) (values ds)).
    + rewrite E. destruct (add_lines add_line a xs); cbn [bind report]; auto.
    + fold (keyed m). rewrite <- IH. destruct (insert_data _ _ _ _ _ ds ls m); cbn [bind report]; auto.
Qed.
Lemma read_same files texts : faithful nt -> known (specs ++ [sim]) -> Forall2 (directory_file nt specs sim width line_for) files texts -> forall m,
  report values (read_dir specs sim values sip fresh text_line texts m) = read_files sip fresh add_line (map (as_read values r) files) (keyed m).
Proof.
  intros F I. induction 1 as [|f t files texts H _ IH]; intros m; [reflexivity|]. cbn [read_dir map].
  destruct f as [[[v s] xs]|].
  - destruct (read_run v s xs t F I H) as (ls & E & Hl). rewrite E. cbn [as_read read_files tl].
    rewrite <- (insert_same v ls (map r xs) (add_text_lines _ _ Hl)).
    destruct (insert_data specs values sip fresh text_line v ls m); cbn [bind report]; auto.
  - remember (@None (all_args specs * args_of sim * list L)) as f eqn:Ef. destruct H as [|t e He]; [discriminate|]. rewrite He. cbn [as_read read_files]. apply IH.
Qed.
Lemma draw_same m : report values (draw_data specs draw empty m) = draw_all draw empty (keyed m).
Proof.
  induction m as [|[d a] m IH]; [reflexivity|]. cbn [draw_data draw_all keyed map fst snd]. destruct (empty a); [exact IH|].
  destruct (draw a) as [a'| | |]; cbn [bind report]; auto. fold (keyed m). rewrite <- IH. destruct (draw_data specs draw empty m); cbn [bind report]; auto.
Qed.
Lemma analyze_dir_same files texts : faithful nt -> known (specs ++ [sim]) -> Forall2 (directory_file nt specs sim width line_for) files texts ->
  report values (analyze_dir specs sim values sip fresh text_line draw empty texts) = analyze sip fresh add_line draw empty (map (as_read values r) files).
Proof.
  intros F I H. unfold analyze_dir, analyze. pose proof (read_same files texts F I H []) as E. cbn [keyed map] in E. rewrite <- E.
  destruct (read_dir _ _ _ _ _ _ texts []) as [m| | |]; cbn [bind report]; auto. apply draw_same.
Qed.
End Dir.

Lemma blank_app a b : blank a -> blank b -> blank (a ++ b)%string.
Proof. intros. now apply all_app. Qed.
Lemma Words_end s ws : Words s ws -> forall b, blank b -> Words (s ++ b)%string ws.
Proof.
  induction 1; intros e He; rewrite ?app_s_assoc; cbn [append].
  - constructor. now apply blank_app.
  - constructor; auto. now apply blank_app.
  - constructor; auto.
Qed.
Lemma trim_words s : split_ws (trim s) = split_ws s.
Proof.
  destruct (trim_decomp s) as (a & t & b & E & Ha & Hb & _ & Et). rewrite Et. rewrite E, split_ws_skip by auto. symmetry. apply Words_split. apply Words_end; auto. apply split_Words.
Qed.

Section Lines.
Context {S : scalar} (nt : numtext S) (r : S -> S).
Hypothesis F : faithful nt.
Hypothesis RR : rereads nt r.
Lemma sci_word x : number_word (n_sci nt x). Proof. apply (F x). Qed.
Lemma sci_chars x : without line_feed (n_sci nt x) /\ without carriage_return (n_sci nt x).
Proof. split; apply number_without; try apply sci_word; cbn; lia. Qed.
Lemma number_line_ok l x : number_line nt l x -> without line_feed l /\ without carriage_return l /\ forall a, ta_text_line nt a l = ta_add a (r x).
Proof.
  unfold number_line. intros ->. destruct (sci_chars x). do 2 (split; [assumption|]). intros a. unfold ta_text_line.
  rewrite trim_solid by apply number_solid, sci_word. rewrite RR. reflexivity.
Qed.
Lemma parse_all_ok xs : parse_all nt (map (n_sci nt) xs) = Ok (map r xs).
Proof. induction xs as [|x xs IH]; [reflexivity|]. cbn [map parse_all]. rewrite RR. cbn [expect bind]. now rewrite IH. Qed.
Lemma vector_line_ok l xs : vector_line nt l xs -> without line_feed l /\ without carriage_return l /\ forall a, tv_text_line nt a l = tv_add a (map r xs).
Proof.
  intros (W & H1 & H2). do 2 (split; [assumption|]). intros a. unfold tv_text_line. rewrite trim_words. apply Words_split in W. rewrite W, parse_all_ok. reflexivity.
Qed.
Lemma remove_app p a b : remove_chars p (a ++ b)%string = (remove_chars p a ++ remove_chars p b)%string.
Proof. induction a as [|c a IH]; [reflexivity|]. cbn [append remove_chars]. rewrite IH. now destruct (p c). Qed.
Lemma remove_none p a : all_chars (fun c => p c = false) a -> remove_chars p a = a.
Proof. induction a as [|c a IH]; [reflexivity|]. cbn. intros [-> H]. now rewrite IH. Qed.
Lemma number_noparen s : number_word s -> all_chars (fun c => is_paren c = false) s.
Proof.
  intros [_ H]. revert H. apply all_impl. intros c Hc. unfold is_paren. apply Bool.orb_false_iff. split; apply is_char_false; intros ->; revert Hc; unfold number_char; cbn; lia.
Qed.
Lemma pair_word_parse p : pair_parse nt (pair_word nt p) = Ok (both r p).
Proof.
  unfold pair_parse, pair_word. rewrite !remove_app. rewrite !(remove_none is_paren (n_sci nt _)) by apply number_noparen, sci_word.
  change (remove_chars is_paren "(") with "". change (remove_chars is_paren ",") with ",". change (remove_chars is_paren ")") with "". cbn [append].
  rewrite app_s_nil. change (n_sci nt (fst p) ++ String "," (n_sci nt (snd p)))%string with (n_sci nt (fst p) ++ "," ++ n_sci nt (snd p))%string.
  rewrite cut_comma by (apply number_without; [apply sci_word|cbn; lia]). cbn [map]. rewrite !RR. reflexivity.
Qed.
Lemma pa_words_ok ps : forall a, pa_words nt a (map (pair_word nt) ps) = pa_pairs a (map (both r) ps).
Proof.
  induction ps as [|p ps IH]; intros a; [reflexivity|]. cbn [map pa_words pa_pairs]. rewrite pair_word_parse. cbn [bind both fst snd].
  destruct (pa_pair a (r (fst p)) (r (snd p))); cbn [bind]; auto.
Qed.
Lemma process_line_ok l ps : process_line nt l ps -> without line_feed l /\ without carriage_return l /\ forall a, pa_text_line nt a l = pa_line a (map (both r) ps).
Proof.
  intros (W & H1 & H2). do 2 (split; [assumption|]). intros a. unfold pa_text_line, pa_line. rewrite trim_words. apply Words_split in W. rewrite W, pa_words_ok. reflexivity.
Qed.
End Lines.

(** The three analyses. *)
Section Three.
Context {S : scalar} (nt : numtext S) (r : S -> S) (specs : list argspec) (sim : argspec) (width : nat) (values : all_args specs -> list S) (sip : list Z -> Z) (mn mx size lsize : S).
Hypothesis F : faithful nt.
Hypothesis RR : rereads nt r.
Hypothesis I : known (specs ++ [sim]).
Lemma time_files files texts : Forall2 (directory_file nt specs sim width (number_line nt)) files texts ->
  report values (analyze_dir specs sim values sip (ta_fresh mn mx size lsize) (ta_text_line nt) ta_draw (fun _ => false) texts) =
  ta_analyze sip mn mx size lsize (map (as_read values r) files).
Proof. intros H. unfold ta_analyze. eapply analyze_dir_same; eauto. intros l x. now apply number_line_ok. Qed.
Lemma vector_files n files texts : Forall2 (directory_file nt specs sim width (vector_line nt)) files texts ->
  report values (analyze_dir specs sim values sip (tv_fresh mn mx size lsize n) (tv_text_line nt) tv_draw (fun a => Nat.eqb (tv_ens a) 0) texts) =
  tv_analyze sip mn mx size lsize n (map (as_read values (map r)) files).
Proof. intros H. unfold tv_analyze. eapply analyze_dir_same; eauto. intros l x. now apply vector_line_ok. Qed.
Lemma process_files files texts : Forall2 (directory_file nt specs sim width (process_line nt)) files texts ->
  report values (analyze_dir specs sim values sip (pa_fresh mn mx size lsize) (pa_text_line nt) pa_draw (fun a => Nat.eqb (pa_ens a) 0) texts) =
  pa_analyze sip mn mx size lsize (map (as_read values (map (both r))) files).
Proof. intros H. unfold pa_analyze. eapply analyze_dir_same; eauto. intros l x. now apply process_line_ok. Qed.
End Three.
