(** The files [analyze] writes (C55). *)
From Coq Require Import String Ascii NArith ZArith Lia.
From Verif Require Import Base Scalar Model_Position Model_System Model_Agent Model_Time Model_Text Spec_Text Proof_Text Proof_Text3 Proof_Text5
  Model_Args Spec_Args Proof_Args Proof_Args3 Model_Analysis Spec_Analysis Proof_Analysis3 Model_Run Model_Program Spec_Program Proof_Program Proof_Program3.
Local Open Scope nat_scope.
Local Open Scope string_scope.
Local Open Scope list_scope.
Local Notation length := List.length.

(** ** words of a row *)
Lemma spaces_blank n : blank (spaces n).
Proof. induction n; cbn; [exact I|]. split; [|assumption]. unfold whitespace. cbn. auto 10. Qed.
Lemma Words_skip a r ws : blank a -> Words r ws -> Words (a ++ r)%string ws.
Proof.
  intros Ha H. revert Ha. destruct H as [s Hs|b w c Hb Hw Hs Hc|b w c r w' ws Hb Hw Hs Hc Hr]; intros Ha.
  - constructor. now apply blank_app.
  - rewrite <- app_s_assoc. constructor; auto. now apply blank_app.
  - rewrite <- app_s_assoc. constructor; auto. now apply blank_app.
Qed.
Lemma Words_cons w c r ws : w <> "" -> solid w -> whitespace c -> Words r ws -> Words (w ++ String c r)%string (w :: ws).
Proof.
  intros Hw Hs Hc H. destruct ws as [|w' ws].
  - assert (B : blank r). { remember [] as l eqn:E. destruct H; [assumption|discriminate|discriminate]. }
    change (w ++ String c r)%string with ("" ++ w ++ String c r)%string. constructor; auto; [exact I|]. split; auto.
  - change (w ++ String c r)%string with ("" ++ w ++ String c r)%string. constructor; auto. exact I.
Qed.
Lemma tab_white : whitespace (ascii_of_nat 9). Proof. unfold whitespace. cbn. auto. Qed.
Definition good (s : string) : Prop := s <> "" /\ solid s.
Lemma pad_row w s r ws : good s -> Words r ws -> Words (pad w s ++ tab ++ r)%string (s :: ws).
Proof.
  intros [H1 H2] H. unfold pad, tab. cbn [append]. rewrite app_s_assoc. destruct (spaces (w - String.length s)) as [|c q] eqn:E.
  - cbn [append]. apply Words_cons; auto. apply tab_white.
  - pose proof (spaces_blank (w - String.length s)) as B. rewrite E in B. destruct B as [B1 B2]. cbn [append]. apply Words_cons; auto. apply Words_skip; auto.
    change (String (ascii_of_nat 9) r) with (String (ascii_of_nat 9) "" ++ r)%string. apply Words_skip; auto. split; [apply tab_white|exact I].
Qed.
Lemma pad_sep w s r ws : good s -> String.length s < w -> Words r ws -> Words (pad w s ++ r)%string (s :: ws).
Proof.
  intros [H1 H2] Hw H. unfold pad. rewrite app_s_assoc. destruct (w - String.length s) as [|k] eqn:E; [lia|]. cbn [spaces append]. apply Words_cons; auto.
  - unfold whitespace. cbn. auto 10.
  - apply Words_skip; auto. apply spaces_blank.
Qed.
Lemma pad_last w s : good s -> Words (pad w s)%string [s].
Proof. intros [H1 H2]. unfold pad. change (s ++ spaces (w - String.length s))%string with ("" ++ s ++ spaces (w - String.length s))%string. constructor; auto; [exact I|apply spaces_blank]. Qed.
Lemma lpad_row w s r ws : good s -> Words r ws -> Words (lpad w s ++ tab ++ r)%string (s :: ws).
Proof. intros [H1 H2] H. unfold lpad, tab. cbn [append]. rewrite app_s_assoc. apply Words_skip; [apply spaces_blank|]. apply Words_cons; auto. apply tab_white. Qed.
Lemma lpad_last w s : good s -> Words (lpad w s)%string [s].
Proof. intros [H1 H2]. unfold lpad. replace s with (s ++ "")%string at 2 by apply app_s_nil. constructor; auto; [apply spaces_blank|exact I]. Qed.
(** ** no line feeds inside a row *)
Definition clean (s : string) : Prop := without line_feed s /\ without carriage_return s.
Lemma clean_app a b : clean a -> clean b -> clean (a ++ b)%string.
Proof. intros [H1 H2] [H3 H4]. split; apply all_app; auto. Qed.
Lemma spaces_clean n : clean (spaces n).
Proof. split; apply spaces_without; discriminate. Qed.
Lemma solid_clean s : solid s -> clean s.
Proof. intros H. split; revert H; apply all_impl; intros c Hc ->; apply Hc; unfold whitespace; cbn; auto 10. Qed.
Lemma tab_clean : clean tab. Proof. split; (split; [discriminate|exact I]). Qed.
Lemma pad_clean w s : solid s -> clean (pad w s).
Proof. intros. apply clean_app; [now apply solid_clean|apply spaces_clean]. Qed.
Lemma lpad_clean w s : solid s -> clean (lpad w s).
Proof. intros. apply clean_app; [apply spaces_clean|now apply solid_clean]. Qed.
Lemma num_good s : number_word s -> good s.
Proof. intros H. now apply number_solid. Qed.
Lemma rows_cons l s row rows : clean l -> Words l row -> rows_of s rows -> rows_of (l ++ newline ++ s)%string (row :: rows).
Proof. intros [H1 H2] H Hr. unfold rows_of. rewrite text_lines_cons by auto. constructor; auto. Qed.
Lemma rows_nil : rows_of "" [].
Proof. constructor. Qed.

Section Out.
Context {S : scalar} (show_e : S -> string).
Hypothesis show_ok : forall x, number_word (show_e x).
Lemma entry_good e : good (entry_text show_e e).
Proof. apply num_good. destruct e; [apply show_ok|apply show_usize_word]. Qed.
Lemma data_words w es r ws : Words r ws -> Words (export_data (entry_text show_e) w es ++ r)%string (map (entry_text show_e) es ++ ws).
Proof.
  intros H. induction es as [|e es IH]; [exact H|]. cbn [export_data fold_right map app]. fold (export_data (entry_text show_e) w es).
  rewrite app_s_assoc. change (String (ascii_of_nat 9) (export_data (entry_text show_e) w es) ++ r)%string with (tab ++ export_data (entry_text show_e) w es ++ r)%string.
  apply pad_row; auto. apply entry_good.
Qed.
Lemma data_clean w es : clean (export_data (entry_text show_e) w es).
Proof.
  induction es as [|e es IH]; [split; exact I|]. cbn [export_data fold_right]. apply clean_app; [apply pad_clean, entry_good|].
  change (String (ascii_of_nat 9) ?x) with (tab ++ x)%string. apply clean_app; [apply tab_clean|exact IH].
Qed.
Ltac cl := lazymatch goal with
  | |- clean (pad _ _) => apply pad_clean, num_good; auto using show_usize_word
  | |- clean (lpad _ _) => apply lpad_clean, num_good; auto using show_usize_word
  | |- clean tab => apply tab_clean
  | |- clean (export_data _ _ _) => apply data_clean
  | |- clean (_ ++ _)%string => apply clean_app; cl
  end.
Lemma summary_row_rows w es (a : tana S) s rows : rows_of s rows -> rows_of (summary_row show_e w es a ++ s)%string (summary_words show_e es a :: rows).
Proof.
  intros H. unfold summary_row, mean_text.
  replace ((export_data (entry_text show_e) w es ++ pad w (show_e (ta_mean a)) ++ tab ++ pad w (show_e (ta_sq a)) ++ tab ++ pad w (show_usize (ta_ens a)) ++ newline) ++ s)%string with
    ((export_data (entry_text show_e) w es ++ pad w (show_e (ta_mean a)) ++ tab ++ pad w (show_e (ta_sq a)) ++ tab ++ pad w (show_usize (ta_ens a))) ++ newline ++ s)%string by now rewrite !app_s_assoc.
  apply rows_cons; auto.
  - cl.
  - unfold summary_words. apply data_words. apply pad_row; [now apply num_good|]. apply pad_row; [now apply num_good|]. apply pad_last, num_good, show_usize_word.
Qed.
Lemma form_words w names r ws : Forall (fun n => good n /\ String.length n < w) names -> Words r ws -> Words (export_form w names ++ r)%string (names ++ ws).
Proof.
  intros H Hr. induction H as [|n names [H1 H2] _ IH]; [exact Hr|]. cbn [export_form fold_right app]. fold (export_form w names). rewrite app_s_assoc. now apply pad_sep.
Qed.
Lemma form_clean w names : Forall (fun n => good n /\ String.length n < w) names -> clean (export_form w names).
Proof. induction 1 as [|n names [[H0 H1] H2] _ IH]; [split; exact I|]. cbn [export_form fold_right]. apply clean_app; [now apply pad_clean|exact IH]. Qed.
Lemma summary_head_rows w names s rows : Forall (fun n => good n /\ String.length n < w) names -> 8 < w -> rows_of s rows ->
  rows_of (summary_head w names ++ s)%string ((names ++ ["ensemble"; "mean"; "stddev"]) :: rows).
Proof.
  intros H Hw Hr. assert (T : Forall (fun n => good n /\ String.length n < w) ["ensemble"; "mean"; "stddev"]).
  { repeat constructor; cbn; try lia; try discriminate; unfold whitespace; cbn; intuition discriminate. }
  unfold summary_head.
  replace ((export_form w names ++ export_form w ["ensemble"; "mean"; "stddev"] ++ newline) ++ s)%string with ((export_form w names ++ export_form w ["ensemble"; "mean"; "stddev"]) ++ newline ++ s)%string
    by now rewrite !app_s_assoc.
  apply rows_cons; auto.
  - apply clean_app; now apply form_clean.
  - apply form_words; auto. rewrite <- (app_s_nil (export_form w _)). rewrite <- (app_nil_r ["ensemble"; "mean"; "stddev"]) at 2. apply form_words; auto. constructor. exact I.
Qed.
Lemma dist_rows w (rows : list (S * nat * S)) : rows_of (dist_text show_e w rows) (map (histogram_words show_e) rows).
Proof.
  induction rows as [|[[t n] x] rows IH]; [exact rows_nil|]. cbn [dist_text fold_right map]. fold (dist_text show_e w rows).
  replace (lpad w (show_e t) ++ tab ++ lpad w (show_usize n) ++ tab ++ lpad w (show_e x) ++ newline ++ dist_text show_e w rows)%string with
    ((lpad w (show_e t) ++ tab ++ lpad w (show_usize n) ++ tab ++ lpad w (show_e x)) ++ newline ++ dist_text show_e w rows)%string by now rewrite !app_s_assoc.
  apply rows_cons; auto.
  - cl.
  - cbn [histogram_words]. apply lpad_row; [now apply num_good|]. apply lpad_row; [apply num_good, show_usize_word|]. now apply lpad_last, num_good.
Qed.
End Out.

(** ** names *)
Section Names.
Context {S : scalar} (nt : numtext S).
Lemma parts_texts (l : list (string * entry S)) : fold_right (fun v acc => var_part v ++ acc)%string "" (map (fun ne => (fst ne, shown nt (snd ne))) l) =
  fold_right (fun ne acc => "_" ++ fst ne ++ "_" ++ shown nt (snd ne) ++ acc)%string "" l.
Proof. induction l as [|[n e] l IH]; [reflexivity|]. cbn [map fold_right fst snd]. rewrite IH. unfold var_part. cbn [fst snd]. now rewrite !app_s_assoc. Qed.
Lemma texts_are v : dataset_texts (exp_structs nt) v = Some (map (fun ne => (fst ne, shown nt (snd ne))) (combine exp_names (exp_entries nt v))).
Proof. destruct v as ((? & ? & ? & ? & ?) & (? & ? & ? & ?) & (? & ? & ? & ? & ? & ? & ? & ?) & (? & ? & ? & ? & ?) & ?). reflexivity. Qed.
Lemma name_is v : exp_name nt v = Some (group_name nt v).
Proof. unfold exp_name. rewrite texts_are. unfold export_file_removed_idx. rewrite parts_texts. reflexivity. Qed.
Lemma n_show_inj x y : faithful nt -> n_show nt x = n_show nt y -> x = y.
Proof. intros F E. destruct (F x) as [Hx _]. destruct (F y) as [Hy _]. unfold round_trips in *. rewrite E, Hy in Hx. now injection Hx. Qed.
Lemma name_inj v w : faithful nt -> group_name nt v = group_name nt w -> exp_entries nt v = exp_entries nt w.
Proof.
  intros F E. assert (L : Forall (listable nt) (exp_structs nt)).
  { apply Forall_forall. intros sp [<-|[<-|[<-|[<-|[]]]]]; apply (all_listable nt); cbn; tauto. }
  destruct (dataset_texts_names nt (exp_structs nt) F L v w) as (a & b & E1 & E2 & N & P1 & P2 & [I _]).
  assert (Eab : a = b).
  { pose proof (name_is v) as X. pose proof (name_is w) as Y. unfold exp_name in X, Y. rewrite E1 in X. rewrite E2 in Y. rewrite <- E in Y.
    assert (X' : forall x y : string, Some x = Some y -> x = y) by congruence. apply X' in X. apply X' in Y. rewrite <- Y in X.
    apply (file_inj exp_prefix a b [] []); auto; try constructor; try reflexivity. unfold export_file. now rewrite !app_nil_r. }
  apply I in Eab. clear -Eab.
  destruct v as ((? & ? & ? & ? & ?) & (? & ? & ? & ?) & (? & ? & ? & ? & ? & ? & ? & ?) & (? & ? & ? & ? & ?) & ?).
  destruct w as ((? & ? & ? & ? & ?) & (? & ? & ? & ?) & (? & ? & ? & ? & ? & ? & ? & ?) & (? & ? & ? & ? & ?) & ?).
  cbn in Eab. decompose [and] Eab. clear Eab. cbn [exp_entries].
  repeat f_equal; match goal with H : _ -> ?x = ?y |- ?x = ?y => apply H; tauto end.
Qed.
Lemma names_are gs : name_groups nt gs = Some (map (fun g => (group_name nt (fst g), exp_entries nt (fst g), snd g)) gs).
Proof. induction gs as [|[v a] gs IH]; [reflexivity|]. cbn [name_groups map fst snd]. now rewrite name_is, IH. Qed.
End Names.

(** ** the result *)
Section Result.
Context {S : scalar} (nt : numtext S) (show_e : S -> string) (r : S -> S).
Hypothesis F : faithful nt.
Hypothesis RR : rereads nt r.
Hypothesis show_ok : forall x, number_word (show_e x).
Lemma app_slash a b c : path_in a b = path_in a c -> b = c.
Proof. unfold path_in. intros E. apply app_s_inv in E. now apply app_s_inv in E. Qed.
Lemma group_out w dir gs : forall fs, group_files show_e w dir gs = Ok fs ->
  map fst fs = flat_map (fun g : string * tana S => [path_in dir (path_in "linear_distribution" (fst g)); path_in dir (path_in "logarithmic_distribution" (fst g))]) gs /\
  forall n a, In (n, a) gs -> exists lin lg t1 t2, ta_export_lin a = Ok lin /\ ta_export_log a = Ok lg /\
    In (path_in dir (path_in "linear_distribution" n), t1) fs /\ rows_of t1 (map (histogram_words show_e) lin) /\
    In (path_in dir (path_in "logarithmic_distribution" n), t2) fs /\ rows_of t2 (map (histogram_words show_e) lg).
Proof.
  induction gs as [|[n a] gs IH]; intros fs; cbn [group_files].
  - intros E. injection E as <-. split; [reflexivity|]. intros ? ? [].
  - destruct (ta_export_lin a) as [lin| | |] eqn:E1; cbn [bind]; try discriminate. destruct (ta_export_log a) as [lg| | |] eqn:E2; cbn [bind]; try discriminate.
    destruct (group_files show_e w dir gs) as [rest| | |]; cbn [bind]; try discriminate. intros E. injection E as <-. destruct (IH _ eq_refl) as [I1 I2]. split.
    + cbn [map fst flat_map app]. now rewrite I1.
    + intros n' a' [E|Hi].
      * injection E as <- <-. exists lin, lg, (dist_text show_e w lin), (dist_text show_e w lg). do 2 (split; [assumption|]). split; [now left|]. split; [now apply dist_rows|].
        split; [now right; left|now apply dist_rows].
      * destruct (I2 n' a' Hi) as (l1 & l2 & t1 & t2 & X1 & X2 & X3 & X4 & X5 & X6). exists l1, l2, t1, t2. repeat (split; [assumption || (now right; right)|]). assumption.
Qed.
Lemma names_short : Forall (fun n => good n /\ String.length n < exp_width) exp_names.
Proof. repeat constructor; cbn; try lia; try discriminate; unfold whitespace; cbn; intuition discriminate. Qed.
Lemma linear_first a b : path_in "linear_distribution" a <> path_in "logarithmic_distribution" b.
Proof. unfold path_in. cbn [append]. intros E. discriminate. Qed.
Lemma brief_other a dir : a <> "brief_result.dat" -> path_in dir a <> path_in dir "brief_result.dat".
Proof. intros H E. now apply app_slash in E. Qed.
Lemma analysis_writes sip dir req files texts out : Forall2 (directory_file nt (exp_structs nt) varsim_spec exp_width (number_line nt)) files texts ->
  exp_analyze nt show_e sip dir req texts = Ok out ->
  exists gs brief, exp_groups nt sip req texts = Ok gs /\
    map fst out = path_in dir "brief_result.dat" :: flat_map (fun g => [path_in dir (path_in "linear_distribution" (group_name nt (fst g))); path_in dir (path_in "logarithmic_distribution" (group_name nt (fst g)))]) gs /\
    NoDup (map fst out) /\
    In (path_in dir "brief_result.dat", brief) out /\
    rows_of brief ((exp_names ++ ["ensemble"; "mean"; "stddev"]) :: map (fun g => summary_words show_e (exp_entries nt (fst g)) (snd g)) gs) /\
    (forall v a, In (v, a) gs -> exists lin lg t1 t2, ta_export_lin a = Ok lin /\ ta_export_log a = Ok lg /\
       In (path_in dir (path_in "linear_distribution" (group_name nt v)), t1) out /\ rows_of t1 (map (histogram_words show_e) lin) /\
       In (path_in dir (path_in "logarithmic_distribution" (group_name nt v)), t2) out /\ rows_of t2 (map (histogram_words show_e) lg)).
Proof.
  intros H E. unfold exp_analyze in E. destruct (exp_groups nt sip req texts) as [gs| | |] eqn:Eg; cbn [bind] in E; try discriminate. rewrite names_are in E. unfold result_files in E.
  rewrite map_map in E. cbn [fst snd] in E.
  destruct (group_files show_e exp_width dir _) as [fs| | |] eqn:Ef; cbn [bind] in E; try discriminate.
  assert (X : forall x y : list (string * string), Ok x = Ok y -> x = y) by congruence. apply X in E. clear X. subst out.
  destruct (group_out _ _ _ _ Ef) as [G1 G2]. rewrite flat_map_concat_map, map_map, <- flat_map_concat_map in G1. cbn [fst] in G1.
  destruct (groups_hold nt r F RR sip req files texts gs H Eg) as (_ & _ & P).
  eexists gs, _. split; [reflexivity|]. cbn [map fst]. rewrite G1. split; [reflexivity|]. split; [|split; [now left|split]].
  - assert (N : NoDup (map (fun g => group_name nt (fst g)) gs)).
    { clear -P F. induction P as [|g gs Hg _ IH]; [constructor|]. cbn. constructor; auto. rewrite in_map_iff. intros (g' & E & Hi). rewrite Forall_forall in Hg. specialize (Hg _ Hi).
      apply (name_inj nt _ _ F) in E. assert (Ev : exp_values nt (fst g') = exp_values nt (fst g)) by exact (f_equal (map entry_value) E).
      assert (Hg' : same_dataset sip (exp_values nt (fst g)) (exp_values nt (fst g')) = false) by exact Hg. rewrite Ev in Hg'. unfold same_dataset in Hg'. now rewrite Z.eqb_refl in Hg'. }
    constructor.
    + rewrite in_flat_map. intros (g & _ & [E|[E|[]]]); apply app_slash in E; discriminate E.
    + clear -N. induction gs as [|g gs IH]; [constructor|]. cbn [map] in N. apply NoDup_cons_iff in N as [N1 N2]. cbn [flat_map app]. constructor; [|constructor; [|now apply IH]].
      * intros [E|Hi]; [apply app_slash in E; now apply (linear_first _ _ (eq_sym E))|]. apply in_flat_map in Hi as (g' & Hg & [E|[E|[]]]); apply app_slash in E.
        -- apply app_slash in E. apply N1. rewrite <- E. now apply (in_map (fun g => group_name nt (fst g))).
        -- now apply (linear_first _ _ (eq_sym E)).
      * intros Hi. apply in_flat_map in Hi as (g' & Hg & [E|[E|[]]]); apply app_slash in E.
        -- now apply (linear_first _ _ E).
        -- apply app_slash in E. apply N1. rewrite <- E. now apply (in_map (fun g => group_name nt (fst g))).
  - refine (summary_head_rows _ _ _ _ _ _ _); [exact names_short|unfold exp_width; lia|]. clear -show_ok. induction gs as [|g gs IH]; [exact rows_nil|]. cbn [map fold_right fst snd]. now apply summary_row_rows.
  - intros v a Hi. destruct (G2 (group_name nt v) a) as (lin & lg & t1 & t2 & X1 & X2 & X3 & X4 & X5 & X6).
    + apply in_map_iff. exists (v, a). auto.
    + exists lin, lg, t1, t2. repeat (split; [assumption || (now right)|]). assumption.
Qed.
End Result.
