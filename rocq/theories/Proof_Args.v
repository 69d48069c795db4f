(** Proofs about argument structures: data files are read back, command lines are cut into blocks, file names are distinct. *)
From Coq Require Import String Ascii NArith Lia.
From Verif Require Import Base Scalar Model_Position Model_System Model_Agent Model_Time Model_Text Spec_Text Proof_Text Proof_Text2 Proof_Text3 Model_Args Spec_Args.
Local Open Scope string_scope.
Local Open Scope list_scope.
Local Notation length := List.length.

Lemma without_split d s : without d s -> split_on (is_char d) s = [s].
Proof. intros H. now apply split_none, without_b. Qed.
Lemma without_app d a b : without d (a ++ b)%string <-> without d a /\ without d b.
Proof. apply all_app. Qed.
Lemma spaces_without d n : d <> " "%char -> without d (spaces n).
Proof. intros H. induction n; [easy|]. split; auto. Qed.
Lemma pad_without d w s : d <> " "%char -> without d s -> without d (pad w s).
Proof. intros. apply without_app. split; auto. now apply spaces_without. Qed.

(** ** lines of a text *)
Lemma strip_cr_none s : without carriage_return s -> strip_cr s = s.
Proof.
  intros H. unfold strip_cr. destruct (rev (list_ascii_of_string s)) as [|c r] eqn:E; auto.
  destruct (Ascii.eqb c (ascii_of_nat 13)) eqn:Ec; auto. apply Ascii.eqb_eq in Ec. exfalso.
  assert (In c (list_ascii_of_string s)) by (rewrite in_rev, E; now left).
  clear E. induction s as [|d s IH]; [easy|]. destruct H as [H1 H2]. simpl in H0. destruct H0; auto. subst. auto.
Qed.
Lemma text_lines_cons l s : without line_feed l -> without carriage_return l -> text_lines (l ++ newline ++ s)%string = l :: text_lines s.
Proof.
  intros H1 H2. unfold text_lines, newline. cbn [append].
  rewrite split_sep; [|now apply without_b|apply Ascii.eqb_refl].
  destruct (split_cons (is_char (ascii_of_nat 10)) s) as (h & t & E). rewrite E.
  assert (L : last (l :: h :: t) "" = last (h :: t) "") by reflexivity. rewrite L.
  destruct (is_empty (last (h :: t) "")).
  - change (removelast (l :: h :: t)) with (l :: removelast (h :: t)). cbn [map]. now rewrite strip_cr_none.
  - cbn [map]. now rewrite strip_cr_none.
Qed.

(** ** one field *)
Definition readable (f : field) (x : f_ty f) : Prop :=
  exists t, f_show f x = Ok t /\ one_line t /\ f_parse f (trim t) = Ok x.
Lemma trim_blank a s : blank a -> trim (a ++ s)%string = trim s.
Proof. intros H. unfold trim, trim_matches. rewrite trim_start_skip; auto. now apply blank_is_ws. Qed.
Lemma number_one_line s : number_word s -> one_line s.
Proof. intros H. repeat split; apply number_without; auto; nosep. Qed.
Lemma lit_without (d : ascii) s : forallb (fun c => negb (Ascii.eqb c d)) (list_ascii_of_string s) = true -> without d s.
Proof.
  induction s as [|c s IH]; [easy|]. cbn [list_ascii_of_string forallb]. intros H. apply andb_prop in H as [H1 H2].
  split; [|now apply IH]. intros ->. rewrite Ascii.eqb_refl in H1. discriminate.
Qed.
Lemma lit_one_line s : forallb (fun c => negb (Ascii.eqb c ":") && negb (Ascii.eqb c line_feed) && negb (Ascii.eqb c carriage_return)) (list_ascii_of_string s) = true -> one_line s.
Proof.
  intros H. repeat split; apply lit_without; apply forallb_forall; intros c Hc;
    apply (proj1 (forallb_forall _ _) H) in Hc; apply andb_prop in Hc as [Hc Hc3]; apply andb_prop in Hc as [Hc1 Hc2]; auto.
Qed.
Lemma one_line_app a b : one_line a -> one_line b -> one_line (a ++ b)%string.
Proof. intros (?&?&?) (?&?&?). repeat split; apply without_app; auto. Qed.
Lemma trim_id s : trimmed s -> trim s = s.
Proof. intros H. rewrite <- (trim_ends "" "" s) at 2; try easy. simpl. now rewrite app_s_nil. Qed.
(** A text whose first and last words are words needs no trimming. *)
Lemma trimmed_app a b : trimmed a -> trimmed b -> a <> "" -> b <> "" -> trimmed (a ++ b)%string.
Proof.
  intros [[->|(c & t & -> & Hc)] _] [_ [->|(t' & c' & -> & Hc')]]; try easy. intros _ _. split; right.
  - exists c, (t ++ t' ++ String c' "")%string. split; auto.
  - exists (String c t ++ t')%string, c'. split; auto. now rewrite app_s_assoc.
Qed.
Lemma trimmed_solid s : solid s -> trimmed s. Proof. apply solid_ends. Qed.
Lemma trimmed_lit_app c r b : ~ whitespace c -> solid b -> b <> "" -> trimmed (String c r ++ b)%string.
Proof.
  intros Hc Hb Hn. split; right.
  - exists c, (r ++ b)%string. auto.
  - destruct (last_char b) as [->|(t & d & ->)]; [easy|]. exists (String c r ++ t)%string, d. split; [now rewrite app_s_assoc|].
    apply all_app in Hb. simpl in Hb. tauto.
Qed.
Lemma pos_show_chars {T} (nt : numtext T) p t : faithful nt -> pos_show nt p = Ok t -> one_line t.
Proof.
  intros F H. destruct p as [|x p]; [discriminate|]. unfold pos_show in H. rewrite pos_text_join in H by easy. injection H as <-.
  assert (G : forall d, d <> ","%char -> (forall y, without d (n_show nt y)) -> without d (join "," (map (n_show nt) (x :: p)))).
  { intros d Hd Hy. apply join_chars; [auto|]. apply Forall_forall. intros w Hw. apply in_map_iff in Hw as (y & <- & _). apply Hy. }
  repeat split; apply G; try discriminate; intros y; apply number_without; try nosep; apply F.
Qed.
Section Fields.
Context {S : scalar} (nt : numtext S).
Lemma survives_readable f x : faithful nt -> survives nt f x -> readable f x.
Proof.
  intros F H. destruct H as [n d x|n d x Hx|n d x Hx|n d x H1 H2|n d x Hx|n d x Hx|n d x Hx|n d x|n d x|n d x|n d x Hx]; unfold readable, parsed;
    cbn [fld_f64 fld_usize fld_u128 fld_string fld_pos fld_sys fld_bc fld_target fld_agent fld_move fld_init f_ty f_show f_parse].
  - destruct (F x) as (R & W & _). exists (n_show nt x). split; auto. split; [now apply number_one_line|].
    rewrite trim_solid by now apply number_solid. unfold parsed. rewrite R. reflexivity.
  - exists (show_usize x). pose proof (show_usize_word x) as W. split; auto. split; [now apply number_one_line|].
    rewrite trim_solid by now apply number_solid. now rewrite show_usize_parse.
  - exists (show_uint x). pose proof (show_uint_word x) as W. split; auto. split; [now apply number_one_line|].
    rewrite trim_solid by now apply number_solid.
    assert (E : parse_uint u128_maxN (show_uint x) = Some x) by (apply parse_uint_spec, show_uint_text; unfold u128_maxN; lia).
    now rewrite E.
  - exists x. split; auto. split; auto. now rewrite trim_id.
  - destruct (pos_round nt x F Hx) as (t & E & P & N & Sd). exists t. split; auto. split; [eapply pos_show_chars; eauto|].
    rewrite trim_solid; auto.
  - exists (systype_show x). split; auto.
    destruct x as [| |k| |]; [| |now destruct (Hx k)| |]; (split; [now apply lit_one_line|reflexivity]).
  - exists (bcond_show x). split; auto.
    destruct x as [| |k]; [| |now destruct (Hx k)]; (split; [now apply lit_one_line|reflexivity]).
  - exists (targettype_show x). split; auto. destruct x; (split; [now apply lit_one_line|reflexivity]).
  - exists (agenttype_show x). split; auto. destruct x; (split; [now apply lit_one_line|reflexivity]).
  - exists (movetype_show nt x). split; auto.
    rewrite trim_id.
    + split; [|now apply movetype_round]. destruct x as [c|]; [|now apply lit_one_line].
      apply one_line_app; [now apply lit_one_line|]. apply number_one_line, F.
    + destruct x as [c|]; [|].
      * destruct (F c) as (_ & W & _). apply number_solid in W. apply trimmed_lit_app; try tauto. cbn; lia.
      * split; right; [exists "L"%char, "evy walk"|exists "Levy wal", "k"%char]; split; try reflexivity; cbn; lia.
  - destruct (inittype_round nt x F Hx) as (t & E & P). exists t. split; auto.
    assert (T : trimmed t /\ one_line t).
    { destruct x as [p|].
      - destruct (pos_round nt p F (Hx p eq_refl)) as (u & Eu & _ & N & Sd). cbn [inittype_show] in E. rewrite Eu in E. cbn [bind] in E.
        apply (f_equal (fun o => match o with Ok a => a | _ => u end)) in E. cbv beta iota in E. subst t.
        split; [apply trimmed_lit_app; auto; cbn; lia|]. apply one_line_app; [now apply lit_one_line|]. eapply pos_show_chars; eauto.
      - injection E as <-. split; [|now apply lit_one_line].
        split; right; [exists "I"%char, "nitialize agents uniformly"|exists "Initialize agents uniforml", "y"%char]; split; try reflexivity; cbn; lia. }
    destruct T as [T1 T2]. rewrite trim_id; auto.
Qed.

(** ** a structure, a file *)
Definition names_ok (fs : list field) : Prop := Forall (fun f => one_line (f_name f)) fs.
Lemma line_split w n t : one_line n -> one_line t -> split_on (is_char ":") (pad w n ++ ": " ++ t)%string = [pad w n; (" " ++ t)%string].
Proof.
  intros (Hn & _) (Ht & _). cbn [append]. rewrite split_sep; [|apply without_b, pad_without; auto; discriminate|reflexivity].
  f_equal. apply (without_split ":" (String " " t)). split; auto. discriminate.
Qed.
Lemma line_chars w n t : one_line n -> one_line t -> without line_feed (pad w n ++ ": " ++ t)%string /\ without carriage_return (pad w n ++ ": " ++ t)%string.
Proof.
  intros (_ & H1 & H2) (_ & H3 & H4). split; apply without_app; (split; [apply pad_without; auto; discriminate|]); apply without_app; split; auto; split; try (split; [|easy]); discriminate.
Qed.
Lemma read_printed fs w : faithful nt -> names_ok fs -> forall v, all_survive nt fs v -> forall rest,
  exists t, print_configuration fs w v = Ok t /\ read_lines fs (text_lines (t ++ rest)%string) = Ok (v, text_lines rest).
Proof.
  intros F. induction fs as [|f fs IH]; intros Hn v Hv rest.
  - exists "". destruct v. split; reflexivity.
  - inv Hn. destruct v as [x v]. destruct Hv as [Hx Hv]. cbn [fst snd] in *.
    destruct (survives_readable f x F Hx) as (t & E & L & P).
    destruct (IH H2 v Hv rest) as (u & Eu & Ru).
    cbn [print_configuration fst snd]. rewrite E. cbn [bind]. rewrite Eu. cbn [bind]. eexists. split; [reflexivity|].
    assert (A : ((pad w (f_name f) ++ ": " ++ t ++ newline ++ u) ++ rest)%string = ((pad w (f_name f) ++ ": " ++ t) ++ newline ++ (u ++ rest))%string).
    { now rewrite !app_s_assoc. }
    rewrite A. destruct (line_chars w (f_name f) t H1 L). rewrite text_lines_cons by auto.
    cbn [read_lines]. rewrite line_split by auto. cbn [List.length Nat.eqb negb idx nth_error bind].
    rewrite (trim_blank " " t) by (cbn; tauto). rewrite P. cbn [expect_ok bind]. rewrite Ru. reflexivity.
Qed.
Lemma read_all_printed specs w : faithful nt -> Forall (fun sp => names_ok (a_fields sp)) specs -> forall v, args_survive nt specs v -> forall rest,
  exists t, print_all specs w v = Ok t /\ read_all specs (text_lines (t ++ rest)%string) = Ok (v, text_lines rest).
Proof.
  intros F. induction specs as [|sp specs IH]; intros Hn v Hv rest.
  - exists "". destruct v. split; reflexivity.
  - inv Hn. destruct v as [x v]. destruct Hv as [Hx Hv]. cbn [fst snd] in *.
    destruct (IH H2 v Hv rest) as (u & Eu & Ru).
    destruct (read_printed (a_fields sp) w F H1 x Hx (u ++ rest)%string) as (t & Et & Rt).
    cbn [print_all fst snd]. rewrite Et. cbn [bind]. rewrite Eu. cbn [bind]. eexists. split; [reflexivity|].
    rewrite app_s_assoc. cbn [read_all]. unfold read_args_from_lines. rewrite Rt. cbn [bind]. rewrite Ru. reflexivity.
Qed.
Lemma all_specs_names : Forall (fun sp => names_ok (a_fields sp)) (all_specs nt).
Proof.
  repeat (constructor; [unfold names_ok; cbn; repeat (constructor; [now apply lit_one_line|]); constructor|]). constructor.
Qed.
Definition known (specs : list argspec) : Prop := Forall (fun sp => names_ok (a_fields sp)) specs.
Lemma known_incl specs : incl specs (all_specs nt) -> known specs.
Proof. intros Hin. apply Forall_forall. intros sp Hs. exact (proj1 (Forall_forall _ _) all_specs_names sp (Hin sp Hs)). Qed.
Lemma file_read_known specs w v data : faithful nt -> known specs -> args_survive nt specs v ->
  exists t, file_header specs w v = Ok t /\ from_file specs (text_lines (t ++ data)%string) = Ok (v, data_line :: text_lines data).
Proof.
  intros F Hn Hv.
  destruct (read_all_printed specs w F Hn v Hv (data_line ++ newline ++ data)%string) as (t & E & R).
  unfold file_header. rewrite E. cbn [bind]. eexists. split; [reflexivity|].
  assert (A : ((description_line ++ newline ++ t ++ data_line ++ newline) ++ data)%string = (description_line ++ newline ++ (t ++ data_line ++ newline ++ data))%string)
    by now rewrite !app_s_assoc.
  rewrite A. rewrite text_lines_cons by (apply lit_without; reflexivity).
  unfold from_file. cbn [tl]. rewrite R. f_equal. f_equal. apply text_lines_cons; apply lit_without; reflexivity.
Qed.
Lemma file_read_back specs w v data : faithful nt -> incl specs (all_specs nt) -> args_survive nt specs v ->
  exists t, file_header specs w v = Ok t /\ from_file specs (text_lines (t ++ data)%string) = Ok (v, data_line :: text_lines data).
Proof. intros F Hin. exact (file_read_known specs w v data F (known_incl specs Hin)). Qed.
End Fields.
