(** Proofs about set-up, file names and the code generator. *)
From Coq Require Import String Ascii NArith Lia.
From Verif Require Import Base Scalar Model_Position Model_System Model_Agent Model_Time Model_Text Spec_Text Proof_Text Proof_Text2 Proof_Text3 Model_Args Spec_Args Proof_Args.
Local Open Scope string_scope.
Local Open Scope list_scope.
Local Notation length := List.length.

(** ** lines with a second colon *)
Lemma colon_line w n t : without ":" n -> ~ without ":" t -> (3 <= length (split_on (is_char ":") (pad w n ++ ": " ++ t)%string))%nat.
Proof.
  intros Hn Ht. cbn [append]. rewrite split_sep; [|apply without_b, pad_without; auto; discriminate|reflexivity].
  destruct (first_sep (is_char ":") (String " " t)) as [H|(a & c & r & E & Ha & Hc)].
  - exfalso. apply Ht. apply without_b in H. apply H.
  - rewrite E, split_sep by auto. cbn [List.length]. destruct (split_cons (is_char ":") r) as (h & u & ->). cbn. lia.
Qed.
Lemma read_colon f fs w (x : f_ty f) t rest : f_show f x = Ok t -> one_line (f_name f) -> without line_feed t -> without carriage_return t -> ~ without ":" t ->
  read_lines (f :: fs) (text_lines ((pad w (f_name f) ++ ": " ++ t) ++ newline ++ rest)%string) = Err InvalidFormat.
Proof.
  intros E (N1 & N2 & N3) H1 H2 H3.
  rewrite text_lines_cons; [|apply without_app; split; [apply pad_without; auto; discriminate|]; (repeat split; auto; discriminate)|apply without_app; split; [apply pad_without; auto; discriminate|]; (repeat split; auto; discriminate)].
  cbn [read_lines]. pose proof (colon_line w (f_name f) t N1 H3).
  destruct (length (split_on (is_char ":") (pad w (f_name f) ++ ": " ++ t)%string) =? 2)%nat eqn:Q; [apply Nat.eqb_eq in Q; lia|]. reflexivity.
Qed.
Lemma number_no n s : number_word s -> (nat_of_ascii n < 43 \/ nat_of_ascii n = 44 \/ nat_of_ascii n = 47 \/ 57 < nat_of_ascii n < 65 \/ 90 < nat_of_ascii n < 97 \/ 122 < nat_of_ascii n)%nat -> without n s.
Proof. apply number_without. Qed.
Lemma cyl_text d : without line_feed (systype_show (ContinuousCylindrical d)) /\ without carriage_return (systype_show (ContinuousCylindrical d)) /\ ~ without ":" (systype_show (ContinuousCylindrical d)).
Proof.
  pose proof (show_usize_word d) as W. unfold systype_show. split; [|split].
  - apply without_app; split; [now apply lit_without|]. apply without_app; split; [apply number_no; auto; nosep|].
    apply without_app; split; [now apply lit_without|]. apply without_app; split; [apply number_no; auto; nosep|now apply lit_without].
  - apply without_app; split; [now apply lit_without|]. apply without_app; split; [apply number_no; auto; nosep|].
    apply without_app; split; [now apply lit_without|]. apply without_app; split; [apply number_no; auto; nosep|now apply lit_without].
  - intros H. apply without_app in H as [_ H]. apply without_app in H as [_ H]. apply without_app in H as [H _].
    destruct H as (_ & H & _). now apply H.
Qed.
Lemma mixed_text d : without line_feed (bcond_show (Mixed d)) /\ without carriage_return (bcond_show (Mixed d)) /\ ~ without ":" (bcond_show (Mixed d)).
Proof.
  pose proof (show_usize_word d) as W. unfold bcond_show. split; [|split].
  - apply without_app; split; [now apply lit_without|]. apply without_app; split; [apply number_no; auto; nosep|].
    apply without_app; split; [now apply lit_without|]. apply without_app; split; [apply number_no; auto; nosep|now apply lit_without].
  - apply without_app; split; [now apply lit_without|]. apply without_app; split; [apply number_no; auto; nosep|].
    apply without_app; split; [now apply lit_without|]. apply without_app; split; [apply number_no; auto; nosep|now apply lit_without].
  - intros H. apply without_app in H as [_ H]. apply without_app in H as [_ H]. apply without_app in H as [H _].
    destruct H as (_ & H & _). now apply H.
Qed.
Section Refuted.
Context {S : scalar} (nt : numtext S).
(** A structure printed line by line: the first field whose text has a colon stops the reading. *)
Lemma print_cons f fs w (x : f_ty f) (v : vals fs) t u : f_show f x = Ok t -> print_configuration fs w v = Ok u ->
  print_configuration (f :: fs) w (x, v) = Ok (pad w (f_name f) ++ ": " ++ t ++ newline ++ u)%string.
Proof. intros E1 E2. cbn [print_configuration fst snd]. rewrite E1. cbn [bind]. rewrite E2. reflexivity. Qed.
Lemma stops_at pre f post w (a : vals pre) (x : f_ty f) (b : vals post) t u rest :
  faithful nt -> names_ok pre -> all_survive nt pre a -> f_show f x = Ok t -> one_line (f_name f) ->
  without line_feed t -> without carriage_return t -> ~ without ":" t -> print_configuration post w b = Ok u ->
  exists s, print_configuration (pre ++ f :: post) w (vals_app a ((x, b) : vals (f :: post))) = Ok s /\
    read_lines (pre ++ f :: post) (text_lines (s ++ rest)%string) = Err InvalidFormat.
Proof.
  intros F Hn Ha E N H1 H2 H3 Eu. induction pre as [|g pre IH].
  - cbn [app vals_app]. rewrite (print_cons f post w x b t u) by auto. eexists. split; [reflexivity|].
    assert (A : ((pad w (f_name f) ++ ": " ++ t ++ newline ++ u) ++ rest)%string = ((pad w (f_name f) ++ ": " ++ t) ++ newline ++ (u ++ rest))%string)
      by now rewrite !app_s_assoc.
    rewrite A. eapply read_colon; eauto.
  - inv Hn. destruct a as [y a]. destruct Ha as [Hy Ha]. cbn [fst snd] in *.
    destruct (IH a H5 Ha) as (s & Es & Rs).
    destruct (survives_readable nt g y F Hy) as (ty & Ey & Ly & Py).
    cbn [app vals_app fst snd]. rewrite (print_cons g (pre ++ f :: post) w y _ ty s) by auto. eexists. split; [reflexivity|].
    assert (A : ((pad w (f_name g) ++ ": " ++ ty ++ newline ++ s) ++ rest)%string = ((pad w (f_name g) ++ ": " ++ ty) ++ newline ++ (s ++ rest))%string)
      by now rewrite !app_s_assoc.
    rewrite A. destruct (line_chars w (f_name g) ty H4 Ly). rewrite text_lines_cons by auto.
    cbn [read_lines app]. rewrite line_split by auto. cbn [List.length Nat.eqb negb idx nth_error bind].
    rewrite (trim_blank " " ty) by (cbn; tauto). rewrite Py. cbn [expect_ok bind]. rewrite Rs. reflexivity.
Qed.
Lemma names_of sp : In sp (all_specs nt) -> names_ok (a_fields sp).
Proof. intros H. exact (proj1 (Forall_forall _ _) (all_specs_names nt) sp H). Qed.
Lemma cyl_unreadable d bc r l k w rest : faithful nt -> exists t,
  print_configuration (a_fields (cyl_spec nt)) w (ContinuousCylindrical d, (bc, (r, (l, (k, tt))))) = Ok t /\
  read_args_from_lines (cyl_spec nt) (text_lines (t ++ rest)%string) = Err InvalidFormat.
Proof.
  intros F. destruct (cyl_text d) as (H1 & H2 & H3).
  pose proof (names_of (cyl_spec nt) ltac:(cbn; tauto)) as N. inv N.
  eapply (stops_at [] (fld_sys "sys_type" "Dimension of circular domain.") (tl (a_fields (cyl_spec nt))) w tt (ContinuousCylindrical d) (bc, (r, (l, (k, tt))))); eauto; try easy.
  all: try solve [now constructor|reflexivity].
Qed.
Lemma cubic_mixed_unreadable st d l k w rest : faithful nt -> (forall j, st <> ContinuousCylindrical j) -> exists t,
  print_configuration (a_fields (cubic_spec nt)) w (st, (Mixed d, (l, (k, tt)))) = Ok t /\
  read_args_from_lines (cubic_spec nt) (text_lines (t ++ rest)%string) = Err InvalidFormat.
Proof.
  intros F Hst. destruct (mixed_text d) as (H1 & H2 & H3).
  pose proof (names_of (cubic_spec nt) ltac:(cbn; tauto)) as N. inv N. inv H5.
  eapply (stops_at [fld_sys "sys_type" ""] (fld_bc "bctype" "Boundary condition. ex) Reflective, Periodic, integer indicates Mixed") (tl (tl (a_fields (cubic_spec nt)))) w (st, tt) (Mixed d) (l, (k, tt))); eauto; try easy.
  all: try solve [now constructor|reflexivity|split; [now constructor|easy]].
Qed.
Lemma dir_unreadable n i sd dir w rest : faithful nt -> usize_fits n -> usize_fits i -> (sd < 2 ^ 128)%N ->
  without line_feed dir -> without carriage_return dir -> ~ without ":" dir -> exists t,
  print_configuration (a_fields varsim_spec) w (n, (i, (sd, (dir, tt)))) = Ok t /\
  read_args_from_lines varsim_spec (text_lines (t ++ rest)%string) = Err InvalidFormat.
Proof.
  intros F Hn Hi Hs H1 H2 H3.
  pose proof (names_of varsim_spec ltac:(cbn; tauto)) as N. inv N. inv H5. inv H7. inv H8.
  eapply (stops_at [fld_usize "num_ensemble" "Number of Ensemble"; fld_usize "idx_set" "Index of Ensemble Set"; fld_u128 "seed" seed_desc]
    (fld_string "output_dir" dir_desc) [] w (n, (i, (sd, tt))) dir tt); eauto; try easy.
  all: try solve [now repeat constructor|reflexivity|repeat split; constructor; auto].
Qed.
End Refuted.

(** ** set-up *)
Lemma slice_ok {A} (l : list A) i n : (i + n <= length l)%nat -> slice l i (i + n) = Ok (firstn n (skipn i l)).
Proof.
  intros H. unfold slice. assert (E : ((i <=? i + n) && (i + n <=? length l))%nat = true) by (apply andb_true_intro; split; apply Nat.leb_le; lia).
  rewrite E. now replace (i + n - i)%nat with n by lia.
Qed.
Lemma skipn_skipn' {A} i n (l : list A) : skipn n (skipn i l) = skipn (i + n) l.
Proof. revert l. induction i; intros l; [reflexivity|]. destruct l; simpl; auto. now rewrite skipn_nil. Qed.
Lemma reads_blocks specs args : length args = total_num_args specs -> exists! blocks, blocks_of specs args blocks.
Proof.
  revert args. induction specs as [|sp specs IH]; intros args H; cbn in H.
  - destruct args; [|discriminate]. exists []. split; [split; reflexivity|]. intros b [E1 E2]. destruct b; [reflexivity|discriminate].
  - destruct (IH (skipn (a_num sp) args)) as (bs & [B1 B2] & U); [rewrite skipn_length; unfold total_num_args; lia|].
    exists (firstn (a_num sp) args :: bs). split.
    + split; cbn; [rewrite <- B1; now rewrite firstn_skipn|]. rewrite B2, firstn_length. f_equal. lia.
    + intros [|c cs] [E1 E2]; [discriminate|]. cbn in E1, E2. injection E2 as L E2. subst args.
      rewrite <- L. rewrite firstn_app, firstn_all, Nat.sub_diag. cbn. rewrite app_nil_r. f_equal. apply U. split; auto.
      rewrite <- L. rewrite skipn_app, skipn_all, Nat.sub_diag. reflexivity.
Qed.
Lemma read_arguments_blocks specs args i blocks : blocks_of specs (skipn i args) blocks -> (i <= length args)%nat ->
  (forall v, read_arguments specs args i = Ok v <-> reads specs blocks v).
Proof.
  revert i blocks. induction specs as [|sp specs IH]; intros i blocks [B1 B2] Hi v.
  - destruct blocks; [|discriminate]. destruct v. cbn. tauto.
  - destruct blocks as [|b bs]; [discriminate|]. cbn in B1, B2. injection B2 as L B2.
    assert (Len : (length b <= length (skipn i args))%nat) by (rewrite B1, app_length; lia). rewrite skipn_length in Len.
    assert (Sl : slice args i (i + a_num sp) = Ok b).
    { rewrite slice_ok by lia. rewrite B1, <- L, firstn_app, firstn_all, Nat.sub_diag. cbn. now rewrite app_nil_r. }
    cbn [read_arguments]. rewrite Sl. cbn [bind].
    assert (Bs : blocks_of specs (skipn (i + a_num sp) args) bs).
    { split; auto. rewrite <- skipn_skipn', B1, <- L, skipn_app, skipn_all, Nat.sub_diag. reflexivity. }
    assert (Hi' : (i + a_num sp <= length args)%nat) by lia.
    specialize (IH _ _ Bs Hi'). destruct v as [x v]. cbn [reads fst snd].
    destruct (read_args_from_vec sp b) as [y| | |]; cbn [bind]; try (split; [discriminate|intros [? _]; discriminate]).
    destruct (read_arguments specs args (i + a_num sp)) as [u| | |] eqn:R; cbn [bind].
    + split.
      * intros E. injection E as <- <-. split; auto. now apply IH.
      * intros [E1 E2]. apply IH in E2. injection E1 as ->. injection E2 as ->. reflexivity.
    + split; [discriminate|]. intros [_ E2]. apply IH in E2. discriminate.
    + split; [discriminate|]. intros [_ E2]. apply IH in E2. discriminate.
    + split; [discriminate|]. intros [_ E2]. apply IH in E2. discriminate.
Qed.
Lemma setup_analyze fixed skip an specs args : (skip <= length args)%nat ->
  (length args - skip = an \/ length args - skip = an + 1)%nat ->
  setup fixed skip an specs args = Ok (Analyze (if fixed then args else skipn skip args)).
Proof.
  intros H1 H2. unfold setup. assert (E : (length args <? skip)%nat = false) by (apply Nat.ltb_ge; lia). rewrite E.
  assert (E2 : ((length args - skip =? an) || (length args - skip =? an + 1))%nat = true)
    by (apply orb_true_iff; rewrite !Nat.eqb_eq; tauto).
  rewrite E2. destruct fixed; [reflexivity|]. replace (length args) with (skip + (length args - skip))%nat at 1 by lia.
  rewrite slice_ok by lia. cbn [bind]. rewrite firstn_all2; [reflexivity|]. rewrite skipn_length. lia.
Qed.
Lemma setup_wrong fixed skip an specs args : (skip <= length args)%nat ->
  (length args - skip <> an)%nat -> (length args - skip <> an + 1)%nat -> (length args - skip <> total_num_args specs)%nat ->
  setup fixed skip an specs args = Err InvalidNumberOfArguments.
Proof.
  intros H1 H2 H3 H4. unfold setup. assert (E : (length args <? skip)%nat = false) by (apply Nat.ltb_ge; lia). rewrite E.
  assert (E2 : ((length args - skip =? an) || (length args - skip =? an + 1))%nat = false)
    by (apply orb_false_iff; rewrite !Nat.eqb_neq; tauto).
  rewrite E2. apply Nat.eqb_neq in H4. now rewrite H4.
Qed.
Lemma setup_run fixed skip an specs args : (skip <= length args)%nat ->
  (length args - skip <> an)%nat -> (length args - skip <> an + 1)%nat -> (length args - skip = total_num_args specs)%nat ->
  exists blocks, blocks_of specs (skipn skip args) blocks /\
    forall r, setup fixed skip an specs args = Ok r <-> exists v, r = Simulate v /\ reads specs blocks v.
Proof.
  intros H1 H2 H3 H4. destruct (reads_blocks specs (skipn skip args)) as (bs & B & _); [now rewrite skipn_length|].
  exists bs. split; auto. intros r. unfold setup. assert (E : (length args <? skip)%nat = false) by (apply Nat.ltb_ge; lia). rewrite E.
  assert (E2 : ((length args - skip =? an) || (length args - skip =? an + 1))%nat = false)
    by (apply orb_false_iff; rewrite !Nat.eqb_neq; tauto).
  rewrite E2. apply Nat.eqb_eq in H4. rewrite H4. cbn [negb].
  pose proof (read_arguments_blocks specs args skip bs B H1) as R.
  destruct (read_arguments specs args skip) as [v| | |]; cbn [bind].
  - split; [intros E3; injection E3 as <-; exists v; split; auto; now apply R|]. intros (u & -> & Hu). apply R in Hu. congruence.
  - split; [discriminate|]. intros (u & -> & Hu). apply R in Hu. discriminate.
  - split; [discriminate|]. intros (u & -> & Hu). apply R in Hu. discriminate.
  - split; [discriminate|]. intros (u & -> & Hu). apply R in Hu. discriminate.
Qed.

(** ** file names *)
