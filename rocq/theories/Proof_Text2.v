(** Proofs about the text of the type tags: round trips, and what every text is parsed to. *)
From Coq Require Import String Ascii NArith Lia.
From Verif Require Import Base Scalar Model_Position Model_System Model_Agent Model_Time Model_Text Spec_Text Proof_Text.
Local Open Scope string_scope.
Local Open Scope list_scope.
Local Notation length := List.length.

Lemma slice3 x : (String.length x < 3)%nat /\ slice_from 3 x = Panic
  \/ exists c1 c2 c3 t, x = String c1 (String c2 (String c3 t)) /\ slice_from 3 x = Ok t.
Proof.
  destruct x as [|c1 [|c2 [|c3 t]]]; simpl; try (left; split; [lia|reflexivity]).
  right. now exists c1, c2, c3, t.
Qed.
Lemma usize_text_not w n : usize_text w n -> parse_usize w <> None.
Proof. intros H. apply parse_usize_spec in H. congruence. Qed.
Ltac usz := repeat match goal with
  | H : usize_text _ _ |- _ => apply parse_usize_spec in H
  | H : parse_usize ?w = Some _ |- context [parse_usize ?w] => rewrite H
  | H : parse_usize ?w = None, H' : parse_usize ?w = Some _ |- _ => congruence
  end.
Ltac eqbs := repeat match goal with
  | H : String.eqb _ _ = true |- _ => apply String.eqb_eq in H; subst
  | H : String.eqb _ _ = false |- _ => apply String.eqb_neq in H
  end.

(** ** system type *)
Definition sys_of (split : list string) : outcome systype :=
  do w <- idx split 0;
  if String.eqb w "Continuous" then
    do w1 <- idx split 1;
    if String.eqb w1 "Circular" then Ok ContinuousCircular
    else if String.eqb w1 "Rectangular" then Ok ContinuousRectangular
    else if String.eqb w1 "Cylindrical" then
      do w3 <- idx split 3; do t <- slice_from 3 w3; do d <- or_err (parse_usize t); Ok (ContinuousCylindrical d)
    else Err InvalidArgumentInput
  else if String.eqb w "Lattice" then Ok Lattice
  else if String.eqb w "Network" then Ok Network
  else if String.eqb w "Circular" then Ok ContinuousCircular
  else if String.eqb w "Rectangular" then Ok ContinuousRectangular
  else do d <- positive_usize w; Ok (ContinuousCylindrical d).
Lemma sys_words_fun ws t : system_words ws t -> sys_of ws = Ok t.
Proof.
  intros H. inv H; try reflexivity.
  - usz. unfold sys_of. cbn. usz. reflexivity.
  - usz. unfold sys_of. cbn [idx nth_error bind].
    destruct (String.eqb w "Continuous") eqn:E1; [eqbs; discriminate|].
    destruct (String.eqb w "Lattice") eqn:E2; [eqbs; discriminate|].
    destruct (String.eqb w "Network") eqn:E3; [eqbs; discriminate|].
    destruct (String.eqb w "Circular") eqn:E4; [eqbs; discriminate|].
    destruct (String.eqb w "Rectangular") eqn:E5; [eqbs; discriminate|].
    unfold positive_usize. usz. cbn. destruct d; [lia|reflexivity].
Qed.
Lemma sys_crash_fun ws : system_crash ws -> sys_of ws = Panic.
Proof.
  intros H. inv H; try reflexivity. unfold sys_of. cbn [idx nth_error bind].
  destruct (slice3 x) as [[_ E]|(? & ? & ? & ? & -> & _)]; [|cbn in H0; lia].
  cbn [String.eqb Ascii.eqb Bool.eqb]. now rewrite E.
Qed.
Lemma sys_cases ws : (exists t, system_words ws t) \/ system_crash ws \/ sys_of ws = Err InvalidArgumentInput.
Proof.
  destruct ws as [|w r]; [right; left; constructor|]. unfold sys_of. cbn [idx nth_error bind].
  destruct (String.eqb w "Continuous") eqn:E1; eqbs.
  { destruct r as [|w1 r]; [right; left; constructor|]. cbn [idx nth_error bind].
    destruct (String.eqb w1 "Circular") eqn:E2; eqbs; [left; eexists; constructor|].
    destruct (String.eqb w1 "Rectangular") eqn:E3; eqbs; [left; eexists; constructor|].
    destruct (String.eqb w1 "Cylindrical") eqn:E4; eqbs; [|now right; right].
    destruct r as [|w2 r]; [right; left; constructor|]. destruct r as [|w3 r]; [right; left; constructor|].
    cbn [idx nth_error bind]. destruct (slice3 w3) as [[H _]|(c1 & c2 & c3 & t & -> & ->)]; [right; left; now constructor|].
    cbn [bind]. destruct (parse_usize t) as [d|] eqn:P; [|now right; right].
    left. exists (ContinuousCylindrical d). constructor. now apply parse_usize_spec. }
  destruct (String.eqb w "Lattice") eqn:E2; eqbs; [left; eexists; constructor|].
  destruct (String.eqb w "Network") eqn:E3; eqbs; [left; eexists; constructor|].
  destruct (String.eqb w "Circular") eqn:E4; eqbs; [left; eexists; constructor|].
  destruct (String.eqb w "Rectangular") eqn:E5; eqbs; [left; eexists; constructor|].
  unfold positive_usize. destruct (parse_usize w) as [d|] eqn:P; [|now right; right]. cbn.
  destruct d as [|d]; [now right; right|]. left. exists (ContinuousCylindrical (S d)). constructor; [now apply parse_usize_spec|lia].
Qed.

(** Reading a classification off three one-directional facts. *)
Lemma classify {A} (o : outcome A) (good : A -> Prop) (crash : Prop) :
  (forall a, good a -> o = Ok a) -> (crash -> o = Panic) -> ((exists a, good a) \/ crash \/ o = Err InvalidArgumentInput) ->
  classifies o good crash.
Proof.
  intros H1 H2 H3. split; [|split].
  - intros a. split; [|apply H1]. intros E. destruct H3 as [[b Hb]|[Hc|Hc]].
    + pose proof (H1 b Hb). replace a with b by congruence. auto.
    + rewrite (H2 Hc) in E. discriminate.
    + congruence.
  - split; [|apply H2]. intros E. destruct H3 as [[b Hb]|[Hc|Hc]]; auto; [rewrite (H1 b Hb) in E|]; congruence.
  - split.
    + intros E. split; [intros a Ha; rewrite (H1 a Ha) in E; discriminate|intros Hc; rewrite (H2 Hc) in E; discriminate].
    + intros [N1 N2]. destruct H3 as [[b Hb]|[Hc|Hc]]; auto; [now apply N1 in Hb|easy].
Qed.

Lemma systype_classify s ws : Words s ws -> classifies (systype_parse s) (system_words ws) (system_crash ws).
Proof.
  intros H. apply Words_split in H. assert (E : systype_parse s = sys_of ws) by (subst; reflexivity). rewrite E.
  apply classify; [apply sys_words_fun|apply sys_crash_fun|apply sys_cases].
Qed.

(** Words of printed texts. *)
Lemma sw_lit w r : w <> "" -> solid w -> split_ws (w ++ String " " r)%string = w :: split_ws r.
Proof. intros. apply split_ws_word; auto. cbn; tauto. Qed.
Lemma sw_num w r : number_word w -> split_ws (w ++ String " " r)%string = w :: split_ws r.
Proof. intros H. apply number_solid in H. apply sw_lit; tauto. Qed.
Lemma sw_end w : number_word w -> split_ws w = [w].
Proof. intros H. apply number_solid in H. now apply split_ws_one. Qed.
(** One literal word, spelled out, at the front of a text. *)
Ltac lit_word := match goal with
  |- context [split_ws ?s] =>
    let rec go t k := lazymatch t with
      | String " "%char ?r => k EmptyString r
      | String ?c ?r => go r ltac:(fun w rest => k (String c w) rest)
      end in
    go s ltac:(fun w rest => change (split_ws s) with (split_ws (w ++ String " " rest)%string);
      rewrite (sw_lit w rest) by (cbn; easy || (repeat split; cbn; lia)))
  end.
Lemma nat_dots_word d : number_word ("0.." ++ show_usize d)%string.
Proof. destruct (show_usize_word d) as [_ H]. split; [easy|]. simpl. repeat split; auto; unfold number_char; cbn; lia. Qed.
Lemma cyl_words d s : split_ws ("0.." ++ show_usize d ++ String " " s)%string = ("0.." ++ show_usize d)%string :: split_ws s.
Proof. rewrite <- app_s_assoc. apply sw_num, nat_dots_word. Qed.
Lemma systype_text_words d : exists r,
  split_ws (systype_show (ContinuousCylindrical d)) = "Continuous" :: "Cylindrical" :: "system." :: ("0.." ++ show_usize d)%string :: r.
Proof.
  unfold systype_show. cbn [append]. lit_word. lit_word. lit_word.
  match goal with |- context [split_ws ?s] => change s with ("0.." ++ show_usize d ++ String " " (": Circular, " ++ show_usize d ++ ".. : Rectangular"))%string end.
  rewrite cyl_words. eexists. reflexivity.
Qed.
Lemma systype_round t : sys_fits t -> systype_parse (systype_show t) = Ok t.
Proof.
  destruct t as [| |d| |]; intros H; try reflexivity.
  destruct (systype_text_words d) as [r E]. unfold systype_parse. rewrite E. cbn -[show_usize parse_usize].
  simpl in H. now rewrite show_usize_parse.
Qed.

(** ** boundary condition *)
Definition bc_of (split : list string) : outcome bcond :=
  do w <- idx split 0;
  if String.eqb w "Reflective" then Ok Reflection
  else if String.eqb w "Periodic" then Ok Periodic
  else if String.eqb w "Mixed" then
    do w3 <- idx split 3; do t <- slice_from 3 w3; do d <- or_err (parse_usize t); Ok (Mixed d)
  else do d <- positive_usize w; Ok (Mixed d).
Lemma bcond_classify s ws : Words s ws -> classifies (bcond_parse s) (boundary_words ws) (boundary_crash ws).
Proof.
  intros H. apply Words_split in H. assert (E : bcond_parse s = bc_of ws) by (subst; reflexivity). rewrite E. clear.
  apply classify.
  - intros t H. inv H; try reflexivity.
    + usz. unfold bc_of. cbn. usz. reflexivity.
    + usz. unfold bc_of. cbn [idx nth_error bind].
      destruct (String.eqb w "Reflective") eqn:E1; [eqbs; discriminate|].
      destruct (String.eqb w "Periodic") eqn:E2; [eqbs; discriminate|].
      destruct (String.eqb w "Mixed") eqn:E3; [eqbs; discriminate|].
      unfold positive_usize. usz. cbn. destruct d; [lia|reflexivity].
  - intros H. inv H; try reflexivity. unfold bc_of. cbn [idx nth_error bind].
    destruct (slice3 x) as [[_ E]|(? & ? & ? & ? & -> & _)]; [|cbn in H0; lia].
    cbn [String.eqb Ascii.eqb Bool.eqb]. now rewrite E.
  - destruct ws as [|w r]; [right; left; constructor|]. unfold bc_of. cbn [idx nth_error bind].
    destruct (String.eqb w "Reflective") eqn:E1; eqbs; [left; eexists; constructor|].
    destruct (String.eqb w "Periodic") eqn:E2; eqbs; [left; eexists; constructor|].
    destruct (String.eqb w "Mixed") eqn:E3; eqbs.
    { destruct r as [|w1 r]; [right; left; constructor|]. destruct r as [|w2 r]; [right; left; constructor|].
      destruct r as [|w3 r]; [right; left; constructor|].
      cbn [idx nth_error bind]. destruct (slice3 w3) as [[H _]|(c1 & c2 & c3 & t & -> & ->)]; [right; left; now constructor|].
      cbn [bind]. destruct (parse_usize t) as [d|] eqn:P; [|now right; right].
      left. exists (Mixed d). constructor. now apply parse_usize_spec. }
    unfold positive_usize. destruct (parse_usize w) as [d|] eqn:P; [|now right; right]. cbn.
    destruct d as [|d]; [now right; right|]. left. exists (Mixed (S d)). constructor; [now apply parse_usize_spec|lia].
Qed.
Lemma bcond_text_words d : exists r,
  split_ws (bcond_show (Mixed d)) = "Mixed" :: "Boundary" :: "Condition." :: ("0.." ++ show_usize d)%string :: r.
Proof.
  unfold bcond_show. cbn [append]. lit_word. lit_word. lit_word.
  match goal with |- context [split_ws ?s] => change s with ("0.." ++ show_usize d ++ String " " (": Reflection, " ++ show_usize d ++ ".. : Periodic"))%string end.
  rewrite cyl_words. eexists. reflexivity.
Qed.
Lemma bcond_round t : bc_fits t -> bcond_parse (bcond_show t) = Ok t.
Proof.
  destruct t as [| |d]; intros H; try reflexivity.
  destruct (bcond_text_words d) as [r E]. unfold bcond_parse. rewrite E. cbn -[show_usize parse_usize].
  simpl in H. now rewrite show_usize_parse.
Qed.

(** ** tables *)
Lemma agenttype_round a : agenttype_parse (agenttype_show a) = Ok a. Proof. now destruct a. Qed.
Lemma targettype_round a : targettype_parse (targettype_show a) = Ok a. Proof. now destruct a. Qed.
Lemma table_classify {A} (t : list (A * string)) (show : A -> string) s :
  (forall a d, In (a, d) t -> show a = d) -> (forall a, In (a, show a) t) -> (forall a b, show a = show b -> a = b) ->
  classifies (table_parse t s) (fun a => s = show a) False.
Proof.
  intros H1 H2 H3. apply classify; [|easy|].
  - intros a ->. assert (G : forall t', (forall b d, In (b, d) t' -> show b = d) -> In (a, show a) t' -> table_parse t' (show a) = Ok a).
    { induction t' as [|[b d] t' IH]; intros Hs Hin; [easy|]. simpl. destruct (String.eqb (show a) d) eqn:E.
      - apply String.eqb_eq in E. f_equal. apply H3. rewrite (Hs b d (or_introl eq_refl)). auto.
      - destruct Hin as [Heq|Hin]; [injection Heq as -> ->; now rewrite String.eqb_refl in E|]. apply IH; auto. intros. apply Hs. now right. }
    auto.
  - assert (G : forall t', (forall b d, In (b, d) t' -> show b = d) -> (exists a, s = show a) \/ table_parse t' s = Err InvalidArgumentInput).
    { induction t' as [|[b d] t' IH]; intros Hs; [now right|]. simpl. destruct (String.eqb s d) eqn:E.
      - left. exists b. rewrite (Hs b d (or_introl eq_refl)). now apply String.eqb_eq.
      - apply IH. intros. apply Hs. now right. }
    destruct (G t H1); auto.
Qed.
Lemma show_inj {A} (show : A -> string) (parse : string -> outcome A) a b :
  parse (show a) = Ok a -> parse (show b) = Ok b -> show a = show b -> a = b.
Proof. intros H1 H2 E. rewrite E, H2 in H1. congruence. Qed.
Lemma agenttype_classify s : classifies (agenttype_parse s) (fun a => s = agenttype_show a) False.
Proof.
  apply table_classify.
  - intros a d. cbn [In]. intuition; now match goal with H : (_, _) = (_, _) |- _ => inv H end.
  - intros []; cbn [In agenttype_show]; tauto.
  - intros a b. apply (show_inj _ agenttype_parse); apply agenttype_round.
Qed.
Lemma targettype_classify s : classifies (targettype_parse s) (fun a => s = targettype_show a) False.
Proof.
  apply table_classify.
  - intros a d. cbn [In]. intuition; now match goal with H : (_, _) = (_, _) |- _ => inv H end.
  - intros []; cbn [In targettype_show]; tauto.
  - intros a b. apply (show_inj _ targettype_parse); apply targettype_round.
Qed.
