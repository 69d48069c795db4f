(** Proofs about text: splitting, trimming, decimal numbers, positions. *)
From Coq Require Import String Ascii NArith Lia DecimalString Decimal DecimalN DecimalFacts.
From Verif Require Import Base Scalar Model_Position Model_System Model_Agent Model_Time Model_Text Spec_Text.
Local Open Scope string_scope.
Local Open Scope list_scope.
Local Notation length := List.length.

Ltac inv H := inversion H; subst; clear H.

Lemma app_s_nil (s : string) : (s ++ "")%string = s. Proof. induction s as [|c s IH]; simpl; congruence. Qed.
Lemma app_s_assoc (a b c : string) : ((a ++ b) ++ c)%string = (a ++ b ++ c)%string.
Proof. induction a as [|x a IH]; simpl; congruence. Qed.
Lemma app_s_inv (a b c : string) : (a ++ b)%string = (a ++ c)%string -> b = c.
Proof. induction a as [|x a IH]; simpl; intros H; auto. apply IH. congruence. Qed.
Lemma length_app_s (a b : string) : String.length (a ++ b) = String.length a + String.length b.
Proof. induction a; simpl; auto. Qed.

Lemma all_app P (a b : string) : all_chars P (a ++ b)%string <-> all_chars P a /\ all_chars P b.
Proof. induction a as [|c a IH]; simpl; tauto. Qed.
Lemma all_impl (P Q : ascii -> Prop) (s : string) : (forall c, P c -> Q c) -> all_chars P s -> all_chars Q s.
Proof. intros H. induction s; simpl; intuition. Qed.
Lemma all_dec (P : ascii -> Prop) (p : ascii -> bool) (s : string) :
  (forall c, p c = true <-> ~ P c) -> (forall c, {P c} + {~ P c}) ->
  all_chars P s \/ exists a c r, s = (a ++ String c r)%string /\ all_chars P a /\ ~ P c.
Proof.
  intros Hp D. induction s as [|c s IH]; simpl; [tauto|].
  destruct (D c) as [y|n].
  - destruct IH as [H|(a & d & r & E & H1 & H2)]; [tauto|].
    right. exists (String c a), d, r. simpl. subst. tauto.
  - right. exists "", c, s. simpl. tauto.
Qed.

Lemma is_ws_spec c : is_ws c = true <-> whitespace c.
Proof.
  unfold is_ws, whitespace. set (n := nat_of_ascii c).
  rewrite orb_true_iff, andb_true_iff, !Nat.leb_le, Nat.eqb_eq. simpl. lia.
Qed.
Lemma is_ws_false c : is_ws c = false <-> ~ whitespace c.
Proof. rewrite <- is_ws_spec. destruct (is_ws c); split; congruence. Qed.
Lemma is_char_spec d c : is_char d c = true <-> c = d.
Proof. apply Ascii.eqb_eq. Qed.
Lemma is_char_false d c : is_char d c = false <-> c <> d.
Proof. apply Ascii.eqb_neq. Qed.

(** ** split *)
Lemma split_nonempty p s : split_on p s <> [].
Proof. induction s as [|c s IH]; simpl; [easy|]. destruct (p c); [easy|]. destruct (split_on p s); easy. Qed.
Lemma split_cons p s : exists h t, split_on p s = h :: t.
Proof. destruct (split_on p s) eqn:E; [now apply split_nonempty in E|eauto]. Qed.
Lemma split_app p a s h t : all_chars (fun c => p c = false) a -> split_on p s = h :: t -> split_on p (a ++ s)%string = (a ++ h)%string :: t.
Proof.
  intros Ha Hs. induction a as [|c a IH]; simpl; auto.
  destruct Ha as [Hc Ha]. rewrite Hc, (IH Ha). reflexivity.
Qed.
Lemma split_none p a : all_chars (fun c => p c = false) a -> split_on p a = [a].
Proof. intros H. rewrite <- (app_s_nil a) at 1. rewrite (split_app p a "" "" []); auto. now rewrite app_s_nil. Qed.
Lemma split_sep p a c s : all_chars (fun c => p c = false) a -> p c = true -> split_on p (a ++ String c s)%string = a :: split_on p s.
Proof. intros Ha Hc. erewrite split_app; [|eauto|simpl; rewrite Hc; reflexivity]. now rewrite app_s_nil. Qed.
(** Cutting at the first separator. *)
Lemma first_sep p s : all_chars (fun c => p c = false) s \/
  exists a c r, s = (a ++ String c r)%string /\ all_chars (fun c => p c = false) a /\ p c = true.
Proof.
  induction s as [|c s IH]; simpl; [tauto|]. destruct (p c) eqn:E.
  - right. exists "", c, s. simpl. auto.
  - destruct IH as [H|(a & d & r & -> & H1 & H2)]; [tauto|].
    right. exists (String c a), d, r. simpl. auto.
Qed.
Lemma split_pieces p s : Forall (all_chars (fun c => p c = false)) (split_on p s).
Proof.
  induction s as [|c s IH]; simpl; [repeat constructor|]. destruct (p c) eqn:E; [constructor; simpl; auto|].
  destruct (split_on p s); inv IH; constructor; simpl; auto.
Qed.

Lemma ws_dec c : {whitespace c} + {~ whitespace c}.
Proof. destruct (is_ws c) eqn:E; [left; now apply is_ws_spec|right; now apply is_ws_false]. Defined.
Lemma solid_ws s : solid s <-> all_chars (fun c => is_ws c = false) s.
Proof. split; apply all_impl; intros c; apply is_ws_false. Qed.
Lemma split_ws_blank s : blank s -> split_ws s = [].
Proof.
  unfold split_ws. induction s as [|c s IH]; simpl; auto. intros [Hc Hs]. apply is_ws_spec in Hc. rewrite Hc. simpl. auto.
Qed.
Lemma split_ws_skip a s : blank a -> split_ws (a ++ s)%string = split_ws s.
Proof.
  unfold split_ws. induction a as [|c a IH]; simpl; auto. intros [Hc Hs]. apply is_ws_spec in Hc. rewrite Hc. simpl. auto.
Qed.
Lemma nonempty_b w : w <> "" -> negb (is_empty w) = true. Proof. now destruct w. Qed.
Lemma split_ws_word w c r : w <> "" -> solid w -> whitespace c -> split_ws (w ++ String c r)%string = w :: split_ws r.
Proof.
  intros Hw Hs Hc. unfold split_ws. rewrite split_sep; [|now apply solid_ws|now apply is_ws_spec].
  cbn [filter]. now rewrite nonempty_b.
Qed.
Lemma split_ws_one w : w <> "" -> solid w -> split_ws w = [w].
Proof.
  intros Hw Hs. unfold split_ws. rewrite split_none by now apply solid_ws. cbn [filter]. now rewrite nonempty_b.
Qed.
Lemma split_ws_last w b : w <> "" -> solid w -> blank b -> split_ws (w ++ b)%string = [w].
Proof.
  intros Hw Hs Hb. destruct b as [|c b]; [rewrite app_s_nil; now apply split_ws_one|].
  destruct Hb as [Hc Hb]. rewrite split_ws_word by auto. now rewrite split_ws_blank.
Qed.
Lemma Words_split s ws : Words s ws -> split_ws s = ws.
Proof.
  induction 1 as [s H|a w b Ha Hw Hs Hb|a w c r w' ws Ha Hw Hs Hc HW IH].
  - now apply split_ws_blank.
  - rewrite split_ws_skip by auto. now apply split_ws_last.
  - rewrite split_ws_skip, split_ws_word by auto. now rewrite IH.
Qed.
Lemma split_Words s : Words s (split_ws s).
Proof.
  remember (String.length s) as n eqn:En. revert s En.
  induction n as [n IH] using (well_founded_induction lt_wf). intros s En.
  destruct (all_dec whitespace (fun c => negb (is_ws c)) s) as [H|(a & c & r & -> & Ha & Hc)].
  { intros c. rewrite negb_true_iff. apply is_ws_false. } { apply ws_dec. }
  - rewrite split_ws_blank by auto. now constructor.
  - rewrite split_ws_skip by auto.
    destruct (first_sep is_ws r) as [Hr|(b & d & t & -> & Hb & Hd)].
    + assert (solid (String c r)) by (split; auto; now apply solid_ws).
      rewrite split_ws_one by easy. rewrite <- (app_s_nil (String c r)) at 1. now constructor.
    + assert (solid (String c b)) by (split; auto; now apply solid_ws). apply is_ws_spec in Hd.
      change (String c (b ++ String d t))%string with (String c b ++ String d t)%string.
      rewrite split_ws_word by easy.
      assert (HW : Words t (split_ws t)).
      { apply (IH (String.length t)); auto. subst n. rewrite !length_app_s. simpl. rewrite length_app_s. simpl. lia. }
      destruct (split_ws t) as [|w' ws] eqn:E; [|constructor; easy].
      inv HW. now constructor.
Qed.
(** The words of a text are determined by it. *)
Lemma Words_unique s ws : Words s ws <-> split_ws s = ws.
Proof. split; [apply Words_split|intros <-; apply split_Words]. Qed.

(** ** trim *)
Lemma trim_start_keep p s : match s with EmptyString => True | String c _ => p c = false end -> trim_start p s = s.
Proof. destruct s as [|c s]; simpl; auto. now intros ->. Qed.
Lemma trim_end_all p s : all_chars (fun c => p c = false) s -> trim_end p s = s.
Proof.
  induction s as [|c s IH]; simpl; auto. intros [Hc Hs]. rewrite (IH Hs), Hc. now rewrite andb_false_r.
Qed.
Lemma trim_all p s : all_chars (fun c => p c = false) s -> trim_matches p s = s.
Proof.
  intros H. unfold trim_matches. rewrite trim_start_keep; [now apply trim_end_all|]. destruct s; simpl in *; tauto.
Qed.
Lemma trim_start_skip p a s : all_chars (fun c => p c = true) a -> trim_start p (a ++ s)%string = trim_start p s.
Proof. induction a as [|c a IH]; simpl; auto. intros [-> H]. auto. Qed.
Lemma trim_end_none p a : all_chars (fun c => p c = true) a -> trim_end p a = "".
Proof. induction a as [|c a IH]; simpl; auto. intros [Hc H]. rewrite (IH H), Hc. reflexivity. Qed.
Lemma trim_end_skip p s a : all_chars (fun c => p c = true) a -> trim_end p (s ++ a)%string = trim_end p s.
Proof. intros H. induction s as [|c s IH]; simpl; [now apply trim_end_none|]. now rewrite IH. Qed.
(** Trimming what stands between [a] and [b] when it neither starts nor ends with such a character. *)
Lemma trim_end_last p s c : p c = false -> trim_end p (s ++ String c "")%string = (s ++ String c "")%string.
Proof.
  intros H. induction s as [|d s IH]; simpl; [now rewrite H|]. rewrite IH.
  destruct (s ++ String c "")%string eqn:E; [destruct s; discriminate|reflexivity].
Qed.
Lemma last_char (s : string) : s = "" \/ exists t c, s = (t ++ String c "")%string.
Proof.
  induction s as [|c s IH]; auto. right. destruct IH as [->|(t & d & ->)]; [now exists "", c|now exists (String c t), d].
Qed.

(** ** decimal numbers *)
Definition ucons (n : N) : Decimal.uint -> Decimal.uint :=
  match n with 0 => D0 | 1 => D1 | 2 => D2 | 3 => D3 | 4 => D4 | 5 => D5 | 6 => D6 | 7 => D7 | 8 => D8 | _ => D9 end%N.
Lemma uint_of_char_spec c o : uint_of_char c o =
  match digit_value c, o with Some n, Some d => Some (ucons n d) | _, _ => None end.
Proof.
  destruct o; [|destruct c as [[] [] [] [] [] [] [] []]; reflexivity].
  destruct c as [[] [] [] [] [] [] [] []]; reflexivity.
Qed.
Fixpoint horner (acc : N) (d : Decimal.uint) : N :=
  match d with
  | Nil => acc | D0 l => horner (10 * acc) l | D1 l => horner (10 * acc + 1) l | D2 l => horner (10 * acc + 2) l
  | D3 l => horner (10 * acc + 3) l | D4 l => horner (10 * acc + 4) l | D5 l => horner (10 * acc + 5) l
  | D6 l => horner (10 * acc + 6) l | D7 l => horner (10 * acc + 7) l | D8 l => horner (10 * acc + 8) l
  | D9 l => horner (10 * acc + 9) l
  end%N.
Lemma horner_acc d acc : N.pos (Pos.of_uint_acc d acc) = horner (N.pos acc) d.
Proof. revert acc. induction d; intros acc; simpl horner; cbn [Pos.of_uint_acc]; auto; rewrite IHd; f_equal; lia. Qed.
Lemma horner_of d : N.of_uint d = horner 0 d.
Proof. induction d; simpl horner; auto; try (cbn [N.of_uint Pos.of_uint]; rewrite horner_acc; reflexivity). Qed.
Lemma digit_small c n : digit_value c = Some n -> (n <= 9)%N.
Proof. unfold digit_value. destruct (_ && _)%bool eqn:E; [|easy]. intros [= <-]. apply andb_prop in E as [H1 H2]. apply N.leb_le in H1, H2. lia. Qed.
Lemma horner_ucons n d acc : (n <= 9)%N -> horner acc (ucons n d) = horner (10 * acc + n) d.
Proof.
  intros H. assert (n = 0 \/ n = 1 \/ n = 2 \/ n = 3 \/ n = 4 \/ n = 5 \/ n = 6 \/ n = 7 \/ n = 8 \/ n = 9)%N as D by lia.
  destruct D as [->|[->|[->|[->|[->|[->|[->|[->|[->| ->]]]]]]]]]; cbn [ucons horner]; auto. now rewrite N.add_0_r.
Qed.
Lemma NE_digits s : forall acc, option_map (horner acc) (NilEmpty.uint_of_string s) = digits_value acc s.
Proof.
  induction s as [|c s IH]; intros acc; [reflexivity|]. cbn [NilEmpty.uint_of_string digits_value].
  rewrite uint_of_char_spec. destruct (digit_value c) as [n|] eqn:En; [|reflexivity].
  rewrite <- IH. destruct (NilEmpty.uint_of_string s); simpl; [|reflexivity].
  f_equal. apply horner_ucons. eapply digit_small, En.
Qed.
Lemma NZ_digits s : s <> "" -> option_map N.of_uint (NilZero.uint_of_string s) = digits_value 0 s.
Proof.
  intros H. destruct s; [easy|]. change (NilZero.uint_of_string _) with (NilEmpty.uint_of_string (String a s)).
  rewrite <- NE_digits. destruct (NilEmpty.uint_of_string _); simpl; auto. f_equal. apply horner_of.
Qed.
Lemma digits_head c s acc n : digits_value acc (String c s) = Some n -> c <> "+"%char.
Proof. intros H ->. discriminate. Qed.
Lemma parse_uint_spec max s n : parse_uint max s = Some n <-> uint_text max s n.
Proof.
  assert (K : forall ds, ds <> "" -> (match NilZero.uint_of_string ds with
    Some u => let n := N.of_uint u in if (n <=? max)%N then Some n else None | None => None end = Some n
    <-> digits_value 0 ds = Some n /\ (n <= max)%N)).
  { intros ds H. rewrite <- (NZ_digits ds H). destruct (NilZero.uint_of_string ds) as [u|]; simpl; [|intuition congruence].
    destruct (N.of_uint u <=? max)%N eqn:E.
    - apply N.leb_le in E. split; [intros [= <-]; auto|now intros [[= <-] _]].
    - apply N.leb_gt in E. split; [easy|]. intros [[= <-] H2]. lia. }
  unfold parse_uint, uint_text. split.
  - intros H. destruct s as [|c s]; [discriminate|]. cbn [strip_plus] in H. destruct (is_char "+" c) eqn:E.
    + apply is_char_spec in E. subst c. destruct s as [|c s]; [discriminate|].
      apply K in H; [|easy]. exists (String c s). intuition easy.
    + apply K in H; [|easy]. exists (String c s). intuition easy.
  - intros (ds & [->| ->] & Hne & Hd).
    + destruct ds as [|c ds]; [easy|]. cbn [strip_plus].
      destruct (is_char "+" c) eqn:E; [apply is_char_spec in E; exfalso; eapply digits_head, E; apply Hd|].
      now apply K.
    + change (strip_plus (String "+" ds)) with ds. now apply K.
Qed.
Lemma parse_usize_spec s n : parse_usize s = Some n <-> usize_text s n.
Proof.
  unfold parse_usize, usize_text. rewrite <- parse_uint_spec. unfold usize_maxN.
  destruct (parse_uint _ s) as [m|]; simpl; split; intros H; try easy; injection H as H; subst.
  - now rewrite N2Nat.id.
  - now rewrite Nat2N.id.
Qed.
Lemma parse_usize_none s : parse_usize s = None <-> forall n, ~ usize_text s n.
Proof.
  split.
  - intros H n Hn. apply parse_usize_spec in Hn. congruence.
  - intros H. destruct (parse_usize s) eqn:E; auto. apply parse_usize_spec in E. now apply H in E.
Qed.
(** Printing. *)
Lemma digit_num_char c n : digit_value c = Some n -> number_char c.
Proof.
  unfold digit_value, number_char. destruct (_ && _)%bool eqn:E; [|easy]. intros _.
  apply andb_prop in E as [H1 H2]. apply N.leb_le in H1, H2. left. lia.
Qed.
Lemma show_digits n : show_uint n <> "" /\ digits_value 0 (show_uint n) = Some n.
Proof.
  assert (H : show_uint n <> "").
  { unfold show_uint. destruct (N.to_uint n); discriminate. }
  split; auto. rewrite <- NZ_digits by auto. unfold show_uint.
  rewrite NilZero.usu; [simpl; now rewrite DecimalN.Unsigned.of_to|].
  intros E. destruct n; discriminate || (apply (f_equal N.of_uint) in E; rewrite DecimalN.Unsigned.of_to in E; discriminate).
Qed.
Lemma digits_chars s acc n : digits_value acc s = Some n -> all_chars number_char s.
Proof.
  revert acc. induction s as [|c s IH]; intros acc; [easy|]. cbn [digits_value].
  destruct (digit_value c) eqn:E; [|easy]. intros H. split; [eapply digit_num_char, E|eauto].
Qed.
Lemma show_uint_word n : number_word (show_uint n).
Proof. destruct (show_digits n) as [H1 H2]. split; auto. eapply digits_chars, H2. Qed.
Lemma show_uint_text max n : (n <= max)%N -> uint_text max (show_uint n) n.
Proof. destruct (show_digits n). intros. exists (show_uint n). auto. Qed.
Lemma show_usize_text n : usize_fits n -> usize_text (show_usize n) n.
Proof. unfold usize_fits. intros H. apply show_uint_text. lia. Qed.
Lemma show_usize_parse n : usize_fits n -> parse_usize (show_usize n) = Some n.
Proof. intros H. now apply parse_usize_spec, show_usize_text. Qed.
Lemma show_usize_word n : number_word (show_usize n). Proof. apply show_uint_word. Qed.
Lemma show_uint_inj m n : show_uint m = show_uint n -> m = n.
Proof. intros E. destruct (show_digits m) as [_ H], (show_digits n) as [_ H']. congruence. Qed.

(** ** number words *)
Lemma number_char_not c d : number_char c ->
  (nat_of_ascii d < 43 \/ nat_of_ascii d = 44 \/ nat_of_ascii d = 47 \/ 57 < nat_of_ascii d < 65 \/ 90 < nat_of_ascii d < 97 \/ 122 < nat_of_ascii d)%nat -> c <> d.
Proof. unfold number_char. intros H Hd ->. lia. Qed.
Lemma number_char_solid c : number_char c -> ~ whitespace c.
Proof. unfold number_char, whitespace. simpl. lia. Qed.
Lemma number_solid s : number_word s -> s <> "" /\ solid s.
Proof. intros [H1 H2]. split; auto. revert H2. apply all_impl, number_char_solid. Qed.
Lemma number_without s d : number_word s -> (nat_of_ascii d < 43 \/ nat_of_ascii d = 44 \/ nat_of_ascii d = 47 \/ 57 < nat_of_ascii d < 65 \/ 90 < nat_of_ascii d < 97 \/ 122 < nat_of_ascii d)%nat ->
  without d s.
Proof. intros [_ H] Hd. revert H. apply all_impl. intros c Hc. now apply number_char_not. Qed.
Ltac nosep := cbn; lia.
Lemma word_ws s : number_word s -> all_chars (fun c => is_ws c = false) s.
Proof. intros H. apply solid_ws. now apply number_solid. Qed.

(** ** positions *)
Section Pos.
Context {T : Type} (nt : numtext T).
Let sep : ascii -> bool := fun c => is_char "," c || is_char ":" c.
Lemma text_join (show : T -> string) r a :
  fold_left (fun acc y => acc ++ "," ++ show y)%string r a = (a ++ fold_right (fun q acc => "," ++ q ++ acc) "" (map show r))%string.
Proof.
  revert a. induction r as [|y r IH]; intros a; simpl; [now rewrite app_s_nil|].
  rewrite IH, app_s_assoc. simpl. reflexivity.
Qed.
Lemma pos_text_join (show : T -> string) p : p <> [] -> pos_text show p = Ok (join "," (map show p)).
Proof. destruct p as [|x r]; [easy|]. intros _. simpl. rewrite (text_join show). reflexivity. Qed.
Lemma sep_word s : number_word s -> all_chars (fun c => sep c = false) s.
Proof.
  intros [_ H]. revert H. apply all_impl. intros c Hc. unfold sep. apply orb_false_iff. split; apply is_char_false; apply number_char_not; auto; nosep.
Qed.
Lemma split_join d (ws : list string) : ws <> [] -> sep d = true -> Forall number_word ws ->
  split_on sep (join (String d "") ws) = ws.
Proof.
  intros Hne Hd H. destruct ws as [|w r]; [easy|]. clear Hne. inv H. simpl join.
  revert w H2. induction r as [|v r IH]; intros w Hw; cbn [fold_right].
  - rewrite app_s_nil. now apply split_none, sep_word.
  - inv H3. cbn [append]. rewrite split_sep; [|now apply sep_word|auto]. f_equal. now apply IH.
Qed.
Lemma join_chars (P : ascii -> Prop) d ws : P d -> Forall (all_chars P) ws -> all_chars P (join (String d "") ws).
Proof.
  intros Hd H. destruct ws as [|w r]; simpl; auto. inv H. apply all_app. split; auto.
  clear w H2. induction r as [|v r IH]; simpl; auto. inv H3. split; auto. apply all_app. auto.
Qed.
Lemma join_nonws d ws : ~ whitespace d -> Forall number_word ws -> solid (join (String d "") ws).
Proof. intros Hd H. apply join_chars; auto. revert H. apply Forall_impl. intros w Hw. now apply number_solid. Qed.
Lemma join_nonparen d ws : is_paren d = false -> Forall number_word ws -> all_chars (fun c => is_paren c = false) (join (String d "") ws).
Proof.
  intros Hd H. apply join_chars; auto. revert H. apply Forall_impl. intros w [_ Hw]. revert Hw. apply all_impl.
  intros c Hc. unfold is_paren. apply orb_false_iff. split; apply is_char_false, number_char_not; auto; nosep.
Qed.
Lemma blank_is_ws s : blank s -> all_chars (fun c => is_ws c = true) s.
Proof. apply all_impl. intros c. apply is_ws_spec. Qed.
(** Texts with optional white space and parentheses around, "," or ":" between. *)
Lemma trim_around p a b s : all_chars (fun c => p c = true) a -> all_chars (fun c => p c = true) b -> all_chars (fun c => p c = false) s ->
  trim_matches p (a ++ s ++ b)%string = s.
Proof.
  intros Ha Hb Hs. unfold trim_matches. rewrite trim_start_skip by auto.
  destruct s as [|c s].
  - simpl. enough (E : trim_start p b = "") by now rewrite E. rewrite <- (app_s_nil b). now rewrite trim_start_skip.
  - assert (E : trim_start p (String c s ++ b) = (String c s ++ b)%string) by (apply trim_start_keep; simpl in *; tauto).
    rewrite E, trim_end_skip by auto. now apply trim_end_all.
Qed.
(** Trimming white space around a text that is not white space at its ends. *)
Definition ends_solid (s : string) : Prop :=
  (s = "" \/ exists c t, s = String c t /\ ~ whitespace c) /\ (s = "" \/ exists t c, s = (t ++ String c "")%string /\ ~ whitespace c).
Lemma trim_ends a b s : blank a -> blank b -> ends_solid s -> trim (a ++ s ++ b)%string = s.
Proof.
  intros Ha Hb [H1 H2]. apply blank_is_ws in Ha, Hb. unfold trim, trim_matches. rewrite trim_start_skip by auto.
  destruct H1 as [->|(c & t & -> & Hc)].
  - simpl. enough (E : trim_start is_ws b = "") by now rewrite E. rewrite <- (app_s_nil b). now rewrite trim_start_skip.
  - rewrite trim_start_keep by (simpl; now apply is_ws_false).
    rewrite trim_end_skip by auto. destruct H2 as [E|(t' & c' & E & Hc')]; [discriminate|].
    rewrite E. apply trim_end_last. now apply is_ws_false.
Qed.
Lemma solid_ends s : solid s -> ends_solid s.
Proof.
  intros H. split.
  - destruct s as [|c s]; [auto|]. right. exists c, s. split; [easy|apply H].
  - destruct (last_char s) as [E|(t & c & E)]; auto. right. exists t, c. subst. apply all_app in H. simpl in H. tauto.
Qed.
Lemma trim_solid s : solid s -> trim s = s.
Proof. intros H. rewrite <- (trim_ends "" "" s) at 2; try easy; [simpl; now rewrite app_s_nil|now apply solid_ends]. Qed.

Lemma pos_parse_total s : exists p, pos_parse nt s = Ok p /\ p <> [].
Proof. eexists. split; [reflexivity|]. destruct (split_cons (fun c => is_char "," c || is_char ":" c) (trim_matches is_paren (trim s))) as (h & t & ->). easy. Qed.
Lemma pos_parse_words a b x y d ws vs :
  blank a -> blank b -> all_chars (fun c => is_paren c = true) x -> all_chars (fun c => is_paren c = true) y ->
  (d = ","%char \/ d = ":"%char) -> ws <> [] -> Forall number_word ws -> map (n_parse nt) ws = map Some vs ->
  pos_parse nt (a ++ x ++ join (String d "") ws ++ y ++ b)%string = Ok vs.
Proof.
  intros Ha Hb Hx Hy Hd Hne Hws Hvs. unfold pos_parse.
  assert (Dw : ~ whitespace d) by (destruct Hd as [->| ->]; cbn; lia).
  assert (Dp : is_paren d = false) by now destruct Hd as [->| ->].
  assert (PS : forall z, all_chars (fun c => is_paren c = true) z -> solid z).
  { intros z. apply all_impl. intros c Hc. unfold is_paren in Hc. apply orb_prop in Hc.
    destruct Hc as [Hc|Hc]; apply is_char_spec in Hc; subst c; cbn; lia. }
  assert (E : (a ++ x ++ join (String d "") ws ++ y ++ b)%string = (a ++ (x ++ join (String d "") ws ++ y) ++ b)%string)
    by now rewrite !app_s_assoc.
  rewrite E. rewrite trim_ends; auto.
  2:{ apply solid_ends. apply all_app. split; [now apply PS|]. apply all_app. split; [now apply join_nonws|now apply PS]. }
  rewrite trim_around by (auto; now apply join_nonparen).
  rewrite split_join; auto. 2:{ unfold sep. destruct Hd as [->| ->]; reflexivity. }
  f_equal. rewrite <- (map_map (n_parse nt) (fun o => match o with Some v => v | None => n_default nt end)).
  rewrite Hvs, map_map. apply map_id.
Qed.
End Pos.
