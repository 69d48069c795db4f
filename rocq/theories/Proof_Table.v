(** Positions of the characters of a table. *)
From Coq Require Import String Ascii NArith Lia List.
From Verif Require Import Base Scalar Model_Text Spec_Text Proof_Text Model_Args Model_Table Spec_Program Spec_Disk Spec_Table.
Import ListNotations.
Local Open Scope nat_scope.
Local Open Scope string_scope.
Local Open Scope list_scope.
Local Notation length := List.length.

Lemma spaces_length n : String.length (spaces n) = n.
Proof. induction n as [|n IH]; [reflexivity|]. cbn [spaces String.length]. now rewrite IH. Qed.
Lemma spaces_get n j : j < n -> String.get j (spaces n) = Some " "%char.
Proof. revert j. induction n as [|n IH]; intros j H; [lia|]. destruct j as [|j]; [reflexivity|]. cbn [spaces String.get]. apply IH. lia. Qed.
Lemma pad_length w s : String.length (pad w s) = Nat.max w (String.length s).
Proof. unfold pad. rewrite length_app_s, spaces_length. lia. Qed.
Lemma get_app a b j : String.get (String.length a + j) (a ++ b)%string = String.get j b.
Proof. induction a as [|c a IH]; [reflexivity|]. cbn [String.length append Nat.add String.get]. exact IH. Qed.
Lemma get_left a b j : j < String.length a -> String.get j (a ++ b)%string = String.get j a.
Proof. revert j. induction a as [|c a IH]; intros j H; cbn [String.length] in H; [lia|]. destruct j as [|j]; [reflexivity|]. cbn [append String.get]. apply IH. lia. Qed.
Lemma substring_app a b m n : String.substring (String.length a + m) n (a ++ b)%string = String.substring m n b.
Proof. induction a as [|c a IH]; [reflexivity|]. cbn [String.length append Nat.add String.substring]. exact IH. Qed.
Lemma substring_whole s t : String.substring 0 (String.length s) (s ++ t)%string = s.
Proof. induction s as [|c s IH]; [now destruct t|]. cbn [String.length append String.substring]. now rewrite IH. Qed.
Lemma stands_shift a b c s : stands_at b c s -> stands_at (a ++ b)%string (String.length a + c) s.
Proof. unfold stands_at. now rewrite substring_app. Qed.
Lemma stands_here s t : stands_at (s ++ t)%string 0 s.
Proof. apply substring_whole. Qed.
Lemma stands_after a s t n : String.length a = n -> stands_at (a ++ s ++ t)%string n s.
Proof. intros <-. rewrite <- (Nat.add_0_r (String.length a)). apply stands_shift, stands_here. Qed.
Lemma blank_shift a b x y : blank_between b x y -> blank_between (a ++ b)%string (String.length a + x) (String.length a + y).
Proof. intros H j Hj. replace j with (String.length a + (j - String.length a)) by lia. rewrite get_app. apply H. lia. Qed.
Lemma blank_pad w s t : blank_between (pad w s ++ t)%string (String.length s) (Nat.max w (String.length s)).
Proof.
  intros j Hj. rewrite get_left by (rewrite pad_length; lia). unfold pad. replace j with (String.length s + (j - String.length s)) by lia. rewrite get_app. apply spaces_get. lia.
Qed.

(** A line of cells, each followed by [sep]. *)
Definition cells_line (w : nat) (sep : string) (texts : list string) (tail : string) : string := fold_right (fun s acc => pad w s ++ sep ++ acc)%string tail texts.
Lemma cells_at w sep tail texts k s : nth_error texts k = Some s ->
  cell_of (cells_line w sep texts tail) w (String.length sep) texts k s /\
  stands_at (cells_line w sep texts tail) (room w (String.length sep) texts k + Nat.max w (String.length s)) sep.
Proof.
  revert k. induction texts as [|x texts IH]; intros k E; [destruct k; discriminate|]. destruct k as [|k].
  - injection E as ->. unfold cell_of, room. cbn [firstn map list_sum fold_right nth_error cells_line].
    change (fold_right Nat.add 0 (map (fun s0 => Nat.max w (String.length s0) + String.length sep) (firstn 0 (s :: texts)))) with 0. rewrite !Nat.add_0_l.
    split; [split; [reflexivity|split]|].
    + unfold pad. rewrite app_s_assoc. apply stands_here.
    + apply blank_pad.
    + apply stands_after, pad_length.
  - cbn [nth_error] in E. destruct (IH k E) as [[E1 [E2 E3]] E4].
    assert (R : room w (String.length sep) (x :: texts) (Datatypes.S k) = String.length (pad w x ++ sep)%string + room w (String.length sep) texts k).
    { unfold room. cbn [firstn map list_sum fold_right]. rewrite length_app_s, pad_length. reflexivity. }
    assert (L : cells_line w sep (x :: texts) tail = ((pad w x ++ sep) ++ cells_line w sep texts tail)%string) by (cbn [cells_line fold_right]; now rewrite app_s_assoc).
    rewrite R, L. split; [split; [exact E|split]|].
    + rewrite R. now apply stands_shift.
    + rewrite R, <- !Nat.add_assoc. now apply blank_shift.
    + rewrite <- Nat.add_assoc. now apply stands_shift.
Qed.
Lemma cells_length w sep tail texts : String.length (cells_line w sep texts tail) = room w (String.length sep) texts (length texts) + String.length tail.
Proof.
  induction texts as [|x texts IH]; [reflexivity|]. cbn [cells_line fold_right]. rewrite !length_app_s, pad_length. fold (cells_line w sep texts tail). rewrite IH.
  unfold room. cbn [length firstn map list_sum fold_right]. fold (list_sum (map (fun s => Nat.max w (String.length s) + String.length sep) (firstn (length texts) texts))). lia.
Qed.
(** Cells that fit stand in columns of one width. *)
Lemma room_fit w gap texts k : Forall (fun s => String.length s <= w) texts -> k <= length texts -> room w gap texts k = k * (w + gap).
Proof.
  intros H. revert k. induction H as [|x texts Hx _ IH]; intros k Hk.
  - cbn in Hk. replace k with 0 by lia. reflexivity.
  - destruct k as [|k]; [reflexivity|]. cbn [length] in Hk. unfold room. cbn [firstn map list_sum fold_right].
    fold (list_sum (map (fun s => Nat.max w (String.length s) + gap) (firstn k texts))). fold (room w gap texts k). rewrite IH by lia. rewrite Nat.max_l by exact Hx. lia.
Qed.
Lemma form_cells w names : export_form w names = cells_line w "" names "".
Proof. reflexivity. Qed.
Lemma data_cells {A} (show : A -> string) w vs : export_data show w vs = cells_line w (String (ascii_of_nat 9) "") (map show vs) "".
Proof. unfold export_data, cells_line. induction vs as [|v vs IH]; [reflexivity|]. cbn [fold_right map]. now rewrite IH. Qed.

(** Configurations. *)
Lemma config_lines fs w v text : print_configuration fs w v = Ok text -> exists ts ls, texts_of fs v ts /\ length ls = length fs /\ length ts = length fs /\ text = lines_text ls /\
  forall i f t, nth_error fs i = Some f -> nth_error ts i = Some t -> exists l, nth_error ls i = Some l /\ config_line l w (f_name f) t.
Proof.
  revert v text. induction fs as [|f fs IH]; intros v text E.
  - cbn [print_configuration] in E. assert (X : forall a b : string, Ok a = Ok b -> a = b) by congruence. apply X in E. subst text.
    exists [], []. repeat split; auto. intros i g t G _. destruct i; discriminate G.
  - cbn [print_configuration] in E. destruct (f_show f (fst v)) as [t| | |] eqn:Et; cbn [bind] in E; try discriminate E.
    destruct (print_configuration fs w (snd v)) as [r| | |] eqn:Er; cbn [bind] in E; try discriminate E.
    assert (X : forall a b : string, Ok a = Ok b -> a = b) by congruence. apply X in E. subst text. destruct (IH _ _ Er) as (ts & ls & A & B & C & D & G). subst r.
    exists (t :: ts), ((pad w (f_name f) ++ ": " ++ t)%string :: ls). split; [exists t, ts; auto|]. split; [cbn [length]; now rewrite B|]. split; [cbn [length]; now rewrite C|]. split.
    + change (lines_text ((pad w (f_name f) ++ ": " ++ t)%string :: ls)) with ((pad w (f_name f) ++ ": " ++ t) ++ newline ++ lines_text ls)%string. now rewrite !app_s_assoc.
    + intros i g u Ng Nu. destruct i as [|i]; [|cbn [nth_error] in *; now apply (G i g u)]. cbn [nth_error] in Ng, Nu.
      assert (X1 : forall a b : field, Some a = Some b -> a = b) by congruence. apply X1 in Ng. subst g. assert (X2 : forall a b : string, Some a = Some b -> a = b) by congruence. apply X2 in Nu. subst u.
      exists (pad w (f_name f) ++ ": " ++ t)%string. split; [reflexivity|]. unfold config_line. split; [|split; [|split; [|split]]].
      * unfold pad. rewrite app_s_assoc. apply stands_here.
      * apply blank_pad.
      * apply stands_after, pad_length.
      * assert (Q : (pad w (f_name f) ++ ": " ++ t)%string = ((pad w (f_name f) ++ ": ") ++ t ++ "")%string) by (now rewrite app_s_nil, app_s_assoc). rewrite Q.
        apply stands_after. rewrite length_app_s, pad_length. reflexivity.
      * rewrite !length_app_s, pad_length. cbn [String.length]. lia.
Qed.

(** Rows of typed values. *)
Section Rows.
Context {S : scalar}.
Lemma row_ok (show_e : S -> string) w (vs : list (tableval S)) : Forall numeric vs -> export_row show_e w vs = Ok (export_data (val_text show_e) w vs).
Proof.
  induction 1 as [|v vs Hv _ IH]; [reflexivity|]. cbn [export_row]. destruct v as [z|x|s]; [| |destruct Hv]; cbn [bind]; rewrite IH; cbn [bind]; unfold export_data; cbn [fold_right val_text]; now rewrite app_s_assoc.
Qed.
Lemma row_err (show_e : S -> string) w (vs : list (tableval S)) : ~ Forall numeric vs -> export_row show_e w vs = Err InvalidType.
Proof.
  induction vs as [|v vs IH]; intros H; [destruct H; constructor|]. cbn [export_row]. destruct v as [z|x|s]; cbn [bind]; [| |reflexivity]; (rewrite IH; [reflexivity|]); intros K; apply H; constructor; auto; exact I.
Qed.
End Rows.
Lemma vec_words_read {S : scalar} (nt : numtext S) args nv req dir : analyze_vec_args nt args = Ok (nv, req, dir) <-> vec_words nt args nv req dir.
Proof.
  split.
  - unfold analyze_vec_args. intros E.
    assert (X : forall a b : nat * bin_request S * string, Ok a = Ok b -> a = b) by congruence.
    destruct args as [|w [|w1 [|w2 [|w3 [|d [|d' [|]]]]]]]; cbn [length] in E; try discriminate E; cbn [idx nth_error bind] in E.
    + destruct (parse_usize w) as [n0|] eqn:E0; cbn [expect bind] in E; try discriminate E. destruct (n_parse nt w1) as [a1|] eqn:E1; cbn [expect bind] in E; try discriminate E.
      destruct (n_parse nt w2) as [a2|] eqn:E2; cbn [expect bind] in E; try discriminate E. destruct (parse_usize w3) as [a3|] eqn:E3; cbn [expect bind] in E; try discriminate E.
      apply X in E. assert (E4 : n0 = nv /\ ByNumber a1 a2 a3 = req /\ d = dir) by (split; [|split]; congruence). destruct E4 as (<- & <- & <-). repeat constructor; auto.
    + destruct (parse_usize w) as [n0|] eqn:E0; cbn [expect bind] in E; try discriminate E. destruct (n_parse nt w1) as [a1|] eqn:E1; cbn [expect bind] in E; try discriminate E.
      destruct (n_parse nt w2) as [a2|] eqn:E2; cbn [expect bind] in E; try discriminate E. destruct (n_parse nt w3) as [a3|] eqn:E3; cbn [expect bind] in E; try discriminate E.
      destruct (n_parse nt d) as [a4|] eqn:E4; cbn [expect bind] in E; try discriminate E.
      apply X in E. assert (E5 : n0 = nv /\ BySize a1 a2 a3 a4 = req /\ d' = dir) by (split; [|split]; congruence). destruct E5 as (<- & <- & <-). repeat constructor; auto.
  - intros [w ws n r d E0 H]. destruct H as [w1 w2 w3 d mn mx k E1 E2 E3|w1 w2 w3 w4 d mn mx b lb E1 E2 E3 E4]; unfold analyze_vec_args; cbn [length idx nth_error bind]; rewrite E0, E1, E2, E3; try rewrite E4; reflexivity.
Qed.
Lemma plain_words_read {S : scalar} (nt : numtext S) args req dir : analyze_args nt args = Ok (req, dir) <-> analysis_words nt args req dir.
Proof.
  split.
  - unfold analyze_args. intros E.
    assert (X : forall a b : bin_request S * string, Ok a = Ok b -> a = b) by congruence.
    destruct args as [|w1 [|w2 [|w3 [|d [|d' [|]]]]]]; cbn [length] in E; try discriminate E; cbn [idx nth_error bind] in E.
    + destruct (n_parse nt w1) as [a1|] eqn:E1; cbn [expect bind] in E; try discriminate E.
      destruct (n_parse nt w2) as [a2|] eqn:E2; cbn [expect bind] in E; try discriminate E. destruct (parse_usize w3) as [a3|] eqn:E3; cbn [expect bind] in E; try discriminate E.
      apply X in E. assert (E4 : ByNumber a1 a2 a3 = req /\ d = dir) by (split; congruence). destruct E4 as (<- & <-). constructor; auto.
    + destruct (n_parse nt w1) as [a1|] eqn:E1; cbn [expect bind] in E; try discriminate E.
      destruct (n_parse nt w2) as [a2|] eqn:E2; cbn [expect bind] in E; try discriminate E. destruct (n_parse nt w3) as [a3|] eqn:E3; cbn [expect bind] in E; try discriminate E.
      destruct (n_parse nt d) as [a4|] eqn:E4; cbn [expect bind] in E; try discriminate E.
      apply X in E. assert (E5 : BySize a1 a2 a3 a4 = req /\ d' = dir) by (split; congruence). destruct E5 as (<- & <-). constructor; auto.
  - intros H. destruct H as [w1 w2 w3 d mn mx k E1 E2 E3|w1 w2 w3 w4 d mn mx b lb E1 E2 E3 E4]; unfold analyze_args; cbn [length idx nth_error bind]; rewrite E1, E2, E3; try rewrite E4; reflexivity.
Qed.
