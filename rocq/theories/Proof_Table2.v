(** Right-aligned cells, whole lines of the summary and of a distribution, cutting at tabs. *)
From Coq Require Import String Ascii NArith ZArith Lia List.
From Verif Require Import Base Scalar Model_Text Spec_Text Proof_Text Proof_Text3 Model_Args Spec_Args Proof_Args Model_Analysis Model_Table Model_Program Spec_Program Proof_Program4 Spec_Table Proof_Table.
Import ListNotations.
Local Open Scope nat_scope.
Local Open Scope string_scope.
Local Open Scope list_scope.
Local Notation length := List.length.

Lemma lpad_length w s : String.length (lpad w s) = Nat.max w (String.length s).
Proof. unfold lpad. rewrite length_app_s, spaces_length. lia. Qed.
Definition rcells_line (w : nat) (sep : string) (texts : list string) (tail : string) : string := fold_right (fun s acc => lpad w s ++ sep ++ acc)%string tail texts.
Lemma rcells_at w sep tail texts k s : nth_error texts k = Some s ->
  right_cell_of (rcells_line w sep texts tail) w (String.length sep) texts k s /\
  stands_at (rcells_line w sep texts tail) (room w (String.length sep) texts k + Nat.max w (String.length s)) sep.
Proof.
  revert k. induction texts as [|x texts IH]; intros k E; [destruct k; discriminate|]. destruct k as [|k].
  - injection E as ->. unfold right_cell_of, room. cbn [firstn map list_sum fold_right nth_error rcells_line].
    change (fold_right Nat.add 0 (map (fun s0 => Nat.max w (String.length s0) + String.length sep) (firstn 0 (s :: texts)))) with 0. rewrite !Nat.add_0_l.
    split; [split; [reflexivity|split]|].
    + unfold lpad. rewrite app_s_assoc. apply stands_after. rewrite spaces_length. lia.
    + intros j Hj. unfold lpad. rewrite app_s_assoc, get_left by (rewrite spaces_length; lia). apply spaces_get. lia.
    + apply stands_after, lpad_length.
  - cbn [nth_error] in E. destruct (IH k E) as [[E1 [E2 E3]] E4].
    assert (R : room w (String.length sep) (x :: texts) (Datatypes.S k) = String.length (lpad w x ++ sep)%string + room w (String.length sep) texts k).
    { unfold room. cbn [firstn map list_sum fold_right]. rewrite length_app_s, lpad_length. reflexivity. }
    assert (L : rcells_line w sep (x :: texts) tail = ((lpad w x ++ sep) ++ rcells_line w sep texts tail)%string) by (cbn [rcells_line fold_right]; now rewrite app_s_assoc).
    rewrite R, L. split; [split; [exact E|split]|].
    + rewrite R, <- Nat.add_assoc. now apply stands_shift.
    + rewrite R, <- Nat.add_assoc. now apply blank_shift.
    + rewrite <- Nat.add_assoc. now apply stands_shift.
Qed.
(** The cells of a longer list of texts are those of the first. *)
Lemma room_more w gap ts us k : k <= length ts -> room w gap (ts ++ us) k = room w gap ts k.
Proof. intros H. unfold room. rewrite firstn_app. replace (k - length ts) with 0 by lia. cbn [firstn]. now rewrite app_nil_r. Qed.
(** A line of cells whose last cell is followed by [tail] instead of [sep]. *)
Lemma cells_last w sep ts s tail k u : nth_error (ts ++ [s]) k = Some u -> cell_of (cells_line w sep ts (pad w s ++ tail)%string) w (String.length sep) (ts ++ [s]) k u.
Proof.
  intros E. destruct (lt_dec k (length ts)) as [H|H].
  - pose proof E as E'. rewrite nth_error_app1 in E' by exact H. destruct (cells_at w sep (pad w s ++ tail)%string ts k u E') as [(A & B & C) _].
    split; [exact E|]. rewrite room_more by lia. now split.
  - assert (Hk : k = length ts).
    { assert (k < length (ts ++ [s])) by (apply nth_error_Some; congruence). rewrite app_length in H0. cbn in H0. lia. }
    subst k. split; [exact E|]. rewrite nth_error_app2, Nat.sub_diag in E by lia. cbn [nth_error] in E. injection E as <-. rewrite room_more by lia.
    assert (L : cells_line w sep ts (pad w s ++ tail)%string = (cells_line w sep ts "" ++ pad w s ++ tail)%string).
    { unfold cells_line. clear. induction ts as [|t ts IH]; [reflexivity|]. cbn [fold_right]. rewrite IH, !app_s_assoc. reflexivity. }
    assert (N : String.length (cells_line w sep ts "") = room w (String.length sep) ts (length ts)) by (rewrite cells_length; cbn [String.length]; lia).
    rewrite L. split.
    + unfold pad. rewrite app_s_assoc. now apply stands_after.
    + rewrite <- N. apply blank_shift. apply blank_pad.
Qed.
Lemma cells_app w sep ts us tail : cells_line w sep (ts ++ us) tail = (cells_line w sep ts "" ++ cells_line w sep us tail)%string.
Proof. unfold cells_line. induction ts as [|t ts IH]; [reflexivity|]. cbn [app fold_right]. rewrite IH, !app_s_assoc. reflexivity. Qed.

Section Lines.
Context {S : scalar} (show_e : S -> string).
Lemma summary_row_cells w (es : list (entry S)) (a : tana S) :
  summary_row show_e w es a = cells_line w tab (map (entry_text show_e) es ++ [show_e (ta_mean a); show_e (ta_sq a)]) (pad w (show_usize (ta_ens a)) ++ newline)%string.
Proof. rewrite cells_app. unfold summary_row. rewrite data_cells. unfold mean_text. reflexivity. Qed.
Lemma summary_cells w (es : list (entry S)) (a : tana S) k u :
  nth_error (map (entry_text show_e) es ++ [show_e (ta_mean a); show_e (ta_sq a); show_usize (ta_ens a)]) k = Some u ->
  cell_of (summary_row show_e w es a) w 1 (map (entry_text show_e) es ++ [show_e (ta_mean a); show_e (ta_sq a); show_usize (ta_ens a)]) k u.
Proof.
  rewrite summary_row_cells.
  replace (map (entry_text show_e) es ++ [show_e (ta_mean a); show_e (ta_sq a); show_usize (ta_ens a)]) with ((map (entry_text show_e) es ++ [show_e (ta_mean a); show_e (ta_sq a)]) ++ [show_usize (ta_ens a)]) by now rewrite <- app_assoc.
  intros E. change 1 with (String.length tab). now apply cells_last.
Qed.
Lemma head_cells w names : summary_head w names = cells_line w "" (names ++ ["ensemble"; "mean"; "stddev"]) newline.
Proof.
  unfold summary_head. rewrite !form_cells, cells_app. f_equal. pose proof (cells_app w "" ["ensemble"; "mean"; "stddev"] [] newline) as H. rewrite app_nil_r in H. now rewrite H.
Qed.
Lemma dist_cells w rows : exists ls, dist_text show_e w rows = lines_text ls /\ length ls = length rows /\
  forall i t n x, nth_error rows i = Some (t, n, x) -> exists l, nth_error ls i = Some l /\
    forall k u, nth_error [show_e t; show_usize n; show_e x] k = Some u -> right_cell_of l w 1 [show_e t; show_usize n; show_e x] k u.
Proof.
  induction rows as [|[[t n] x] rows IH]; [exists []; repeat split; intros i t n x E; destruct i; discriminate E|].
  destruct IH as (ls & E & L & H).
  exists ((lpad w (show_e t) ++ tab ++ lpad w (show_usize n) ++ tab ++ lpad w (show_e x))%string :: ls). split; [|split].
  - change (lines_text ((lpad w (show_e t) ++ tab ++ lpad w (show_usize n) ++ tab ++ lpad w (show_e x))%string :: ls)) with
      ((lpad w (show_e t) ++ tab ++ lpad w (show_usize n) ++ tab ++ lpad w (show_e x)) ++ newline ++ lines_text ls)%string.
    cbn [dist_text fold_right]. unfold dist_text in E. rewrite E. now rewrite !app_s_assoc.
  - cbn [length]. now rewrite L.
  - intros i t' n' x' Ei. destruct i as [|i]; [|cbn [nth_error] in *; now apply H]. cbn [nth_error] in Ei.
    assert (X : t = t' /\ n = n' /\ x = x') by (split; [|split]; congruence). destruct X as (<- & <- & <-). eexists. split; [reflexivity|]. intros k u Eu.
    assert (R : (lpad w (show_e t) ++ tab ++ lpad w (show_usize n) ++ tab ++ lpad w (show_e x))%string = rcells_line w tab [show_e t; show_usize n] (lpad w (show_e x))) by reflexivity.
    destruct k as [|[|[|k]]]; [| | |destruct k; discriminate Eu].
    + split; [exact Eu|]. rewrite R. destruct (rcells_at w tab (lpad w (show_e x)) [show_e t; show_usize n] 0 u Eu) as [(_ & A) _]. exact A.
    + split; [exact Eu|]. rewrite R. destruct (rcells_at w tab (lpad w (show_e x)) [show_e t; show_usize n] 1 u Eu) as [(_ & A) _]. exact A.
    + split; [exact Eu|]. cbn [nth_error] in Eu. assert (u = show_e x) by congruence. subst u.
      assert (Q : (lpad w (show_e t) ++ tab ++ lpad w (show_usize n) ++ tab ++ lpad w (show_e x))%string = ((lpad w (show_e t) ++ tab ++ lpad w (show_usize n) ++ tab) ++ lpad w (show_e x))%string) by now rewrite !app_s_assoc.
      rewrite Q. assert (N : String.length (lpad w (show_e t) ++ tab ++ lpad w (show_usize n) ++ tab)%string = room w 1 [show_e t; show_usize n; show_e x] 2).
      { rewrite !length_app_s, !lpad_length. unfold room. cbn [firstn map list_sum fold_right tab String.length]. lia. }
      rewrite <- N. unfold lpad at 3. split.
      * apply stands_shift. pose proof (stands_after (spaces (w - String.length (show_e x))) (show_e x) "" (Nat.max w (String.length (show_e x)) - String.length (show_e x))) as Z.
        rewrite app_s_nil in Z. unfold lpad. apply Z. rewrite spaces_length. lia.
      * intros j Hj. set (P := (lpad w (show_e t) ++ tab ++ lpad w (show_usize n) ++ tab)%string) in *. replace j with (String.length P + (j - String.length P)) by lia.
        rewrite get_app. unfold lpad. rewrite get_left by (rewrite spaces_length; lia). apply spaces_get. lia.
Qed.
End Lines.

(** Cutting at tabs. *)
Lemma show_int_word z : number_word (show_int z).
Proof.
  destruct z as [|p|p]; [exact (show_uint_word 0%N)|exact (show_uint_word (Npos p))|]. unfold show_int. destruct (show_uint_word (Npos p)) as [_ H]. split; [discriminate|]. cbn [append all_chars]. split; [|exact H].
  unfold number_char. cbn. tauto.
Qed.
Lemma word_no_tab s : number_word s -> without (ascii_of_nat 9) s.
Proof. intros H. apply number_solid in H. destruct H as [_ H]. revert H. apply all_impl. intros c Hc ->. apply Hc. vm_compute. tauto. Qed.
Section Cut.
Context {S : scalar}.
Definition tab_char : ascii := ascii_of_nat 9.
Lemma pub_row_ok (show_p : nat -> S -> string) w (vs : list (tableval S)) : (forall n x, without tab_char (show_p n x)) -> Forall numeric vs ->
  exists line, pub_export_row show_p w vs = Ok line /\ split_on (is_char tab_char) line = map (pub_cell show_p w) vs ++ [""].
Proof.
  intros Hs. induction 1 as [|v vs Hv _ IH]; [exists ""; split; reflexivity|]. destruct IH as (line & E & C).
  assert (T : without tab_char (pub_cell show_p w v)).
  { destruct v as [z|x|s]; [|apply Hs|destruct Hv]. apply pad_without; [discriminate|]. apply word_no_tab, show_int_word. }
  exists ((pub_cell show_p w v ++ String tab_char "") ++ line)%string. split.
  - cbn [pub_export_row]. destruct v as [z|x|s]; [| |destruct Hv]; cbn [bind]; rewrite E; reflexivity.
  - rewrite app_s_assoc. cbn [append map app]. rewrite split_sep; [now rewrite C|now apply without_b|reflexivity].
Qed.
Lemma pub_row_err (show_p : nat -> S -> string) w (vs : list (tableval S)) : ~ Forall numeric vs -> pub_export_row show_p w vs = Err InvalidType.
Proof.
  induction vs as [|v vs IH]; intros H; [destruct H; constructor|]. cbn [pub_export_row]. destruct v as [z|x|s]; cbn [bind]; [| |reflexivity]; (rewrite IH; [reflexivity|]); intros K; apply H; constructor; auto; exact I.
Qed.
Lemma row_cut (show_e : S -> string) w (vs : list (tableval S)) : (forall x, without tab_char (show_e x)) -> Forall numeric vs ->
  split_on (is_char tab_char) (export_data (val_text show_e) w vs) = map (fun v => pad w (val_text show_e v)) vs ++ [""].
Proof.
  intros Hs. induction 1 as [|v vs Hv _ IH]; [reflexivity|]. unfold export_data in *. cbn [fold_right map app]. rewrite split_sep; [now rewrite IH| |reflexivity].
  apply without_b, pad_without; [discriminate|]. destruct v as [z|x|s]; [apply word_no_tab, show_int_word|apply Hs|destruct Hv].
Qed.
End Cut.
