(** Line ends: files with "\r\n", files whose last line is not ended (C54). *)
From Coq Require Import String Ascii NArith Lia List.
From Verif Require Import Base Scalar Model_Text Spec_Text Proof_Text Proof_Text3 Model_Args Spec_Args Proof_Args Model_Program Spec_Lines.
Import ListNotations.
Local Open Scope nat_scope.
Local Open Scope string_scope.
Local Open Scope list_scope.
Local Notation length := List.length.

Lemma app_s_length a b : String.length (a ++ b) = String.length a + String.length b.
Proof. induction a as [|c a IH]; [reflexivity|]. cbn. now rewrite IH. Qed.
Lemma list_app a b : list_ascii_of_string (a ++ b)%string = (list_ascii_of_string a ++ list_ascii_of_string b)%list.
Proof. induction a as [|c a IH]; [reflexivity|]. cbn. now rewrite IH. Qed.
Lemma strip_cr_end l : strip_cr (l ++ String (ascii_of_nat 13) "")%string = l.
Proof.
  unfold strip_cr. rewrite list_app. cbn [list_ascii_of_string]. rewrite rev_app_distr. cbn [rev app]. rewrite Ascii.eqb_refl, rev_involutive. apply string_of_list_ascii_of_string.
Qed.
Lemma text_lines_any l s : without line_feed l -> text_lines (l ++ newline ++ s)%string = strip_cr l :: text_lines s.
Proof.
  intros H1. unfold text_lines, newline. cbn [append]. rewrite split_sep; [|now apply without_b|apply Ascii.eqb_refl].
  destruct (split_cons (is_char (ascii_of_nat 10)) s) as (h & t & E). rewrite E.
  assert (L : last (l :: h :: t) "" = last (h :: t) "") by reflexivity. rewrite L.
  destruct (is_empty (last (h :: t) "")); reflexivity.
Qed.
Lemma first_line s : without line_feed s \/ exists l r, without line_feed l /\ s = (l ++ newline ++ r)%string.
Proof.
  induction s as [|c s [IH|(l & r & H & E)]]; [left; easy| |].
  - destruct (ascii_dec c line_feed) as [->|N]; [right; exists "", s; split; [easy|reflexivity]|left; split; auto].
  - right. destruct (ascii_dec c line_feed) as [->|N]; [exists "", s; split; [easy|reflexivity]|]. exists (String c l), r. split; [split; auto|]. cbn [append]. now rewrite E.
Qed.
Lemma crlf_id s : without line_feed s -> with_crlf s = s.
Proof. induction s as [|c s IH]; [reflexivity|]. intros [H1 H2]. cbn [with_crlf]. change (ascii_of_nat 10) with line_feed. destruct (Ascii.eqb_spec c line_feed); [contradiction|]. now rewrite IH. Qed.
Lemma crlf_app a b : with_crlf (a ++ b)%string = (with_crlf a ++ with_crlf b)%string.
Proof. induction a as [|c a IH]; [reflexivity|]. cbn [append with_crlf]. rewrite IH. now destruct (Ascii.eqb c (ascii_of_nat 10)). Qed.
Lemma crlf_lines s : without carriage_return s -> text_lines (with_crlf s) = text_lines s.
Proof.
  remember (String.length s) as n eqn:En. revert s En. induction n as [n IH] using lt_wf_ind. intros s -> H. destruct (first_line s) as [N|(l & r & N & E)].
  - now rewrite crlf_id.
  - subst s. apply without_app in H as [H1 H2]. apply without_app in H2 as [_ H2]. rewrite !crlf_app, (crlf_id l N).
    change (with_crlf newline) with (String carriage_return newline).
    replace (l ++ String carriage_return newline ++ with_crlf r)%string with ((l ++ String carriage_return "") ++ newline ++ with_crlf r)%string
      by (rewrite app_s_assoc; reflexivity).
    rewrite text_lines_any by (apply without_app; split; [exact N|split; [discriminate|exact I]]).
    rewrite text_lines_any by exact N. change carriage_return with (ascii_of_nat 13). rewrite strip_cr_end. rewrite strip_cr_none by exact H1. f_equal. apply (IH (String.length r)); auto.
    rewrite !app_s_length. cbn. lia.
Qed.
Lemma crlf_read specs sim s : without carriage_return s -> read_data specs sim (with_crlf s) = read_data specs sim s.
Proof. intros H. unfold read_data. now rewrite crlf_lines. Qed.
Lemma last_line_lines s : without line_feed s -> s <> "" -> text_lines (s ++ newline)%string = text_lines s.
Proof.
  intros H N. assert (E : (s ++ newline)%string = (s ++ newline ++ "")%string) by (now rewrite app_s_nil). rewrite E, text_lines_any by exact H.
  unfold text_lines. rewrite (split_none (is_char (ascii_of_nat 10)) s) by (now apply without_b). cbn. destruct s; [congruence|reflexivity].
Qed.
Lemma last_line_any s : forall l, without line_feed l -> l <> "" -> text_lines ((s ++ l) ++ newline)%string = text_lines (s ++ l)%string.
Proof.
  remember (String.length s) as n eqn:En. revert s En. induction n as [n IH] using lt_wf_ind. intros s -> l H N. destruct (first_line s) as [Ns|(k & r & Nk & E)].
  - apply last_line_lines; [apply without_app; auto|]. intros E. destruct s; [cbn in E; congruence|discriminate].
  - subst s. rewrite !app_s_assoc. rewrite !text_lines_any by exact Nk. f_equal. rewrite <- app_s_assoc. apply (IH (String.length r)); auto. rewrite !app_s_length. cbn. lia.
Qed.

(** ** More lines *)
Lemma text_lines_app s t : text_lines ((s ++ newline) ++ t)%string = (text_lines (s ++ newline)%string ++ text_lines t)%list.
Proof.
  remember (String.length s) as n eqn:En. revert s En. induction n as [n IH] using lt_wf_ind. intros s ->. destruct (first_line s) as [Ns|(k & r & Nk & E)].
  - rewrite app_s_assoc, text_lines_any by exact Ns. assert (E : (s ++ newline)%string = (s ++ newline ++ "")%string) by (now rewrite app_s_nil).
    rewrite E, text_lines_any by exact Ns. reflexivity.
  - subst s. rewrite !app_s_assoc. rewrite (text_lines_any k (r ++ newline ++ t)), (text_lines_any k (r ++ newline)) by exact Nk. cbn [app]. f_equal. rewrite <- app_s_assoc. apply (IH (String.length r)); auto. rewrite !app_s_length. cbn. lia.
Qed.
Lemma text_line_one t : without line_feed t -> without carriage_return t -> t <> "" -> text_lines t = [t].
Proof.
  intros H1 H2 N. unfold text_lines. rewrite (split_none (is_char (ascii_of_nat 10)) t) by (now apply without_b). cbn [last]. destruct t as [|c t]; [congruence|]. cbn [is_empty map]. now rewrite strip_cr_none.
Qed.
Lemma read_lines_more fs more : forall ls (v : vals fs) rest, read_lines fs ls = Ok (v, rest) -> read_lines fs (ls ++ more) = Ok (v, (rest ++ more)%list).
Proof.
  induction fs as [|f fs IH]; intros ls v rest E.
  - cbn in E |- *. assert (X : forall a b : vals [] * list string, Ok a = Ok b -> a = b) by congruence. apply X in E. now inversion E.
  - destruct ls as [|l ls]; [discriminate E|]. cbn [read_lines app] in E |- *. destruct (negb _); [discriminate E|]. destruct (idx _ 1) as [s| | |]; cbn [bind] in E |- *; try discriminate E.
    destruct (expect_ok _) as [a| | |]; cbn [bind] in E |- *; try discriminate E. destruct (read_lines fs ls) as [[v' r']| | |] eqn:Er; cbn [bind] in E |- *; try discriminate E.
    rewrite (IH _ _ _ Er). cbn [bind]. assert (X : forall a b : vals (f :: fs) * list string, Ok a = Ok b -> a = b) by congruence. apply X in E. now inversion E.
Qed.
Lemma read_all_more specs more : forall ls (v : all_args specs) rest, read_all specs ls = Ok (v, rest) -> read_all specs (ls ++ more) = Ok (v, (rest ++ more)%list).
Proof.
  induction specs as [|sp specs IH]; intros ls v rest E.
  - cbn in E |- *. now inversion E.
  - cbn [read_all] in E |- *. unfold read_args_from_lines in *. destruct (read_lines (a_fields sp) ls) as [[v1 r1]| | |] eqn:E1; cbn [bind] in E; try discriminate E.
    rewrite (read_lines_more _ more _ _ _ E1). cbn [bind]. destruct (read_all specs r1) as [[v2 r2]| | |] eqn:E2; cbn [bind] in E; try discriminate E. rewrite (IH _ _ _ E2). cbn [bind]. now inversion E.
Qed.
Lemma more_data specs sim s t v w ls : read_data specs sim (s ++ newline)%string = Ok (v, w, ls) -> read_data specs sim ((s ++ newline) ++ t)%string = Ok (v, w, (ls ++ text_lines t)%list).
Proof.
  unfold read_data. intros E. rewrite text_lines_app. destruct (first_line s) as [Ns|(k & r & Nk & Es)].
  all: assert (X : exists l0 lr, text_lines (s ++ newline)%string = l0 :: lr).
  1: { assert (Q : (s ++ newline)%string = (s ++ newline ++ "")%string) by (now rewrite app_s_nil). rewrite Q, text_lines_any by exact Ns. eauto. }
  2: { rewrite Es, !app_s_assoc, text_lines_any by exact Nk. eauto. }
  all: destruct X as (l0 & lr & X); rewrite X in *; cbn [tl app] in *.
  all: destruct (read_all specs lr) as [[v1 r1]| | |] eqn:E1; cbn [bind] in E; try discriminate E; rewrite (read_all_more _ (text_lines t) _ _ _ E1); cbn [bind];
    unfold read_args_from_lines in *; destruct (read_lines (a_fields sim) r1) as [[v2 r2]| | |] eqn:E2; cbn [bind] in E; try discriminate E; rewrite (read_lines_more _ (text_lines t) _ _ _ E2); cbn [bind];
    now inversion E.
Qed.
Lemma read_dir_crlf specs sim {S : scalar} (values : all_args specs -> list S) {A} sip (fresh : outcome A) line texts : Forall (without carriage_return) texts ->
  forall m, read_dir specs sim values sip fresh line (map with_crlf texts) m = read_dir specs sim values sip fresh line texts m.
Proof.
  induction 1 as [|t texts H _ IH]; intros m; [reflexivity|]. cbn [map read_dir]. rewrite crlf_read by exact H. destruct (read_data specs sim t) as [[[v s] ls]| | |]; auto.
  destruct (insert_data _ _ _ _ _ _ _ _); cbn [bind]; auto.
Qed.
