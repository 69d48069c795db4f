(** Proofs about positions and pairs on arbitrary text. *)
From Coq Require Import String Ascii NArith Lia.
From Verif Require Import Base Scalar Model_Position Model_System Model_Agent Model_Time Model_Text Spec_Text Proof_Text Proof_Text2 Proof_Text3.
Local Open Scope string_scope.
Local Open Scope list_scope.
Local Notation length := List.length.

Lemma trim_core (P : ascii -> Prop) (p : ascii -> bool) a b s : (forall c, p c = true <-> P c) -> all_chars P a -> all_chars P b -> both_ends (fun c => ~ P c) s ->
  trim_matches p (a ++ s ++ b)%string = s.
Proof.
  intros Hp Ha Hb [H1 H2].
  assert (Q : forall z, all_chars P z -> all_chars (fun c => p c = true) z) by (intros z; apply all_impl; intros c; apply Hp).
  assert (F : forall c, ~ P c -> p c = false) by (intros c Hc; destruct (p c) eqn:E; auto; apply Hp in E; tauto).
  unfold trim_matches. rewrite trim_start_skip by auto. destruct s as [|c t].
  - cbn [append]. enough (E : trim_start p b = "") by now rewrite E. rewrite <- (app_s_nil b). now rewrite trim_start_skip by auto.
  - rewrite trim_start_keep by (cbn; apply F; eauto). rewrite trim_end_skip by auto.
    destruct (last_char (String c t)) as [E|(u & d & E)]; [discriminate|]. rewrite E. apply trim_end_last. eauto.
Qed.
Lemma pieces_split (P : ascii -> Prop) (p : ascii -> bool) s ws : (forall c, p c = true <-> P c) -> Pieces P s ws -> split_on p s = ws.
Proof.
  intros Hp H. assert (Q : forall z, all_chars (fun c => ~ P c) z -> all_chars (fun c => p c = false) z).
  { intros z. apply all_impl. intros c Hc. destruct (p c) eqn:E; auto. apply Hp in E. tauto. }
  induction H as [w H|w d r ws H Hd HP IH].
  - now apply split_none, Q.
  - rewrite split_sep; [|now apply Q|now apply Hp]. now rewrite IH.
Qed.
Lemma split_pieces_ex (P : ascii -> Prop) (p : ascii -> bool) s : (forall c, p c = true <-> P c) -> Pieces P s (split_on p s).
Proof.
  intros Hp. assert (Q : forall z, all_chars (fun c => p c = false) z -> all_chars (fun c => ~ P c) z).
  { intros z. apply all_impl. intros c E Hc. apply Hp in Hc. congruence. }
  induction s as [s IH] using (well_founded_induction (Wf_nat.well_founded_ltof _ String.length)). unfold Wf_nat.ltof in IH.
  destruct (first_sep p s) as [H|(a & c & r & -> & Ha & Hc)].
  - rewrite split_none by auto. constructor. auto.
  - rewrite split_sep by auto. constructor; auto; [now apply Hp|]. apply IH. rewrite length_app_s. cbn. lia.
Qed.
Lemma sep_spec c : (is_char "," c || is_char ":" c) = true <-> coordinate_sep c.
Proof. rewrite orb_true_iff, !is_char_spec. reflexivity. Qed.
Lemma paren_b c : is_paren c = true <-> paren c.
Proof. apply paren_spec. Qed.
Lemma dropped_remove (P : ascii -> Prop) (p : ascii -> bool) s t : (forall c, p c = true <-> P c) -> (Dropped P s t <-> remove_chars p s = t).
Proof.
  intros Hp. split.
  - intros H. induction H as [|c s t Hc H IH|c s t Hc H IH]; cbn; auto.
    + apply Hp in Hc. now rewrite Hc.
    + destruct (p c) eqn:E; [apply Hp in E; tauto|]. now rewrite IH.
  - intros <-. induction s as [|c s IH]; cbn; [constructor|]. destruct (p c) eqn:E; [apply Drop_skip; auto; now apply Hp|].
    apply Drop_keep; auto. intros Q. apply Hp in Q. congruence.
Qed.
Lemma last_inj (a b : string) c d : (a ++ String c "")%string = (b ++ String d "")%string -> c = d.
Proof.
  revert b. induction a as [|x a IH]; intros [|y b] E; cbn in E.
  - now injection E.
  - injection E as _ E. now destruct b.
  - injection E as _ E. now destruct a.
  - injection E as _ E. eauto.
Qed.
Lemma both_ends_of (P : ascii -> Prop) s c t u d : s = String c t -> s = (u ++ String d "")%string -> P c -> P d -> both_ends P s.
Proof.
  intros E1 E2 H1 H2. split; intros x y E.
  - rewrite E1 in E. injection E as <- _. auto.
  - rewrite E2 in E. apply last_inj in E. now subst.
Qed.
Section Pos.
Context {T : Type} (nt : numtext T).
Lemma pos_parse_core a b x y core ws : blank a -> blank b -> all_chars paren x -> all_chars paren y ->
  both_ends (fun c => ~ whitespace c) (x ++ core ++ y)%string -> both_ends (fun c => ~ paren c) core -> Pieces coordinate_sep core ws ->
  exists p, pos_parse nt (a ++ x ++ core ++ y ++ b)%string = Ok p /\ Forall2 (coordinate_value nt) ws p.
Proof.
  intros Ha Hb Hx Hy He Hc Hw. unfold pos_parse.
  assert (E : (a ++ x ++ core ++ y ++ b)%string = (a ++ (x ++ core ++ y) ++ b)%string) by now rewrite !app_s_assoc.
  rewrite E. unfold trim. rewrite (trim_core whitespace is_ws) by (auto; apply is_ws_spec).
  rewrite (trim_core paren is_paren) by (auto; apply paren_spec). rewrite (pieces_split coordinate_sep _ core ws sep_spec Hw).
  eexists. split; [reflexivity|]. clear. induction ws as [|w ws IH]; cbn; constructor; auto.
  unfold coordinate_value. destruct (n_parse nt w); auto.
Qed.
Lemma pos_round_T p : faithful nt -> p <> [] -> exists t, pos_show nt p = Ok t /\ pos_parse nt t = Ok p /\ t <> "" /\ solid t.
Proof.
  intros F Hp. unfold pos_show. rewrite pos_text_join by auto. eexists. split; [reflexivity|].
  assert (Hw : Forall number_word (map (n_show nt) p)).
  { apply Forall_forall. intros w Hin. apply in_map_iff in Hin as (x & <- & _). apply F. }
  assert (Hn : map (n_show nt) p <> []) by (destruct p; easy).
  split; [|split].
  - pose proof (pos_parse_words nt "" "" "" "" "," (map (n_show nt) p) p) as G. cbn [append] in G.
    rewrite app_s_nil in G. apply G; auto; try easy. rewrite map_map. apply map_ext. intros x. apply F.
  - destruct p as [|x p]; [easy|]. simpl. destruct (F x) as (_ & [W _] & _). destruct (n_show nt x); easy.
  - apply join_nonws; auto. cbn. lia.
Qed.
Lemma pair_parse_core s t ws : Dropped paren s t -> Pieces (eq ","%char) t ws ->
  (forall a b, pair_parse nt s = Ok (a, b) <-> exists u w, ws = [u; w] /\ n_parse nt u = Some a /\ n_parse nt w = Some b) /\
  (pair_parse nt s = Panic <-> exists w, In w ws /\ n_parse nt w = None) /\
  (pair_parse nt s = Err InvalidNumberOfArguments <-> (forall w, In w ws -> n_parse nt w <> None) /\ length ws <> 2%nat).
Proof.
  intros Hd HW. apply (dropped_remove paren is_paren s t paren_spec) in Hd.
  apply (pieces_split (eq ","%char) (is_char ",")) in HW. 2:{ intros c. rewrite is_char_spec. split; auto. }
  set (isnone := fun o : option T => match o with None => true | _ => false end).
  assert (X : existsb isnone (map (n_parse nt) ws) = true <-> exists w, In w ws /\ n_parse nt w = None).
  { rewrite existsb_exists. split.
    - intros (o & Ho & E). apply in_map_iff in Ho as (w & <- & Hw). exists w. split; auto. now destruct (n_parse nt w).
    - intros (w & Hw & E). exists None. split; auto. rewrite <- E. now apply in_map. }
  assert (Y : existsb isnone (map (n_parse nt) ws) = false <-> forall w, In w ws -> n_parse nt w <> None).
  { rewrite <- not_true_iff_false, X. split.
    - intros H w Hw E. apply H. eauto.
    - intros H (w & Hw & E). now apply (H w). }
  assert (G : (exists u w a b, ws = [u; w] /\ n_parse nt u = Some a /\ n_parse nt w = Some b) \/
    pair_parse nt s = (if existsb isnone (map (n_parse nt) ws) then @Panic (T * T) else Err InvalidNumberOfArguments) /\
    (length ws <> 2%nat \/ existsb isnone (map (n_parse nt) ws) = true)).
  { unfold pair_parse. rewrite Hd, HW. clear. destruct ws as [|u [|w [|z ws]]]; cbn [map length].
    - right. split; auto.
    - right. split; [now destruct (n_parse nt u)|left; easy].
    - destruct (n_parse nt u) as [a|] eqn:Ea; [|right; split; auto]. destruct (n_parse nt w) as [b|] eqn:Eb; [left; eauto 7|right; split; auto].
    - right. split; [destruct (n_parse nt u), (n_parse nt w); reflexivity|left; easy]. }
  destruct G as [(u & w & a & b & -> & Ea & Eb)|[G1 G2]].
  - unfold pair_parse. rewrite Hd, HW. cbn [map]. rewrite Ea, Eb. repeat split.
    + intros E. injection E as <- <-. eauto.
    + intros (u' & w' & E & Ea' & Eb'). injection E as <- <-. congruence.
    + discriminate.
    + intros (z & [<-|[<-|[]]] & Q); congruence.
    + discriminate.
    + discriminate.
    + intros [_ Q]. now elim Q.
  - rewrite G1. destruct (existsb isnone (map (n_parse nt) ws)) eqn:Q.
    + split; [|split].
      * intros a b. split; [discriminate|]. intros (u & w & -> & Ea & Eb). cbn in Q. rewrite Ea, Eb in Q. discriminate.
      * split; auto. intros _. now apply X.
      * split; [discriminate|]. intros [H _]. apply Y in H. congruence.
    + destruct G2 as [G2|G2]; [|discriminate]. split; [|split].
      * intros a b. split; [discriminate|]. intros (u & w & -> & Ea & Eb). now elim G2.
      * split; [discriminate|]. intros H. apply X in H. congruence.
      * split; auto. intros _. split; auto. now apply Y.
Qed.
End Pos.
