(** Proofs about the text of the agents' and clocks' tags. *)
From Coq Require Import String Ascii NArith Lia.
From Verif Require Import Base Scalar Model_Position Model_System Model_Agent Model_Time Model_Text Spec_Text Proof_Text Proof_Text2.
Local Open Scope string_scope.
Local Open Scope list_scope.
Local Notation length := List.length.

Section Tags.
Context {S : scalar} (nt : numtext S).
Notation number := (number nt).
Notation not_number := (not_number nt).

Ltac neq w s := destruct (String.eqb w s) eqn:?; eqbs.
Ltac dead := first [congruence | discriminate].
Ltac crash := right; left.
Ltac bad := right; right; reflexivity.
Ltac good := left; eexists.
Ltac cn := cbn [idx nth_error bind or_err expect].
Ltac nums := repeat match goal with
  | H : Spec_Text.number _ _ _ |- _ => unfold Spec_Text.number in H
  | H : Spec_Text.not_number _ _ |- _ => unfold Spec_Text.not_number in H
  | H : n_parse nt ?w = _ |- context [n_parse nt ?w] => rewrite H
  end.

(** ** move type *)
Definition move_of (split : list string) : outcome (movetype S) :=
  do w <- idx split 0;
  if String.eqb w "Brownian" then do w4 <- idx split 4; do c <- expect (n_parse nt w4); Ok (Brownian c)
  else if String.eqb w "Levy" then Ok Levy
  else if (length split =? 1)%nat then do w0 <- idx split 0; do c <- or_err (n_parse nt w0); Ok (Brownian c)
  else Err InvalidArgumentInput.
Lemma movetype_classify s ws : Words s ws -> classifies (movetype_parse nt s) (move_words nt ws) (move_crash nt ws).
Proof.
  intros H. apply Words_split in H. assert (E : movetype_parse nt s = move_of ws) by (subst; reflexivity). rewrite E. clear.
  apply classify.
  - intros t H. inv H; unfold move_of; cn; try reflexivity.
    + nums. reflexivity.
    + neq w "Brownian"; [dead|]. neq w "Levy"; [dead|]. cbn [length Nat.eqb]. nums. reflexivity.
  - intros H. inv H; unfold move_of; cn; try reflexivity.
    + destruct r as [|? [|? [|? [|? ?]]]]; try reflexivity. cbn in *; lia.
    + nums. reflexivity.
  - destruct ws as [|w r]; [crash; constructor|]. unfold move_of. cn.
    neq w "Brownian".
    { destruct r as [|w1 [|w2 [|w3 [|w4 r]]]]; try (crash; apply MC_short; cbn; lia).
      cn. destruct (n_parse nt w4) eqn:P; [left; eexists; constructor; exact P|crash; now constructor]. }
    neq w "Levy"; [good; constructor|].
    destruct r; [|bad]. cbn [length Nat.eqb]. destruct (n_parse nt w) eqn:P; [|bad].
    left. eexists. apply MW_num; eauto.
Qed.
Lemma movetype_round m : faithful nt -> movetype_parse nt (movetype_show nt m) = Ok m.
Proof.
  intros F. destruct m as [c|]; [|reflexivity]. destruct (F c) as (R & W & _).
  unfold movetype_parse, movetype_show. cbn [append].
  assert (E : split_ws ("Brownian with diffusion coefficient " ++ n_show nt c)%string = ["Brownian"; "with"; "diffusion"; "coefficient"; n_show nt c]).
  { cbn [append]. lit_word. lit_word. lit_word. lit_word. now rewrite sw_end. }
  cbn [append] in E. rewrite E. cbn. rewrite R. reflexivity.
Qed.

(** ** initialisation type *)
Definition init_of (split : list string) : outcome (inittype S) :=
  if (length split =? 1)%nat then
    do w <- idx split 0;
    if String.eqb w "Uniform" then Ok Uniform else do p <- pos_parse nt w; Ok (SpecificPosition p)
  else
    do w1 <- idx split 1;
    if String.eqb w1 "all" then
      do w4 <- idx split 4;
      match pos_parse nt w4 with Ok p => Ok (SpecificPosition p) | _ => Panic end
    else if String.eqb w1 "agents" then Ok Uniform
    else Err InvalidArgumentInput.
Lemma inittype_classify s ws : Words s ws -> classifies (inittype_parse nt s) (init_words nt ws) (init_crash ws).
Proof.
  intros H. apply Words_split in H. assert (E : inittype_parse nt s = init_of ws) by (subst; reflexivity). rewrite E. clear.
  apply classify.
  - intros t H. inv H; unfold init_of; cn; cbn [length Nat.eqb]; try reflexivity.
    + neq w "Uniform"; [dead|]. rewrite H1. reflexivity.
    + cbn [String.eqb Ascii.eqb Bool.eqb]. rewrite H0. reflexivity.
  - intros H. inv H; unfold init_of; cn; cbn [length Nat.eqb]; try reflexivity.
    destruct r as [|? [|? [|? ?]]]; try reflexivity. cbn in *; lia.
  - destruct ws as [|w r]; [crash; constructor|]. unfold init_of.
    destruct r as [|w1 r]; cbn [length Nat.eqb]; cn.
    + neq w "Uniform"; [good; constructor|]. destruct (pos_parse_total nt w) as (p & E & _). rewrite E.
      good; apply IW_pos; eauto.
    + neq w1 "all".
      { destruct r as [|w2 [|w3 [|w4 r]]]; try (crash; constructor; cbn; lia).
        cn. destruct (pos_parse_total nt w4) as (p & E & _). rewrite E. good. constructor. exact E. }
      neq w1 "agents"; [good; constructor|bad].
Qed.
Lemma pos_round p : faithful nt -> p <> [] -> exists t, pos_show nt p = Ok t /\ pos_parse nt t = Ok p /\ t <> "" /\ solid t.
Proof.
  intros F Hp. unfold pos_show. rewrite pos_text_join by auto. eexists. split; [reflexivity|].
  assert (Hw : Forall number_word (map (n_show nt) p)).
  { apply Forall_forall. intros w Hin. apply in_map_iff in Hin as (x & <- & _). apply F. }
  assert (Hn : map (n_show nt) p <> []) by (destruct p; easy).
  split; [|split].
  - pose proof (pos_parse_words nt "" "" "" "" "," (map (n_show nt) p) p) as G. cbn [append] in G.
    rewrite app_s_nil in G. apply G; auto; try easy. rewrite map_map. apply map_ext. intros x. apply F.
  - destruct p as [|x p]; [easy|]. simpl. destruct (F x) as (_ & [W _] & _). destruct (n_show nt x); easy.
  - apply join_nonws; auto. cbn. lia.
Qed.
Lemma inittype_round i : faithful nt -> (forall p, i = SpecificPosition p -> p <> []) ->
  exists t, inittype_show nt i = Ok t /\ inittype_parse nt t = Ok i.
Proof.
  intros F Hp. destruct i as [p|]; [|eexists; split; reflexivity].
  destruct (pos_round p F (Hp p eq_refl)) as (t & E & P & N & W).
  unfold inittype_show. rewrite E. eexists. split; [reflexivity|].
  assert (K : split_ws ("Initialize all agents at " ++ t)%string = ["Initialize"; "all"; "agents"; "at"; t]).
  { cbn [append]. lit_word. lit_word. lit_word. lit_word. now rewrite split_ws_one. }
  unfold inittype_parse. rewrite K. cbn -[pos_parse]. now rewrite P.
Qed.

(** ** time type *)
Definition time_of (split : list string) : outcome (timetype S) :=
  do w <- idx split 0;
  if String.eqb w "Constant" then do w5 <- idx split 5; do c <- expect (n_parse nt w5); Ok (Constant c)
  else if String.eqb w "Exponential" then
    do w5 <- idx split 5; do a <- or_err (n_parse nt w5);
    do w7 <- idx split 7; do b <- or_err (n_parse nt w7);
    do w13 <- idx split 13; do n <- or_err (parse_usize w13); Ok (Model_Time.Exponential a b n)
  else if (length split =? 1)%nat then do w0 <- idx split 0; do c <- or_err (n_parse nt w0); Ok (Constant c)
  else if (length split =? 3)%nat then
    do w0 <- idx split 0; do a <- or_err (n_parse nt w0);
    do w1 <- idx split 1; do b <- or_err (n_parse nt w1);
    do w2 <- idx split 2; do n <- or_err (parse_usize w2); Ok (Model_Time.Exponential a b n)
  else Err InvalidArgumentInput.
Lemma timetype_classify s ws : Words s ws -> classifies (timetype_parse nt s) (time_words nt ws) (time_crash nt ws).
Proof.
  intros H. apply Words_split in H. assert (E : timetype_parse nt s = time_of ws) by (subst; reflexivity). rewrite E. clear.
  apply classify.
  - intros t H. inv H; unfold time_of; cn; try reflexivity.
    + nums. reflexivity.
    + cbn [String.eqb Ascii.eqb Bool.eqb]. nums. cn. nums. cn. usz. reflexivity.
    + neq w "Constant"; [dead|]. neq w "Exponential"; [dead|]. cbn [length Nat.eqb]. nums. reflexivity.
    + neq w0 "Constant"; [dead|]. neq w0 "Exponential"; [dead|]. cbn [length Nat.eqb]. nums. cn. nums. cn. usz. reflexivity.
  - intros H. inv H; unfold time_of; cn; cbn [String.eqb Ascii.eqb Bool.eqb]; try reflexivity.
    + destruct r as [|? [|? [|? [|? [|? ?]]]]]; try reflexivity. cbn in *; lia.
    + nums. reflexivity.
    + destruct r as [|? [|? [|? [|? [|? ?]]]]]; try reflexivity. cbn in *; lia.
    + nums. cn. destruct r as [|? [|? ?]]; try reflexivity. cbn in *; lia.
    + nums. cn. nums. cn. destruct r as [|? [|? [|? [|? [|? [|? ?]]]]]]; try reflexivity. cbn in *; lia.
  - destruct ws as [|w r]; [crash; constructor|]. unfold time_of. cn.
    neq w "Constant".
    { destruct r as [|w1 [|w2 [|w3 [|w4 [|w5 r]]]]]; try (crash; apply TC_const_short; cbn; lia).
      cn. destruct (n_parse nt w5) eqn:P; [left; eexists; constructor; exact P|crash; now constructor]. }
    neq w "Exponential".
    { destruct r as [|w1 [|w2 [|w3 [|w4 [|w5 r]]]]]; try (crash; apply TC_exp5; cbn; lia).
      cn. destruct (n_parse nt w5) eqn:P5; [|bad]. cn.
      destruct r as [|w6 [|w7 r]]; try (crash; eapply TC_exp7; [exact P5|cbn; lia]). cn.
      destruct (n_parse nt w7) eqn:P7; [|bad]. cn.
      destruct r as [|w8 [|w9 [|w10 [|w11 [|w12 [|w13 r]]]]]]; try (crash; eapply TC_exp13; [exact P5|exact P7|cbn; lia]). cn.
      destruct (parse_usize w13) eqn:P13; [|bad]. apply parse_usize_spec in P13. good. constructor; eauto. }
    destruct r as [|w1 [|w2 [|w3 r]]]; cbn [length Nat.eqb]; try bad.
    + destruct (n_parse nt w) eqn:P; [|bad]. good. apply TW_num; eauto.
    + cn. destruct (n_parse nt w) eqn:P; [|bad]. cn. destruct (n_parse nt w1) eqn:P1; [|bad]. cn.
      destruct (parse_usize w2) eqn:P2; [|bad]. apply parse_usize_spec in P2. good. apply TW_three; eauto.
Qed.
(** The step sizes are printed with five decimals: what is read back is what that text stands for. *)
Lemma timetype_const dt : number_word (n_sci nt dt) ->
  timetype_parse nt (timetype_show nt (Constant dt)) = match n_parse nt (n_sci nt dt) with Some x => Ok (Constant x) | None => Panic end.
Proof.
  intros W. unfold timetype_parse, timetype_show.
  assert (E : split_ws ("Constant Time step with size " ++ n_sci nt dt)%string = ["Constant"; "Time"; "step"; "with"; "size"; n_sci nt dt]).
  { cbn [append]. lit_word. lit_word. lit_word. lit_word. lit_word. now rewrite sw_end. }
  rewrite E. cbn. destruct (n_parse nt _); reflexivity.
Qed.
Lemma timetype_exp a b n : number_word (n_sci nt a) -> number_word (n_sci nt b) -> usize_fits n ->
  timetype_parse nt (timetype_show nt (Model_Time.Exponential a b n)) =
  match n_parse nt (n_sci nt a), n_parse nt (n_sci nt b) with Some x, Some y => Ok (Model_Time.Exponential x y n) | _, _ => Err InvalidArgumentInput end.
Proof.
  intros Wa Wb Hn. unfold timetype_parse, timetype_show.
  assert (E : split_ws ("Exponential time step increase from " ++ n_sci nt a ++ " to " ++ n_sci nt b
      ++ " Each increase occurs in every " ++ show_usize n ++ " step")%string =
     ["Exponential"; "time"; "step"; "increase"; "from"; n_sci nt a; "to"; n_sci nt b; "Each"; "increase"; "occurs"; "in"; "every"; show_usize n; "step"]).
  { cbn [append]. lit_word. lit_word. lit_word. lit_word. lit_word. rewrite sw_num by auto.
    lit_word. rewrite sw_num by auto. lit_word. lit_word. lit_word. lit_word. lit_word. rewrite sw_num by apply show_usize_word.
    now rewrite split_ws_one by (repeat split; cbn; easy || lia). }
  rewrite E. cbn -[show_usize parse_usize]. destruct (n_parse nt (n_sci nt a)); [|reflexivity]. cbn -[show_usize parse_usize].
  destruct (n_parse nt (n_sci nt b)); [|reflexivity]. cbn -[show_usize parse_usize].
  now rewrite show_usize_parse.
Qed.

(** ** interaction type *)
Lemma interacttype_round i : faithful nt -> (forall d g, i = Model_Agent.Exponential d g -> usize_fits d) ->
  interacttype_parse nt (interacttype_show nt i) = Ok i.
Proof.
  intros F H. destruct i as [d g| | |a]; try reflexivity.
  - specialize (H d g eq_refl). destruct (F g) as (R & W & _). unfold interacttype_show.
    assert (E : split_ws ("Exponential form interaction in " ++ show_usize d ++ " D with typical length " ++ n_show nt g)%string =
       ["Exponential"; "form"; "interaction"; "in"; show_usize d; "D"; "with"; "typical"; "length"; n_show nt g]).
    { cbn [append]. lit_word. lit_word. lit_word. lit_word. rewrite sw_num by apply show_usize_word.
      lit_word. lit_word. lit_word. lit_word. now rewrite sw_end. }
    unfold interacttype_parse. rewrite E. cbn -[show_usize parse_usize].
    rewrite show_usize_parse by auto. cbn -[show_usize parse_usize]. rewrite R. reflexivity.
  - destruct (F a) as (R & W & _). unfold interacttype_show.
    assert (E : split_ws ("Lennard Jones potential with particle size " ++ n_show nt a)%string =
       ["Lennard"; "Jones"; "potential"; "with"; "particle"; "size"; n_show nt a]).
    { cbn [append]. lit_word. lit_word. lit_word. lit_word. lit_word. lit_word. now rewrite sw_end. }
    unfold interacttype_parse. rewrite E. cbn. rewrite R. reflexivity.
Qed.
Definition one_of (w : string) : outcome (interacttype S) :=
    let split := split_on is_paren w in
    do name <- idx split 0;
    if String.eqb name "Exponential" then
      do a <- idx split 1;
      let args := split_on (is_char ",") a in
      if negb (length args =? 2)%nat then Err InvalidArgumentInput
      else do a0 <- idx args 0; do d <- or_err (parse_usize a0);
           do a1 <- idx args 1; do g <- or_err (n_parse nt a1); Ok (Model_Agent.Exponential d g)
    else if String.eqb name "Coulomb2D" then Ok Coulomb2D
    else if String.eqb name "Coulomb3D" then Ok Coulomb3D
    else if String.eqb name "LennardJones" then
      do a <- idx split 1; do x <- or_err (n_parse nt a); Ok (LennardJones x)
    else Err InvalidArgumentInput.
Definition long_of (split : list string) : outcome (interacttype S) :=
    do w <- idx split 0;
    if String.eqb w "Exponential" then
      if negb (length split =? 10)%nat then Err InvalidArgumentInput
      else do w4 <- idx split 4; do d <- or_err (parse_usize w4);
           do w9 <- idx split 9; do g <- or_err (n_parse nt w9); Ok (Model_Agent.Exponential d g)
    else if String.eqb w "Coulomb" then
      if negb (length split =? 5)%nat then Err InvalidArgumentInput
      else do w3 <- idx split 3;
           if String.eqb w3 "2" then Ok Coulomb2D
           else if String.eqb w3 "3" then Ok Coulomb3D
           else Err InvalidArgumentInput
    else if String.eqb w "Lennard" then
      if negb (length split =? 7)%nat then Err InvalidArgumentInput
      else do w6 <- idx split 6; do x <- or_err (n_parse nt w6); Ok (LennardJones x)
    else Err InvalidArgumentInput.
Lemma paren_spec c : is_paren c = true <-> paren c.
Proof. unfold is_paren, paren. rewrite orb_true_iff, !is_char_spec. tauto. Qed.
Lemma paren_false c : is_paren c = false <-> ~ paren c.
Proof. rewrite <- paren_spec. destruct (is_paren c); split; congruence. Qed.
Lemma no_paren_b s : no_paren s <-> all_chars (fun c => is_paren c = false) s.
Proof. split; apply all_impl; intros c; apply paren_false. Qed.
Lemma without_b d s : without d s <-> all_chars (fun c => is_char d c = false) s.
Proof. split; apply all_impl; intros c; apply is_char_false. Qed.
(** Cutting at parentheses, by the first piece. *)
Lemma cut_first a rest : no_paren a -> paren_rest rest -> exists t, split_on is_paren (a ++ rest)%string = a :: t.
Proof.
  intros Ha [->|(c & r & -> & Hc)].
  - rewrite app_s_nil, split_none by now apply no_paren_b. eauto.
  - rewrite split_sep; [eauto|now apply no_paren_b|now apply paren_spec].
Qed.
Lemma cut_inv p w h t : split_on p w = h :: t -> all_chars (fun c => p c = false) h /\
  (t = [] /\ w = h \/ exists c r, w = (h ++ String c r)%string /\ p c = true /\ split_on p r = t).
Proof.
  intros E. destruct (first_sep p w) as [H|(a & c & r & -> & Ha & Hc)].
  - rewrite (split_none p w H) in E. injection E as <- <-. auto.
  - rewrite split_sep in E by auto. injection E as <- <-. split; auto. right. now exists c, r.
Qed.
Lemma cut_comma a b : without "," a -> without "," b -> split_on (is_char ",") (a ++ "," ++ b)%string = [a; b].
Proof. intros Ha Hb. cbn [append]. rewrite split_sep; [|now apply without_b|reflexivity]. now rewrite split_none by now apply without_b. Qed.
Lemma cut_two p s a b : split_on p s = [a; b] -> exists c, s = (a ++ String c b)%string /\ p c = true /\ all_chars (fun c => p c = false) a /\ all_chars (fun c => p c = false) b.
Proof.
  intros E. apply cut_inv in E as (Ha & [[E _]|(c & r & -> & Hc & E)]); [discriminate|].
  apply cut_inv in E as (Hb & [[_ ->]|(c' & r' & -> & Hc' & E)]); [|now apply split_nonempty in E].
  exists c. auto.
Qed.
Lemma rest_of w h t : split_on is_paren w = h :: t -> exists rest, w = (h ++ rest)%string /\ paren_rest rest /\ no_paren h.
Proof.
  intros E. apply cut_inv in E as (Hh & [[_ ->]|(c & r & -> & Hc & _)]); apply no_paren_b in Hh.
  - exists "". rewrite app_s_nil. repeat split; auto. now left.
  - exists (String c r). repeat split; auto. right. exists c, r. split; auto. now apply paren_spec.
Qed.
Lemma rest_of2 w h x t : split_on is_paren w = h :: x :: t -> exists c rest, w = (h ++ String c (x ++ rest))%string /\ paren c /\ no_paren x /\ paren_rest rest.
Proof.
  intros E. apply cut_inv in E as (Hh & [[E _]|(c & r & -> & Hc & E)]); [discriminate|].
  apply rest_of in E as (rest & -> & R & N). exists c, rest. repeat split; auto. now apply paren_spec.
Qed.
Lemma lit_no_paren s : forallb (fun c => negb (is_paren c)) (list_ascii_of_string s) = true -> no_paren s.
Proof.
  induction s as [|c s IH]; [easy|]. cbn [list_ascii_of_string forallb]. intros H. apply andb_prop in H as [H1 H2].
  split; [|now apply IH]. apply paren_false. now apply negb_true_iff.
Qed.
Lemma interacttype_classify s ws : Words s ws -> classifies (interacttype_parse nt s) (interact_words nt ws) (interact_crash ws).
Proof.
  intros H. apply Words_split in H.
  assert (E : interacttype_parse nt s = if (length ws =? 1)%nat then do w <- idx ws 0; one_of w else long_of ws) by (subst; reflexivity).
  rewrite E. clear. apply classify.
  - intros t H. inv H; cbn [length Nat.eqb]; unfold long_of; cn; cbn [length Nat.eqb negb]; try reflexivity.
    + cbn [String.eqb Ascii.eqb Bool.eqb]. usz. cn. nums. reflexivity.
    + cbn [String.eqb Ascii.eqb Bool.eqb]. nums. reflexivity.
    + unfold one_of. rewrite split_sep; [|now apply no_paren_b, lit_no_paren|now apply paren_spec].
      cn. change (String.eqb "Exponential" "Exponential") with true. cbv iota.
      assert (K : exists t, split_on is_paren (a ++ "," ++ b ++ rest)%string = (a ++ "," ++ b)%string :: t).
      { assert (A : (a ++ "," ++ b ++ rest)%string = ((a ++ "," ++ b) ++ rest)%string) by (rewrite app_s_assoc; cbn [append]; reflexivity).
        rewrite A. apply cut_first; auto. apply all_app. split; auto. cbn. split; [|auto]. intros [?|?]; discriminate. }
      destruct K as [t ->]. cn. rewrite cut_comma by auto. cbn [length Nat.eqb negb]. cn. usz. cn. nums. reflexivity.
    + unfold one_of. destruct (cut_first "Coulomb2D" rest (lit_no_paren "Coulomb2D" eq_refl) ltac:(assumption)) as [t ->]. reflexivity.
    + unfold one_of. destruct (cut_first "Coulomb3D" rest (lit_no_paren "Coulomb3D" eq_refl) ltac:(assumption)) as [t ->]. reflexivity.
    + unfold one_of. rewrite split_sep; [|now apply no_paren_b, lit_no_paren|now apply paren_spec].
      destruct (cut_first x rest) as [t ->]; auto. cn. cbn [String.eqb Ascii.eqb Bool.eqb]. nums. reflexivity.
  - intros H. inv H; reflexivity.
  - destruct ws as [|w r]; [crash; constructor|]. destruct r as [|w1 r].
    + cbn [length Nat.eqb]. cn. unfold one_of. destruct (split_cons is_paren w) as (h & t & E). rewrite E. cn.
      neq h "Exponential".
      { destruct t as [|x t].
        - apply cut_inv in E as (_ & [[_ ->]|(c & r & _ & _ & E)]); [crash; constructor|now apply split_nonempty in E].
        - apply rest_of2 in E as (c & rest & -> & Hc & Hx & Hr). cn.
          destruct (split_on (is_char ",") x) as [|a [|b [|? ?]]] eqn:Ex; cbn [length Nat.eqb negb]; try bad. cn.
          apply cut_two in Ex as (d & -> & Hd & Ha & Hb). apply is_char_spec in Hd. subst d.
          destruct (parse_usize a) eqn:Pa; [|bad]. cn. destruct (n_parse nt b) eqn:Pb; [|bad].
          good. apply all_app in Hx as [Na [_ Nb]].
          assert (A : ((a ++ String "," b) ++ rest)%string = (a ++ "," ++ b ++ rest)%string) by (rewrite app_s_assoc; reflexivity).
          rewrite A. apply parse_usize_spec in Pa. apply XW_exp'; eauto; now apply without_b. }
      neq h "Coulomb2D"; [apply rest_of in E as (rest & -> & R & _); good; now apply XW_c2'|].
      neq h "Coulomb3D"; [apply rest_of in E as (rest & -> & R & _); good; now apply XW_c3'|].
      neq h "LennardJones"; [|bad].
      destruct t as [|x t].
      * apply cut_inv in E as (_ & [[_ ->]|(c & r & _ & _ & E)]); [crash; constructor|now apply split_nonempty in E].
      * apply rest_of2 in E as (c & rest & -> & Hc & Hx & Hr). cn. destruct (n_parse nt x) eqn:P; [|bad].
        good. apply XW_lj'; eauto.
    + assert (L : (length (w :: w1 :: r) =? 1)%nat = false) by reflexivity. rewrite L. unfold long_of. cn.
      neq w "Exponential".
      { destruct r as [|w2 [|w3 [|w4 [|w5 [|w6 [|w7 [|w8 [|w9 [|? ?]]]]]]]]]; cbn [length Nat.eqb negb]; try bad. cn.
        destruct (parse_usize w4) eqn:P4; [|bad]. cn. destruct (n_parse nt w9) eqn:P9; [|bad].
        apply parse_usize_spec in P4. good. constructor; eauto. }
      neq w "Coulomb".
      { destruct r as [|w2 [|w3 [|w4 [|? ?]]]]; cbn [length Nat.eqb negb]; try bad. cn.
        neq w3 "2"; [good; constructor|]. neq w3 "3"; [good; constructor|bad]. }
      neq w "Lennard"; [|bad].
      destruct r as [|w2 [|w3 [|w4 [|w5 [|w6 [|? ?]]]]]]; cbn [length Nat.eqb negb]; try bad. cn.
      destruct (n_parse nt w6) eqn:P; [|bad]. good. constructor; eauto.
Qed.
End Tags.
