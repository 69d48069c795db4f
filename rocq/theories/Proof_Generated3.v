(** The structures that a command line describes, field by field. *)
From Coq Require Import String NArith List.
From Verif Require Import Base Scalar Model_Position Model_System Model_Agent Model_Time Model_Text Model_Args Proof_Usage.
Import ListNotations.
Local Open Scope string_scope.
Local Open Scope list_scope.
Local Notation length := List.length.

Lemma parsed_some {A} (o : option A) a : parsed o = Ok a <-> o = Some a.
Proof. destruct o as [x|]; cbn; split; congruence. Qed.

Section Words.
Context {S : scalar} (nt : numtext S).
(** Words and fields: [given fs ws v], every word is the text of the value at its place. *)
Fixpoint given (fs : list field) (ws : list string) : vals fs -> Prop :=
  match fs, ws with
  | [], [] => fun _ => True
  | f :: r, w :: l => fun v => f_parse f (trim w) = Ok (fst v) /\ given r l (snd v)
  | _, _ => fun _ => False
  end.
Lemma read_given fs : forall ws (v : vals fs), length ws = length fs -> (read_words fs ws = Ok v <-> given fs ws v).
Proof.
  induction fs as [|f r IH]; intros [|w l] v L; try discriminate L; cbn [read_words given].
  - destruct v. tauto.
  - destruct v as [a u]. cbn [fst snd]. injection L as L. specialize (IH l u L). destruct (f_parse f (trim w)) as [x| | |] eqn:E; cbn [expect_ok bind]; try (split; [discriminate|intros [X _]; discriminate X]).
    destruct (read_words r l) as [y| | |]; cbn [bind]; try (split; [discriminate|intros [_ X]; apply IH in X; discriminate X]).
    split.
    + intros H. assert (X : x = a /\ y = u) by (split; congruence). destruct X as [-> ->]. split; [reflexivity|now apply IH].
    + intros [H1 H2]. apply IH in H2. assert (X : x = a) by congruence. assert (Y : y = u) by congruence. now subst.
Qed.
Lemma read_spec sp ws v : a_num sp = length (a_vars sp) -> (read_args_from_vec sp ws = Ok v <-> exists u, v = vals_app (a_defaults sp) u /\ given (a_vars sp) ws u).
Proof.
  intros N. unfold read_args_from_vec. destruct (Nat.eqb_spec (length ws) (a_num sp)) as [L|L]; cbn [negb].
  - rewrite N in L. pose proof (fun u => read_given (a_vars sp) ws u L) as H. destruct (read_words (a_vars sp) ws) as [u| | |]; cbn [bind].
    + split; [intros E; exists u; split; [congruence|now apply H]|]. intros (u' & -> & E). apply H in E. assert (X : u = u') by congruence. now subst.
    + split; [discriminate|]. intros (u' & _ & E). apply H in E. discriminate E.
    + split; [discriminate|]. intros (u' & _ & E). apply H in E. discriminate E.
    + split; [discriminate|]. intros (u' & _ & E). apply H in E. discriminate E.
  - split; [discriminate|]. intros (u & _ & E). elim L. clear L. rewrite N. clear N v. revert ws u E. generalize (a_vars sp). intros fs. induction fs as [|f r IH]; intros [|w l] u E; cbn [given] in E; try contradiction; [reflexivity|].
    cbn [length]. f_equal. now apply (IH l (snd u)).
Qed.
Lemma circ_words ws a : (exists v, read_args_from_vec (circ_spec nt) ws = Ok v /\ circ_of_args nt v = a) <->
  exists w1 w2, ws = [w1; w2] /\ n_parse nt (trim w1) = Some (ci_size a) /\ parse_usize (trim w2) = Some (ci_dim a) /\ ci_type a = ContinuousCircular /\ ci_bc a = Reflection.
Proof.
  split.
  - intros (v & H & <-). apply read_spec in H as (u & -> & H); [|reflexivity]. destruct ws as [|w1 [|w2 [|]]]; cbn in H; try tauto. destruct u as [x1 [x2 []]]. destruct H as (H1 & H2 & _). apply parsed_some in H1, H2.
    exists w1, w2. now repeat split.
  - intros (w1 & w2 & -> & H1 & H2 & H3 & H4). destruct a as [t b x d]. cbn in H1, H2, H3, H4. subst t b. exists (ContinuousCircular, (Reflection, (x, (d, tt)))). split; [|reflexivity].
    apply read_spec; [reflexivity|]. exists (x, (d, tt)). split; [reflexivity|]. cbn [given circ_spec a_vars fld_f64 fld_usize f_parse fst snd]. now rewrite H1, H2.
Qed.
Lemma cubic_words ws a : (exists v, read_args_from_vec (cubic_spec nt) ws = Ok v /\ cubic_of_args nt v = a) <->
  exists w1 w2 w3, ws = [w1; w2; w3] /\ bcond_parse (trim w1) = Ok (cu_bc a) /\ n_parse nt (trim w2) = Some (cu_size a) /\ parse_usize (trim w3) = Some (cu_dim a) /\ cu_type a = ContinuousRectangular.
Proof.
  split.
  - intros (v & H & <-). apply read_spec in H as (u & -> & H); [|reflexivity]. destruct ws as [|w1 [|w2 [|w3 [|]]]]; cbn in H; try tauto. destruct u as [x1 [x2 [x3 []]]]. destruct H as (H1 & H2 & H3 & _). apply parsed_some in H2, H3.
    exists w1, w2, w3. now repeat split.
  - intros (w1 & w2 & w3 & -> & H1 & H2 & H3 & H4). destruct a as [t b x d]. cbn in H1, H2, H3, H4. subst t. exists (ContinuousRectangular, (b, (x, (d, tt)))). split; [|reflexivity].
    apply read_spec; [reflexivity|]. exists (b, (x, (d, tt))). split; [reflexivity|]. cbn [given cubic_spec a_vars fld_bc fld_f64 fld_usize f_parse fst snd]. now rewrite H1, H2, H3.
Qed.
Lemma cyl_words ws a : (exists v, read_args_from_vec (cyl_spec nt) ws = Ok v /\ cyl_of_args nt v = a) <->
  exists w1 w2 w3 w4 w5, ws = [w1; w2; w3; w4; w5] /\ systype_parse (trim w1) = Ok (cy_type a) /\ bcond_parse (trim w2) = Ok (cy_bc a) /\ n_parse nt (trim w3) = Some (cy_radius a) /\ n_parse nt (trim w4) = Some (cy_length a) /\
    parse_usize (trim w5) = Some (cy_dim a).
Proof.
  split.
  - intros (v & H & <-). apply read_spec in H as (u & -> & H); [|reflexivity]. destruct ws as [|w1 [|w2 [|w3 [|w4 [|w5 [|]]]]]]; cbn in H; try tauto. destruct u as [x1 [x2 [x3 [x4 [x5 []]]]]].
    destruct H as (H1 & H2 & H3 & H4 & H5 & _). apply parsed_some in H3, H4, H5. exists w1, w2, w3, w4, w5. now repeat split.
  - intros (w1 & w2 & w3 & w4 & w5 & -> & H1 & H2 & H3 & H4 & H5). destruct a as [t b x l d]. cbn in H1, H2, H3, H4, H5. exists (t, (b, (x, (l, (d, tt))))). split; [|reflexivity].
    apply read_spec; [reflexivity|]. exists (t, (b, (x, (l, (d, tt))))). split; [reflexivity|]. cbn [given cyl_spec a_vars fld_sys fld_bc fld_f64 fld_usize f_parse fst snd]. now rewrite H1, H2, H3, H4, H5.
Qed.
Lemma target_words ws a : (exists v, read_args_from_vec (bulk_spec nt) ws = Ok v /\ target_of_args nt v = a) <->
  exists w1 w2, ws = [w1; w2] /\ pos_parse nt (trim w1) = Ok (tg_pos a) /\ n_parse nt (trim w2) = Some (tg_size a) /\ tg_type a = ContinuousInBulk.
Proof.
  split.
  - intros (v & H & <-). apply read_spec in H as (u & -> & H); [|reflexivity]. destruct ws as [|w1 [|w2 [|]]]; cbn in H; try tauto. destruct u as [x1 [x2 []]]. destruct H as (H1 & H2 & _). apply parsed_some in H2.
    exists w1, w2. now repeat split.
  - intros (w1 & w2 & -> & H1 & H2 & H3). destruct a as [t x d]. cbn in H1, H2, H3. subst t. exists (ContinuousInBulk, (x, (d, tt))). split; [|reflexivity].
    apply read_spec; [reflexivity|]. exists (x, (d, tt)). split; [reflexivity|]. cbn [given bulk_spec a_vars fld_pos fld_f64 f_parse fst snd]. now rewrite H1, H2.
Qed.
Lemma indep_words ws a : (exists v, read_args_from_vec (indep_spec nt) ws = Ok v /\ indep_of_args nt v = a) <->
  exists w1 w2 w3, ws = [w1; w2; w3] /\ movetype_parse nt (trim w1) = Ok (ia_mtype a) /\ inittype_parse nt (trim w2) = Ok (ia_itype a) /\ parse_usize (trim w3) = Some (ia_num a) /\ ia_type a = ContinuousPassiveIndependent.
Proof.
  split.
  - intros (v & H & <-). apply read_spec in H as (u & -> & H); [|reflexivity]. destruct ws as [|w1 [|w2 [|w3 [|]]]]; cbn in H; try tauto. destruct u as [x1 [x2 [x3 []]]]. destruct H as (H1 & H2 & H3 & _). apply parsed_some in H3.
    exists w1, w2, w3. now repeat split.
  - intros (w1 & w2 & w3 & -> & H1 & H2 & H3 & H4). destruct a as [t m i n]. cbn in H1, H2, H3, H4. subst t. exists (ContinuousPassiveIndependent, (m, (i, (n, tt)))). split; [|reflexivity].
    apply read_spec; [reflexivity|]. exists (m, (i, (n, tt))). split; [reflexivity|]. cbn [given indep_spec a_vars fld_move fld_init fld_usize f_parse fst snd]. now rewrite H1, H2, H3.
Qed.
Lemma merger_words ws a : (exists v, read_args_from_vec (merge_spec nt) ws = Ok v /\ merger_of_args nt v = a) <->
  exists w1 w2 w3 w4 w5, ws = [w1; w2; w3; w4; w5] /\ movetype_parse nt (trim w1) = Ok (ma_mtype a) /\ inittype_parse nt (trim w2) = Ok (ma_itype a) /\ n_parse nt (trim w3) = Some (ma_radius a) /\
    n_parse nt (trim w4) = Some (ma_alpha a) /\ parse_usize (trim w5) = Some (ma_num a) /\ ma_type a = ContinuousPassiveInteracting.
Proof.
  split.
  - intros (v & H & <-). apply read_spec in H as (u & -> & H); [|reflexivity]. destruct ws as [|w1 [|w2 [|w3 [|w4 [|w5 [|]]]]]]; cbn in H; try tauto. destruct u as [x1 [x2 [x3 [x4 [x5 []]]]]].
    destruct H as (H1 & H2 & H3 & H4 & H5 & _). apply parsed_some in H3, H4, H5. exists w1, w2, w3, w4, w5. now repeat split.
  - intros (w1 & w2 & w3 & w4 & w5 & -> & H1 & H2 & H3 & H4 & H5 & H6). destruct a as [t m i r al n]. cbn in H1, H2, H3, H4, H5, H6. subst t.
    exists (ContinuousPassiveInteracting, (1, (m, (i, (r, (al, (n, tt))))))). split; [|reflexivity].
    apply read_spec; [reflexivity|]. exists (m, (i, (r, (al, (n, tt))))). split; [reflexivity|]. cbn [given merge_spec a_vars fld_move fld_init fld_f64 fld_usize f_parse fst snd]. now rewrite H1, H2, H3, H4, H5.
Qed.
Lemma expag_words ws a : (exists v, read_args_from_vec (exp_spec nt) ws = Ok v /\ expag_of_args nt v = a) <->
  exists w1 w2 w3 w4 w5 w6, ws = [w1; w2; w3; w4; w5; w6] /\ movetype_parse nt (trim w1) = Ok (ea_mtype a) /\ inittype_parse nt (trim w2) = Ok (ea_itype a) /\ n_parse nt (trim w3) = Some (ea_gamma a) /\
    parse_usize (trim w4) = Some (ea_dim a) /\ n_parse nt (trim w5) = Some (ea_strength a) /\ parse_usize (trim w6) = Some (ea_num a) /\ ea_type a = ContinuousPassiveInteracting.
Proof.
  split.
  - intros (v & H & <-). apply read_spec in H as (u & -> & H); [|reflexivity]. destruct ws as [|w1 [|w2 [|w3 [|w4 [|w5 [|w6 [|]]]]]]]; cbn in H; try tauto. destruct u as [x1 [x2 [x3 [x4 [x5 [x6 []]]]]]].
    destruct H as (H1 & H2 & H3 & H4 & H5 & H6 & _). apply parsed_some in H3, H4, H5, H6. exists w1, w2, w3, w4, w5, w6. now repeat split.
  - intros (w1 & w2 & w3 & w4 & w5 & w6 & -> & H1 & H2 & H3 & H4 & H5 & H6 & H7). destruct a as [t m i g d s n]. cbn in H1, H2, H3, H4, H5, H6, H7. subst t.
    exists (ContinuousPassiveInteracting, (m, (i, (g, (d, (s, (n, tt))))))). split; [|reflexivity].
    apply read_spec; [reflexivity|]. exists (m, (i, (g, (d, (s, (n, tt)))))). split; [reflexivity|]. cbn [given exp_spec a_vars fld_move fld_init fld_f64 fld_usize f_parse fst snd]. now rewrite H1, H2, H3, H4, H5, H6.
Qed.
Lemma ljag_words ws a : (exists v, read_args_from_vec (lj_spec nt) ws = Ok v /\ ljag_of_args nt v = a) <->
  exists w1 w2 w3 w4 w5, ws = [w1; w2; w3; w4; w5] /\ movetype_parse nt (trim w1) = Ok (la_mtype a) /\ inittype_parse nt (trim w2) = Ok (la_itype a) /\ n_parse nt (trim w3) = Some (la_psize a) /\
    n_parse nt (trim w4) = Some (la_strength a) /\ parse_usize (trim w5) = Some (la_num a) /\ la_type a = ContinuousPassiveInteracting.
Proof.
  split.
  - intros (v & H & <-). apply read_spec in H as (u & -> & H); [|reflexivity]. destruct ws as [|w1 [|w2 [|w3 [|w4 [|w5 [|]]]]]]; cbn in H; try tauto. destruct u as [x1 [x2 [x3 [x4 [x5 []]]]]].
    destruct H as (H1 & H2 & H3 & H4 & H5 & _). apply parsed_some in H3, H4, H5. exists w1, w2, w3, w4, w5. now repeat split.
  - intros (w1 & w2 & w3 & w4 & w5 & -> & H1 & H2 & H3 & H4 & H5 & H6). destruct a as [t m i r al n]. cbn in H1, H2, H3, H4, H5, H6. subst t.
    exists (ContinuousPassiveInteracting, (m, (i, (r, (al, (n, tt)))))). split; [|reflexivity].
    apply read_spec; [reflexivity|]. exists (m, (i, (r, (al, (n, tt))))). split; [reflexivity|]. cbn [given lj_spec a_vars fld_move fld_init fld_f64 fld_usize f_parse fst snd]. now rewrite H1, H2, H3, H4, H5.
Qed.
End Words.
