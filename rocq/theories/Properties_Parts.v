(** C70, C43: which words each structure of a generated program accepts, and the directory a run writes to. *)
From Coq Require Import String NArith ZArith List Bool Lia.
From Verif Require Import Base Scalar Float64 Model_Position Model_System Model_Agent Model_Time Model_Text Spec_Text Model_Args Spec_Args Proof_Args3 Model_Usage Model_Run Model_Program Model_Generated Proof_Generated3.
Import ListNotations.
Local Open Scope nat_scope.
Local Open Scope string_scope.
Local Open Scope list_scope.
Local Notation length := List.length.

Section P.
Context {S : scalar} (nt : numtext S).
(** The words [ws] are read and the structure [q] is built from them. *)
Definition accepts_words (q : part) (ws : list string) : Prop := exists v, read_args_from_vec (pt_spec q) ws = Ok v /\ pt_build q v = Ok tt.

Lemma built_ok {A} (o : outcome A) : built o = Ok tt <-> exists x, o = Ok x.
Proof. destruct o; cbn; split; intros H; try discriminate; try (destruct H; discriminate); eauto. Qed.
Lemma ok_string (a b : string) : @Ok string a = Ok b -> b = a.
Proof. congruence. Qed.
Lemma if_panic {A} (b : bool) (o : outcome A) : (exists x, (if b then Panic else o) = Ok x) <-> b = false /\ exists x, o = Ok x.
Proof. destruct b; split; intros H; try (destruct H; discriminate); try tauto. Qed.

Lemma const_words ws : accepts_words (const_part nt) ws <->
  exists w1 w2 (dt tmax : S), ws = [w1; w2] /\ n_parse nt (trim w1) = Some dt /\ n_parse nt (trim w2) = Some tmax /\ (tmax <? s0)%S = false /\ (dt <? s0)%S = false.
Proof.
  unfold accepts_words. split.
  - intros (v & H & B). cbn [const_part pt_spec] in *. apply read_spec in H as (u & -> & H); [|reflexivity]. destruct ws as [|w1 [|w2 [|]]]; cbn in H; try tauto. destruct u as [x1 [x2 []]].
    destruct H as (H1 & H2 & _). apply parsed_some in H1, H2. exists w1, w2, x1, x2. cbn [const_part pt_build vals_app a_defaults const_spec] in B.
    apply built_ok in B. unfold cs_convert in B. apply if_panic in B as (B & _). apply orb_false_iff in B. tauto.
  - intros (w1 & w2 & dt & tmax & -> & H1 & H2 & B1 & B2). exists (dt, (tmax, tt)). split.
    + apply read_spec; [reflexivity|]. exists (dt, (tmax, tt)). split; [reflexivity|]. cbn [const_part pt_spec given const_spec a_vars fld_f64 f_parse fst snd]. now rewrite H1, H2.
    + cbn [const_part pt_build]. apply built_ok. unfold cs_convert. apply if_panic. rewrite B1, B2. split; [reflexivity|eauto].
Qed.
Lemma expstep_words ws : accepts_words (expstep_part nt) ws <->
  exists w1 w2 w3 w4 (dt_min dt_max : S) len (tmax : S), ws = [w1; w2; w3; w4] /\ n_parse nt (trim w1) = Some dt_min /\ n_parse nt (trim w2) = Some dt_max /\ parse_usize (trim w3) = Some len /\
    n_parse nt (trim w4) = Some tmax /\ (tmax <? s0)%S = false /\ (dt_min <? s0)%S = false /\ (dt_max <? dt_min)%S = false /\ 10 <= len.
Proof.
  unfold accepts_words. split.
  - intros (v & H & B). cbn [expstep_part pt_spec] in *. apply read_spec in H as (u & -> & H); [|reflexivity]. destruct ws as [|w1 [|w2 [|w3 [|w4 [|]]]]]; cbn in H; try tauto. destruct u as [x1 [x2 [x3 [x4 []]]]].
    destruct H as (H1 & H2 & H3 & H4 & _). apply parsed_some in H1, H2, H3, H4. exists w1, w2, w3, w4, x1, x2, x3, x4. cbn [expstep_part pt_build vals_app a_defaults expstep_spec] in B.
    apply built_ok in B. unfold es_convert in B. apply if_panic in B as (B & _). rewrite !orb_false_iff, Nat.ltb_ge in B. tauto.
  - intros (w1 & w2 & w3 & w4 & a & b & n & t & -> & H1 & H2 & H3 & H4 & B1 & B2 & B3 & B4). exists (a, (b, (n, (t, tt)))). split.
    + apply read_spec; [reflexivity|]. exists (a, (b, (n, (t, tt)))). split; [reflexivity|]. cbn [expstep_part pt_spec given expstep_spec a_vars fld_f64 fld_usize f_parse fst snd]. now rewrite H1, H2, H3, H4.
    + cbn [expstep_part pt_build]. apply built_ok. unfold es_convert. apply if_panic. apply Nat.ltb_ge in B4. rewrite B1, B2, B3, B4. split; [reflexivity|eauto].
Qed.
Lemma circ_accepts ws : accepts_words (circ_part nt) ws <->
  exists w1 w2 (size : S) d, ws = [w1; w2] /\ n_parse nt (trim w1) = Some size /\ parse_usize (trim w2) = Some d /\ (size <=? s0)%S = false /\ d <> 0.
Proof.
  unfold accepts_words. split.
  - intros (v & H & B). cbn [circ_part pt_spec] in H. destruct (proj1 (circ_words nt ws (circ_of_args nt v)) (ex_intro _ v (conj H eq_refl))) as (w1 & w2 & -> & H1 & H2 & _).
    exists w1, w2, (ci_size (circ_of_args nt v)), (ci_dim (circ_of_args nt v)). cbn [circ_part pt_build] in B. apply built_ok in B. unfold circ_convert_from in B. apply if_panic in B as (B & _).
    rewrite orb_false_iff, Nat.eqb_neq in B. tauto.
  - intros (w1 & w2 & x & d & -> & H1 & H2 & B1 & B2). destruct (proj2 (circ_words nt [w1; w2] (Circ ContinuousCircular Reflection x d))) as (v & H & E); [exists w1, w2; auto|].
    exists v. split; [exact H|]. cbn [circ_part pt_build]. rewrite E. apply built_ok. unfold circ_convert_from. apply if_panic. cbn [ci_size ci_dim]. apply Nat.eqb_neq in B2. rewrite B1, B2. split; [reflexivity|eauto].
Qed.
Lemma cubic_accepts ws : accepts_words (cubic_part nt) ws <->
  exists w1 w2 w3 bc (size : S) d, ws = [w1; w2; w3] /\ bcond_parse (trim w1) = Ok bc /\ n_parse nt (trim w2) = Some size /\ parse_usize (trim w3) = Some d /\ (size <=? s0)%S = false /\ d <> 0 /\
    (forall m, bc = Mixed m -> m <= d).
Proof.
  unfold accepts_words. split.
  - intros (v & H & B). cbn [cubic_part pt_spec] in H. destruct (proj1 (cubic_words nt ws (cubic_of_args nt v)) (ex_intro _ v (conj H eq_refl))) as (w1 & w2 & w3 & -> & H1 & H2 & H3 & _).
    set (a := cubic_of_args nt v) in *. exists w1, w2, w3, (cu_bc a), (cu_size a), (cu_dim a). cbn [cubic_part pt_build] in B. fold a in B. apply built_ok in B. unfold cubic_convert_from in B. apply if_panic in B as (B & Q).
    rewrite orb_false_iff, Nat.eqb_neq in B. assert (forall m, cu_bc a = Mixed m -> m <= cu_dim a); [|tauto]. intros m E. rewrite E in Q. apply if_panic in Q as (Q & _). now apply Nat.ltb_ge in Q.
  - intros (w1 & w2 & w3 & b & x & d & -> & H1 & H2 & H3 & B1 & B2 & B3). destruct (proj2 (cubic_words nt [w1; w2; w3] (Cubic ContinuousRectangular b x d))) as (v & H & E); [exists w1, w2, w3; auto|].
    exists v. split; [exact H|]. cbn [cubic_part pt_build]. rewrite E. apply built_ok. unfold cubic_convert_from. apply if_panic. cbn [cu_size cu_dim cu_bc]. apply Nat.eqb_neq in B2. rewrite B1, B2. split; [reflexivity|].
    destruct b as [| |m]; eauto. apply if_panic. split; [apply Nat.ltb_ge; now apply B3|eauto].
Qed.
Lemma bulk_accepts ws : accepts_words (bulk_part nt) ws <-> exists w1 w2 p (size : S), ws = [w1; w2] /\ pos_parse nt (trim w1) = Ok p /\ n_parse nt (trim w2) = Some size.
Proof.
  unfold accepts_words. split.
  - intros (v & H & B). cbn [bulk_part pt_spec] in H. destruct (proj1 (target_words nt ws (target_of_args nt v)) (ex_intro _ v (conj H eq_refl))) as (w1 & w2 & -> & H1 & H2 & _). eauto 8.
  - intros (w1 & w2 & x & d & -> & H1 & H2). destruct (proj2 (target_words nt [w1; w2] (Target ContinuousInBulk x d))) as (v & H & E); [exists w1, w2; auto|]. exists v. split; [exact H|]. reflexivity.
Qed.
Lemma indep_accepts ws : accepts_words (indep_part nt) ws <-> exists w1 w2 w3 m i n, ws = [w1; w2; w3] /\ movetype_parse nt (trim w1) = Ok m /\ inittype_parse nt (trim w2) = Ok i /\ parse_usize (trim w3) = Some n.
Proof.
  unfold accepts_words. split.
  - intros (v & H & B). cbn [indep_part pt_spec] in H. destruct (proj1 (indep_words nt ws (indep_of_args nt v)) (ex_intro _ v (conj H eq_refl))) as (w1 & w2 & w3 & -> & H1 & H2 & H3 & _). eauto 12.
  - intros (w1 & w2 & w3 & m & i & n & -> & H1 & H2 & H3). destruct (proj2 (indep_words nt [w1; w2; w3] (IndepArgs ContinuousPassiveIndependent m i n))) as (v & H & E); [exists w1, w2, w3; auto|]. exists v. split; [exact H|]. reflexivity.
Qed.
(** The dimension of an agent with the exponential repulsion: that of its position, if it has one. *)
Definition dim_fits (i : inittype S) (d : nat) : Prop := match i with Uniform => True | SpecificPosition p => length p = 0 \/ length p = d end.
Lemma expag_accepts ws : accepts_words (exp_part nt) ws <-> exists w1 w2 w3 w4 w5 w6 m i (g : S) d (st : S) n, ws = [w1; w2; w3; w4; w5; w6] /\ movetype_parse nt (trim w1) = Ok m /\ inittype_parse nt (trim w2) = Ok i /\
  n_parse nt (trim w3) = Some g /\ parse_usize (trim w4) = Some d /\ n_parse nt (trim w5) = Some st /\ parse_usize (trim w6) = Some n /\ dim_fits i d.
Proof.
  assert (K : forall a, (exists x, expag_convert_from (S := S) a = Ok x) <-> dim_fits (ea_itype a) (ea_dim a)).
  { intros a. unfold expag_convert_from, dim_fits, dim, exp_coeff. destruct (ea_itype a) as [p|]; cbn [Nat.eqb bind]; [|split; intros _; [exact I|eexists; reflexivity]].
    destruct (Nat.eqb_spec (length p) 0) as [Z|Z]; cbn [bind]; [split; intros _; [auto|eexists; reflexivity]|].
    destruct (Nat.eqb_spec (length p) (ea_dim a)) as [Y|Y]; cbn [negb bind]; [split; intros _; [auto|eexists; reflexivity]|]. split; [intros (x & Q); discriminate|tauto]. }
  unfold accepts_words. split.
  - intros (v & H & B). cbn [exp_part pt_spec] in H. destruct (proj1 (expag_words nt ws (expag_of_args nt v)) (ex_intro _ v (conj H eq_refl))) as (w1 & w2 & w3 & w4 & w5 & w6 & -> & H1 & H2 & H3 & H4 & H5 & H6 & _).
    set (a := expag_of_args nt v) in *. exists w1, w2, w3, w4, w5, w6, (ea_mtype a), (ea_itype a), (ea_gamma a), (ea_dim a), (ea_strength a), (ea_num a). cbn [exp_part pt_build] in B. fold a in B. apply built_ok, K in B. tauto.
  - intros (w1 & w2 & w3 & w4 & w5 & w6 & m & i & g & d & st & n & -> & H1 & H2 & H3 & H4 & H5 & H6 & B).
    destruct (proj2 (expag_words nt [w1; w2; w3; w4; w5; w6] (ExpagArgs ContinuousPassiveInteracting m i g d st n))) as (v & H & E); [exists w1, w2, w3, w4, w5, w6; repeat split; assumption|].
    exists v. split; [exact H|]. cbn [exp_part pt_build]. rewrite E. apply built_ok, K. exact B.
Qed.
Lemma ljag_accepts ws : accepts_words (lj_part nt) ws <-> exists w1 w2 w3 w4 w5 m i (r st : S) n, ws = [w1; w2; w3; w4; w5] /\ movetype_parse nt (trim w1) = Ok m /\ inittype_parse nt (trim w2) = Ok i /\
  n_parse nt (trim w3) = Some r /\ n_parse nt (trim w4) = Some st /\ parse_usize (trim w5) = Some n.
Proof.
  unfold accepts_words. split.
  - intros (v & H & B). cbn [lj_part pt_spec] in H. destruct (proj1 (ljag_words nt ws (ljag_of_args nt v)) (ex_intro _ v (conj H eq_refl))) as (w1 & w2 & w3 & w4 & w5 & -> & H1 & H2 & H3 & H4 & H5 & _).
    set (a := ljag_of_args nt v) in *. exists w1, w2, w3, w4, w5, (la_mtype a), (la_itype a), (la_psize a), (la_strength a), (la_num a). tauto.
  - intros (w1 & w2 & w3 & w4 & w5 & m & i & g & st & n & -> & H1 & H2 & H3 & H4 & H5).
    destruct (proj2 (ljag_words nt [w1; w2; w3; w4; w5] (LjagArgs ContinuousPassiveInteracting m i g st n))) as (v & H & E); [exists w1, w2, w3, w4, w5; repeat split; assumption|].
    exists v. split; [exact H|]. cbn [lj_part pt_build]. rewrite E. apply built_ok. unfold ljag_convert_from, lj_coeff. destruct i; cbn [la_itype]; eauto.
Qed.
Lemma varsim_dir ws dir : (exists v, read_args_from_vec varsim_spec ws = Ok v /\ sp_dir varsim_part v = dir) <->
  exists w1 w2 w3 w4 n i s, ws = [w1; w2; w3; w4] /\ parse_usize (trim w1) = Some n /\ parse_usize (trim w2) = Some i /\ parse_uint u128_maxN (trim w3) = Some s /\ dir = trim w4.
Proof.
  split.
  - intros (v & H & E). apply read_spec in H as (u & -> & H); [|reflexivity]. destruct ws as [|w1 [|w2 [|w3 [|w4 [|]]]]]; cbn in H; try tauto. destruct u as [x1 [x2 [x3 [x4 []]]]].
    destruct H as (H1 & H2 & H3 & H4 & _). apply parsed_some in H1, H2, H3. exists w1, w2, w3, w4, x1, x2, x3. apply ok_string in H4. repeat split; auto. exact (eq_trans (eq_sym E) H4).
  - intros (w1 & w2 & w3 & w4 & n & i & s & -> & H1 & H2 & H3 & ->). exists (n, (i, (s, (trim w4, tt)))). split; [|reflexivity].
    apply read_spec; [reflexivity|]. exists (n, (i, (s, (trim w4, tt)))). split; [reflexivity|]. cbn [given varsim_spec a_vars fld_usize fld_u128 fld_string f_parse fst snd]. now rewrite H1, H2, H3.
Qed.
Lemma parsim_dir ws dir : (exists v, read_args_from_vec parsim_spec ws = Ok v /\ sp_dir parsim_part v = dir) <->
  exists w1 w2 w3 w4 n s k, ws = [w1; w2; w3; w4] /\ parse_usize (trim w1) = Some n /\ parse_uint u128_maxN (trim w2) = Some s /\ parse_usize (trim w3) = Some k /\ dir = trim w4.
Proof.
  split.
  - intros (v & H & E). apply read_spec in H as (u & -> & H); [|reflexivity]. destruct ws as [|w1 [|w2 [|w3 [|w4 [|]]]]]; cbn in H; try tauto. destruct u as [x1 [x2 [x3 [x4 []]]]].
    destruct H as (H1 & H2 & H3 & H4 & _). apply parsed_some in H1, H2, H3. exists w1, w2, w3, w4, x1, x2, x3. apply ok_string in H4. repeat split; auto. exact (eq_trans (eq_sym E) H4).
  - intros (w1 & w2 & w3 & w4 & n & i & s & -> & H1 & H2 & H3 & ->). exists (n, (i, (s, (trim w4, tt)))). split; [|reflexivity].
    apply read_spec; [reflexivity|]. exists (n, (i, (s, (trim w4, tt)))). split; [reflexivity|]. cbn [given parsim_spec a_vars fld_usize fld_u128 fld_string f_parse fst snd]. now rewrite H1, H2, H3.
Qed.
Lemma procsim_dir ws dir : (exists v, read_args_from_vec (procsim_spec nt) ws = Ok v /\ sp_dir (procsim_part nt) v = dir) <->
  exists w1 w2 w3 w4 w5 n (p : S) i s, ws = [w1; w2; w3; w4; w5] /\ parse_usize (trim w1) = Some n /\ n_parse nt (trim w2) = Some p /\ parse_usize (trim w3) = Some i /\ parse_uint u128_maxN (trim w4) = Some s /\ dir = trim w5.
Proof.
  split.
  - intros (v & H & E). apply read_spec in H as (u & -> & H); [|reflexivity]. destruct ws as [|w1 [|w2 [|w3 [|w4 [|w5 [|]]]]]]; cbn in H; try tauto. destruct u as [x1 [x2 [x3 [x4 [x5 []]]]]].
    destruct H as (H1 & H2 & H3 & H4 & H5 & _). apply parsed_some in H1, H2, H3, H4. exists w1, w2, w3, w4, w5, x1, x2, x3, x4. apply ok_string in H5. repeat split; auto. exact (eq_trans (eq_sym E) H5).
  - intros (w1 & w2 & w3 & w4 & w5 & n & p & i & s & -> & H1 & H2 & H3 & H4 & ->). exists (n, (p, (i, (s, (trim w5, tt))))). split; [|reflexivity].
    apply read_spec; [reflexivity|]. exists (n, (p, (i, (s, (trim w5, tt))))). split; [reflexivity|]. cbn [given procsim_spec a_vars fld_usize fld_u128 fld_f64 fld_string f_parse fst snd]. now rewrite H1, H2, H3, H4.
Qed.
End P.

(** * C70 *)
(** Clocks: two times that are not below 0, and for the growing step a first step not above the last and at least ten steps between changes. *)
Theorem C70_clocks_accept : forall (S : scalar) (nt : numtext S) ws,
  (accepts_words (const_part nt) ws <->
    exists w1 w2 (dt tmax : S), ws = [w1; w2] /\ n_parse nt (trim w1) = Some dt /\ n_parse nt (trim w2) = Some tmax /\ (tmax <? s0)%S = false /\ (dt <? s0)%S = false) /\
  (accepts_words (expstep_part nt) ws <->
    exists w1 w2 w3 w4 (dt_min dt_max : S) len (tmax : S), ws = [w1; w2; w3; w4] /\ n_parse nt (trim w1) = Some dt_min /\ n_parse nt (trim w2) = Some dt_max /\ parse_usize (trim w3) = Some len /\
      n_parse nt (trim w4) = Some tmax /\ (tmax <? s0)%S = false /\ (dt_min <? s0)%S = false /\ (dt_max <? dt_min)%S = false /\ 10 <= len).
Proof. intros S nt ws. split; [apply const_words|apply expstep_words]. Qed.
Print Assumptions C70_clocks_accept.
(** Systems and targets: a size that is not at most 0 and at least one dimension; a target is never refused. *)
Theorem C70_places_accept : forall (S : scalar) (nt : numtext S) ws,
  (accepts_words (circ_part nt) ws <->
    exists w1 w2 (size : S) d, ws = [w1; w2] /\ n_parse nt (trim w1) = Some size /\ parse_usize (trim w2) = Some d /\ (size <=? s0)%S = false /\ d <> 0) /\
  (accepts_words (cubic_part nt) ws <->
    exists w1 w2 w3 bc (size : S) d, ws = [w1; w2; w3] /\ bcond_parse (trim w1) = Ok bc /\ n_parse nt (trim w2) = Some size /\ parse_usize (trim w3) = Some d /\ (size <=? s0)%S = false /\ d <> 0 /\
      (forall m, bc = Mixed m -> m <= d)) /\
  (accepts_words (bulk_part nt) ws <-> exists w1 w2 p (size : S), ws = [w1; w2] /\ pos_parse nt (trim w1) = Ok p /\ n_parse nt (trim w2) = Some size).
Proof. intros S nt ws. split; [apply circ_accepts|split; [apply cubic_accepts|apply bulk_accepts]]. Qed.
Print Assumptions C70_places_accept.
(** Agents: the words of each of the fields; only the exponential agent compares the dimension of its position with the dimension given. *)
Theorem C70_agents_accept : forall (S : scalar) (nt : numtext S) ws,
  (accepts_words (indep_part nt) ws <-> exists w1 w2 w3 m i n, ws = [w1; w2; w3] /\ movetype_parse nt (trim w1) = Ok m /\ inittype_parse nt (trim w2) = Ok i /\ parse_usize (trim w3) = Some n) /\
  (accepts_words (exp_part nt) ws <-> exists w1 w2 w3 w4 w5 w6 m i (g : S) d (st : S) n, ws = [w1; w2; w3; w4; w5; w6] /\ movetype_parse nt (trim w1) = Ok m /\ inittype_parse nt (trim w2) = Ok i /\
    n_parse nt (trim w3) = Some g /\ parse_usize (trim w4) = Some d /\ n_parse nt (trim w5) = Some st /\ parse_usize (trim w6) = Some n /\ dim_fits i d) /\
  (accepts_words (lj_part nt) ws <-> exists w1 w2 w3 w4 w5 m i (r st : S) n, ws = [w1; w2; w3; w4; w5] /\ movetype_parse nt (trim w1) = Ok m /\ inittype_parse nt (trim w2) = Ok i /\
    n_parse nt (trim w3) = Some r /\ n_parse nt (trim w4) = Some st /\ parse_usize (trim w5) = Some n).
Proof. intros S nt ws. split; [apply indep_accepts|split; [apply expag_accepts|apply ljag_accepts]]. Qed.
Print Assumptions C70_agents_accept.
(** The file of a run is in the directory named by the last word. *)
Theorem C70_directory : forall (S : scalar) (nt : numtext S) ws dir,
  ((exists v, read_args_from_vec varsim_spec ws = Ok v /\ sp_dir varsim_part v = dir) <->
    exists w1 w2 w3 w4 n i s, ws = [w1; w2; w3; w4] /\ parse_usize (trim w1) = Some n /\ parse_usize (trim w2) = Some i /\ parse_uint u128_maxN (trim w3) = Some s /\ dir = trim w4) /\
  ((exists v, read_args_from_vec parsim_spec ws = Ok v /\ sp_dir parsim_part v = dir) <->
    exists w1 w2 w3 w4 n s k, ws = [w1; w2; w3; w4] /\ parse_usize (trim w1) = Some n /\ parse_uint u128_maxN (trim w2) = Some s /\ parse_usize (trim w3) = Some k /\ dir = trim w4) /\
  ((exists v, read_args_from_vec (procsim_spec nt) ws = Ok v /\ sp_dir (procsim_part nt) v = dir) <->
    exists w1 w2 w3 w4 w5 n (p : S) i s, ws = [w1; w2; w3; w4; w5] /\ parse_usize (trim w1) = Some n /\ n_parse nt (trim w2) = Some p /\ parse_usize (trim w3) = Some i /\ parse_uint u128_maxN (trim w4) = Some s /\ dir = trim w5).
Proof. intros S nt ws dir. split; [apply varsim_dir|split; [apply parsim_dir|apply procsim_dir]]. Qed.
Print Assumptions C70_directory.
Example C70_directory_met : sp_dir varsim_part (10, (1, (7%N, ("data", tt)))) = "data" /\
  read_args_from_vec varsim_spec ["10"; "1"; "7"; "data"] = Ok (10, (1, (7%N, ("data", tt)))).
Proof. split; vm_compute; reflexivity. Qed.
