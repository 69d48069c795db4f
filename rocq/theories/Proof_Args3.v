(** Proofs about file names, the code generator and errors. *)
From Coq Require Import String Ascii NArith Lia.
From Verif Require Import Base Scalar Model_Position Model_System Model_Agent Model_Time Model_Text Spec_Text Proof_Text Proof_Text2 Proof_Text3 Model_Args Spec_Args Proof_Args Proof_Args2 Model_Error.
Local Open Scope string_scope.
Local Open Scope list_scope.
Local Notation length := List.length.

(** ** file names *)
Fixpoint nodup_b (l : list string) : bool := match l with [] => true | x :: r => negb (existsb (String.eqb x) r) && nodup_b r end.
Lemma nodup_b_spec l : NoDup l <-> nodup_b l = true.
Proof.
  induction l as [|x l IH]; cbn; [split; auto; constructor|]. rewrite andb_true_iff, negb_true_iff, <- IH. split.
  - intros H. inv H. split; auto. apply not_true_iff_false. intros Q. apply existsb_exists in Q as (y & Hy & Q). apply String.eqb_eq in Q. now subst.
  - intros [H1 H2]. constructor; auto. intros Q. apply not_true_iff_false in H1. apply H1, existsb_exists. exists x. split; auto. apply String.eqb_refl.
Qed.
Lemma cut_at (c : ascii) a b r r' : without c a -> without c b -> (a ++ String c r)%string = (b ++ String c r')%string -> a = b /\ r = r'.
Proof.
  revert b. induction a as [|x a IH]; intros [|y b] Ha Hb E; cbn in *.
  - injection E as ->. auto.
  - injection E as -> _. now destruct Hb as [Hb _].
  - injection E as -> _. now destruct Ha as [Ha _].
  - injection E as -> E. destruct (IH b (proj2 Ha) (proj2 Hb) E). subst. auto.
Qed.
Lemma app_s_inv_r (a b c : string) : (a ++ c)%string = (b ++ c)%string -> a = b.
Proof.
  revert b. induction a as [|x a IH]; intros [|y b] E; cbn in *; auto.
  - apply (f_equal String.length) in E. cbn in E. rewrite length_app_s in E. lia.
  - apply (f_equal String.length) in E. cbn in E. rewrite length_app_s in E. lia.
  - injection E as -> E. f_equal. auto.
Qed.
Definition parts (l : list (string * string)) : string := fold_right (fun v acc => var_part v ++ acc)%string "" l.
Lemma parts_inj l m : same_names l m -> plain_values l -> plain_values m -> (parts l ++ ".dat")%string = (parts m ++ ".dat")%string -> l = m.
Proof.
  revert m. induction l as [|[n v] l IH]; intros [|[n' w] m] N P Q E; try discriminate N; auto.
  unfold same_names in N. cbn in N. injection N as -> N. inv P. inv Q. cbn [snd] in *.
  unfold parts in E. cbn [fold_right] in E. fold (parts l) in E. fold (parts m) in E. unfold var_part in E. cbn [fst snd] in E.
  rewrite !app_s_assoc in E. apply app_s_inv in E. apply app_s_inv in E. apply app_s_inv in E.
  destruct l as [|[a b] l], m as [|[c d] m]; try discriminate N.
  - cbn [parts fold_right append] in E. apply app_s_inv_r in E. now subst.
  - assert (E0 := E). unfold parts in E. cbn [fold_right] in E. unfold var_part at 1 3 in E. cbn [append fst snd] in E.
    apply cut_at in E; auto. destruct E as [-> _]. apply app_s_inv in E0. f_equal. now apply IH.
Qed.
Lemma file_inj p a b s t : same_names a b -> same_names s t -> plain_values a -> plain_values b -> plain_values s -> plain_values t ->
  export_file p a s = export_file p b t -> a = b /\ s = t.
Proof.
  intros N1 N2 P1 P2 P3 P4 E. unfold export_file in E. apply app_s_inv in E.
  assert (Q : a ++ s = b ++ t).
  { apply parts_inj; auto.
    - unfold same_names in *. rewrite !map_app. congruence.
    - now apply Forall_app.
    - now apply Forall_app. }
  clear E P1 P2 P3 P4. revert b N1 Q. induction a as [|x a IH]; intros [|y b] N1 Q; try discriminate N1; auto.
  unfold same_names in N1. cbn in N1, Q. injection N1 as _ N1. injection Q as -> Q. destruct (IH b N1 Q). now subst.
Qed.
(** fields that are numbers *)
Section Names.
Context {S : scalar} (nt : numtext S).
Inductive numeric : field -> Prop := NF_f64 n d : numeric (fld_f64 nt n d) | NF_usize n d : numeric (fld_usize n d).
Lemma numeric_text f : faithful nt -> numeric f -> exists sh : f_ty f -> string, (forall x, f_show f x = Ok (sh x)) /\ (forall x y, sh x = sh y -> x = y) /\ (forall x, without "_" (sh x)).
Proof.
  intros F [n d|n d]; cbn [f_ty f_show fld_f64 fld_usize].
  - exists (n_show nt). split; [reflexivity|split].
    + intros x y E. destruct (F x) as (A & _), (F y) as (B & _). unfold round_trips in *. congruence.
    + intros x. apply number_without; [apply F|nosep].
  - exists show_usize. split; [reflexivity|split].
    + intros x y E. apply show_uint_inj in E. lia.
    + intros x. apply number_without; [apply show_usize_word|nosep].
Qed.
Definition numeric_at (fs : list field) (n : string) : Prop := exists f, In f fs /\ f_name f = n /\ numeric f.
Lemma field_text_name fs n : faithful nt -> NoDup (map f_name fs) -> numeric_at fs n -> forall v w : vals fs,
  exists t u, field_text fs v n = Some t /\ field_text fs w n = Some u /\ without "_" t /\ without "_" u /\
    (t = u <-> agree fs [n] v w).
Proof.
  intros F. induction fs as [|f fs IH]; intros ND (g & Hg & Hn & Nu) v w; [destruct Hg|].
  cbn in ND. inv ND. cbn [field_text agree]. destruct (String.eqb (f_name f) (f_name g)) eqn:Q.
  - apply String.eqb_eq in Q. assert (f = g).
    { destruct Hg as [->|Hg]; auto. exfalso. apply H1. rewrite Q. now apply in_map. }
    subst g. destruct (numeric_text f F Nu) as (sh & E & I & W). exists (sh (fst v)), (sh (fst w)).
    rewrite !E. do 4 (split; [auto|]).
    assert (R : agree fs [f_name f] (snd v) (snd w)).
    { clear -H1. destruct v as [x v], w as [y w]. cbn [snd]. clear x y. revert v w. induction fs as [|h fs IH]; intros v w; cbn [agree]; auto.
      split; [|apply IH; cbn in H1; tauto]. intros [Q|[]]. exfalso. apply H1. left. congruence. }
    split; [intros Et; split; auto|]. intros [A _]. f_equal. apply A. now left.
  - apply String.eqb_neq in Q. destruct Hg as [->|Hg]; [now elim Q|].
    destruct (IH H2 (ex_intro _ g (conj Hg (conj eq_refl Nu))) (snd v) (snd w)) as (t & u & E1 & E2 & W1 & W2 & A).
    exists t, u. do 4 (split; [auto|]). rewrite A. split; [intros R; split; auto; intros [Q'|[]]; congruence|now intros [_ R]].
Qed.
Lemma agree_cons fs n ns (v w : vals fs) : agree fs (n :: ns) v w <-> agree fs [n] v w /\ agree fs ns v w.
Proof.
  induction fs as [|f fs IH]; cbn [agree]; [tauto|]. rewrite IH. cbn [In]. intuition.
Qed.
Lemma agree_nil fs (v w : vals fs) : agree fs [] v w.
Proof. induction fs as [|f fs IH]; cbn [agree]; auto. split; [intros []|auto]. Qed.
Lemma named_texts_names fs ns : faithful nt -> NoDup (map f_name fs) -> Forall (numeric_at fs) ns -> forall v w : vals fs,
  exists a b, named_texts fs v ns = Some a /\ named_texts fs w ns = Some b /\ map fst a = ns /\ map fst b = ns /\ plain_values a /\ plain_values b /\
    (a = b <-> agree fs ns v w).
Proof.
  intros F ND A v w. induction A as [|n ns Hn A IH].
  - exists [], []. do 4 (split; [reflexivity|]). do 2 (split; [constructor|]). split; auto. intros _. apply agree_nil.
  - destruct IH as (a & b & E1 & E2 & N1 & N2 & P1 & P2 & I). destruct (field_text_name fs n F ND Hn v w) as (t & u & T1 & T2 & W1 & W2 & J).
    exists ((n, t) :: a), ((n, u) :: b). cbn [named_texts map fst]. rewrite E1, E2, T1, T2, N1, N2. do 4 (split; [reflexivity|]).
    split; [now constructor|]. split; [now constructor|].
    rewrite agree_cons, <- I, <- J. split; [intros Q; injection Q; auto|intros [-> ->]; auto].
Qed.
(** a structure whose listed variables are numbers *)
Definition listable (sp : argspec) : Prop :=
  NoDup (map f_name (a_fields sp)) /\ dataset_vars (a_name sp) = Some (in_file_name (a_name sp)) /\ Forall (numeric_at (a_fields sp)) (in_file_name (a_name sp)).
Lemma spec_texts_names sp : faithful nt -> listable sp -> forall v w : args_of sp,
  exists a b, spec_texts sp v = Some a /\ spec_texts sp w = Some b /\ same_names a b /\ plain_values a /\ plain_values b /\
    (a = b <-> agree (a_fields sp) (in_file_name (a_name sp)) v w).
Proof.
  intros F (ND & D & N) v w. unfold spec_texts. rewrite D.
  destruct (named_texts_names (a_fields sp) _ F ND N v w) as (a & b & E1 & E2 & N1 & N2 & P1 & P2 & I).
  exists a, b. unfold same_names. intuition congruence.
Qed.
Lemma app_same_names (a b c d : list (string * string)) : same_names a b -> (a ++ c = b ++ d <-> a = b /\ c = d).
Proof.
  revert b. induction a as [|x a IH]; intros [|y b] N; try discriminate N; cbn; [tauto|].
  unfold same_names in N. cbn in N. injection N as _ N. split.
  - intros E. injection E as -> E. apply (IH b N) in E as [-> ->]. auto.
  - intros [E ->]. injection E as -> ->. auto.
Qed.
Lemma dataset_texts_names specs : faithful nt -> Forall listable specs -> forall v w : all_args specs,
  exists a b, dataset_texts specs v = Some a /\ dataset_texts specs w = Some b /\ same_names a b /\ plain_values a /\ plain_values b /\
    (a = b <-> agree_all specs in_file_name v w).
Proof.
  intros F A. induction A as [|sp specs Hs A IH]; intros v w.
  - exists [], []. do 3 (split; [reflexivity|]). do 2 (split; [constructor|]). cbn. tauto.
  - destruct (spec_texts_names sp F Hs (fst v) (fst w)) as (a & b & E1 & E2 & N & P1 & P2 & I).
    destruct (IH (snd v) (snd w)) as (c & d & E3 & E4 & N' & P3 & P4 & J).
    exists (a ++ c), (b ++ d). cbn [dataset_texts agree_all]. rewrite E1, E2, E3, E4. do 2 (split; [reflexivity|]).
    split; [unfold same_names in *; rewrite !map_app; congruence|]. split; [now apply Forall_app|]. split; [now apply Forall_app|].
    rewrite app_same_names by auto. now rewrite I, J.
Qed.
Lemma output_file_names p specs sim : faithful nt -> Forall listable specs -> listable sim -> forall v w s t,
  exists f g, output_file p specs sim v s = Some f /\ output_file p specs sim w t = Some g /\
    (f = g <-> agree_all specs in_file_name v w /\ agree (a_fields sim) (in_file_name (a_name sim)) s t).
Proof.
  intros F A B v w s t. destruct (dataset_texts_names specs F A v w) as (a & b & E1 & E2 & N & P1 & P2 & I).
  destruct (spec_texts_names sim F B s t) as (c & d & E3 & E4 & N' & P3 & P4 & J).
  exists (export_file p a c), (export_file p b d). unfold output_file. rewrite E1, E2, E3, E4. do 2 (split; [reflexivity|]).
  rewrite <- I, <- J. split; [intros E; now apply file_inj in E|intros [-> ->]; reflexivity].
Qed.
Ltac pick l := lazymatch l with ?f :: ?r => first [solve [exists f; split; [unfold In; repeat (first [left; reflexivity|right])|split; [reflexivity|constructor]]] | pick r] end.
Ltac num_at := lazymatch goal with |- numeric_at ?l _ => unfold numeric_at; let l' := eval cbn [a_fields a_types a_vars app circ_spec cubic_spec bulk_spec indep_spec exp_spec lj_spec const_spec expstep_spec varsim_spec parsim_spec procsim_spec] in l in pick l' end.
Lemma all_listable sp : In sp [circ_spec nt; cubic_spec nt; bulk_spec nt; indep_spec nt; exp_spec nt; lj_spec nt; const_spec nt; expstep_spec nt; varsim_spec; parsim_spec; procsim_spec nt] -> listable sp.
Proof.
  intros H. repeat (destruct H as [<-|H]; [split; [apply nodup_b_spec; reflexivity|split; [reflexivity|repeat (constructor; [num_at|]); constructor]]|]); try contradiction.
Qed.
End Names.

(** ** the code generator *)
Lemma parse_idents_spec ts is : parse_idents ts = Some is -> ts = flat_map (fun i => [TComma; TIdent i]) is \/ ts = flat_map (fun i => [TComma; TIdent i]) is ++ [TComma].
Proof.
  revert is. induction ts as [ts IH] using (well_founded_induction (Wf_nat.well_founded_ltof _ (@length token))). unfold Wf_nat.ltof in IH. intros is E.
  destruct ts as [|[s|s| |] [|[s'|s'| |] ts]]; cbn in E; try discriminate.
  - injection E as <-. now left.
  - injection E as <-. now right.
  - destruct (parse_idents ts) as [js|] eqn:Q; [|discriminate]. cbn in E. injection E as <-.
    destruct (IH ts ltac:(cbn; lia) js Q) as [->| ->]; [left|right]; reflexivity.
Qed.
Lemma macro_inv ts g : simulation_macro ts = Some g -> exists p a sy ta ag ti si,
  (ts = invocation p a sy ta ag ti si \/ ts = invocation p a sy ta ag ti si ++ [TComma]) /\
  g_prefix g = p /\ g_analysis g = a /\ g_structs g = [sy; ta; ag; ti; si].
Proof.
  unfold simulation_macro, parse_tokens. destruct ts as [|[p|s| |] ts]; try discriminate.
  destruct (parse_idents ts) as [is|] eqn:E; [|discriminate]. cbn [option_map].
  destruct (length is =? 6)%nat eqn:L; [|discriminate]. apply Nat.eqb_eq in L.
  destruct is as [|a [|sy [|ta [|ag [|ti [|si [|]]]]]]]; try discriminate L.
  destruct (dataset_vars sy), (dataset_vars ta), (dataset_vars ag), (dataset_vars ti), (dataset_vars si); try discriminate.
  intros G. injection G as <-. exists p, a, sy, ta, ag, ti, si.
  split; [|cbn; auto]. apply parse_idents_spec in E as [->| ->]; [left|right]; reflexivity.
Qed.
Lemma known_names n : dataset_vars n <> None <-> In n (systems ++ ["ContBoundaryTarget"] ++ targets ++ agents ++ clocks ++ simulations).
Proof.
  split.
  - unfold dataset_vars. intros H. repeat match type of H with context [String.eqb n ?s] => destruct (String.eqb n s) eqn:?; [apply String.eqb_eq in Heqb; subst; cbn; tauto|clear Heqb] end.
    now elim H.
  - intros H. cbn in H. repeat (destruct H as [<-|H]; [discriminate|]); try contradiction.
Qed.
Lemma macro_rejects p a sy ta ag ti si : (exists n, In n [sy; ta; ag; ti; si] /\ ~ In n (systems ++ ["ContBoundaryTarget"] ++ targets ++ agents ++ clocks ++ simulations)) ->
  simulation_macro (invocation p a sy ta ag ti si) = None.
Proof.
  intros (n & H & U). assert (D : dataset_vars n = None) by (destruct (dataset_vars n) eqn:Q; auto; exfalso; apply U, known_names; congruence).
  cbn. destruct (dataset_vars sy) eqn:E1; auto. destruct (dataset_vars ta) eqn:E2; auto. destruct (dataset_vars ag) eqn:E3; auto.
  destruct (dataset_vars ti) eqn:E4; auto. destruct (dataset_vars si) eqn:E5; auto.
  cbn in H. intuition congruence.
Qed.
Section Gen.
Context {S : scalar} (nt : numtext S).
Lemma uses_dec st used fs : struct_fields nt st = Some fs -> (uses_fields nt st used <-> forallb (fun u => existsb (String.eqb u) fs) used = true).
Proof.
  intros E. unfold uses_fields. rewrite E. rewrite forallb_forall. split.
  - intros (fs' & E' & I) u Hu. injection E' as <-. apply existsb_exists. exists u. split; auto. apply String.eqb_refl.
  - intros H. exists fs. split; auto. intros u Hu. apply H, existsb_exists in Hu as (x & Hx & Q). apply String.eqb_eq in Q. now subst.
Qed.
Lemma struct_circ : struct_fields nt "ContCircSystem" = Some ["sys_type"; "bctype"; "sys_size"; "dim"]. Proof. reflexivity. Qed.
Lemma struct_cubic : struct_fields nt "ContCubicSystem" = Some ["sys_type"; "bctype"; "sys_size"; "dim"]. Proof. reflexivity. Qed.
Lemma struct_cyl : struct_fields nt "ContCylindricalSystem" = Some ["sys_type"; "bctype"; "sys_radius"; "sys_length"; "dim"]. Proof. reflexivity. Qed.
Lemma struct_bulk : struct_fields nt "ContBulkTarget" = Some ["target_type"; "target_pos"; "target_size"]. Proof. reflexivity. Qed.
Lemma struct_indep : struct_fields nt "ContPassiveIndepAgent" = Some ["agent_type"; "mtype"; "itype"; "num_agent"]. Proof. reflexivity. Qed.
Lemma struct_merge : struct_fields nt "ContPassiveMergeAgent" = Some ["agent_type"; "size"; "mtype"; "itype"; "ptl_radius"; "alpha"; "num_agent"]. Proof. reflexivity. Qed.
Lemma struct_exp : struct_fields nt "ContPassiveExpAgent" = Some ["agent_type"; "mtype"; "itype"; "gamma"; "exp_dim"; "strength"; "num_agent"]. Proof. reflexivity. Qed.
Lemma struct_lj : struct_fields nt "ContPassiveLJAgent" = Some ["agent_type"; "mtype"; "itype"; "ptl_size"; "strength"; "num_agent"]. Proof. reflexivity. Qed.
Lemma struct_const : struct_fields nt "ConstStep" = Some ["dt"; "tmax"]. Proof. reflexivity. Qed.
Lemma struct_expstep : struct_fields nt "ExponentialStep" = Some ["dt_min"; "dt_max"; "length"; "tmax"]. Proof. reflexivity. Qed.
Lemma struct_var : struct_fields nt "VariableSimulation" = Some ["num_ensemble"; "idx_set"; "seed"; "output_dir"]. Proof. reflexivity. Qed.
Lemma struct_par : struct_fields nt "ParVariableSimulation" = Some ["num_ensemble"; "seed"; "n_thrd"; "output_dir"]. Proof. reflexivity. Qed.
Lemma struct_proc : struct_fields nt "ProcessSimulation" = Some ["num_ensemble"; "period"; "idx_set"; "seed"; "output_dir"]. Proof. reflexivity. Qed.
Definition uses_b (st : string) (used : list string) : bool := match struct_fields nt st with Some fs => forallb (fun u => existsb (String.eqb u) fs) used | None => false end.
Lemma uses_b_spec st used : uses_fields nt st used <-> uses_b st used = true.
Proof. unfold uses_b. destruct (struct_fields nt st) eqn:E; [now apply uses_dec|]. split; [intros (fs & Q & _); congruence|discriminate]. Qed.
Fixpoint forall2_b {A B} (f : A -> B -> bool) (l : list A) (m : list B) : bool :=
  match l, m with [], [] => true | a :: l, b :: m => f a b && forall2_b f l m | _, _ => false end.
Lemma forall2_b_spec l m : Forall2 (uses_fields nt) l m <-> forall2_b uses_b l m = true.
Proof.
  revert m. induction l as [|a l IH]; intros [|b m]; cbn; try (split; [intros H; inv H|discriminate]).
  - split; auto.
  - rewrite andb_true_iff, <- uses_b_spec, <- IH. split; [intros H; inv H; auto|intros [? ?]; now constructor].
Qed.
Definition compiles_b (g : generated) : bool :=
  forall2_b uses_b (g_structs g) (g_dataset g ++ [g_sim g]) && forall2_b uses_b (g_structs g) (g_lets g) && nodup_b (List.concat (g_dataset g) ++ g_sim g).
Lemma compiles_b_spec g : compiles nt g <-> compiles_b g = true.
Proof. unfold compiles, compiles_b. rewrite !andb_true_iff, <- !forall2_b_spec, <- nodup_b_spec. tauto. Qed.
Lemma generated_compiles p a sy ta ag ti si : In sy systems -> In ta targets -> In ag agents -> In ti clocks -> In si simulations ->
  exists g, simulation_macro (invocation p a sy ta ag ti si) = Some g /\
    (compiles nt g <-> sy <> "ContCylindricalSystem" /\ ag <> "ContPassiveMergeAgent").
Proof.
  intros H1 H2 H3 H4 H5. cbn in H1, H2, H3, H4, H5.
  destruct H2 as [<-|[]].
  destruct H1 as [<-|[<-|[<-|[]]]], H3 as [<-|[<-|[<-|[<-|[]]]]], H4 as [<-|[<-|[]]], H5 as [<-|[<-|[<-|[]]]];
  (eexists; split; [reflexivity|]; rewrite compiles_b_spec;
   first [ split; [intros _; split; discriminate|intros _; reflexivity]
         | split; [intros Q; vm_compute in Q; discriminate Q|intros [Q1 Q2]; exfalso; first [now elim Q1|now elim Q2]] ]).
Qed.
Lemma boundary_target p a sy ag ti si g : simulation_macro (invocation p a sy "ContBoundaryTarget" ag ti si) = Some g -> ~ compiles nt g.
Proof.
  cbn. destruct (dataset_vars sy) eqn:E1; try discriminate. destruct (dataset_vars ag) eqn:E3; try discriminate.
  destruct (dataset_vars ti) eqn:E4; try discriminate. destruct (dataset_vars si) eqn:E5; try discriminate.
  intros Q. injection Q as <-. intros (H & _). cbn in H.
  inversion H as [|? ? ? ? _ H']. inversion H' as [|? ? ? ? (fs & Q & _) _]. discriminate Q.
Qed.
End Gen.

(** ** errors *)
Lemma error_eq_spec a b : error_eq a b = true <-> classify_error a = classify_error b.
Proof. unfold error_eq. destruct (classify_error a), (classify_error b); cbn; split; intros; congruence. Qed.
Lemma show_distinct c d : proper (ECode c) = true -> proper (ECode d) = true -> error_show (ECode c) = error_show (ECode d) -> c = d.
Proof. destruct c, d; cbn; intros H1 H2 E; try discriminate; reflexivity. Qed.

(** ** reading one structure from the command line *)
Lemma trim_decomp w : exists a t b, w = (a ++ t ++ b)%string /\ blank a /\ blank b /\ trimmed t /\ trim w = t.
Proof.
  assert (S1 : forall s, exists a t, s = (a ++ t)%string /\ blank a /\ trim_start is_ws s = t /\ (t = "" \/ exists c u, t = String c u /\ ~ whitespace c)).
  { induction s as [|c s IH]; [exists "", ""; cbn; tauto|]. cbn [trim_start]. destruct (is_ws c) eqn:E.
    - destruct IH as (a & t & -> & H1 & H2 & H3). exists (String c a), t. cbn. apply is_ws_spec in E. tauto.
    - exists "", (String c s). cbn. split; [reflexivity|]. split; [exact I|]. split; [reflexivity|]. right. exists c, s. split; auto. now apply is_ws_false. }
  assert (S2 : forall s, exists t b, s = (t ++ b)%string /\ blank b /\ trim_end is_ws s = t /\ (t = "" \/ exists u c, t = (u ++ String c "")%string /\ ~ whitespace c)).
  { induction s as [|c s IH]; [exists "", ""; cbn; tauto|]. destruct IH as (t & b & -> & H1 & H2 & H3). cbn [trim_end]. rewrite H2.
    destruct t as [|d t].
    - cbn [is_empty andb]. destruct (is_ws c) eqn:E.
      + exists "", (String c b). apply is_ws_spec in E. cbn. tauto.
      + exists (String c ""), b. split; [reflexivity|]. split; auto. split; auto. right. exists "", c. split; auto. now apply is_ws_false.
    - cbn [is_empty andb]. exists (String c (String d t)), b. split; [reflexivity|]. split; auto. split; auto. right.
      destruct H3 as [H3|(u & x & H3 & Hx)]; [discriminate|]. exists (String c u), x. rewrite H3. auto. }
  destruct (S1 w) as (a & t & -> & Ha & E & Ht). destruct (S2 t) as (u & b & -> & Hb & E2 & Hu).
  exists a, u, b. split; auto. split; auto. split; auto. unfold trim, trim_matches. rewrite E. split; auto. split; auto.
  destruct u as [|c u]; [now left|]. right. destruct Ht as [Ht|(c' & u' & Ht & Hc)]; [discriminate|]. cbn in Ht. injection Ht as <- _. eauto.
Qed.
Lemma trim_value {A} (parse : string -> outcome A) w x : parse (trim w) = Ok x <-> exists a t b, w = (a ++ t ++ b)%string /\ blank a /\ blank b /\ trimmed t /\ parse t = Ok x.
Proof.
  split.
  - intros E. destruct (trim_decomp w) as (a & t & b & H1 & H2 & H3 & H4 & H5). exists a, t, b. rewrite H5 in E. auto.
  - intros (a & t & b & -> & H1 & H2 & H3 & E). rewrite trim_ends; auto.
Qed.
Lemma read_words_spec fs : forall ws (v : vals fs), (read_words fs ws = Ok v /\ length ws = length fs) <-> word_values fs ws v.
Proof.
  induction fs as [|f fs IH]; intros [|w ws] v; cbn [read_words word_values List.length].
  - destruct v. tauto.
  - split; [intros [_ H]; discriminate|intros []].
  - split; [intros [H _]; discriminate|intros []].
  - destruct v as [x v]. cbn [fst snd]. rewrite <- (IH ws v), <- trim_value.
    destruct (f_parse f (trim w)) as [y| | |]; cbn [expect_ok bind]; try (split; [intros [H _]; discriminate|intros [H _]; discriminate]).
    destruct (read_words fs ws) as [u| | |]; cbn [bind]; try (split; [intros [H _]; discriminate|intros [_ [H _]]; discriminate]).
    split.
    + intros [H L]. injection H as -> ->. auto.
    + intros [H1 [H2 L]]. injection H1 as ->. injection H2 as ->. split; auto.
Qed.
Lemma read_words_no_err fs : forall ws e, read_words fs ws <> Err e.
Proof.
  induction fs as [|f fs IH]; intros [|w ws] e; cbn [read_words]; try discriminate.
  destruct (f_parse f (trim w)); cbn [expect_ok bind]; try discriminate.
  specialize (IH ws e). destruct (read_words fs ws); cbn [bind]; try discriminate. intros Q. injection Q as ->. now apply IH.
Qed.
Lemma vals_app_inj {a b} (x : vals a) (u v : vals b) : vals_app x u = vals_app x v -> u = v.
Proof. revert x. induction a as [|f a IH]; cbn; intros x E; auto. injection E as E. eauto. Qed.
Lemma read_vec_spec {S : scalar} (nt : numtext S) sp : In sp (all_specs nt) -> forall args,
  (length args <> a_num sp -> read_args_from_vec sp args = Err InvalidNumberOfArguments) /\
  (length args = a_num sp -> (forall v, read_args_from_vec sp args = Ok v <-> exists u, v = vals_app (a_defaults sp) u /\ word_values (a_vars sp) args u) /\
                             forall e, read_args_from_vec sp args <> Err e).
Proof.
  intros Hin args. assert (N : a_num sp = length (a_vars sp)).
  { cbn in Hin. repeat (destruct Hin as [<-|Hin]; [reflexivity|]). destruct Hin. }
  unfold read_args_from_vec. split; intros L.
  - apply Nat.eqb_neq in L. now rewrite L.
  - assert (L' := L). apply Nat.eqb_eq in L'. rewrite L'. cbn [negb]. split.
    + intros v. destruct (read_words (a_vars sp) args) as [u| | |] eqn:E; cbn [bind].
      * split.
        -- intros Q. injection Q as <-. exists u. split; auto. apply read_words_spec. split; auto; congruence.
        -- intros (u' & -> & H). apply read_words_spec in H as [H _]. rewrite E in H. injection H as ->. auto.
      * split; [discriminate|]. intros (u' & -> & H). apply read_words_spec in H as [H _]. congruence.
      * split; [discriminate|]. intros (u' & -> & H). apply read_words_spec in H as [H _]. congruence.
      * split; [discriminate|]. intros (u' & -> & H). apply read_words_spec in H as [H _]. congruence.
    + intros e. pose proof (read_words_no_err (a_vars sp) args) as H. destruct (read_words (a_vars sp) args) as [u| | |]; cbn [bind]; try discriminate.
      intros Q. now apply (H e0).
Qed.
(** The number of arguments of a simulation is never one of the numbers that select the analysis. *)
Lemma total_large {S : scalar} (nt : numtext S) sy ta ag ti si :
  In sy [circ_spec nt; cubic_spec nt; cyl_spec nt] -> In ta [bulk_spec nt] -> In ag [indep_spec nt; merge_spec nt; exp_spec nt; lj_spec nt] ->
  In ti [const_spec nt; expstep_spec nt] -> In si [varsim_spec; parsim_spec; procsim_spec nt] ->
  total_num_args [sy; ta; ag; ti; si] = (a_num sy + a_num ta + a_num ag + a_num ti + a_num si)%nat /\
  (13 <= total_num_args [sy; ta; ag; ti; si] <= 22)%nat.
Proof.
  intros H1 H2 H3 H4 H5. cbn [total_num_args fold_right]. split; [lia|].
  assert (2 <= a_num sy <= 5)%nat by (cbn in H1; destruct H1 as [<-|[<-|[<-|[]]]]; cbn; lia).
  assert (a_num ta = 2)%nat by (cbn in H2; destruct H2 as [<-|[]]; reflexivity).
  assert (3 <= a_num ag <= 6)%nat by (cbn in H3; destruct H3 as [<-|[<-|[<-|[<-|[]]]]]; cbn; lia).
  assert (2 <= a_num ti <= 4)%nat by (cbn in H4; destruct H4 as [<-|[<-|[]]]; cbn; lia).
  assert (4 <= a_num si <= 5)%nat by (cbn in H5; destruct H5 as [<-|[<-|[<-|[]]]]; cbn; lia). lia.
Qed.
