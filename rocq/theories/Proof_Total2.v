(** The analyses of vectors of times and of processes succeed on every directory of data files (C57). *)
From Coq Require Import String Ascii NArith ZArith Lia List.
From Verif Require Import Base Scalar Model_Position Model_Text Spec_Text Model_Args Spec_Args Model_Analysis Spec_Analysis Proof_Analysis Proof_Analysis2 Proof_Analysis3 Proof_Analysis7 Proof_Analysis9
  Model_Run Model_Program Spec_Program Proof_Program Proof_Program3 Model_Program2 Spec_Program2 Proof_Program7 Proof_Program8 Proof_Total.
Import ListNotations.
Local Open Scope nat_scope.
Local Open Scope list_scope.
Local Notation length := List.length.
Local Notation concat := List.concat.

Section Succeeds.
Context {S : scalar} (nt : numtext S) (r : S -> S) (F : faithful nt) (RR : rereads nt r) (show_e : S -> string).

Lemma report_ok {A : Type} {specs} (values : all_args specs -> list S) (o : outcome (list (all_args specs * A))) x : report values o = Ok x -> exists gs, o = Ok gs.
Proof. destruct o; try discriminate. eauto. Qed.

(** The two distributions of every group are written, from some [fuel] on always the same. *)
Lemma kind_files_ok {A : Type} (lin lg : nat -> A -> outcome string) dir (gs : list (string * A)) :
  (forall g, In g gs -> exists N t1 t2, forall fuel, N < fuel -> lin fuel (snd g) = Ok t1 /\ lg fuel (snd g) = Ok t2) ->
  exists N fs, forall fuel, N < fuel -> kind_files (lin fuel) (lg fuel) dir gs = Ok fs.
Proof. induction gs as [|[n a] gs IH]; intros H; [exists 0, []; reflexivity|].
  destruct (H (n, a) (or_introl eq_refl)) as (N1 & t1 & t2 & H1). destruct IH as (N2 & fs & H2); [intros g Hg; apply H; now right|].
  exists (Nat.max N1 N2). eexists. intros fuel Hf. cbn [kind_files]. cbn [snd] in H1. destruct (H1 fuel) as [-> ->]; [lia|]. cbn [bind]. rewrite H2 by lia. cbn [bind]. reflexivity. Qed.

Lemma vec_succeeds sip dir nvar req (mn mx size lsize : S) (a0 : tvec S) files texts : nvar <> 0 -> bin_sizes req = Ok (mn, mx, size, lsize) ->
  tv_fresh mn mx size lsize nvar = Ok a0 ->
  (forall rows, Forall (fun row => length row = nvar) rows -> exists a, tv_adds a0 rows = Ok a) ->
  (forall rows a d, Forall (fun row => length row = nvar) rows -> rows <> [] -> tv_adds a0 rows = Ok a -> tv_draw a = Ok d ->
     exists N l1 l2, forall fuel, N < fuel -> tv_export_lin fuel d = Ok l1 /\ tv_export_log fuel d = Ok l2) ->
  Forall2 (directory_file nt (exp_structs nt) varsim_spec exp_width (vector_line nt)) files texts ->
  (forall v s xs x, In (Some (v, s, xs)) files -> In x xs -> length x = nvar) ->
  exists N out, forall fuel, N < fuel -> vec_analyze nt show_e fuel sip dir nvar req texts = Ok out.
Proof.
  intros Hn B Fr T X H W.
  assert (G : exists gs, vec_groups nt sip nvar req texts = Ok gs).
  { unfold vec_groups. rewrite B. cbn [bind].
    destruct (tv_analyze_ok sip mn mx size lsize nvar a0 Hn Fr T (map (as_read (exp_values nt) (map r)) files)) as [y Ey].
    { intros ds rows Hi. apply in_map_iff in Hi. destruct Hi as ([((v, s), xs)|] & E & Hi); cbn in E; [|discriminate]. injection E as _ <-.
      apply Forall_forall. intros z Hz. apply in_map_iff in Hz. destruct Hz as (x & <- & Hx). rewrite map_length. exact (W v s xs x Hi Hx). }
    eapply report_ok. exact (eq_trans (vector_files nt r (exp_structs nt) varsim_spec exp_width (exp_values nt) sip mn mx size lsize F RR (exp_known nt) nvar files texts H) Ey). }
  destruct G as (gs & Eg). unfold vec_analyze. rewrite Eg. cbn [bind]. rewrite labels_are. unfold kind_results.
  destruct (kind_files_ok (fun fuel a => do rows <- tv_export_lin fuel a; Ok (vec_dist_text show_e exp_width rows)) (fun fuel a => do rows <- tv_export_log fuel a; Ok (vec_dist_text show_e exp_width rows)) dir
     (map (fun g => (fst (fst g), snd g)) (map (fun g => (group_name nt (fst g), exp_entries nt (fst g), snd g)) gs))) as (N & fs & HN).
  - intros g Hg. rewrite map_map in Hg. apply in_map_iff in Hg. destruct Hg as ((v, a) & <- & Hv). cbn [fst snd].
    unfold vec_groups in Eg. rewrite B in Eg. cbn [bind] in Eg.
    destruct (dir_groups nt (exp_structs nt) varsim_spec exp_width (exp_values nt) sip _ (tv_text_line nt) tv_add tv_draw _ (vector_line nt) (map r) (vector_line_ok nt r RR) files texts gs F (exp_known nt) H Eg) as (G1 & _).
    destruct (G1 v a Hv) as (_ & f & a1 & Ef & Ea & Ee & Ed). rewrite Fr in Ef. injection Ef as <-. rewrite vec_lines in Ea.
    destruct (vec_stat _ _ _ _ _ _ _ _ _ Hn Fr Ea Ed) as (Y1 & _).
    destruct (X _ a1 a Y1) as (N & l1 & l2 & HX); [|exact Ea|exact Ed|].
    + intros En. rewrite En in Ea. cbn [tv_adds] in Ea. injection Ea as <-. apply Nat.eqb_neq in Ee. apply Ee.
      clear - Fr. unfold tv_fresh in Fr. destruct (from_bin_size _ _ _ _); cbn [bind] in Fr; try discriminate. unfold tv_allocate in Fr. cbv zeta in Fr.
      repeat (match type of Fr with context [alloc ?x ?y] => destruct (alloc x y); cbn [bind] in Fr; try discriminate end). injection Fr as <-. reflexivity.
    + exists N. do 2 eexists. intros fuel Hf. destruct (HX fuel Hf) as [-> ->]. cbn [bind]. split; reflexivity.
  - exists N. eexists. intros fuel Hf. rewrite HN by exact Hf. cbn [bind]. reflexivity.
Qed.

Lemma proc_succeeds sip dir req (mn mx size lsize : S) (a0 : pana S) files texts : bin_sizes req = Ok (mn, mx, size, lsize) ->
  pa_fresh mn mx size lsize = Ok a0 -> (forall ls, exists a, add_lines pa_line a0 ls = Ok a) ->
  (forall ls a d, add_lines pa_line a0 ls = Ok a -> pa_draw a = Ok d ->
     exists N l1 l2, forall fuel, N < fuel -> pa_export_lin fuel d = Ok l1 /\ pa_export_log fuel d = Ok l2) ->
  Forall2 (directory_file nt (exp_structs nt) varsim_spec exp_width (process_line nt)) files texts ->
  exists N out, forall fuel, N < fuel -> proc_analyze nt show_e fuel sip dir req texts = Ok out.
Proof.
  intros B Fr T X H.
  assert (G : exists gs, proc_groups nt sip req texts = Ok gs).
  { unfold proc_groups. rewrite B. cbn [bind].
    destruct (pa_analyze_ok sip mn mx size lsize a0 Fr T (map (as_read (exp_values nt) (map (both r))) files)) as [y Ey].
    eapply report_ok. exact (eq_trans (process_files nt r (exp_structs nt) varsim_spec exp_width (exp_values nt) sip mn mx size lsize F RR (exp_known nt) files texts H) Ey). }
  destruct G as (gs & Eg). unfold proc_analyze. rewrite Eg. cbn [bind]. rewrite labels_are. unfold kind_results.
  destruct (kind_files_ok (fun fuel a => do rows <- pa_export_lin fuel a; Ok (proc_dist_text show_e exp_width rows)) (fun fuel a => do rows <- pa_export_log fuel a; Ok (proc_dist_text show_e exp_width rows)) dir
     (map (fun g => (fst (fst g), snd g)) (map (fun g => (group_name nt (fst g), exp_entries nt (fst g), snd g)) gs))) as (N & fs & HN).
  - intros g Hg. rewrite map_map in Hg. apply in_map_iff in Hg. destruct Hg as ((v, a) & <- & Hv). cbn [fst snd].
    unfold proc_groups in Eg. rewrite B in Eg. cbn [bind] in Eg.
    destruct (dir_groups nt (exp_structs nt) varsim_spec exp_width (exp_values nt) sip _ (pa_text_line nt) pa_line pa_draw _ (process_line nt) (map (both r)) (process_line_ok nt r F RR) files texts gs F (exp_known nt) H Eg) as (G1 & _).
    destruct (G1 v a Hv) as (_ & f & a1 & Ef & Ea & Ee & Ed). rewrite Fr in Ef. injection Ef as <-.
    destruct (X _ a1 a Ea Ed) as (N & l1 & l2 & HX).
    exists N. do 2 eexists. intros fuel Hf. destruct (HX fuel Hf) as [-> ->]. cbn [bind]. split; reflexivity.
  - exists N. eexists. intros fuel Hf. rewrite HN by exact Hf. cbn [bind]. reflexivity.
Qed.
End Succeeds.
