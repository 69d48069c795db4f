(** Proofs about sequences of calls on one disk. *)
From Coq Require Import String Ascii NArith ZArith List Lia Permutation.
From Verif Require Import Base Scalar Model_LinkedList Model_Position Model_System Spec_System Model_Agent Spec_Agent Model_Time Model_Text Spec_Text Proof_Text Proof_Text3 Proof_Text4
  Model_Args Spec_Args Proof_Args Proof_Args2 Proof_Args3 Model_Analysis Spec_Analysis Model_Run Spec_Run Spec_Run2 Model_Program Spec_Program
  Proof_Program Proof_Program2 Proof_Program3 Proof_Program4 Model_Disk Spec_Disk.
Import ListNotations.
Local Open Scope nat_scope.
Local Open Scope string_scope.
Local Open Scope list_scope.
Local Notation length := List.length.

(** ** Paths *)
Lemma after_app p s : after p (p ++ s)%string = Some s.
Proof. induction p as [|c p IH]; [reflexivity|]. cbn [append after]. now rewrite Ascii.eqb_refl. Qed.
Lemma after_some p : forall s r, after p s = Some r -> s = (p ++ r)%string.
Proof.
  induction p as [|c p IH]; intros s r; [cbn; now intros [= ->]|]. destruct s as [|b s]; [discriminate|]. cbn [after]. destruct (Ascii.eqb_spec c b) as [<-|]; [|discriminate].
  intros E. apply IH in E. now rewrite E.
Qed.
Lemma has_app c a b : has_char c (a ++ b)%string = has_char c a || has_char c b.
Proof. induction a as [|x a IH]; [reflexivity|]. cbn [append has_char]. now rewrite IH, Bool.orb_assoc. Qed.
Lemma no_char c s : all_chars (fun x => x <> c) s -> has_char c s = false.
Proof. induction s as [|x s IH]; [reflexivity|]. intros [H1 H2]. cbn [has_char]. rewrite (IH H2). now destruct (Ascii.eqb_spec x c). Qed.
(** A path in front of the last slash. *)
Lemma behind_slash b : forall a n m, has_char "/" n = false -> (a ++ "/" ++ n)%string = (b ++ "/" ++ m)%string -> exists x, a = (b ++ x)%string.
Proof.
  induction b as [|c b IH]; intros a n m H E; [now exists a|]. destruct a as [|c' a].
  - exfalso. cbn [append] in E. injection E as <- E. rewrite E in H. rewrite has_app in H. cbn in H. rewrite Bool.orb_true_r in H. discriminate.
  - cbn [append] in E. injection E as <- E. destruct (IH a n m H E) as (x & ->). now exists x.
Qed.
Lemma one_dir a b n m : has_char "/" n = false -> has_char "/" m = false -> (a ++ "/" ++ n)%string = (b ++ "/" ++ m)%string -> a = b.
Proof.
  revert b. induction a as [|c a IH]; intros b Hn Hm E; destruct b as [|c' b]; [reflexivity| | |].
  - exfalso. cbn [append] in E. injection E as <- E. rewrite E, has_app in Hn. cbn in Hn. rewrite Bool.orb_true_r in Hn. discriminate.
  - exfalso. cbn [append] in E. injection E as -> E. rewrite <- E, has_app in Hm. cbn in Hm. rewrite Bool.orb_true_r in Hm. discriminate.
  - cbn [append] in E. injection E as <- E. f_equal. now apply IH.
Qed.
Lemma directly_iff dir path : directly_in dir path = true <-> exists n, path = (dir ++ "/" ++ n)%string /\ has_char "/" n = false.
Proof.
  unfold directly_in. split.
  - destruct (after _ path) as [n|] eqn:E; [|discriminate]. intros H. apply after_some in E. exists n. rewrite app_s_assoc in E. split; [exact E|]. now apply Bool.negb_true_iff.
  - intros (n & -> & H). rewrite <- app_s_assoc, after_app, H. reflexivity.
Qed.

Section Disk.
Context {S : scalar} {G : rng S} (nt : numtext S) (as_u128 : S -> N) (rng_seed : N -> rstate G) (inner place_fuel fuel : nat) (show_e : S -> string) (sip : list Z -> Z).
Hypothesis F : faithful nt.

(** The file name of a run has no slash. *)
Lemma number_no_slash s : number_word s -> has_char "/" s = false.
Proof. intros [_ H]. apply no_char. revert H. apply all_impl. intros c Hc ->. unfold number_char in Hc. cbn in Hc. lia. Qed.
Lemma run_name (p : settings S) : exists n, run_path nt p = (p_dir p ++ "/" ++ n)%string /\ has_char "/" n = false.
Proof.
  unfold run_path. cbv zeta. eexists. split; [reflexivity|].
  assert (Hs : forall x, has_char "/" (n_show nt x) = false) by (intros x; apply number_no_slash, (F x)).
  assert (Hi : forall n, has_char "/" (show_usize n) = false) by (intros n; apply number_no_slash, show_usize_word).
  rewrite !has_app, !Hs, !Hi. reflexivity.
Qed.
Lemma run_inside dir (p : settings S) : directly_in dir (run_path nt p) = String.eqb (p_dir p) dir.
Proof.
  destruct (run_name p) as (n & E & Hn). destruct (String.eqb_spec (p_dir p) dir) as [<-|N].
  - apply directly_iff. eauto.
  - destruct (directly_in dir (run_path nt p)) eqn:D; [|reflexivity]. exfalso. apply directly_iff in D as (m & E' & Hm). rewrite E in E'. exact (N (one_dir _ _ _ _ Hn Hm E')).
Qed.
(** Files of an analysis. *)
Lemma summary_outside dir dir' summary name : (forall a x, dir <> a ++ "/analysis_" ++ x)%string -> summary_for dir' summary -> directly_in dir (path_in summary name) = false.
Proof.
  intros N (date & ->). destruct (directly_in dir _) eqn:D; [|reflexivity]. exfalso. apply directly_iff in D as (n & E & Hn). unfold path_in in E.
  symmetry in E. destruct (behind_slash _ _ _ _ Hn E) as (x & Ex). apply (N dir' (date ++ x)%string). rewrite Ex, !app_s_assoc. reflexivity.
Qed.

(** ** The files of one directory *)
Definition entries (dir : string) (d : disk) : disk := filter (fun f => directly_in dir (fst f)) d.
Lemma filter_filter {X} (f g : X -> bool) l : filter f (filter g l) = filter g (filter f l).
Proof. induction l as [|x l IH]; [reflexivity|]. cbn. destruct (f x) eqn:E1, (g x) eqn:E2; cbn; rewrite ?E1, ?E2, IH; reflexivity. Qed.
Lemma entries_put dir d f : entries dir (put d f) = if directly_in dir (fst f) then f :: filter (fun g => negb (String.eqb (fst g) (fst f))) (entries dir d) else entries dir d.
Proof.
  unfold entries, put. cbn [filter]. destruct (directly_in dir (fst f)) eqn:D; [now rewrite filter_filter|]. rewrite filter_filter.
  induction d as [|g d IH]; [reflexivity|]. cbn [filter]. destruct (directly_in dir (fst g)) eqn:Dg; [|exact IH]. cbn [filter]. rewrite IH.
  destruct (String.eqb_spec (fst g) (fst f)) as [E|]; [rewrite E in Dg; congruence|reflexivity].
Qed.
Lemma entries_puts dir fs : Forall (fun f => directly_in dir (fst f) = false) fs -> forall d, entries dir (fold_left put fs d) = entries dir d.
Proof. induction 1 as [|f fs H _ IH]; intros d; [reflexivity|]. cbn [fold_left]. rewrite IH, entries_put, H. reflexivity. Qed.

(** ** Values and texts of runs *)
Definition run_times (p : settings S) : list S :=
  match run_seed as_u128 (p_seed p) (run_hash p) with
  | Ok sd => fst (fst (mfpt_exp (diff_next es_next es_dt) inner place_fuel fuel (p_num p) (circ_core (the_system p)) (p_dim p) (the_target p) (the_args p)
                         (exp_limit (p_tsize p) (p_gamma p)) (run_clock p) (rng_seed sd)))
  | _ => []
  end.
Definition run_head (p : settings S) : string :=
  match file_header (exp_specs nt) exp_width (join_args (exp_structs nt) (data_part nt p) (sim_part p)) with Ok h => h | _ => "" end.
Lemma head_is p : writable p -> file_header (exp_specs nt) exp_width (join_args (exp_structs nt) (data_part nt p) (sim_part p)) = Ok (run_head p).
Proof. intros W. destruct (header_is nt p F W) as (h & E). unfold run_head. change (exp_specs nt) with (exp_structs nt ++ [varsim_spec]). now rewrite E. Qed.
Lemma run_writes p : writable p -> accepted p -> exists o,
  exp_program nt as_u128 rng_seed inner place_fuel fuel (data_part nt p) (sim_part p) = RunResult (Some (run_path nt p, run_head p ++ lines_text (map (n_sci nt) (run_times p)))%string) o.
Proof.
  intros W A. pose proof (head_is p W) as Hh. unfold run_times. destruct (run_seed as_u128 (p_seed p) (run_hash p)) as [sd|e| |] eqn:Hs.
  - destruct (mfpt_exp _ _ _ _ _ _ _ _ _ _ _ _) as [[ts g] o] eqn:Hm. exists o. cbn [fst]. rewrite <- data_lines. eapply program_eq; eauto.
  - unfold run_seed in Hs. destruct (_ <=? _)%N in Hs; discriminate.
  - exists Panic. rewrite (program_stops nt as_u128 rng_seed p inner place_fuel fuel (run_head p) A Hh Hs). cbn [map lines_text fold_right]. now rewrite app_s_nil.
  - unfold run_seed in Hs. destruct (_ <=? _)%N in Hs; discriminate.
Qed.
Lemma writes_hold p : writable p -> accepted p -> writes_values nt as_u128 rng_seed inner place_fuel fuel p (run_times p).
Proof. intros W A. destruct (run_writes p W A) as (o & E). exists (run_head p), o. split; [now apply head_is|exact E]. Qed.

Lemma keep_end n a r : without line_feed a -> keep_lines (Datatypes.S n) (a ++ newline ++ r)%string = (a ++ newline ++ keep_lines n r)%string.
Proof.
  induction a as [|c a IH]; intros H; [reflexivity|]. destruct H as [Hc H]. cbn [append keep_lines]. destruct (Ascii.eqb_spec c (ascii_of_nat 10)) as [->|_]; [now destruct Hc|]. f_equal. now apply IH.
Qed.
Lemma keep_values ts : forall n, keep_lines n (lines_text (map (n_sci nt) ts)) = lines_text (map (n_sci nt) (firstn n ts)).
Proof.
  induction ts as [|t ts IH]; intros [|n]; [reflexivity|reflexivity|generalize (lines_text (map (n_sci nt) (t :: ts))); intros x; now destruct x|]. cbn [map firstn]. unfold lines_text. cbn [fold_right].
  rewrite keep_end by apply (sci_chars nt F). fold (lines_text (map (n_sci nt) ts)). now rewrite IH.
Qed.
(** The text a run leaves. *)
Definition left_text (e : settings S * fate) : string :=
  match snd e with
  | Finished => run_head (fst e) ++ lines_text (map (n_sci nt) (run_times (fst e)))
  | KilledAfter n => run_head (fst e) ++ lines_text (map (n_sci nt) (firstn n (run_times (fst e))))
  | _ => ""
  end%string.
Lemma left_is_file p how : writable p -> accepted p ->
  directory_file nt (exp_structs nt) varsim_spec exp_width (number_line nt) (left_by nt run_times (p, how)) (left_text (p, how)).
Proof.
  intros W A. assert (X : forall ts, directory_file nt (exp_structs nt) varsim_spec exp_width (number_line nt) (Some (data_part nt p, sim_part p, ts)) (run_head p ++ lines_text (map (n_sci nt) ts))%string).
  { intros ts. constructor; [now apply settings_survive|now apply head_is|]. clear. induction ts; constructor; auto. reflexivity. }
  assert (Y : directory_file nt (exp_structs nt) varsim_spec exp_width (number_line nt) None "") by (econstructor; apply short_file; cbn; lia).
  destruct how; [apply X|exact Y|exact Y|apply X].
Qed.
End Disk.
