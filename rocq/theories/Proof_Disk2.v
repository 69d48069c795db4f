(** The directory after a sequence of calls. *)
From Coq Require Import String Ascii NArith ZArith List Lia Permutation.
From Verif Require Import Base Scalar Model_LinkedList Model_Position Model_System Spec_System Model_Agent Spec_Agent Model_Time Model_Text Spec_Text Proof_Text Proof_Text3 Proof_Text4
  Model_Args Spec_Args Proof_Args Proof_Args2 Proof_Args3 Model_Analysis Spec_Analysis Model_Run Spec_Run Spec_Run2 Model_Program Spec_Program
  Proof_Program Proof_Program2 Proof_Program3 Proof_Program4 Model_Disk Spec_Disk Proof_Disk.
Import ListNotations.
Local Open Scope nat_scope.
Local Open Scope string_scope.
Local Open Scope list_scope.
Local Notation length := List.length.

Section Disk.
Context {S : scalar} {G : rng S} (nt : numtext S) (as_u128 : S -> N) (rng_seed : N -> rstate G) (inner place_fuel fuel : nat) (show_e : S -> string) (sip : list Z -> Z).
Hypothesis F : faithful nt.
Local Notation times := (run_times as_u128 rng_seed inner place_fuel fuel).
Local Notation text := (left_text nt as_u128 rng_seed inner place_fuel fuel).
Local Notation process := (process nt as_u128 rng_seed inner place_fuel fuel show_e sip).
Local Notation history := (history nt as_u128 rng_seed inner place_fuel fuel show_e sip).
Local Notation main := (exp_main nt as_u128 rng_seed inner place_fuel fuel show_e sip).

(** ** One call *)
Lemma group_paths w dir gs : forall fs, group_files show_e w dir gs = Ok fs -> Forall (fun f => exists name, fst f = path_in dir name) fs.
Proof.
  induction gs as [|[n a] gs IH]; intros fs E; cbn [group_files] in E; [injection E as <-; constructor|].
  destruct (ta_export_lin a) as [lin| | |]; try discriminate E. cbn [bind] in E. destruct (ta_export_log a) as [lg| | |]; try discriminate E. cbn [bind] in E.
  destruct (group_files show_e w dir gs) as [rest| | |]; try discriminate E. cbn [bind] in E.
  assert (X : forall x y : list (string * string), Ok x = Ok y -> x = y) by congruence. apply X in E. subst fs. repeat constructor; cbn [fst]; eauto.
Qed.
Lemma analyze_paths dir req texts fs : exp_analyze nt show_e sip dir req texts = Ok fs -> Forall (fun f => exists name, fst f = path_in dir name) fs.
Proof.
  unfold exp_analyze. destruct (exp_groups nt sip req texts) as [gs| | |]; try discriminate. cbn [bind]. destruct (name_groups nt gs) as [l|]; try discriminate. unfold result_files.
  destruct (group_files _ _ _ _) as [r| | |] eqn:Eg; try discriminate. cbn [bind]. intros E.
  assert (X : forall x y : list (string * string), Ok x = Ok y -> x = y) by congruence. apply X in E. subst fs. constructor; [cbn [fst]; eauto|]. eapply group_paths. exact Eg.
Qed.
(** Another number of words than 18: files in the directory of an analysis. *)
Lemma setup_counts args v : setup false exp_skip analysis_num_args (exp_specs nt) args = Ok (Simulate v) -> length args = 19.
Proof.
  unfold setup. destruct (Nat.ltb_spec (length args) exp_skip) as [|H]; [discriminate|]. cbv zeta. destruct (_ || _)%bool.
  - destruct (slice _ _ _); cbn [bind]; discriminate.
  - destruct (Nat.eqb_spec (length args - exp_skip) (total_num_args (exp_specs nt))) as [E|]; cbn [negb]; [|discriminate]. intros _.
    change (total_num_args (exp_specs nt)) with 18 in E. unfold exp_skip in *. lia.
Qed.
Lemma other_call dir d ws prog how d' : (forall a x, dir <> a ++ "/analysis_" ++ x)%string -> length ws <> 18 -> process d (prog :: ws) how d' -> entries dir d' = entries dir d.
Proof.
  intros N L P. assert (K : forall v, setup false exp_skip analysis_num_args (exp_specs nt) (prog :: ws) <> Ok (Simulate v)).
  { intros v E. apply setup_counts in E. cbn in E. lia. }
  assert (Q : forall dir' summary fs, summary_for dir' summary -> Forall (fun f : string * string => exists name, fst f = path_in summary name) fs -> entries dir (fold_left put fs d) = entries dir d).
  { intros dir' summary fs Hs Hf. apply entries_puts. revert Hf. apply Forall_impl. intros f (name & ->). eapply summary_outside; eauto. }
  destruct P as [texts summary fs o _ Hsum E|a req dir' summary fs how Ea Er Hs Hf| |v path t o texts summary E|v path head body o n texts summary E].
  - unfold exp_main in E. destruct (setup _ _ _ _ _) as [[a|v]| | |] eqn:Es; try (injection E as <- _; reflexivity); [|exfalso; exact (K v eq_refl)].
    destruct (analyze_args nt a) as [[req dir']| | |]; cbn [bind] in E; try (injection E as <- _; reflexivity).
    destruct (exp_analyze _ _ _ _ _ _) as [fs'| | |] eqn:Ex; try (injection E as <- _; reflexivity).
    assert (X : forall (x y : list (string * string)) (z z' : outcome unit), (x, z) = (y, z') -> x = y) by congruence. apply X in E. subst fs'.
    eapply Q; [apply (Hsum dir')|]. eapply analyze_paths. exact Ex.
  - eapply Q; eauto.
  - reflexivity.
  - now apply K in E.
  - now apply K in E.
Qed.
(** A run of the directory. *)
Lemma run_call dir d p ws prog how d' : (p_dir p = dir -> writable p /\ accepted p) -> command nt p ws -> process d (prog :: ws) how d' ->
  entries dir d' = if String.eqb (p_dir p) dir then match how with KilledFirst => entries dir d | _ => (run_path nt p, text (p, how)) :: filter (fun g => negb (String.eqb (fst g) (run_path nt p))) (entries dir d) end
                   else entries dir d.
Proof.
  intros WA C P. pose proof (run_inside nt F dir p) as I.
  pose proof (command_reads nt p ws prog C) as Es.
  assert (Em : forall texts summary fs o, main texts summary (prog :: ws) = (fs, o) -> fs = match rr_file (exp_program nt as_u128 rng_seed inner place_fuel fuel (data_part nt p) (sim_part p)) with Some f => [f] | None => [] end).
  { intros texts summary fs o E. rewrite (main_runs nt as_u128 rng_seed p ws prog inner place_fuel fuel show_e sip texts summary C) in E. cbv zeta in E.
    assert (X : forall (x y : list (string * string)) (z z' : outcome unit), (x, z) = (y, z') -> y = x) by congruence. apply X in E. exact E. }
  (* the path of the file, whatever the settings *)
  assert (Pa : forall path t, rr_file (exp_program nt as_u128 rng_seed inner place_fuel fuel (data_part nt p) (sim_part p)) = Some (path, t) -> path = run_path nt p).
  { intros path t. destruct (path_is nt p) as (name & En & Ep). unfold exp_program. cbv beta iota zeta delta [data_part sys_part target_part agent_part clock_part sim_part] in *. rewrite En.
    destruct (bind _ _) as [[[sys clock] head]| | |]; try discriminate. destruct (negb _); [intros [= <- _]; exact Ep|].
    destruct (run_seed _ _ _) as [sd| | |]; try (intros [= <- _]; exact Ep). destruct (mfpt_exp _ _ _ _ _ _ _ _ _ _ _ _) as [[ts g] o]. intros [= <- _]. exact Ep. }
  destruct (String.eqb_spec (p_dir p) dir) as [Ed|Nd].
  - destruct (WA Ed) as [W A]. destruct (run_writes nt as_u128 rng_seed inner place_fuel fuel F p W A) as (o0 & Ew). rewrite Ew in Em, Pa. cbn [rr_file] in Em, Pa.
    destruct P as [texts summary fs o _ _ E|a req dir' summary fs how Ea Er Hs Hf| |v path t o texts summary E1 E2|v path head body o n texts summary E1 E2 E3].
    + apply Em in E. subst fs. cbn [fold_left]. rewrite entries_put. cbn [fst]. rewrite I. reflexivity.
    + rewrite Es in Ea. discriminate.
    + reflexivity.
    + apply Em in E2. injection E2 as -> _. rewrite entries_put. cbn [fst]. rewrite I. reflexivity.
    + apply Em in E2. assert (X : forall (a b a' b' : string), [(a, b)] = [(a', b')] -> a = a' /\ b = b') by (intros; split; congruence). apply X in E2 as [-> E2].
      rewrite Es in E1. assert (Y : forall (x y : all_args (exp_specs nt)), Ok (Simulate x) = Ok (Simulate y) -> y = x) by congruence. apply Y in E1. subst v.
      pose proof (head_is nt F p W) as Eh. change (join_args (exp_structs nt) (data_part nt p) (sim_part p)) with (sys_part nt p, (target_part nt p, (agent_part nt p, (clock_part nt p, (sim_part p, tt))))) in Eh.
      rewrite Eh in E3. assert (Z : forall x y : string, Ok x = Ok y -> y = x) by congruence. apply Z in E3. subst head. apply app_s_inv in E2. subst body.
      rewrite entries_put. cbn [fst]. rewrite I. unfold left_text. cbn [fst snd]. rewrite keep_values by exact F. reflexivity.
  - assert (Q : forall path t, rr_file (exp_program nt as_u128 rng_seed inner place_fuel fuel (data_part nt p) (sim_part p)) = Some (path, t) -> forall t', entries dir (put d (path, t')) = entries dir d).
    { intros path t E t'. apply Pa in E. subst path. rewrite entries_put. cbn [fst]. now rewrite I. }
    destruct P as [texts summary fs o _ _ E|a req dir' summary fs how Ea Er Hs Hf| |v path t o texts summary E1 E2|v path head body o n texts summary E1 E2 E3].
    + apply Em in E. destruct (rr_file _) as [[path t]|]; subst fs; cbn [fold_left]; [|reflexivity]. eapply Q. reflexivity.
    + rewrite Es in Ea. discriminate.
    + reflexivity.
    + apply Em in E2. destruct (rr_file _) as [[path' t']|]; [|discriminate]. assert (path = path') by congruence. subst path'. eapply Q. reflexivity.
    + apply Em in E2. destruct (rr_file _) as [[path' t']|]; [|discriminate]. assert (path = path') by congruence. subst path'. eapply Q. reflexivity.
Qed.

(** ** All calls *)
Definition file (e : settings S * fate) : string * string := (run_path nt (fst e), text e).
Definition update (acc : list (settings S * fate)) (e : settings S * fate) : list (settings S * fate) :=
  e :: filter (fun e' => negb (String.eqb (run_path nt (fst e')) (run_path nt (fst e)))) acc.
Lemma filter_map {X Y} (f : X -> Y) (g : Y -> bool) l : filter g (map f l) = map f (filter (fun x => g (f x)) l).
Proof. induction l as [|x l IH]; [reflexivity|]. cbn. rewrite IH. now destruct (g (f x)). Qed.
Lemma history_entries dir d es d' : (forall a x, dir <> a ++ "/analysis_" ++ x)%string -> (forall p how, In (Run p how) es -> p_dir p = dir -> writable p /\ accepted p) ->
  history d es d' -> forall acc, entries dir d = map file acc -> entries dir d' = map file (fold_left update (runs_into dir es) acc).
Proof.
  intros N WA H. induction H as [d|d p how ws prog d1 es d2 C P H IH|d ws how prog d1 es d2 L P H IH]; intros acc E.
  - exact E.
  - pose proof (run_call dir d p ws prog how d1 (fun Hd => WA p how (or_introl eq_refl) Hd) C P) as E1. cbn [runs_into].
    assert (WA' : forall p how, In (Run p how) es -> p_dir p = dir -> writable p /\ accepted p) by (intros q h Hq; apply (WA q h); now right).
    destruct (String.eqb (p_dir p) dir); [|apply (IH WA'); now rewrite E1].
    assert (U : (run_path nt p, text (p, how)) :: filter (fun g => negb (String.eqb (fst g) (run_path nt p))) (entries dir d) = map file (update acc (p, how))).
    { rewrite E, filter_map. reflexivity. }
    rewrite U in E1. destruct how; cbn [fold_left]; apply (IH WA'); rewrite ?E1; auto.
  - rewrite (IH (fun q h Hq => WA q h (or_intror Hq)) acc); [reflexivity|]. rewrite <- E. eapply other_call; eauto.
Qed.
Lemma surviving_perm l : forall acc, Permutation (fold_left update l acc)
  (surviving nt l ++ filter (fun e => negb (existsb (fun e' => String.eqb (run_path nt (fst e')) (run_path nt (fst e))) l)) acc).
Proof.
  induction l as [|e l IH]; intros acc; cbn [fold_left surviving existsb].
  - cbn. clear. induction acc as [|x acc IH]; cbn; auto.
  - rewrite IH. unfold update at 1. cbn [filter].
    assert (X : filter (fun e0 => negb (existsb (fun e' => String.eqb (run_path nt (fst e')) (run_path nt (fst e0))) l)) (filter (fun e' => negb (String.eqb (run_path nt (fst e')) (run_path nt (fst e)))) acc) =
                filter (fun e0 => negb (String.eqb (run_path nt (fst e)) (run_path nt (fst e0)) || existsb (fun e' => String.eqb (run_path nt (fst e')) (run_path nt (fst e0))) l)) acc).
    { clear. induction acc as [|x acc IH]; [reflexivity|]. cbn [filter]. rewrite (String.eqb_sym (run_path nt (fst e)) (run_path nt (fst x))).
      destruct (String.eqb (run_path nt (fst x)) (run_path nt (fst e))); cbn [negb orb filter]; [exact IH|]. now rewrite IH. }
    rewrite X. destruct (existsb _ l) eqn:Ex; cbn [negb]; [reflexivity|]. rewrite <- Permutation_middle. reflexivity.
Qed.
Lemma runs_in dir (es : list (event S)) (p : settings S) how : In (p, how) (runs_into dir es) -> In (Run p how) es /\ p_dir p = dir.
Proof.
  induction es as [|[q h|ws h] es IH]; cbn [runs_into]; [intros []| |intros H; apply IH in H as []; split; auto; now right].
  destruct (String.eqb_spec (p_dir q) dir) as [Ed|]; [|intros H; apply IH in H as []; split; auto; now right].
  destruct h; (intros H; try (apply IH in H as []; split; auto; now right)); (destruct H as [[= <- <-]|H]; [split; auto; now left|apply IH in H as []; split; auto; now right]).
Qed.
Lemma surviving_in l e : In e (surviving nt l) -> In e l.
Proof. induction l as [|x l IH]; [intros []|]. cbn [surviving]. destruct (existsb _ l); cbn; intros H; [right; auto|destruct H; auto]. Qed.

Lemma files_after dir d es d' : (forall a x, dir <> a ++ "/analysis_" ++ x)%string -> files_in dir d = [] ->
  (forall p how, In (Run p how) es -> p_dir p = dir -> writable p /\ accepted p) -> history d es d' -> Permutation (files_in dir d') (map text (surviving nt (runs_into dir es))).
Proof.
  intros N E0 WA H. assert (E : entries dir d = map file []) by (unfold files_in in E0; unfold entries; destruct (filter _ d); [reflexivity|discriminate]).
  pose proof (history_entries dir d es d' N WA H [] E) as E1. pose proof (surviving_perm (runs_into dir es) []) as PS. cbn [filter] in PS. rewrite app_nil_r in PS.
  rewrite <- PS. unfold files_in. fold (entries dir d'). rewrite E1, map_map. reflexivity.
Qed.
Lemma runs_app dir (es fs : list (event S)) : runs_into dir (es ++ fs) = runs_into dir es ++ runs_into dir fs.
Proof. induction es as [|[q h|ws h] es IH]; [reflexivity| |exact IH]. cbn [app runs_into]. destruct (String.eqb (p_dir q) dir); [|exact IH]. rewrite IH. destruct h; reflexivity. Qed.
(** A run that is done again later does not count. *)
Lemma surviving_again l p how l2 l3 : surviving nt (l ++ (p, how) :: l2 ++ (p, Finished) :: l3) = surviving nt (l ++ l2 ++ (p, Finished) :: l3).
Proof.
  induction l as [|e l IH].
  - cbn [app surviving]. rewrite existsb_app. cbn [existsb fst]. rewrite String.eqb_refl. cbn. now rewrite Bool.orb_true_r.
  - cbn [app surviving]. rewrite IH. rewrite !existsb_app. cbn [existsb]. rewrite !existsb_app. cbn [existsb fst]. 
    replace (existsb (fun e' => String.eqb (run_path nt (fst e')) (run_path nt (fst e))) l || (String.eqb (run_path nt p) (run_path nt (fst e)) ||
      (existsb (fun e' => String.eqb (run_path nt (fst e')) (run_path nt (fst e))) l2 || (String.eqb (run_path nt p) (run_path nt (fst e)) || existsb (fun e' => String.eqb (run_path nt (fst e')) (run_path nt (fst e))) l3))))%bool
    with (existsb (fun e' => String.eqb (run_path nt (fst e')) (run_path nt (fst e))) l ||
      (existsb (fun e' => String.eqb (run_path nt (fst e')) (run_path nt (fst e))) l2 || (String.eqb (run_path nt p) (run_path nt (fst e)) || existsb (fun e' => String.eqb (run_path nt (fst e')) (run_path nt (fst e))) l3)))%bool; [reflexivity|].
    destruct (existsb _ l), (String.eqb (run_path nt p) (run_path nt (fst e))), (existsb _ l2); reflexivity.
Qed.
Lemma again_same dir d1 d2 es es2 p how d1' d2' : (forall a x, dir <> a ++ "/analysis_" ++ x)%string -> files_in dir d1 = [] -> files_in dir d2 = [] -> p_dir p = dir ->
  (forall q h, In (Run q h) (es ++ Run p how :: es2 ++ [Run p Finished]) -> p_dir q = dir -> writable q /\ accepted q) ->
  history d1 (es ++ Run p how :: es2 ++ [Run p Finished]) d1' -> history d2 (es ++ es2 ++ [Run p Finished]) d2' -> Permutation (files_in dir d1') (files_in dir d2').
Proof.
  intros N E1 E2 Ep WA H1 H2. rewrite (files_after dir d1 _ d1' N E1 WA H1).
  assert (WA2 : forall q h, In (Run q h) (es ++ es2 ++ [Run p Finished]) -> p_dir q = dir -> writable q /\ accepted q).
  { intros q h Hq. apply (WA q h). apply in_app_or in Hq. apply in_or_app. destruct Hq as [Hq|Hq]; [now left|right; now right]. }
  rewrite (files_after dir d2 _ d2' N E2 WA2 H2). replace (surviving nt (runs_into dir (es ++ Run p how :: es2 ++ [Run p Finished]))) with (surviving nt (runs_into dir (es ++ es2 ++ [Run p Finished]))); [reflexivity|].
  rewrite !runs_app. cbn [runs_into]. rewrite runs_app. cbn [runs_into]. rewrite Ep, String.eqb_refl. destruct how; [|reflexivity| |]; symmetry; apply surviving_again.
Qed.

(** The texts of the directory, in any order, are the data files of the surviving runs. *)
Lemma directory_after dir d es d' texts : (forall a x, dir <> a ++ "/analysis_" ++ x)%string -> files_in dir d = [] ->
  (forall p how, In (Run p how) es -> p_dir p = dir -> writable p /\ accepted p) -> history d es d' -> Permutation texts (files_in dir d') ->
  exists order, Permutation order (surviving nt (runs_into dir es)) /\
    Forall2 (directory_file nt (exp_structs nt) varsim_spec exp_width (number_line nt)) (map (left_by nt times) order) texts.
Proof.
  intros N E0 WA H HP. assert (E : entries dir d = map file []) by (unfold files_in in E0; unfold entries; destruct (filter _ d); [reflexivity|discriminate]).
  pose proof (history_entries dir d es d' N WA H [] E) as E1. pose proof (surviving_perm (runs_into dir es) []) as PS. cbn [filter] in PS. rewrite app_nil_r in PS.
  assert (ET : files_in dir d' = map text (fold_left update (runs_into dir es) [])).
  { unfold files_in. fold (entries dir d'). rewrite E1, map_map. reflexivity. }
  rewrite ET in HP. apply Permutation_map_inv in HP as (order & -> & HO). exists order. split; [rewrite <- HO; exact PS|].
  assert (WO : forall e, In e order -> writable (fst e) /\ accepted (fst e)).
  { intros [p how] He. cbn [fst]. rewrite <- HO, PS in He. apply surviving_in in He. apply runs_in in He as [He Hd]. now apply (WA p how). }
  clear HO PS ET E1. induction order as [|[p how] order IH]; [constructor|]. cbn [map]. constructor.
  - destruct (WO (p, how)) as [W A]; [now left|]. now apply left_is_file.
  - apply IH. intros e He. apply WO. now right.
Qed.
End Disk.
