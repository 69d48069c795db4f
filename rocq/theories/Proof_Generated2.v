(** Generated programs: from the tokens of [simulation!] to the data file. *)
From Coq Require Import String Ascii NArith ZArith Lia List.
From Verif Require Import Base Scalar Model_LinkedList Model_Position Model_System Model_Agent Model_Time Model_Text Spec_Text Proof_Text Model_Args Spec_Args Proof_Args Proof_Args2 Proof_Args3 Model_Analysis Model_Usage
  Model_Run Model_Program Spec_Program Proof_Program Model_Generated Spec_Generated Proof_Generated.
Import ListNotations.
Local Open Scope nat_scope.
Local Open Scope string_scope.
Local Open Scope list_scope.
Local Notation length := List.length.

Section Gen.
Context {S : scalar} (nt : numtext S).
Lemma named_in n p : part_named nt n = Some p -> In p (parts nt) /\ a_name (pt_spec p) = n.
Proof. intros E. apply find_some in E as [H1 H2]. split; [exact H1|now apply String.eqb_eq]. Qed.
Lemma sim_named_in n p : simpart_named nt n = Some p -> In p (simparts nt) /\ a_name (sp_spec p) = n.
Proof. intros E. apply find_some in E as [H1 H2]. split; [exact H1|now apply String.eqb_eq]. Qed.
Lemma gen_parts_inv g ps sm : gen_parts nt g = Some (ps, sm) -> length ps = 4 /\ incl ps (parts nt) /\ In sm (simparts nt) /\ map (fun p => a_name (pt_spec p)) ps ++ [a_name (sp_spec sm)] = g_structs g.
Proof.
  unfold gen_parts. destruct (g_structs g) as [|sy [|ta [|ag [|ti [|si [|]]]]]]; try discriminate. intros E.
  destruct (part_named nt sy) as [a|] eqn:E1; [|discriminate E]. destruct (part_named nt ta) as [b|] eqn:E2; [|discriminate E]. destruct (part_named nt ag) as [c|] eqn:E3; [|discriminate E].
  destruct (part_named nt ti) as [d|] eqn:E4; [|discriminate E]. destruct (simpart_named nt si) as [e|] eqn:E5; [|discriminate E].
  assert (Q : ps = [a; b; c; d] /\ sm = e) by (split; congruence). destruct Q as [-> ->].
  apply named_in in E1 as [I1 N1], E2 as [I2 N2], E3 as [I3 N3], E4 as [I4 N4]. apply sim_named_in in E5 as [I5 N5].
  split; [reflexivity|]. split; [intros x [<-|[<-|[<-|[<-|[]]]]]; assumption|]. split; [exact I5|]. cbn [map app]. now rewrite N1, N2, N3, N4, N5.
Qed.
Lemma part_spec_in p : In p (parts nt) -> In (pt_spec p) [circ_spec nt; cubic_spec nt; bulk_spec nt; indep_spec nt; exp_spec nt; lj_spec nt; const_spec nt; expstep_spec nt; varsim_spec; parsim_spec; procsim_spec nt].
Proof. intros H. unfold parts in H. repeat (destruct H as [<-|H]; [cbn [pt_spec circ_part cubic_part bulk_part indep_part exp_part lj_part const_part expstep_part In]; tauto|]). destruct H. Qed.
Lemma sim_spec_in p : In p (simparts nt) -> In (sp_spec p) [circ_spec nt; cubic_spec nt; bulk_spec nt; indep_spec nt; exp_spec nt; lj_spec nt; const_spec nt; expstep_spec nt; varsim_spec; parsim_spec; procsim_spec nt].
Proof. intros H. unfold simparts in H. repeat (destruct H as [<-|H]; [cbn [sp_spec varsim_part parsim_part procsim_part In]; tauto|]). destruct H. Qed.
Lemma listed_known sp : In sp [circ_spec nt; cubic_spec nt; bulk_spec nt; indep_spec nt; exp_spec nt; lj_spec nt; const_spec nt; expstep_spec nt; varsim_spec; parsim_spec; procsim_spec nt] -> In sp (all_specs nt) /\ 2 <= a_num sp.
Proof. intros H. repeat (destruct H as [<-|H]; [split; [unfold all_specs; cbn [In]; tauto|cbn; lia]|]). destruct H. Qed.
Lemma gen_specs_known ps sm : incl ps (parts nt) -> In sm (simparts nt) -> incl (part_specs ps ++ [sp_spec sm]) (all_specs nt).
Proof.
  intros H1 H2 sp H. apply in_app_iff in H as [H|[<-|[]]].
  - apply in_map_iff in H as (p & <- & Hp). apply listed_known, part_spec_in, H1, Hp.
  - apply listed_known, sim_spec_in, H2.
Qed.
Lemma gen_specs_many ps sm : length ps = 4 -> incl ps (parts nt) -> In sm (simparts nt) -> 10 <= total_num_args (part_specs ps ++ [sp_spec sm]).
Proof.
  intros L H1 H2. destruct ps as [|a [|b [|c [|d [|]]]]]; try discriminate L. unfold part_specs. cbn [map app total_num_args fold_right].
  assert (A : forall p, In p [a; b; c; d] -> 2 <= a_num (pt_spec p)) by (intros p Hp; apply listed_known, part_spec_in, H1, Hp).
  pose proof (A a ltac:(cbn; tauto)). pose proof (A b ltac:(cbn; tauto)). pose proof (A c ltac:(cbn; tauto)). pose proof (A d ltac:(cbn; tauto)).
  assert (2 <= a_num (sp_spec sm)) by (apply listed_known, sim_spec_in, H2). lia.
Qed.
Lemma gen_named p ps sm : faithful nt -> incl ps (parts nt) -> In sm (simparts nt) -> forall v w s t,
  exists f g, output_file p (part_specs ps) (sp_spec sm) v s = Some f /\ output_file p (part_specs ps) (sp_spec sm) w t = Some g /\
    (f = g <-> agree_all (part_specs ps) in_file_name v w /\ agree (a_fields (sp_spec sm)) (in_file_name (a_name (sp_spec sm))) s t).
Proof.
  intros F H1 H2. apply (output_file_names nt); [exact F| |].
  - apply Forall_forall. intros sp H. apply in_map_iff in H as (q & <- & Hq). apply (all_listable nt), part_spec_in, H1, Hq.
  - apply (all_listable nt), sim_spec_in, H2.
Qed.
Lemma block_lengths specs ws blocks : blocks_of specs ws blocks -> length ws = total_num_args specs.
Proof.
  intros [-> B]. revert specs B. induction blocks as [|b bs IH]; intros [|sp l] B; cbn [map] in B; try discriminate B; [reflexivity|].
  cbn [List.concat total_num_args fold_right]. rewrite app_length. injection B as B1 B2. rewrite B1, (IH l B2). reflexivity.
Qed.
(** From a command line to the file and back. *)
Lemma gen_call g ps sm body analysis prog ws blocks v s : faithful nt -> gen_parts nt g = Some (ps, sm) ->
  blocks_of (part_specs ps ++ [sp_spec sm]) ws blocks -> reads (part_specs ps ++ [sp_spec sm]) blocks (join_args (part_specs ps) v s) ->
  args_storable nt (part_specs ps ++ [sp_spec sm]) (join_args (part_specs ps) v s) -> build_parts ps v = Ok tt ->
  exists head name, file_header (part_specs ps ++ [sp_spec sm]) 15 (join_args (part_specs ps) v s) = Ok head /\ output_file (g_prefix g) (part_specs ps) (sp_spec sm) v s = Some name /\
    gen_main (g_prefix g) ps sm body analysis (prog :: ws) = ([(path_in (sp_dir sm s) name, head ++ fst (body v s))%string], snd (body v s)) /\
    read_data (part_specs ps) (sp_spec sm) (head ++ fst (body v s))%string = Ok (v, s, data_line :: text_lines (fst (body v s))).
Proof.
  intros F G B R W Bu. destruct (gen_parts_inv g ps sm G) as (L & I1 & I2 & _). pose proof (gen_specs_known ps sm I1 I2) as K.
  assert (Sv : args_survive nt (part_specs ps ++ [sp_spec sm]) (join_args (part_specs ps) v s)) by (eapply reads_survive; eauto).
  destruct (gen_named (g_prefix g) ps sm F I1 I2 v v s s) as (name & _ & N & _).
  destruct (gen_file nt (g_prefix g) ps sm body v s name F K Sv Bu N) as (head & Eh & Er & Rd).
  exists head, name. split; [exact Eh|]. split; [exact N|]. split; [|apply Rd].
  pose proof (block_lengths _ _ _ B) as Lw. pose proof (gen_specs_many ps sm L I1 I2) as M.
  rewrite (gen_simulate (g_prefix g) ps sm body analysis prog ws blocks v s); [|lia|lia|exact B|exact R]. cbv zeta. rewrite Er. reflexivity.
Qed.
Lemma invoked p a sy ta ag ti si : In sy systems -> In ta targets -> In ag agents -> In ti clocks -> In si simulations -> sy <> "ContCylindricalSystem" -> ag <> "ContPassiveMergeAgent" ->
  exists g ps sm, simulation_macro (invocation p a sy ta ag ti si) = Some g /\ g_prefix g = p /\ gen_parts nt g = Some (ps, sm).
Proof.
  intros H1 H2 H3 H4 H5 N1 N2. cbn in H1, H2, H3, H4, H5. destruct H2 as [<-|[]].
  destruct H1 as [<-|[<-|[<-|[]]]], H3 as [<-|[<-|[<-|[<-|[]]]]]; try (now elim N1); try (now elim N2); destruct H4 as [<-|[<-|[]]], H5 as [<-|[<-|[<-|[]]]];
    (eexists; eexists; eexists; split; [reflexivity|]; split; reflexivity).
Qed.
End Gen.

(** The example program is a generated program. *)
Section Example.
Context {S : scalar} {G : rng S} (nt : numtext S) (as_u128 : S -> N) (rng_seed : N -> rstate G).
Lemma example_run inner pf fuel v s : exp_program nt as_u128 rng_seed inner pf fuel v s = gen_run exp_prefix (example_parts nt) varsim_part (example_body nt as_u128 rng_seed inner pf fuel) v s.
Proof.
  destruct v as [sysv [tgv [agv [timev []]]]]. destruct timev as [dt_min [dt_max [len [tmax []]]]]. destruct s as [num_ensemble [idx_set [seed [output_dir []]]]].
  unfold exp_program, gen_run, example_body, example_parts. cbn [build_parts pt_build circ_part bulk_part exp_part expstep_part fst snd].
  unfold built. change (part_specs [circ_part nt; bulk_part nt; exp_part nt; expstep_part nt]) with (exp_structs nt). change (sp_spec varsim_part) with varsim_spec. change exp_width with 15.
  set (H := file_header _ _ _). set (N := output_file _ _ _ _ _). clearbody H N.
  destruct (circ_convert_from (circ_of_args nt sysv)) as [sys| | |]; cbn [bind]; try reflexivity.
  destruct (expag_convert_from (expag_of_args nt agv)) as [ags| | |]; cbn [bind]; try reflexivity.
  destruct (es_convert dt_min dt_max len tmax) as [clock| | |]; cbn [bind]; try reflexivity.
  destruct H as [head| | |]; cbn [bind]; try reflexivity. destruct N as [name|]; try reflexivity.
  change (sp_dir varsim_part (num_ensemble, (idx_set, (seed, (output_dir, tt))))) with output_dir.
  destruct (negb (ci_dim sys =? ea_dim (expag_of_args nt agv))%nat); [now rewrite app_s_nil|].
  destruct (run_seed as_u128 seed _) as [sd| | |]; try (now rewrite app_s_nil).
  destruct (mfpt_exp _ _ _ _ _ _ _ _ _ _ _ _) as [[ts g'] o]. reflexivity.
Qed.
Lemma example_main inner pf fuel show_e sip texts summary args :
  exp_main nt as_u128 rng_seed inner pf fuel show_e sip texts summary args =
  gen_main exp_prefix (example_parts nt) varsim_part (example_body nt as_u128 rng_seed inner pf fuel)
    (fun a => match (do '(req, dir) <- analyze_args nt a; exp_analyze nt show_e sip (summary dir) req (texts dir)) with
              | Ok fs => (fs, Ok tt) | Err e => ([], Err e) | Panic => ([], Panic) | Fuel => ([], Fuel) end) args.
Proof.
  unfold exp_main, gen_main. change (part_specs (example_parts nt) ++ [sp_spec varsim_part]) with (exp_specs nt). change exp_skip with 1.
  destruct (setup false 1 analysis_num_args (exp_specs nt) args) as [[a|w]| | |]; try reflexivity.
  destruct w as [a [b [c [d [s []]]]]]. unfold split_exp. change (part_specs (example_parts nt)) with (exp_structs nt). cbn [split_args fst snd exp_structs].
  change (sp_spec varsim_part) with varsim_spec. rewrite <- example_run. reflexivity.
Qed.
End Example.
