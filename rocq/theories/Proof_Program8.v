(** The groups of the analyses of vectors of times and of processes (C57). *)
From Coq Require Import String Ascii NArith ZArith Lia List.
From Verif Require Import Base Scalar Model_Position Model_Text Spec_Text Model_Args Spec_Args Model_Analysis Spec_Analysis Proof_Analysis Proof_Analysis2 Proof_Analysis3 Proof_Analysis7 Proof_Analysis9
  Model_Run Model_Program Spec_Program Proof_Program Proof_Program3 Model_Program2 Spec_Program2.
Import ListNotations.
Local Open Scope nat_scope.
Local Open Scope list_scope.
Local Notation length := List.length.
Local Notation concat := List.concat.

Section G.
Context {S : scalar}.
(** ** sums of a vector analysis *)
Lemma vec_lines rows : forall g : tvec S, add_lines tv_add g rows = tv_adds g rows.
Proof. induction rows as [|x xs IH]; intros g; [reflexivity|]. cbn [add_lines tv_adds]. destruct (tv_add g x); cbn [bind]; auto. Qed.
Lemma vec_stat (mn mx size lsize : S) n a0 a r rows : n <> 0 -> tv_fresh mn mx size lsize n = Ok a0 -> tv_adds a0 rows = Ok a -> tv_draw a = Ok r ->
  Forall (fun row => length row = n) rows /\ tv_ens r = length rows /\ length (tv_means r) = n /\ length (tv_sqs r) = n /\
  forall k, k < n -> exists m q, nth_error (tv_means r) k = Some m /\ nth_error (tv_sqs r) k = Some q /\ has_moments (length rows) (map (fun row => nth k row s0) rows) m q.
Proof.
  intros Hn HF Ha Hd. destruct (tv_fresh_col _ _ _ _ _ _ HF) as (R0 & t0 & E0 & C0).
  assert (Hh := Ha). rewrite tv_adds_vhistory in Hh. destruct (columns_refine _ _ _ _ _ _ _ _ Hn HF Hh) as [Hw _].
  destruct (vhistory_col _ _ Hn _ _ R0 Hh) as (R1 & _ & C1). destruct (tv_draw_col _ _ _ R1 Hd) as (R2 & C2).
  assert (C3 : forall k, k < n -> exists t u, ta_adds t0 (map (fun row => nth k row s0) rows) = Ok t /\ ta_draw t = Ok u /\ column_of k r = Some u).
  { intros k Hk. destruct (C1 k t0 Hk (C0 k Hk)) as (t & Ht & Ct). rewrite op_col_adds in Ht. destruct (C2 k t Hk Ct) as (u & Hu & Cu). eauto. }
  assert (C4 : forall k, k < n -> exists m q, nth_error (tv_means r) k = Some m /\ nth_error (tv_sqs r) k = Some q /\ tv_ens r = length rows /\ has_moments (length rows) (map (fun row => nth k row s0) rows) m q).
  { intros k Hk. destruct (C3 k Hk) as (t & u & Ht & Hu & Cu). destruct (summed _ _ _ _ _ _ _ E0 Ht) as (E1 & E2 & E3). destruct (draw_moments _ _ Hu) as [E4 E5].
    assert (E6 : ta_ens u = ta_ens t). { unfold ta_draw in Hu. cbv zeta in Hu. destruct (fill_lin _ _ _); cbn [bind] in Hu; try discriminate. destruct (fill _ _ _ _); cbn [bind] in Hu; try discriminate. injection Hu as <-. reflexivity. }
    unfold column_of in Cu. destruct (nth_error (tv_means r) k) as [m|] eqn:Em; try discriminate. destruct (nth_error (tv_sqs r) k) as [q|] eqn:Eq; try discriminate.
    destruct (nth_error (tv_hist r) k); try discriminate. destruct (nth_error (tv_lhist r) k); try discriminate. destruct (nth_error (tv_count r) k); try discriminate. destruct (nth_error (tv_lcount r) k); try discriminate.
    injection Cu as <-. cbn [ta_mean ta_sq ta_ens] in *. rewrite map_length in E3. rewrite E1, E3 in E4. rewrite E1, E2, E3 in E5. exists m, q. split; [reflexivity|]. split; [reflexivity|].
    split; [congruence|]. split; assumption. }
  split; [|split; [|split; [|split]]].
  - apply Forall_forall. intros row Hr. apply Hw. now apply in_map.
  - destruct (C4 0) as (m & q & _ & _ & X & _); [lia|exact X].
  - apply R2.
  - apply R2.
  - intros k Hk. destruct (C4 k Hk) as (m & q & X1 & X2 & _ & X3). eauto.
Qed.
Lemma pairs_sums ps : forall a a' : pana S, pa_pairs a ps = Ok a' ->
  pa_mean a' = fold_left add (map snd ps) (pa_mean a) /\ pa_sq a' = fold_left (fun s x => s + x * x)%S (map snd ps) (pa_sq a) /\ pa_points a' = pa_points a + length ps /\ pa_ens a' = pa_ens a.
Proof.
  induction ps as [|[t v] ps IH]; intros a a' E; cbn [pa_pairs] in E.
  - injection E as <-. cbn. repeat split; lia.
  - destruct (pa_pair a t v) as [a1| | |] eqn:E1; cbn [bind] in E; try discriminate. destruct (IH _ _ E) as (X1 & X2 & X3 & X4).
    unfold pa_pair in E1. repeat (match type of E1 with context [bump ?x ?y ?z] => destruct (bump x y z); cbn [bind] in E1; try discriminate end).
    injection E1 as <-. cbn [pa_mean pa_sq pa_points pa_ens] in *. cbn [map snd fold_left length]. rewrite X1, X2, X3, X4. repeat split. lia.
Qed.
Lemma proc_stat (mn mx size lsize : S) a0 a r ls : pa_fresh mn mx size lsize = Ok a0 -> add_lines pa_line a0 ls = Ok a -> pa_draw a = Ok r ->
  pa_ens r = length ls /\ has_moments (length (concat ls)) (map snd (concat ls)) (pa_mean r) (pa_sq r).
Proof.
  intros HF Ha Hd. pose proof (pa_bookkeeping _ _ _ _ _ _ _ HF Ha) as (E1 & E2 & _). destruct (pa_lines_inv _ _ _ Ha) as (a1 & Hp & Ea). destruct (pairs_sums _ _ _ Hp) as (X1 & X2 & _).
  apply pa_fresh_inv in HF. destruct HF as (b & _ & E0 & _). rewrite E0 in X1, X2. cbn [pa_mean pa_sq] in X1, X2.
  assert (Y1 : pa_mean a = pa_mean a1) by now rewrite Ea. assert (Y2 : pa_sq a = pa_sq a1) by now rewrite Ea.
  unfold pa_draw in Hd. cbv zeta in Hd. destruct (means_loop _ _ _); cbn [bind] in Hd; try discriminate. destruct (means_loop _ _ _); cbn [bind] in Hd; try discriminate. injection Hd as <-.
  cbn [pa_ens pa_mean pa_sq]. split; [exact E1|]. unfold has_moments. cbv zeta. rewrite E2, Y1, Y2, X1, X2. auto.
Qed.
Lemma pairs_add_ens ls : forall a a' : pana S, add_lines pa_line a ls = Ok a' -> pa_ens a' = pa_ens a + length ls.
Proof.
  induction ls as [|l ls IH]; intros a a' E; cbn [add_lines] in E; [injection E as <-; cbn; lia|]. unfold pa_line at 1 in E. destruct (pa_pairs a l) as [a1| | |] eqn:E1; cbn [bind] in E; try discriminate.
  apply IH in E. rewrite E. cbn [pa_add pa_ens length]. destruct (pairs_sums _ _ _ E1) as (_ & _ & _ & ->). lia.
Qed.
Lemma tv_add_ens (a a' : tvec S) xs : tv_add a xs = Ok a' -> tv_ens a' = Datatypes.S (tv_ens a).
Proof.
  unfold tv_add. destruct (tv_nvar a =? 0).
  - unfold tv_allocate. cbv zeta. cbn [tv_bins]. destruct (alloc s0 (b_num (tv_bins a))); cbn [bind]; try discriminate. destruct (alloc s0 (b_lnum (tv_bins a))); cbn [bind]; try discriminate.
    destruct (alloc 0 (b_num (tv_bins a))); cbn [bind]; try discriminate. destruct (alloc 0 (b_lnum (tv_bins a))); cbn [bind]; try discriminate.
    destruct (tv_loop _ _ _ _) as [[[[m q] c] lc]| | |]; cbn [bind]; try discriminate. intros E. injection E as <-. reflexivity.
  - destruct (negb _); cbn [bind]; try discriminate. destruct (tv_loop _ _ _ _) as [[[[m q] c] lc]| | |]; cbn [bind]; try discriminate. intros E. injection E as <-. reflexivity.
Qed.
Lemma tv_adds_ens rows : forall a a' : tvec S, tv_adds a rows = Ok a' -> tv_ens a' = tv_ens a + length rows.
Proof.
  induction rows as [|x rows IH]; intros a a' E; cbn [tv_adds] in E; [injection E as <-; cbn; lia|]. destruct (tv_add a x) as [a1| | |] eqn:E1; cbn [bind] in E; try discriminate.
  apply IH in E. apply tv_add_ens in E1. cbn [length]. lia.
Qed.
End G.

Section Groups.
Context {S : scalar} (nt : numtext S) (r : S -> S).
Hypothesis F : faithful nt.
Hypothesis RR : rereads nt r.
Lemma data_in {L} sip (files : list (option (all_args (exp_structs nt) * args_of varsim_spec * list L))) v s xs : In (Some (v, s, xs)) files -> xs <> [] -> data_of sip (exp_values nt) v files <> [].
Proof.
  intros H Hx E. apply Hx. destruct xs as [|x xs]; [reflexivity|]. exfalso. assert (X : In x (data_of sip (exp_values nt) v files)).
  { unfold data_of. apply in_flat_map. eexists. split; [exact H|]. cbn beta iota. unfold same_dataset. rewrite Z.eqb_refl. now left. }
  rewrite E in X. destruct X.
Qed.
Lemma vec_groups_hold sip nvar req files texts gs : nvar <> 0 -> Forall2 (directory_file nt (exp_structs nt) varsim_spec exp_width (vector_line nt)) files texts ->
  vec_groups nt sip nvar req texts = Ok gs ->
  (forall v a, In (v, a) gs -> (exists s xs, In (Some (v, s, xs)) files) /\
     let rows := map (map r) (data_of sip (exp_values nt) v files) in
     rows <> [] /\ Forall (fun row => length row = nvar) rows /\ tv_ens a = length rows /\ length (tv_means a) = nvar /\ length (tv_sqs a) = nvar /\
     forall k, k < nvar -> exists m q, nth_error (tv_means a) k = Some m /\ nth_error (tv_sqs a) k = Some q /\ has_moments (length rows) (map (fun row => nth k row s0) rows) m q) /\
  (forall v s xs, In (Some (v, s, xs)) files -> xs <> [] -> exists w a, In (w, a) gs /\ same_dataset sip (exp_values nt w) (exp_values nt v) = true) /\
  ForallOrdPairs (fun e e' => same_dataset sip (exp_values nt (fst e)) (exp_values nt (fst e')) = false) gs.
Proof.
  intros Hn H E. unfold vec_groups in E. destruct (bin_sizes req) as [[[[mn mx] size] lsize]| | |]; cbn [bind] in E; try discriminate.
  destruct (dir_groups nt (exp_structs nt) varsim_spec exp_width (exp_values nt) sip _ (tv_text_line nt) tv_add tv_draw _ (vector_line nt) (map r) (vector_line_ok nt r RR) files texts gs F (exp_known nt) H E) as (G1 & G2 & G3).
  split; [|split; [|exact G3]].
  - intros v a Hv. destruct (G1 v a Hv) as (X & f & a0 & Ef & Ea & Ee & Ed). split; [exact X|]. cbv zeta. rewrite vec_lines in Ea.
    destruct (vec_stat _ _ _ _ _ _ _ _ _ Hn Ef Ea Ed) as (Y1 & Y2 & Y3 & Y4 & Y5). split; [|auto].
    intros En. rewrite En in Ea. cbn [tv_adds] in Ea. injection Ea as <-. rewrite En in Y2. cbn in Y2. 
    apply Nat.eqb_neq in Ee. apply Ee. unfold tv_fresh in Ef. destruct (from_bin_size _ _ _ _); cbn [bind] in Ef; try discriminate. unfold tv_allocate in Ef. cbv zeta in Ef.
    repeat (match type of Ef with context [alloc ?x ?y] => destruct (alloc x y); cbn [bind] in Ef; try discriminate end). injection Ef as <-. reflexivity.
  - intros v s xs Hv Hx. destruct (G2 v s xs Hv) as [X|(f & a & Ef & Ea & Ee)]; [exact X|]. rewrite vec_lines in Ea. apply tv_adds_ens in Ea. apply Nat.eqb_eq in Ee.
    rewrite map_length in Ea. pose proof (data_in sip files v s xs Hv Hx) as D. destruct (data_of sip (exp_values nt) v files); [now destruct D|cbn in Ea; lia].
Qed.
Lemma proc_groups_hold sip req files texts gs : Forall2 (directory_file nt (exp_structs nt) varsim_spec exp_width (process_line nt)) files texts ->
  proc_groups nt sip req texts = Ok gs ->
  (forall v a, In (v, a) gs -> (exists s xs, In (Some (v, s, xs)) files) /\
     let runs := map (map (both r)) (data_of sip (exp_values nt) v files) in
     runs <> [] /\ pa_ens a = length runs /\ has_moments (length (concat runs)) (map snd (concat runs)) (pa_mean a) (pa_sq a)) /\
  (forall v s xs, In (Some (v, s, xs)) files -> xs <> [] -> exists w a, In (w, a) gs /\ same_dataset sip (exp_values nt w) (exp_values nt v) = true) /\
  ForallOrdPairs (fun e e' => same_dataset sip (exp_values nt (fst e)) (exp_values nt (fst e')) = false) gs.
Proof.
  intros H E. unfold proc_groups in E. destruct (bin_sizes req) as [[[[mn mx] size] lsize]| | |]; cbn [bind] in E; try discriminate.
  destruct (dir_groups nt (exp_structs nt) varsim_spec exp_width (exp_values nt) sip _ (pa_text_line nt) pa_line pa_draw _ (process_line nt) (map (both r)) (process_line_ok nt r F RR) files texts gs F (exp_known nt) H E) as (G1 & G2 & G3).
  split; [|split; [|exact G3]].
  - intros v a Hv. destruct (G1 v a Hv) as (X & f & a0 & Ef & Ea & Ee & Ed). split; [exact X|]. cbv zeta.
    destruct (proc_stat _ _ _ _ _ _ _ _ Ef Ea Ed) as (Y1 & Y2). split; [|auto].
    intros En. rewrite En in Ea. cbn [add_lines] in Ea. injection Ea as <-. apply Nat.eqb_neq in Ee. apply Ee. apply pa_fresh_inv in Ef. destruct Ef as (b & _ & -> & _). reflexivity.
  - intros v s xs Hv Hx. destruct (G2 v s xs Hv) as [X|(f & a & Ef & Ea & Ee)]; [exact X|]. apply pairs_add_ens in Ea. apply Nat.eqb_eq in Ee.
    rewrite map_length in Ea. pose proof (data_in sip files v s xs Hv Hx) as D. destruct (data_of sip (exp_values nt) v files); [now destruct D|cbn in Ea; lia].
Qed.
End Groups.
