(** The analyses never fail: [draw] and [clear] after any history, and whole runs of [analyze]. *)
From Coq Require Import ZArith Reals Lra Lia List Bool.
From Flocq.IEEE754 Require Import BinarySingleNaN.
From Verif Require Import Base Scalar Float64 Model_Analysis Spec_Analysis Proof_Analysis Proof_Analysis2 Proof_Analysis3 Proof_Analysis4 Proof_Analysis7 Proof_Analysis9 Proof_Analysis10.
Import ListNotations.
Local Open Scope nat_scope.

Section Any.
Context {S : scalar}.
Lemma alloc_ok {X : Type} (x : X) n : (8 * n <= 2 ^ 63 - 1)%Z -> exists l, alloc x n = Ok l.
Proof. intros H. unfold alloc. destruct (Z.leb_spec (8 * n) (2 ^ 63 - 1)); [eauto|lia]. Qed.

Lemma single_ok (mn mx size lsize : S) a0 os a : ta_fresh mn mx size lsize = Ok a0 -> history a0 os = Ok a ->
  (exists r, ta_draw a = Ok r) /\ (exists c, ta_clear a = Ok c).
Proof. intros H0 H. split; [|exact (clear_ok _ _ _ _ _ _ _ H0 H)].
  apply (draw_ok (ta_bins a0)). eapply history_shape; [eapply fresh_shape; exact H0|exact H]. Qed.

Lemma vector_ok (mn mx size lsize : S) n a0 os a : n <> 0 -> tv_fresh mn mx size lsize n = Ok a0 -> vhistory a0 os = Ok a ->
  (exists r, tv_draw a = Ok r) /\ (exists c, tv_clear a = Ok c).
Proof. intros N H0 H. destruct (tv_fresh_col _ _ _ _ _ _ H0) as (R0 & t0 & Ht0 & C0).
  destruct (vhistory_col n os N a0 a R0 H) as (Ra & _ & Ca).
  assert (Sha : forall k, k < n -> exists t, column_of k a = Some t /\ shape (ta_bins t0) t).
  { intros k Hk. destruct (Ca k t0 Hk (C0 k Hk)) as (t & Ht & Et). exists t. split; [exact Et|]. eapply history_shape; [eapply fresh_shape; exact Ht0|exact Ht]. }
  split.
  - apply (tv_draw_ok n a Ra). intros k Hk. destruct (Sha k Hk) as (t & E & Sh). eauto.
  - destruct (Sha 0 ltac:(lia)) as (t & E & B & _). apply column_inv in E. destruct E as (_ & _ & _ & _ & _ & _ & _ & E).
    apply ta_fresh_inv in Ht0. destruct Ht0 as (b & _ & Eb & _ & K1 & K2). rewrite Eb in B.
    unfold tv_clear. rewrite <- E, B. destruct (alloc_ok 0 (b_num b) K1) as [c ->]. cbn [bind]. destruct (alloc_ok 0 (b_lnum b) K2) as [lc ->]. cbn [bind]. eauto. Qed.

Lemma means_loop_ok cnt : forall mean sq : list S, length mean = length cnt -> length sq = length cnt -> exists r, means_loop cnt mean sq = Ok r.
Proof. induction cnt as [|n cnt IH]; intros [|x mean] [|y sq] L1 L2; try discriminate; [cbn; eauto|]. cbn [length] in L1, L2. cbn [means_loop].
  destruct (IH mean sq ltac:(lia) ltac:(lia)) as [r ->]. cbn [bind]. eauto. Qed.

Lemma process_ok (mn mx size lsize : S) a0 ls a : pa_fresh mn mx size lsize = Ok a0 -> add_lines pa_line a0 ls = Ok a ->
  (exists r, pa_draw a = Ok r) /\ (exists c, pa_clear a = Ok c).
Proof. intros H0 H. apply pa_fresh_inv in H0. destruct H0 as (B & _ & E0 & K1 & K2). apply pa_lines_inv in H. destruct H as (a1 & Hp & Ea).
  apply pa_pairs_inv in Hp. destruct Hp as (Eb & _ & _ & M1 & M4 & M2 & M5 & M3 & M6 & _).
  rewrite E0 in *. cbn [pa_bins pa_count pa_bmean pa_bsq pa_lcount pa_lmean pa_lsq] in *. rewrite !repeat_length in *. split.
  - unfold pa_draw. rewrite Ea. cbn [pa_bins pa_count pa_bmean pa_bsq pa_lcount pa_lmean pa_lsq pa_mean pa_sq pa_points].
    destruct (means_loop_ok (pa_count a1) (pa_bmean a1) (pa_bsq a1)) as [l El]; [congruence|congruence|].
    destruct (means_loop_ok (pa_lcount a1) (pa_lmean a1) (pa_lsq a1)) as [ll Ell]; [congruence|congruence|].
    rewrite El. cbn [bind]. rewrite Ell. cbn [bind]. eauto.
  - unfold pa_clear. rewrite Ea. cbn [pa_bins]. rewrite Eb.
    destruct (alloc_ok (@s0 S) (b_num B) K1) as [h1 ->]. cbn [bind]. destruct (alloc_ok 0 (b_num B) K1) as [h2 ->]. cbn [bind].
    destruct (alloc_ok (@s0 S) (b_lnum B) K2) as [h3 ->]. cbn [bind]. destruct (alloc_ok 0 (b_lnum B) K2) as [h4 ->]. cbn [bind]. eauto. Qed.
End Any.

(** ** Whole runs *)
Section Whole.
Context {S : scalar} {A L : Type}.
Variables (sip : list Z -> Z) (fresh : outcome A) (add_line : A -> L -> outcome A) (draw : A -> outcome A) (empty : A -> bool) (good : L -> Prop) (a0 : A).
Hypotheses (HF : fresh = Ok a0) (HA : forall ls, Forall good ls -> exists a, add_lines add_line a0 ls = Ok a)
           (HD : forall ls a, Forall good ls -> add_lines add_line a0 ls = Ok a -> exists r, draw a = Ok r).
Definition grown (a : A) : Prop := exists ls, Forall good ls /\ add_lines add_line a0 ls = Ok a.
Lemma lines_app ls ls' : forall a, add_lines add_line a (ls ++ ls') = do a' <- add_lines add_line a ls; add_lines add_line a' ls'.
Proof. induction ls as [|l ls IH]; intros a; cbn [add_lines app bind]; [reflexivity|]. destruct (add_line a l); cbn [bind]; auto. Qed.
Lemma grow a ls : grown a -> Forall good ls -> exists a', add_lines add_line a ls = Ok a' /\ grown a'.
Proof. intros (ks & Hk & E) Hl. destruct (HA (ks ++ ls)) as [a' Ea']; [apply Forall_app; auto|]. exists a'.
  assert (E' := Ea'). rewrite lines_app, E in E'. cbn [bind] in E'. split; [exact E'|]. exists (ks ++ ls). split; [apply Forall_app; auto|exact Ea']. Qed.
Lemma insert_ok ds xs m : Forall good xs -> Forall (fun p => grown (snd p)) m ->
  exists m', insert_file (S := S) sip fresh add_line ds xs m = Ok m' /\ Forall (fun p => grown (snd p)) m'.
Proof. intros Hx. induction m as [|[d a] m IH]; intros Hm; cbn [insert_file].
  - rewrite HF. cbn [bind]. destruct (grow a0 xs) as (a' & -> & G); [exists []; split; [constructor|reflexivity]|exact Hx|]. cbn [bind]. eexists. split; [reflexivity|]. constructor; auto.
  - apply Forall_cons_iff in Hm; destruct Hm as [H1 H2]; cbn [snd] in H1. destruct (same_dataset sip d ds).
    + destruct (grow a xs H1 Hx) as (a' & -> & G). cbn [bind]. eexists. split; [reflexivity|]. constructor; auto.
    + destruct (IH H2) as (m' & -> & G). cbn [bind]. eexists. split; [reflexivity|]. constructor; auto. Qed.
Lemma read_ok files : forall m, Forall (fun p => grown (snd p)) m -> Forall (fun f => match f with Some (_, xs) => Forall good xs | None => True end) files ->
  exists m', read_files (S := S) sip fresh add_line files m = Ok m' /\ Forall (fun p => grown (snd p)) m'.
Proof. induction files as [|[[ds xs]|] files IH]; intros m Hm Hf; cbn [read_files]; [eauto| |]; apply Forall_cons_iff in Hf; destruct Hf as [H1 H2].
  - destruct (insert_ok ds xs m H1 Hm) as (m1 & -> & G). cbn [bind]. apply IH; auto.
  - apply IH; auto. Qed.
Lemma draw_all_ok m : Forall (fun p : list S * A => grown (snd p)) m -> exists r, draw_all draw empty m = Ok r.
Proof. induction m as [|[d a] m IH]; intros Hm; cbn [draw_all]; [eauto|]. apply Forall_cons_iff in Hm; destruct Hm as [H1 H2]; cbn [snd] in H1. destruct (IH H2) as [r Er].
  destruct (empty a); [eauto|]. destruct H1 as (ls & Hl & E). destruct (HD ls a Hl E) as [a' ->]. cbn [bind]. rewrite Er. cbn [bind]. eauto. Qed.
Lemma analyze_ok files : Forall (fun f => match f with Some (_, xs) => Forall good xs | None => True end) files ->
  exists r, analyze (S := S) sip fresh add_line draw empty files = Ok r.
Proof. intros H. unfold analyze. destruct (read_ok files [] (Forall_nil _) H) as (m & -> & G). cbn [bind]. exact (draw_all_ok m G). Qed.
End Whole.

Lemma ta_lines_adds {S : scalar} (xs : list S) : forall a : tana S, add_lines ta_add a xs = ta_adds a xs.
Proof. induction xs as [|x xs IH]; intros a; cbn [add_lines ta_adds]; [reflexivity|]. destruct (ta_add a x); cbn [bind]; auto. Qed.
Lemma tv_lines_adds {S : scalar} (xs : list (list S)) : forall a : tvec S, add_lines tv_add a xs = tv_adds a xs.
Proof. induction xs as [|x xs IH]; intros a; cbn [add_lines tv_adds]; [reflexivity|]. destruct (tv_add a x); cbn [bind]; auto. Qed.

(** A single-variable run fails only if some sample makes the histogram fail. *)
Lemma ta_analyze_ok {S : scalar} sip (mn mx size lsize : S) (a0 : tana S) : ta_fresh mn mx size lsize = Ok a0 -> (forall xs, exists a, ta_adds a0 xs = Ok a) ->
  forall files, exists r, ta_analyze sip mn mx size lsize files = Ok r.
Proof. intros H0 HA files. unfold ta_analyze. apply (analyze_ok sip (ta_fresh mn mx size lsize) ta_add ta_draw (fun _ => false) (fun _ => True) a0 H0).
  - intros ls _. rewrite ta_lines_adds. apply HA.
  - intros ls a _ E. rewrite ta_lines_adds, adds_history in E. exact (proj1 (single_ok _ _ _ _ _ _ _ H0 E)).
  - apply Forall_forall. intros [[ds xs]|] _; auto. apply Forall_forall. auto. Qed.
Lemma tv_analyze_ok {S : scalar} sip (mn mx size lsize : S) n (a0 : tvec S) : n <> 0 -> tv_fresh mn mx size lsize n = Ok a0 ->
  (forall rows, Forall (fun r => length r = n) rows -> exists a, tv_adds a0 rows = Ok a) ->
  forall files, (forall ds rows, In (Some (ds, rows)) files -> Forall (fun r => length r = n) rows) -> exists r, tv_analyze sip mn mx size lsize n files = Ok r.
Proof. intros N H0 HA files HFi. unfold tv_analyze.
  apply (analyze_ok sip (tv_fresh mn mx size lsize n) tv_add tv_draw (fun a => Nat.eqb (tv_ens a) 0) (fun r => length r = n) a0 H0).
  - intros ls Hl. rewrite tv_lines_adds. now apply HA.
  - intros ls a Hl E. rewrite tv_lines_adds, tv_adds_vhistory in E. exact (proj1 (vector_ok _ _ _ _ _ _ _ _ N H0 E)).
  - apply Forall_forall. intros [[ds xs]|] Hi; auto. exact (HFi ds xs Hi). Qed.
Lemma pa_analyze_ok {S : scalar} sip (mn mx size lsize : S) (a0 : pana S) : pa_fresh mn mx size lsize = Ok a0 -> (forall ls, exists a, add_lines pa_line a0 ls = Ok a) ->
  forall files, exists r, pa_analyze sip mn mx size lsize files = Ok r.
Proof. intros H0 HA files. unfold pa_analyze. apply (analyze_ok sip (pa_fresh mn mx size lsize) pa_line pa_draw (fun a => Nat.eqb (pa_ens a) 0) (fun _ => True) a0 H0).
  - intros ls _. apply HA.
  - intros ls a _ E. exact (proj1 (process_ok _ _ _ _ _ _ _ H0 E)).
  - apply Forall_forall. intros [[ds xs]|] _; auto. apply Forall_forall. auto. Qed.
