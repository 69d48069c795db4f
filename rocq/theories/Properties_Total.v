(** C38, C40, C41: the analyses never fail; C45: exactly which macro inputs are accepted. *)
From Coq Require Import ZArith Reals Lra Lia List Bool String.
From Flocq.IEEE754 Require Import BinarySingleNaN.
From Verif Require Import Base Scalar Float64 Model_Analysis Spec_Analysis Proof_Analysis Proof_Analysis4 Proof_Analysis7 Proof_Analysis9 Proof_Analysis10 Proof_Total
  Model_Args Spec_Args Proof_Args3 Properties_Analysis.
Import ListNotations.
Local Open Scope nat_scope.
Local Notation length := List.length.

(** ** C38, C40: after any history [draw] and [clear] succeed, for every number type *)
Theorem C38_draw_and_clear_never_fail : forall (S : scalar) (mn mx size lsize : S) (a0 a : tana S) os,
  ta_fresh mn mx size lsize = Ok a0 -> history a0 os = Ok a -> (exists r, ta_draw a = Ok r) /\ (exists c, ta_clear a = Ok c).
Proof. intros S mn mx size lsize a0 a os. exact (single_ok mn mx size lsize a0 os a). Qed.
Print Assumptions C38_draw_and_clear_never_fail.
Theorem C38_vector_draw_and_clear_never_fail : forall (S : scalar) (mn mx size lsize : S) n (a0 a : tvec S) os, n <> 0 ->
  tv_fresh mn mx size lsize n = Ok a0 -> vhistory a0 os = Ok a -> (exists r, tv_draw a = Ok r) /\ (exists c, tv_clear a = Ok c).
Proof. intros S mn mx size lsize n a0 a os. exact (vector_ok mn mx size lsize n a0 os a). Qed.
Print Assumptions C38_vector_draw_and_clear_never_fail.
Theorem C38_process_draw_and_clear_never_fail : forall (S : scalar) (mn mx size lsize : S) (a0 a : pana S) ls,
  pa_fresh mn mx size lsize = Ok a0 -> add_lines pa_line a0 ls = Ok a -> (exists r, pa_draw a = Ok r) /\ (exists c, pa_clear a = Ok c).
Proof. intros S mn mx size lsize a0 a ls. exact (process_ok mn mx size lsize a0 ls a). Qed.
Print Assumptions C38_process_draw_and_clear_never_fail.

(** On exact reals no data whatever makes an analysis fail. *)
Theorem C38_never_fails : forall (mn mx b l : R) (a0 : tana RR), ta_fresh (S := RR) mn mx b l = Ok a0 -> (0 < b)%R -> (1 < l)%R ->
  forall xs : list R, exists a r c, ta_adds (S := RR) a0 xs = Ok a /\ ta_draw a = Ok r /\ ta_clear a = Ok c.
Proof. intros mn mx b l a0 H0 Hb Hl xs. destruct (exact_histogram _ _ _ _ _ H0 Hb Hl xs) as (a & E & _).
  assert (E' := E). rewrite (adds_history (S := RR)) in E'. destruct (single_ok (S := RR) _ _ _ _ _ _ _ H0 E') as ((r & D) & c & C). eauto 10. Qed.
Print Assumptions C38_never_fails.
Theorem C38_process_never_fails : forall (mn mx b l : R) (a0 : pana RR), pa_fresh (S := RR) mn mx b l = Ok a0 -> (0 < b)%R -> (1 < l)%R ->
  forall ls : list (list (R * R)), exists a r c, add_lines (pa_line (S := RR)) a0 ls = Ok a /\ pa_draw a = Ok r /\ pa_clear a = Ok c.
Proof. intros mn mx b l a0 H0 Hb Hl ls. destruct (pa_lines_total _ _ _ _ _ H0 Hb Hl ls) as (a & E).
  destruct (process_ok (S := RR) _ _ _ _ _ _ _ H0 E) as ((r & D) & c & C). eauto 10. Qed.
Print Assumptions C38_process_never_fails.

(** ** C41: a whole run of [analyze] over a directory *)
(** On exact reals it succeeds for every configuration whose vectors can be allocated, whatever the files hold (rows of the declared
    width for the vector analysis). *)
Theorem C41_run_never_fails : forall sip (mn mx b l : R) (a0 : tana RR), ta_fresh (S := RR) mn mx b l = Ok a0 -> (0 < b)%R -> (1 < l)%R ->
  forall files, exists r, ta_analyze (S := RR) sip mn mx b l files = Ok r.
Proof. intros sip mn mx b l a0 H0 Hb Hl. apply (ta_analyze_ok (S := RR) sip mn mx b l a0 H0). intros xs.
  destruct (exact_histogram _ _ _ _ _ H0 Hb Hl xs) as (a & E & _). eauto. Qed.
Print Assumptions C41_run_never_fails.
Theorem C41_vector_run_never_fails : forall sip (mn mx b l : R) n (a0 : tvec RR), n <> 0 -> tv_fresh (S := RR) mn mx b l n = Ok a0 -> (0 < b)%R -> (1 < l)%R ->
  forall files, (forall ds rows, In (Some (ds, rows)) files -> Forall (fun r => length r = n) rows) -> exists r, tv_analyze (S := RR) sip mn mx b l n files = Ok r.
Proof. intros sip mn mx b l n a0 N H0 Hb Hl. apply (tv_analyze_ok (S := RR) sip mn mx b l n a0 N H0). intros rows HR.
  destruct (vec_total _ _ _ _ _ _ H0 Hb Hl N rows HR) as (a & r & E & _). eauto. Qed.
Print Assumptions C41_vector_run_never_fails.
Theorem C41_process_run_never_fails : forall sip (mn mx b l : R) (a0 : pana RR), pa_fresh (S := RR) mn mx b l = Ok a0 -> (0 < b)%R -> (1 < l)%R ->
  forall files, exists r, pa_analyze (S := RR) sip mn mx b l files = Ok r.
Proof. intros sip mn mx b l a0 H0 Hb Hl. apply (pa_analyze_ok (S := RR) sip mn mx b l a0 H0). exact (pa_lines_total _ _ _ _ _ H0 Hb Hl). Qed.
Print Assumptions C41_process_run_never_fails.
(** In binary64 under the conditions of [C37_f64_never_out_of_bounds] (fewer than 2^52 bins, log2 monotone), also for files with NaN. *)
Theorem C41_f64_run_never_fails : forall lm sip (mn mx size lsize : b64) (a0 : tana (F64 lm)),
  ta_fresh (S := F64 lm) mn mx size lsize = Ok a0 -> sane_log2 lm ->
  let m : b64 := raised (S := F64 lm) mn in
  let q := Bdiv mode_NE (Bminus mode_NE mx m) size in
  let lq := Bdiv mode_NE (m_log2 lm (Bdiv mode_NE mx m)) (m_log2 lm lsize) in
  (is_finite m = true -> is_finite mx = true -> is_finite size = true -> 0 < B2R m <= B2R mx -> 0 < B2R size -> is_finite q = true -> B2R q < IZR (2 ^ 52) ->
  is_finite (Bdiv mode_NE mx m) = true -> is_finite (m_log2 lm lsize) = true -> 0 < B2R (m_log2 lm lsize) -> is_finite lq = true -> B2R lq < IZR (2 ^ 52) ->
  forall files, exists r, ta_analyze (S := F64 lm) sip mn mx size lsize files = Ok r)%R.
Proof. intros lm sip mn mx size lsize a0 H0 HL m q lq F1 F2 F3 O1 O2 F4 O3 F5 F6 O4 F7 O5.
  apply (ta_analyze_ok (S := F64 lm) sip mn mx size lsize a0 H0). exact (C37_f64_never_out_of_bounds lm mn mx size lsize a0 H0 HL F1 F2 F3 O1 O2 F4 O3 F5 F6 O4 F7 O5). Qed.
Print Assumptions C41_f64_run_never_fails.
(** The hypotheses are met (C36_configured: bins of width 2 and factor 2 on [1, 100]). *)
Example C41_total_hypotheses : exists (a0 : tana RR) (v0 : tvec RR) (p0 : pana RR),
  ta_fresh (S := RR) 1%R 100%R 2%R 2%R = Ok a0 /\ tv_fresh (S := RR) 1%R 100%R 2%R 2%R 3 = Ok v0 /\ pa_fresh (S := RR) 1%R 100%R 2%R 2%R = Ok p0.
Proof. destruct C36_configured as (a0 & _ & E & _). destruct (tv_fresh_ok _ _ _ _ 3 _ E) as [v0 V]. destruct (pa_fresh_ok _ _ _ _ _ E) as [p0 P]. eauto 10. Qed.

(** ** C45: the macro accepts an input iff it is a literal and six identifiers, with an optional last comma, the last five being known
    names; the last comma changes nothing. *)
Theorem C45_accepted_exactly : forall ts, (exists g, simulation_macro ts = Some g) <->
  exists p a sy ta ag ti si, (ts = invocation p a sy ta ag ti si \/ ts = invocation p a sy ta ag ti si ++ [TComma]) /\
    forall n, In n [sy; ta; ag; ti; si] -> In n (systems ++ ["ContBoundaryTarget"%string] ++ targets ++ agents ++ clocks ++ simulations).
Proof.
  intros ts. assert (C : forall p a sy ta ag ti si, simulation_macro (invocation p a sy ta ag ti si ++ [TComma]) = simulation_macro (invocation p a sy ta ag ti si)) by reflexivity.
  split.
  - intros (g & E). destruct (macro_inv _ _ E) as (p & a & sy & ta & ag & ti & si & T & _). exists p, a, sy, ta, ag, ti, si. split; [exact T|].
    intros n H. destruct (in_dec string_dec n (systems ++ ["ContBoundaryTarget"%string] ++ targets ++ agents ++ clocks ++ simulations)) as [I|I]; [exact I|exfalso].
    assert (N : simulation_macro (invocation p a sy ta ag ti si) = None) by (apply macro_rejects; eauto).
    destruct T as [-> | ->]; [|rewrite C in E]; rewrite N in E; discriminate.
  - intros (p & a & sy & ta & ag & ti & si & T & K).
    assert (D : forall n, In n [sy; ta; ag; ti; si] -> exists v, dataset_vars n = Some v).
    { intros n H. specialize (K n H). apply known_names in K. destruct (dataset_vars n); [eauto|congruence]. }
    assert (G : exists g, simulation_macro (invocation p a sy ta ag ti si) = Some g).
    { destruct (D sy) as [v1 E1]; [cbn; auto|]. destruct (D ta) as [v2 E2]; [cbn; auto|]. destruct (D ag) as [v3 E3]; [cbn; auto|].
      destruct (D ti) as [v4 E4]; [cbn; auto|]. destruct (D si) as [v5 E5]; [cbn; auto 10|].
      unfold simulation_macro. change (parse_tokens (invocation p a sy ta ag ti si)) with (Some (p, [a; sy; ta; ag; ti; si])). cbv iota beta.
      rewrite E1, E2, E3, E4, E5. eauto. }
    destruct T as [-> | ->]; [|rewrite C]; exact G.
Qed.
Print Assumptions C45_accepted_exactly.
Theorem C45_last_comma_ignored : forall p a sy ta ag ti si,
  simulation_macro (invocation p a sy ta ag ti si ++ [TComma]) = simulation_macro (invocation p a sy ta ag ti si).
Proof. reflexivity. Qed.
Print Assumptions C45_last_comma_ignored.
Example C45_accepted_case : exists g, simulation_macro (invocation "mfpt" "TimeAnalysis" "ContCircSystem" "ContBulkTarget" "ContPassiveIndepAgent" "ConstStep" "VariableSimulation" ++ [TComma]) = Some g.
Proof. eexists. reflexivity. Qed.
