(** Property C81: changing the bins of an analysis that is in use.  [Model_Rebin]: update_from_bin_size and update_from_num_bin return (analysis afterwards, result); [ta_allocate], [tv_allocate],
    [pa_allocate] are allocate_vectors, [ta_clear], ... are clear ([Model_Analysis]). *)
From Coq Require Import Reals ZArith List Bool Lra Lia.
From Flocq Require Import IEEE754.BinarySingleNaN.
From Verif Require Import Base Scalar Float64 Model_Analysis Spec_Analysis Proof_Time Model_Rebin Proof_Analysis Proof_Analysis4 Proof_Analysis5 Proof_Analysis9 Proof_Analysis10 Proof_Rebin Properties_Analysis.
Import ListNotations.
Local Open Scope R_scope.

(** New sizes are refused exactly for a negative minimum, size or factor or a maximum below the minimum; nothing has changed then.  Otherwise the bins are the new ones (a minimum below 1e-15 becomes
    1e-15), and every other field is as it was. *)
Theorem C81_new_sizes : forall (S : scalar) (a a' : tana S) (mn mx size lsize : S) r, ta_update_size a mn mx size lsize = (a', r) ->
  let bad := (ltb mn s0 || ltb mx mn || ltb size s0 || ltb lsize s0)%bool in
  (bad = true /\ r = Err InvalidArgumentInput /\ a' = a) \/
  (bad = false /\ r = Ok tt /\ ta_mean a' = ta_mean a /\ ta_sq a' = ta_sq a /\ ta_ens a' = ta_ens a /\ ta_hist a' = ta_hist a /\ ta_lhist a' = ta_lhist a /\ ta_count a' = ta_count a /\ ta_lcount a' = ta_lcount a /\
   b_min (ta_bins a') = (if ltb mn (lit 1 (10 ^ 15)) then lit 1 (10 ^ 15) else mn) /\ b_max (ta_bins a') = mx /\ b_size (ta_bins a') = size /\ b_lsize (ta_bins a') = lsize).
Proof.
  intros S a a' mn mx size lsize r H. unfold ta_update_size in H. destruct (size_cases mn mx size lsize) as [(E & B)|(b & E & B & D)]; rewrite E in H; cbn [assign_bins] in H; injection H as <- <-; cbv zeta; rewrite B; [left|right]; auto.
  cbn [ta_mean ta_sq ta_ens ta_hist ta_lhist ta_count ta_lcount ta_bins ta_set_bins]. repeat split; apply D.
Qed.
Print Assumptions C81_new_sizes.
Theorem C81_new_sizes_vector : forall (S : scalar) (a a' : tvec S) (mn mx size lsize : S) r, tv_update_size a mn mx size lsize = (a', r) ->
  let bad := (ltb mn s0 || ltb mx mn || ltb size s0 || ltb lsize s0)%bool in
  (bad = true /\ r = Err InvalidArgumentInput /\ a' = a) \/
  (bad = false /\ r = Ok tt /\ tv_means a' = tv_means a /\ tv_sqs a' = tv_sqs a /\ tv_ens a' = tv_ens a /\ tv_nvar a' = tv_nvar a /\
   tv_hist a' = tv_hist a /\ tv_lhist a' = tv_lhist a /\ tv_count a' = tv_count a /\ tv_lcount a' = tv_lcount a /\
   b_min (tv_bins a') = (if ltb mn (lit 1 (10 ^ 15)) then lit 1 (10 ^ 15) else mn) /\ b_max (tv_bins a') = mx /\ b_size (tv_bins a') = size /\ b_lsize (tv_bins a') = lsize).
Proof.
  intros S a a' mn mx size lsize r H. unfold tv_update_size in H. destruct (size_cases mn mx size lsize) as [(E & B)|(b & E & B & D)]; rewrite E in H; cbn [assign_bins] in H; injection H as <- <-; cbv zeta; rewrite B; [left|right]; auto.
  cbn [tv_means tv_sqs tv_ens tv_nvar tv_hist tv_lhist tv_count tv_lcount tv_bins tv_set_bins]. repeat split; apply D.
Qed.
Print Assumptions C81_new_sizes_vector.
Theorem C81_new_sizes_process : forall (S : scalar) (a a' : pana S) (mn mx size lsize : S) r, pa_update_size a mn mx size lsize = (a', r) ->
  let bad := (ltb mn s0 || ltb mx mn || ltb size s0 || ltb lsize s0)%bool in
  (bad = true /\ r = Err InvalidArgumentInput /\ a' = a) \/
  (bad = false /\ r = Ok tt /\ pa_mean a' = pa_mean a /\ pa_sq a' = pa_sq a /\ pa_points a' = pa_points a /\ pa_ens a' = pa_ens a /\
   pa_bmean a' = pa_bmean a /\ pa_bsq a' = pa_bsq a /\ pa_count a' = pa_count a /\ pa_lmean a' = pa_lmean a /\ pa_lsq a' = pa_lsq a /\ pa_lcount a' = pa_lcount a /\
   b_min (pa_bins a') = (if ltb mn (lit 1 (10 ^ 15)) then lit 1 (10 ^ 15) else mn) /\ b_max (pa_bins a') = mx /\ b_size (pa_bins a') = size /\ b_lsize (pa_bins a') = lsize).
Proof.
  intros S a a' mn mx size lsize r H. unfold pa_update_size in H. destruct (size_cases mn mx size lsize) as [(E & B)|(b & E & B & D)]; rewrite E in H; cbn [assign_bins] in H; injection H as <- <-; cbv zeta; rewrite B; [left|right]; auto.
  cbn [pa_mean pa_sq pa_points pa_ens pa_bmean pa_bsq pa_count pa_lmean pa_lsq pa_lcount pa_bins pa_set_bins]. repeat split; apply D.
Qed.
Print Assumptions C81_new_sizes_process.
(** A new number of bins is refused for a negative minimum, a maximum below the minimum or fewer than ten bins; the three analyses get the same bins. *)
Theorem C81_new_number : forall (S : scalar) (a a' : tana S) (v v' : tvec S) (p p' : pana S) (mn mx : S) n r rv rp,
  ta_update_num a mn mx n = (a', r) -> tv_update_num v mn mx n = (v', rv) -> pa_update_num p mn mx n = (p', rp) ->
  (ltb mn s0 || ltb mx mn || (n <? 10)%Z = true -> (r = Err InvalidArgumentInput /\ a' = a) /\ (rv = Err InvalidArgumentInput /\ v' = v) /\ (rp = Err InvalidArgumentInput /\ p' = p))%bool /\
  (r = Ok tt -> rv = Ok tt /\ rp = Ok tt /\ b_num (ta_bins a') = n /\ b_lnum (ta_bins a') = n /\ b_max (ta_bins a') = mx /\ tv_bins v' = ta_bins a' /\ pa_bins p' = ta_bins a' /\
     a' = Tana (ta_mean a) (ta_sq a) (ta_ens a) (ta_bins a') (ta_hist a) (ta_lhist a) (ta_count a) (ta_lcount a) /\
     v' = Tvec (tv_means v) (tv_sqs v) (tv_ens v) (ta_bins a') (tv_nvar v) (tv_hist v) (tv_lhist v) (tv_count v) (tv_lcount v) /\
     p' = Pana (pa_mean p) (pa_sq p) (pa_points p) (pa_ens p) (ta_bins a') (pa_bmean p) (pa_bsq p) (pa_count p) (pa_lmean p) (pa_lsq p) (pa_lcount p)) /\
  (r = Ok tt \/ (a' = a /\ v' = v /\ p' = p)).
Proof.
  intros S a a' v v' p p' mn mx n r rv rp Ha Hv Hp. unfold ta_update_num, tv_update_num, pa_update_num in Ha, Hv, Hp. unfold from_num_bin in Ha, Hv, Hp.
  destruct (ltb mn s0 || ltb mx mn || (n <? 10)%Z)%bool.
  - cbn in Ha, Hv, Hp. injection Ha as <- <-. injection Hv as <- <-. injection Hp as <- <-. split; [auto|]. split; [discriminate|auto].
  - split; [discriminate|]. cbv zeta in Ha, Hv, Hp. destruct (convert_num_bin _ _ _) as [sz| | |]; cbn [bind assign_bins] in Ha, Hv, Hp;
      injection Ha as <- <-; injection Hv as <- <-; injection Hp as <- <-; cbn; (split; [|auto]); intros H; try discriminate; auto 12.
Qed.
Print Assumptions C81_new_number.
(** It is refused exactly for these three and for a maximum below 1e-15, to which the minimum is raised; otherwise the bins are the number wanted of equal ones, and as many whose ends grow by one
    factor, from the (raised) minimum to the maximum. *)
Lemma number_cases {S : scalar} (mn mx : S) n : ltb (lit (s := S) 1 (10 ^ 15)) s0 = false -> ltb (lit (s := S) 1 (10 ^ 15)) (lit 1 (10 ^ 15)) = false ->
  from_num_bin mn mx n = if (ltb mn s0 || ltb mx mn || (n <? 10)%Z || ltb mx (raised mn))%bool then Err InvalidArgumentInput
    else Ok (Bins (raised mn) mx (div (sub mx (raised mn)) (of_Z n)) (fpow (div mx (raised mn)) (div s1 (of_Z n))) n n).
Proof.
  intros P Q. unfold from_num_bin, convert_num_bin. destruct (ltb mn s0 || ltb mx mn || (n <? 10)%Z)%bool eqn:B; [reflexivity|].
  apply orb_false_iff in B as (B & B3). apply orb_false_iff in B as (B1 & B2). rewrite B3. change (clip_min mn) with (raised mn). change (clip_min (raised mn)) with (raised (raised mn)).
  assert (N : ltb (raised mn) s0 = false) by (unfold raised; destruct (ltb mn (lit 1 (10 ^ 15))); [exact P|exact B1]).
  assert (I : raised (raised mn) = raised mn) by (unfold raised; destruct (ltb mn (lit 1 (10 ^ 15))) eqn:E; [rewrite Q; reflexivity|rewrite E; reflexivity]).
  cbv zeta. rewrite N, I, orb_false_r. cbn [orb]. destruct (ltb mx (raised mn)); reflexivity.
Qed.
Lemma Rltb_true (x y : R) : ltb (s := RR) x y = true -> x < y.
Proof. apply Rltb_spec. Qed.
Lemma Rltb_ge (x y : R) : ltb (s := RR) x y = false <-> y <= x.
Proof. apply Rltb_false. Qed.
Theorem C81_new_number_refused : forall (a a' : tana RR) (mn mx : R) n r, ta_update_num (S := RR) a mn mx n = (a', r) ->
  let lo := Rmax mn (1 / 10 ^ 15) in
  ((mn < 0 \/ mx < mn \/ mx < 1 / 10 ^ 15 \/ (n < 10)%Z) /\ r = Err InvalidArgumentInput /\ a' = a) \/
  (~ (mn < 0 \/ mx < mn \/ mx < 1 / 10 ^ 15 \/ (n < 10)%Z) /\ r = Ok tt /\
   ta_bins a' = Bins (S := RR) lo mx ((mx - lo) / IZR n) (fpow (s := RR) (mx / lo) (1 / IZR n)) n n).
Proof.
  intros a a' mn mx n r H lo. assert (T : 0 < / 10 ^ 15) by (apply Rinv_0_lt_compat, pow_lt; lra). assert (L : (lit (s := RR) 1 (10 ^ 15) : R) = 1 / 10 ^ 15) by exact (f_equal (fun y => 1 / y) (eq_sym (pow_IZR 10 15))).
  assert (P : ltb (lit (s := RR) 1 (10 ^ 15)) (s0 (s := RR)) = false) by (apply Rltb_ge; rewrite L; change (0 <= 1 / 10 ^ 15); lra).
  assert (Q : ltb (lit (s := RR) 1 (10 ^ 15)) (lit (s := RR) 1 (10 ^ 15)) = false) by (apply Rltb_ge; apply Rle_refl).
  assert (I : raised (S := RR) mn = lo).
  { unfold raised, lo. destruct (ltb (s := RR) mn (lit 1 (10 ^ 15))) eqn:E; [apply Rltb_true in E|apply Rltb_ge in E]; rewrite L in E; [rewrite Rmax_right by lra; exact L|rewrite Rmax_left by lra; reflexivity]. }
  unfold ta_update_num in H. rewrite (number_cases (S := RR) mn mx n P Q), I in H.
  destruct (ltb (s := RR) mn s0) eqn:B1; [apply Rltb_true in B1|apply Rltb_ge in B1]; change (s0 (s := RR) : R) with 0 in B1.
  { left. cbn [orb assign_bins] in H. injection H as <- <-. auto. }
  destruct (ltb (s := RR) mx mn) eqn:B2; [apply Rltb_true in B2|apply Rltb_ge in B2].
  { left. cbn [orb assign_bins] in H. injection H as <- <-. auto. }
  destruct (n <? 10)%Z eqn:B3; [apply Z.ltb_lt in B3|apply Z.ltb_ge in B3].
  { left. cbn [orb assign_bins] in H. injection H as <- <-. auto. }
  destruct (ltb (s := RR) mx lo) eqn:B4; [apply Rltb_true in B4|apply Rltb_ge in B4]; cbn [orb assign_bins] in H; injection H as <- <-.
  - left. split; [|auto]. right. right. left. unfold lo in B4. apply Rmax_case_strong with (r1 := mn) (r2 := 1 / 10 ^ 15) (P := fun x => mx < x -> mx < 1 / 10 ^ 15) in B4; [exact B4|lra|auto].
  - right. split; [|split; reflexivity]. assert (1 / 10 ^ 15 <= lo) by apply Rmax_r. intros [K|[K|[K|K]]]; try lra; lia.
Qed.
Print Assumptions C81_new_number_refused.
(** In double precision the same comparisons decide (NaN is below nothing and passes). *)
Theorem C81_f64_new_number_refused : forall (lm : libm) (a a' : tana (F64 lm)) (mn mx : F64 lm) n r, ta_update_num a mn mx n = (a', r) ->
  let bad := (ltb mn s0 || ltb mx mn || (n <? 10)%Z || ltb mx (raised mn))%bool in
  (bad = true /\ r = Err InvalidArgumentInput /\ a' = a) \/ (bad = false /\ r = Ok tt /\ b_min (ta_bins a') = raised mn /\ b_num (ta_bins a') = n /\ b_size (ta_bins a') = div (sub mx (raised mn)) (of_Z n)).
Proof.
  intros lm a a' mn mx n r H bad. unfold ta_update_num in H. rewrite (number_cases (S := F64 lm) mn mx n ltac:(vm_compute; reflexivity) ltac:(vm_compute; reflexivity)) in H. fold bad in H.
  destruct bad; cbn [assign_bins] in H; injection H as <- <-; [left|right]; auto 10.
Qed.
Print Assumptions C81_f64_new_number_refused.
(** Ten bins from 1 to 11 have size 1; nothing can be had up to 1e-16, although that is not below the minimum 0. *)
Example C81_new_number_cases : (exists a' : tana RR, ta_update_num (S := RR) ta_new 1 11 10 = (a', Ok tt) /\ (b_size (ta_bins a') : R) = 1) /\
  ta_update_num (S := RR) ta_new 0 (/ 10 ^ 16) 10 = (ta_new, Err InvalidArgumentInput).
Proof.
  assert (P : 1 < 10 ^ 15) by (apply Rlt_pow_R1; [lra|lia]). assert (I : 1 / 10 ^ 15 < 1) by (apply (Rmult_lt_reg_r (10 ^ 15)); [lra|]; field_simplify; lra). split.
  - destruct (ta_update_num (S := RR) ta_new 1 11 10) as (a', r) eqn:E. destruct (C81_new_number_refused _ _ _ _ _ _ E) as [([K|[K|[K|K]]] & _)|(_ & -> & B)]; try lra; [lia|].
    exists a'. split; [reflexivity|]. rewrite B. cbn [b_size]. rewrite Rmax_left by lra. lra.
  - destruct (ta_update_num (S := RR) ta_new 0 (/ 10 ^ 16) 10) as (a', r) eqn:E. destruct (C81_new_number_refused _ _ _ _ _ _ E) as [(_ & -> & ->)|(K & _)]; [reflexivity|].
    exfalso. apply K. right. right. left. unfold Rdiv. rewrite Rmult_1_l. apply Rinv_lt_contravar; [apply Rmult_lt_0_compat; apply pow_lt; lra|]. apply Rlt_pow; [lra|lia].
Qed.

(** Cleared, given new bins and allocated, an analysis of times or of vectors of times is what a new one with these bins would be, whatever was done with it before (the allocation fails for the
    one when it fails for the other). *)
Theorem C81_clear_then_new_bins : forall (S : scalar) (mn mx size lsize : S),
  (forall a c c' : tana S, ta_clear a = Ok c -> ta_update_size c mn mx size lsize = (c', Ok tt) -> ta_allocate c' = ta_fresh mn mx size lsize) /\
  (forall (a c c' : tana S) n, ta_clear a = Ok c -> ta_update_num c mn mx n = (c', Ok tt) -> ta_allocate c' = ta_fresh_num mn mx n) /\
  (forall a c c' : tvec S, tv_clear a = Ok c -> tv_update_size c mn mx size lsize = (c', Ok tt) -> tv_allocate c' = tv_fresh mn mx size lsize (tv_nvar a)).
Proof. intros S mn mx size lsize. split; [|split]; intros; [eapply clear_rebin_time|eapply clear_rebin_num|eapply clear_rebin_vec]; eauto. Qed.
Print Assumptions C81_clear_then_new_bins.
(** Limit of C81: a process keeps the number of points from before, through clear, new bins and allocation. *)
Theorem C81_process_keeps_points_counterexample : forall (S : scalar) (a c c' d : pana S) (mn mx size lsize : S), pa_clear a = Ok c -> pa_update_size c mn mx size lsize = (c', Ok tt) -> pa_allocate c' = Ok d ->
  exists f, pa_fresh mn mx size lsize = Ok f /\ d = Pana (pa_mean f) (pa_sq f) (pa_points a + pa_points f) (pa_ens f) (pa_bins f) (pa_bmean f) (pa_bsq f) (pa_count f) (pa_lmean f) (pa_lsq f) (pa_lcount f).
Proof. intros S a c c' d mn mx size lsize. apply clear_rebin_process. Qed.
Print Assumptions C81_process_keeps_points_counterexample.

(** Without clear, exact reals: an analysis of times that was given [xs], then new bins and new vectors, then [ys], shows the mean and deviation of all samples and, in its bins, the samples [ys] only. *)
Theorem C81_times_go_on : forall (mn0 mx0 b0 l0 mn mx b l : R) (p0 p a1 a2 : tana RR) (xs ys : list R), ta_fresh (S := RR) mn0 mx0 b0 l0 = Ok p0 -> ta_adds p0 xs = Ok p ->
  ta_update_size (S := RR) p mn mx b l = (a1, Ok tt) -> ta_allocate a1 = Ok a2 -> 0 < b -> 1 < l ->
  exists a3 r, ta_adds a2 ys = Ok a3 /\ ta_draw a3 = Ok r /\ (xs ++ ys <> [] -> ta_mean r = average (xs ++ ys) /\ ta_sq r = deviation (xs ++ ys)) /\ ta_ens r = (length xs + length ys)%nat /\
    (forall i, nth i (ta_count r) 0%nat = hits (low_end mn) mx b ys i) /\ (forall i, nth i (ta_lcount r) 0%nat = lhits (low_end mn) mx l ys i).
Proof.
  intros mn0 mx0 b0 l0 mn mx b l p0 p a1 a2 xs ys H0 Hx Hu Hal Hb Hl. destruct (rebin_time _ _ _ _ _ _ _ Hu Hal) as (f & Ef & _).
  exact (rebinned_times mn mx b l f Ef Hb Hl p0 p a1 a2 mn0 mx0 b0 l0 xs ys H0 Hx Hu Hal).
Qed.
Print Assumptions C81_times_go_on.
(** A process does the same with its values: mean and deviation of all points, lines counted from the beginning, per bin the new points only. *)
Theorem C81_processes_go_on : forall (mn0 mx0 b0 l0 mn mx b l : R) (p0 p a1 a2 a3 r : pana RR) (xs ys : list (list (R * R))),
  pa_fresh (S := RR) mn0 mx0 b0 l0 = Ok p0 -> 0 < b0 -> 1 < l0 -> 0 < b -> 1 < l -> add_lines (pa_line (S := RR)) p0 xs = Ok p ->
  pa_update_size (S := RR) p mn mx b l = (a1, Ok tt) -> pa_allocate a1 = Ok a2 -> add_lines (pa_line (S := RR)) a2 ys = Ok a3 -> pa_draw a3 = Ok r ->
  let all := map snd (concat (xs ++ ys)) in pa_mean r = average all /\ pa_sq r = deviation all /\ pa_ens r = length (xs ++ ys) /\
  exists f, pa_fresh (S := RR) mn mx b l = Ok f /\
  pa_bmean r = map (fun i => average (values_in (low_end mn) mx b (concat ys) i)) (seq 0 (Z.to_nat (b_num (pa_bins f)))) /\
  pa_bsq r = map (fun i => deviation (values_in (low_end mn) mx b (concat ys) i)) (seq 0 (Z.to_nat (b_num (pa_bins f)))) /\
  pa_lmean r = map (fun i => average (lvalues_in (low_end mn) mx l (concat ys) i)) (seq 0 (Z.to_nat (b_lnum (pa_bins f)))) /\
  pa_lsq r = map (fun i => deviation (lvalues_in (low_end mn) mx l (concat ys) i)) (seq 0 (Z.to_nat (b_lnum (pa_bins f)))).
Proof. exact rebinned_process. Qed.
Print Assumptions C81_processes_go_on.
(** Limit of C81: an analysis of vectors forgets the sums but not the number of samples when its vectors are allocated: the means shown are the sums of the new samples over the number of all. *)
Theorem C81_vectors_mix_counterexample : forall (n : nat) (mn mx b l : R) (p a1 a2 a3 r : tvec RR) (ys : list (list R)), n <> 0%nat -> tv_nvar p = n ->
  tv_update_size (S := RR) p mn mx b l = (a1, Ok tt) -> tv_allocate a1 = Ok a2 -> tv_adds a2 ys = Ok a3 -> tv_draw a3 = Ok r ->
  tv_ens r = (tv_ens p + length ys)%nat /\ forall k, (k < n)%nat -> nth_error (tv_means r) k = Some (rsum (column k ys) / INR (tv_ens p + length ys)).
Proof. exact rebinned_vectors. Qed.
Print Assumptions C81_vectors_mix_counterexample.
(** ... for instance, in double precision: one sample 2, new bins, one sample 2, and the mean shown is 1. *)
Theorem C81_mean_of_twos_counterexample :
  match (do a <- tv_fresh (S := F64 toy) (b64_of_Z 1) (b64_of_Z 11) (b64_of_Z 5) (b64_of_Z 2) 1; tv_adds a [[b64_of_Z 2 : F64 toy]]) with
  | Ok p => match tv_update_size (S := F64 toy) p (b64_of_Z 1) (b64_of_Z 11) (b64_of_Z 1) (b64_of_Z 2) with
            | (a1, Ok _) => match (do a2 <- tv_allocate a1; do a3 <- tv_adds a2 [[b64_of_Z 2 : F64 toy]]; tv_draw a3) with Ok r => map (fun x : b64 => B2SF x) (tv_means r) | _ => [] end
            | _ => [] end
  | _ => [] end = [B2SF (b64_of_Z 1)].
Proof. vm_compute. reflexivity. Qed.
Print Assumptions C81_mean_of_twos_counterexample.
(** Limit of C81: new bins without new vectors: a sample inside the range can make the analysis crash. *)
Theorem C81_not_allocated_counterexample :
  match ta_fresh (S := F64 toy) (b64_of_Z 1) (b64_of_Z 11) (b64_of_Z 5) (b64_of_Z 2) with
  | Ok p => match ta_update_size (S := F64 toy) p (b64_of_Z 1) (b64_of_Z 11) (b64_of_Z 1) (b64_of_Z 2) with
            | (a1, Ok _) => (match ta_add p (b64_of_Z 10 : F64 toy) with Ok _ => true | _ => false end, match ta_add a1 (b64_of_Z 10 : F64 toy) with Panic => true | _ => false end)
            | _ => (false, false) end
  | _ => (false, false) end = (true, true).
Proof. vm_compute. reflexivity. Qed.
Print Assumptions C81_not_allocated_counterexample.

(** The hypotheses are met: an analysis with three samples, new bins, new vectors. *)
Example C81_hypotheses : exists (p0 p a1 a2 c c' : tana RR), ta_fresh (S := RR) 1 100 2 2 = Ok p0 /\ ta_adds (S := RR) p0 [3; 500; 100] = Ok p /\
  ta_update_size (S := RR) p 1 100 2 2 = (a1, Ok tt) /\ ta_allocate a1 = Ok a2 /\ ta_clear p = Ok c /\ ta_update_size (S := RR) c 1 100 2 2 = (c', Ok tt).
Proof.
  destruct C36_configured as (p0 & p & E & Hp). pose proof E as E'. unfold ta_fresh in E'. destruct (from_bin_size (S := RR) 1 100 2 2) as [bb| | |] eqn:B; try discriminate. cbn [bind] in E'.
  unfold ta_allocate in E'. cbn [ta_set_bins ta_bins ta_new] in E'. do 4 (destruct (alloc _ _) eqn:? in E'; try discriminate). cbn [bind] in E'.
  assert (Eb : ta_bins p = bb).
  { pose proof (ta_adds_inv _ _ _ Hp) as (Eb & _). rewrite Eb. injection E' as <-. reflexivity. }
  exists p0, p. eexists. eexists. eexists. eexists. split; [exact E|]. split; [exact Hp|]. split; [unfold ta_update_size; rewrite B; reflexivity|].
  split; [unfold ta_allocate; cbn [ta_set_bins ta_bins]; rewrite Heqo, Heqo0, Heqo1, Heqo2; reflexivity|].
  split; [unfold ta_clear; rewrite Eb, Heqo1, Heqo2; reflexivity|]. unfold ta_update_size. rewrite B. reflexivity.
Qed.
