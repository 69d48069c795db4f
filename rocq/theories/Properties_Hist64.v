(** Property C62: histograms of doubles - which bin a sample is counted in, and where the bins are reported.
    Statements use the vocabulary of [Spec_Hist64] - [lin_count], [log_count], [accurate_log2] - in which [u64] = 2^-53. *)
From Coq Require Import Reals ZArith List Lra Lia.
From Flocq Require Import Core.
From Flocq.IEEE754 Require Import BinarySingleNaN.
From Verif Require Import Base Scalar Float64 Model_Position Spec_Position Model_Analysis Spec_Analysis Proof_Analysis Proof_Analysis9 Spec_Accuracy Spec_Hist64
  Proof_Hist64b Proof_Hist64d Proof_Hist64e Properties_Accuracy.
Import ListNotations.
Open Scope R_scope.

(** Each linear bin counts at least the samples inside its interval shrunk, and at most those inside its interval widened, by 2^-51 of the
    edges' distance from the low end; the logarithmic bins likewise, given the accuracy of the platform's log2. *)
Theorem C62_time_counts : forall lm (mn mx size lsize : b64) (a0 a : tana (F64 lm)) (xs : list b64), let m : b64 := raised (S := F64 lm) mn in
  is_finite m = true -> is_finite mx = true ->
  ta_fresh (S := F64 lm) mn mx size lsize = Ok a0 -> ta_adds a0 xs = Ok a -> Forall (fun x => is_finite x = true) xs ->
  (is_finite size = true /\ 0 < B2R size ->
   forall i, (i < length (ta_count a))%nat -> lin_count (B2R m) (B2R mx) (B2R size) i xs (nth i (ta_count a) 0%nat)) /\
  (forall e, accurate_log2 lm e /\ 0 <= e <= 1 / 8 /\ is_finite lsize = true /\ 1 < B2R lsize /\ is_finite (Bdiv mode_NE mx m) = true ->
   forall i, (i < length (ta_lcount a))%nat -> log_count e (B2R m) (B2R mx) (B2R lsize) i xs (nth i (ta_lcount a) 0%nat)).
Proof. intros lm mn mx size lsize a0 a xs m Fm Fx. exact (time_counts lm mn mx size lsize Fm Fx a0 a xs). Qed.
Print Assumptions C62_time_counts.
(** The same for every column of the multi-column analysis. *)
Theorem C62_vector_counts : forall lm (mn mx size lsize : b64) n (a0 a : tvec (F64 lm)) (rows : list (list b64)), let m : b64 := raised (S := F64 lm) mn in
  is_finite m = true -> is_finite mx = true ->
  n <> 0%nat -> tv_fresh (S := F64 lm) mn mx size lsize n = Ok a0 -> tv_adds a0 rows = Ok a -> Forall (Forall (fun x => is_finite x = true)) rows ->
  forall k, (k < n)%nat -> let xs := map (fun row => nth k row (b64_of_Z 0)) rows in
  exists c lc, nth_error (tv_count a) k = Some c /\ nth_error (tv_lcount a) k = Some lc /\
  (is_finite size = true /\ 0 < B2R size -> forall i, (i < length c)%nat -> lin_count (B2R m) (B2R mx) (B2R size) i xs (nth i c 0%nat)) /\
  (forall e, accurate_log2 lm e /\ 0 <= e <= 1 / 8 /\ is_finite lsize = true /\ 1 < B2R lsize /\ is_finite (Bdiv mode_NE mx m) = true ->
   forall i, (i < length lc)%nat -> log_count e (B2R m) (B2R mx) (B2R lsize) i xs (nth i lc 0%nat)).
Proof. intros lm mn mx size lsize n a0 a rows m Fm Fx. exact (vector_counts lm mn mx size lsize Fm Fx n a0 a rows). Qed.
Print Assumptions C62_vector_counts.
(** The same for the times of the process analysis. *)
Theorem C62_process_counts : forall lm (mn mx size lsize : b64) (a0 a : pana (F64 lm)) (ls : list (list (b64 * b64))), let m : b64 := raised (S := F64 lm) mn in
  is_finite m = true -> is_finite mx = true ->
  pa_fresh (S := F64 lm) mn mx size lsize = Ok a0 -> add_lines (pa_line (S := F64 lm)) a0 ls = Ok a ->
  let xs := map fst (concat ls) in Forall (fun x => is_finite x = true) xs ->
  (is_finite size = true /\ 0 < B2R size ->
   forall i, (i < length (pa_count a))%nat -> lin_count (B2R m) (B2R mx) (B2R size) i xs (nth i (pa_count a) 0%nat)) /\
  (forall e, accurate_log2 lm e /\ 0 <= e <= 1 / 8 /\ is_finite lsize = true /\ 1 < B2R lsize /\ is_finite (Bdiv mode_NE mx m) = true ->
   forall i, (i < length (pa_lcount a))%nat -> log_count e (B2R m) (B2R mx) (B2R lsize) i xs (nth i (pa_lcount a) 0%nat)).
Proof. intros lm mn mx size lsize a0 a ls m Fm Fx. exact (process_counts lm mn mx size lsize Fm Fx a0 a ls). Qed.
Print Assumptions C62_process_counts.
(** With no sample between a shrunk and a widened edge, a count with these bounds is exactly the number of samples in the interval. *)
Theorem C62_exact_away_from_edges : forall (m M w l e : R) i (xs : list b64) n,
  (0 < w -> lin_count m M w i xs n ->
   Forall (fun x => ~ bin_lo m w (- (4 * u64)) i <= B2R x < bin_lo m w (4 * u64) i /\ ~ bin_hi m w (4 * u64) i <= B2R x < bin_hi m w (- (4 * u64)) i) xs ->
   n = hits m M w (map B2R xs) i) /\
  (0 <= e <= 1 / 8 -> 0 < m -> 1 < l -> log_count e m M l i xs n -> let d := 2 * u64 + 4 * e in let v := 2 * u64 in
   Forall (fun x => ~ lbin_lo m l (- d) (- v) i <= B2R x < lbin_lo m l d v i /\ ~ lbin_hi m l d v i <= B2R x < lbin_hi m l (- d) (- v) i) xs ->
   n = lhits m M l (map B2R xs) i).
Proof. intros. split; [apply lin_exact|apply log_exact]. Qed.
Print Assumptions C62_exact_away_from_edges.

(** The exported table: one row per bin in order, without the bins whose density is below 1e-15; the position in the row of bin [j] is the
    middle of the bin (for logarithmic bins the geometric middle) up to 4 (j + 2), respectively j + 3, roundings. *)
Theorem C62_time_rows : forall lm (mn mx size lsize : b64) (a0 a r : tana (F64 lm)) (xs : list b64), let m : b64 := raised (S := F64 lm) mn in
  ta_fresh (S := F64 lm) mn mx size lsize = Ok a0 -> ta_adds a0 xs = Ok a -> ta_draw a = Ok r ->
  exists t lt : nat -> b64,
  ta_export_lin r = Ok (filter (fun row => negb (ltb (fabs (snd row)) (lit 1 (10 ^ 15)))) (map (fun j => (t j, nth j (ta_count r) 0%nat, nth j (ta_hist r) s0)) (seq 0 (length (ta_hist r))))) /\
  ta_export_log r = Ok (filter (fun row => negb (ltb (fabs (snd row)) (lit 1 (10 ^ 15)))) (map (fun j => (lt j, nth j (ta_lcount r) 0%nat, nth j (ta_lhist r) s0)) (seq 0 (length (ta_lhist r))))) /\
  (is_finite m = true /\ is_finite size = true /\ 0 < B2R m <= 2 ^ 900 /\ / 2 ^ 900 <= B2R size <= 2 ^ 900 ->
   forall j, INR j <= 2 ^ 50 -> edge (B2R m) (B2R size) (S j) <= 2 ^ 900 -> close (4 * (INR j + 2)) (t j) (edge (B2R m) (B2R size) j + B2R size / 2)) /\
  (is_finite m = true /\ is_finite lsize = true /\ / 2 ^ 900 <= B2R m <= 2 ^ 900 /\ 1 < B2R lsize <= 2 ^ 50 ->
   forall j, INR j <= 2 ^ 50 -> ledge (B2R m) (B2R lsize) j * sqrt (B2R lsize) <= 2 ^ 900 -> close (INR j + 3) (lt j) (ledge (B2R m) (B2R lsize) j * sqrt (B2R lsize))).
Proof. intros lm mn mx size lsize a0 a r xs m. exact (time_rows lm mn mx size lsize a0 a r xs). Qed.
Print Assumptions C62_time_rows.
(** The multi-column and the process analysis: rows as long as the position does not exceed the requested maximum, in the same places;
    a row is left out unless one of its densities (its mean) is above 1e-15. *)
Theorem C62_vector_rows : forall lm (mn mx size lsize : b64) n (a0 a r : tvec (F64 lm)) (rows : list (list b64)), let m : b64 := raised (S := F64 lm) mn in
  n <> 0%nat -> tv_fresh (S := F64 lm) mn mx size lsize n = Ok a0 -> tv_adds a0 rows = Ok a -> tv_draw a = Ok r ->
  exists t lt : nat -> b64,
  (forall fuel out, tv_export_lin fuel r = Ok out -> exists K, (forall j, (j < K)%nat -> leb (s := F64 lm) (t j) mx = true) /\ leb (s := F64 lm) (t K) mx = false /\
     out = filter (fun row => existsb (fun nx => ltb (lit 1 (10 ^ 15)) (snd nx)) (snd row))
             (map (fun j => (t j, map (fun k => (nth j (nth k (tv_count r) []) 0%nat, nth j (nth k (tv_hist r) []) s0)) (seq 0 n))) (seq 0 K))) /\
  (forall fuel out, tv_export_log fuel r = Ok out -> exists K, (forall j, (j < K)%nat -> leb (s := F64 lm) (lt j) mx = true) /\ leb (s := F64 lm) (lt K) mx = false /\
     out = filter (fun row => existsb (fun nx => ltb (lit 1 (10 ^ 15)) (snd nx)) (snd row))
             (map (fun j => (lt j, map (fun k => (nth j (nth k (tv_lcount r) []) 0%nat, nth j (nth k (tv_lhist r) []) s0)) (seq 0 n))) (seq 0 K))) /\
  (is_finite m = true /\ is_finite size = true /\ 0 < B2R m <= 2 ^ 900 /\ / 2 ^ 900 <= B2R size <= 2 ^ 900 ->
   forall j, INR j <= 2 ^ 50 -> edge (B2R m) (B2R size) (S j) <= 2 ^ 900 -> close (4 * (INR j + 2)) (t j) (edge (B2R m) (B2R size) j + B2R size / 2)) /\
  (is_finite m = true /\ is_finite lsize = true /\ / 2 ^ 900 <= B2R m <= 2 ^ 900 /\ 1 < B2R lsize <= 2 ^ 50 ->
   forall j, INR j <= 2 ^ 50 -> ledge (B2R m) (B2R lsize) j * sqrt (B2R lsize) <= 2 ^ 900 -> close (INR j + 3) (lt j) (ledge (B2R m) (B2R lsize) j * sqrt (B2R lsize))).
Proof. intros lm mn mx size lsize n a0 a r rows m. exact (vector_rows lm mn mx size lsize n a0 a r rows). Qed.
Print Assumptions C62_vector_rows.
Theorem C62_process_rows : forall lm (mn mx size lsize : b64) (a0 a r : pana (F64 lm)) (ls : list (list (b64 * b64))), let m : b64 := raised (S := F64 lm) mn in
  pa_fresh (S := F64 lm) mn mx size lsize = Ok a0 -> add_lines (pa_line (S := F64 lm)) a0 ls = Ok a -> pa_draw a = Ok r ->
  exists t lt : nat -> b64,
  (forall fuel out, pa_export_lin fuel r = Ok out -> exists K, (forall j, (j < K)%nat -> leb (s := F64 lm) (t j) mx = true) /\ leb (s := F64 lm) (t K) mx = false /\
     out = filter (fun row => ltb (lit 1 (10 ^ 15)) (snd (fst row))) (map (fun j => (t j, nth j (pa_count r) 0%nat, nth j (pa_bmean r) s0, nth j (pa_bsq r) s0)) (seq 0 K))) /\
  (forall fuel out, pa_export_log fuel r = Ok out -> exists K, (forall j, (j < K)%nat -> leb (s := F64 lm) (lt j) mx = true) /\ leb (s := F64 lm) (lt K) mx = false /\
     out = filter (fun row => ltb (lit 1 (10 ^ 15)) (snd (fst row))) (map (fun j => (lt j, nth j (pa_lcount r) 0%nat, nth j (pa_lmean r) s0, nth j (pa_lsq r) s0)) (seq 0 K))) /\
  (is_finite m = true /\ is_finite size = true /\ 0 < B2R m <= 2 ^ 900 /\ / 2 ^ 900 <= B2R size <= 2 ^ 900 ->
   forall j, INR j <= 2 ^ 50 -> edge (B2R m) (B2R size) (S j) <= 2 ^ 900 -> close (4 * (INR j + 2)) (t j) (edge (B2R m) (B2R size) j + B2R size / 2)) /\
  (is_finite m = true /\ is_finite lsize = true /\ / 2 ^ 900 <= B2R m <= 2 ^ 900 /\ 1 < B2R lsize <= 2 ^ 50 ->
   forall j, INR j <= 2 ^ 50 -> ledge (B2R m) (B2R lsize) j * sqrt (B2R lsize) <= 2 ^ 900 -> close (INR j + 3) (lt j) (ledge (B2R m) (B2R lsize) j * sqrt (B2R lsize))).
Proof. intros lm mn mx size lsize a0 a r ls m. exact (process_rows lm mn mx size lsize a0 a r ls). Qed.
Print Assumptions C62_process_rows.

(** * The hypotheses are met *)
(** There is a platform whose log2 is accurate to 2^-53. *)
Example C62_log2_exists : accurate_log2 good u64 /\ 0 <= u64 <= 1 / 8.
Proof. split; [exact good_accurate|]. pose proof Proof_Hist64.u_small. lra. Qed.
Local Notation z n := (b64_of_Z n).
Lemma z_fin k : (Z.abs k <= 2 ^ 53)%Z -> is_finite (z k) = true. Proof. intros H. apply (of_Z_exact k H). Qed.
(** On that platform, with range [1, 4], bins of 1 and factor 2: a run of each analysis. *)
Example C62_time_run : exists a0 a r, ta_fresh (S := F64 good) (z 1) (z 4) (z 1) (z 2) = Ok a0 /\ ta_adds a0 [z 1; z 2; z 4; z 2] = Ok a /\ ta_draw a = Ok r /\
  is_finite (b_min (ta_bins a0) : b64) = true /\ ta_count r = [1; 2; 0; 1]%nat /\ ta_lcount r = [1; 2; 1]%nat.
Proof. apply (run_some (S := F64 good) (z 1) (z 4) (z 1) (z 2) [z 1; z 2; z 4; z 2] (fun x : b64 => is_finite x)). vm_compute. reflexivity. Qed.
Lemma vec_some {S : scalar} (mn mx size lsize : S) n rows fuel p q s :
  match tv_fresh mn mx size lsize n with
  | Ok x => match tv_adds x rows with Ok y => match tv_draw y with Ok r =>
      match tv_export_lin fuel r, tv_export_log fuel r with Ok o, Ok o' => Some (tv_count r, length o, length o') | _, _ => None end | _ => None end | _ => None end
  | _ => None end = Some (p, q, s) ->
  exists a0 a r o o', tv_fresh mn mx size lsize n = Ok a0 /\ tv_adds a0 rows = Ok a /\ tv_draw a = Ok r /\ tv_count r = p /\
    tv_export_lin fuel r = Ok o /\ tv_export_log fuel r = Ok o' /\ length o = q /\ length o' = s.
Proof.
  destruct (tv_fresh mn mx size lsize n) as [a0| | |] eqn:E0; try discriminate. destruct (tv_adds a0 rows) as [a| | |] eqn:Ea; try discriminate.
  destruct (tv_draw a) as [r| | |] eqn:Er; try discriminate. destruct (tv_export_lin fuel r) as [o| | |] eqn:Eo; try discriminate.
  destruct (tv_export_log fuel r) as [o'| | |] eqn:Eo'; try discriminate. intros H. exists a0, a, r, o, o'. repeat split; auto; congruence.
Qed.
Example C62_vector_run : exists a0 a r o o', tv_fresh (S := F64 good) (z 1) (z 4) (z 1) (z 2) 2 = Ok a0 /\ tv_adds a0 [[z 1; z 4]; [z 2; z 2]; [z 2; z 1]] = Ok a /\ tv_draw a = Ok r /\
  tv_count r = [[1; 2; 0; 0]; [1; 1; 0; 1]]%nat /\ tv_export_lin 9 r = Ok o /\ tv_export_log 9 r = Ok o' /\ length o = 2%nat /\ length o' = 2%nat.
Proof. apply (vec_some (S := F64 good)). vm_compute. reflexivity. Qed.
Lemma proc_some {S : scalar} (mn mx size lsize : S) ls fuel p q s :
  match pa_fresh mn mx size lsize with
  | Ok x => match add_lines pa_line x ls with Ok y => match pa_draw y with Ok r =>
      match pa_export_lin fuel r, pa_export_log fuel r with Ok o, Ok o' => Some (pa_count r, length o, length o') | _, _ => None end | _ => None end | _ => None end
  | _ => None end = Some (p, q, s) ->
  exists a0 a r o o', pa_fresh mn mx size lsize = Ok a0 /\ add_lines pa_line a0 ls = Ok a /\ pa_draw a = Ok r /\ pa_count r = p /\
    pa_export_lin fuel r = Ok o /\ pa_export_log fuel r = Ok o' /\ length o = q /\ length o' = s.
Proof.
  destruct (pa_fresh mn mx size lsize) as [a0| | |] eqn:E0; try discriminate. destruct (add_lines pa_line a0 ls) as [a| | |] eqn:Ea; try discriminate.
  destruct (pa_draw a) as [r| | |] eqn:Er; try discriminate. destruct (pa_export_lin fuel r) as [o| | |] eqn:Eo; try discriminate.
  destruct (pa_export_log fuel r) as [o'| | |] eqn:Eo'; try discriminate. intros H. exists a0, a, r, o, o'. repeat split; auto; congruence.
Qed.
Example C62_process_run : exists a0 a r o o', pa_fresh (S := F64 good) (z 1) (z 4) (z 1) (z 2) = Ok a0 /\
  add_lines (pa_line (S := F64 good)) a0 [[(z 1, z 5); (z 2, z 7)]; [(z 2, z 3)]] = Ok a /\ pa_draw a = Ok r /\
  pa_count r = [1; 2; 0; 0]%nat /\ pa_export_lin 9 r = Ok o /\ pa_export_log 9 r = Ok o' /\ length o = 2%nat /\ length o' = 2%nat.
Proof. apply (proc_some (S := F64 good)). vm_compute. reflexivity. Qed.
(** The size conditions for that setting. *)
Example C62_setting_fits : let m : b64 := raised (S := F64 good) (z 1) in is_finite m = true /\ is_finite (z 4) = true /\ is_finite (Bdiv mode_NE (z 4) m) = true /\
  (is_finite m = true /\ is_finite (z 1) = true /\ 0 < B2R m <= 2 ^ 900 /\ / 2 ^ 900 <= B2R (z 1) <= 2 ^ 900) /\
  (is_finite m = true /\ is_finite (z 2) = true /\ / 2 ^ 900 <= B2R m <= 2 ^ 900 /\ 1 < B2R (z 2) <= 2 ^ 50) /\
  edge (B2R m) (B2R (z 1)) 4 <= 2 ^ 900 /\ ledge (B2R m) (B2R (z 2)) 2 * sqrt (B2R (z 2)) <= 2 ^ 900.
Proof.
  cbv zeta. replace (raised (S := F64 good) (z 1) : b64) with (z 1) by (apply B2SF_inj; vm_compute; reflexivity).
  destruct (of_Z_exact 1 ltac:(lia)) as (F1 & ->). destruct (of_Z_exact 2 ltac:(lia)) as (F2 & ->). assert (F4 : is_finite (z 4) = true) by (apply z_fin; lia).
  assert (Q : 2 ^ 10 <= 2 ^ 900) by (apply Rle_pow; [lra|lia]). assert (Q2 : 2 ^ 10 <= 2 ^ 50) by (apply Rle_pow; [lra|lia]). change (2 ^ 10) with (2 * (2 * (2 * (2 * (2 * (2 * (2 * (2 * (2 * (2 * 1)))))))))) in Q, Q2.
  assert (I : / 2 ^ 900 <= 1). { rewrite <- Rinv_1. apply Rinv_le_contravar; lra. }
  assert (S2 : sqrt 2 <= 2). { rewrite <- (sqrt_square 2) at 2 by lra. apply sqrt_le_1_alt. lra. }
  split; [exact F1|]. split; [exact F4|]. split; [vm_compute; reflexivity|]. split; [repeat split; auto; lra|]. split; [repeat split; auto; lra|].
  unfold edge, ledge. set (q := 2 ^ 900) in *. replace (INR 4) with 4 by (simpl; lra). simpl (2 ^ 2). split; lra.
Qed.
