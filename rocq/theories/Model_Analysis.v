(** Model of src/analysis.rs: histograms ([Bin], [TimeAnalysis], [TimeVecAnalysis], [ProcessAnalysis]), the grouping of data files
    ([DataSet] equality, src/macros.rs [derive_hash]) and [analyze].
    Simplifications: output rows are the values handed to the formatter, not their characters; [usize] counters do not overflow;
    [vec![0; n]] panics (capacity overflow) when 8*n exceeds isize::MAX and is otherwise assumed to find memory. *)
From Coq Require Import ZArith List.
From Verif Require Import Base Scalar.
Import ListNotations.

Section An.
Context {S : scalar}.
Local Open Scope s_scope.

(** [x.ceil() as usize]: for |x| >= 2^53 every double is an integer, so adding 1 to the truncation when it is below [x] is exact.
    ([x.floor() as usize] is [as_usize x]: negative values saturate to 0 either way.) *)
(* x.ceil() as usize in src/analysis.rs 155-178 [update_from_bin_size] *)
Definition ceil_usize (x : S) : Z := let z := as_usize x in if of_Z z <? x then Z.min (z + 1) usize_max else z.
(** [vec![_; n]] of 8-byte elements. *)
(* src/analysis.rs 373-378 [allocate_vectors] *)
Definition alloc {X : Type} (x : X) (n : Z) : outcome (list X) := if (8 * n <=? 2 ^ 63 - 1)%Z then Ok (repeat x (Z.to_nat n)) else Panic.
(** [v[i] = f(v[i])], [i : usize]. *)
(* Vec indexing by usize, std; src/analysis.rs 385-399 [add_ensemble] *)
Definition updz {X : Type} (i : Z) (f : X -> X) (l : list X) : outcome (list X) :=
  if (i <? Z.of_nat (length l))%Z then upd (Z.to_nat i) f l else Panic.
(* Vec indexing by usize, std; src/analysis.rs 402-420 [draw] *)
Definition idxz {X : Type} (l : list X) (i : Z) : outcome X := if (i <? Z.of_nat (length l))%Z then idx l (Z.to_nat i) else Panic.
(** The literal 1e-15. *)
(* the literal 1e-15 in src/analysis.rs 155-178 [update_from_bin_size] *)
Definition tiny : S := lit 1 (10 ^ 15).

(** ** The binning fields and [construct_trait_bin!], 149-244 *)
(* fields min_time, max_time, bin_size, lbin_size, num_bin, num_lbin of src/analysis.rs 313-327; src/analysis.rs 620-635; src/analysis.rs 1010-1027 *)
Record bins := Bins { b_min : S; b_max : S; b_size : S; b_lsize : S; b_num : Z; b_lnum : Z }.

(** 160-166 (also 186-192, 210-216). *)
(* src/analysis.rs 160-166 *)
Definition clip_min (m : S) : S := if m <? tiny then tiny else m.
(** [update_from_bin_size]. *)
(* src/analysis.rs 155-178 [update_from_bin_size] *)
Definition from_bin_size (mn mx size lsize : S) : outcome bins :=
  if ((mn <? s0) || (mx <? mn) || (size <? s0) || (lsize <? s0))%bool then Err InvalidArgumentInput
  else let time := clip_min mn in
       let num := ceil_usize ((mx - time) / size + lit 1 2) in
       let lnum := ceil_usize (flog2 (mx / time) / flog2 lsize + lit 1 2) in
       Ok (Bins time mx size lsize num lnum).
(** [convert_num_bin_to_bin_size]. *)
(* src/analysis.rs 205-221 [convert_num_bin_to_bin_size] *)
Definition convert_num_bin (mn mx : S) (num : Z) : outcome (S * S) :=
  if ((mn <? s0) || (mx <? mn) || (num <? 10)%Z)%bool then Err InvalidArgumentInput
  else let time := clip_min mn in
       Ok ((mx - time) / of_Z num, fpow (mx / time) (s1 / of_Z num)).
(** [update_from_num_bin]. *)
(* src/analysis.rs 181-203 [update_from_num_bin] *)
Definition from_num_bin (mn mx : S) (num : Z) : outcome bins :=
  if ((mn <? s0) || (mx <? mn) || (num <? 10)%Z)%bool then Err InvalidArgumentInput
  else let time := clip_min mn in
       do sz <- convert_num_bin time mx num;
       Ok (Bins time mx (fst sz) (snd sz) num num).
(** [bin_pos]; [lbin_pos]. *)
(* src/analysis.rs 224-231 [bin_pos] *)
Definition bin_pos (b : bins) (x : S) : option Z :=
  if ((x <? b_min b) || (b_max b <? x))%bool then None else Some (as_usize ((x - b_min b) / b_size b)).
(* src/analysis.rs 234-241 [lbin_pos] *)
Definition lbin_pos (b : bins) (x : S) : option Z :=
  if ((x <? b_min b) || (b_max b <? x))%bool then None else Some (as_usize (flog2 (x / b_min b) / flog2 (b_lsize b))).

(** [match self.bin_pos(x) { Some(idx) => v[idx] = f(v[idx]), None => () }]. *)
(* the matches on bin_pos in src/analysis.rs 385-399 [add_ensemble]; src/analysis.rs 1096-1120 [add_pair] *)
Definition bump {X : Type} (p : option Z) (f : X -> X) (l : list X) : outcome (list X) :=
  match p with Some i => updz i f l | None => Ok l end.

(** ** [TimeAnalysis], 312-328 *)
(* src/analysis.rs 313-327 *)
Record tana := Tana { ta_mean : S; ta_sq : S; ta_ens : nat; ta_bins : bins; ta_hist : list S; ta_lhist : list S; ta_count : list nat; ta_lcount : list nat }.
(** [new]. *)
(* src/analysis.rs 331-347 [new] *)
Definition ta_new : tana := Tana s0 s0 0 (Bins s0 s0 s0 s0 0 0) [] [] [] [].
(** [default]. *)
(* src/analysis.rs 351-367 [default] *)
Definition default_bins : bins := Bins tiny (of_Z (10 ^ 13)) (of_Z (10 ^ 10)) (lit 12 10) 1001 355.
(* src/analysis.rs 351-367 [default] *)
Definition ta_default : tana := Tana s0 s0 0 default_bins (repeat s0 1001) (repeat s0 355) (repeat 0 1001) (repeat 0 355).
(* assignment of the bin fields in src/analysis.rs 155-178 [update_from_bin_size] *)
Definition ta_set_bins (a : tana) (b : bins) : tana := Tana (ta_mean a) (ta_sq a) (ta_ens a) b (ta_hist a) (ta_lhist a) (ta_count a) (ta_lcount a).
(** [allocate_vectors]. *)
(* src/analysis.rs 373-378 [allocate_vectors] *)
Definition ta_allocate (a : tana) : outcome tana :=
  do h <- alloc s0 (b_num (ta_bins a)); do lh <- alloc s0 (b_lnum (ta_bins a));
  do c <- alloc 0 (b_num (ta_bins a)); do lc <- alloc 0 (b_lnum (ta_bins a));
  Ok (Tana (ta_mean a) (ta_sq a) (ta_ens a) (ta_bins a) h lh c lc).
(** [add_ensemble]. *)
(* src/analysis.rs 385-399 [add_ensemble] *)
Definition ta_add (a : tana) (x : S) : outcome tana :=
  do c <- bump (bin_pos (ta_bins a) x) Datatypes.S (ta_count a);
  do lc <- bump (lbin_pos (ta_bins a) x) Datatypes.S (ta_lcount a);
  Ok (Tana (ta_mean a + x) (ta_sq a + x * x) (Datatypes.S (ta_ens a)) (ta_bins a) (ta_hist a) (ta_lhist a) c lc).
(** [draw].  [fill]: [for (i, &x) in count.iter().enumerate() { hist[i] = ... }]; the widths are given by the iteration. *)
(* src/analysis.rs 402-420 [draw] *)
Fixpoint fill (count : list nat) (width grow : S) (hist : list S) : outcome (list S) :=
  match count, hist with
  | [], h => Ok h
  | _ :: _, [] => Panic
  | n :: c, _ :: h => do h' <- fill c (width * grow) grow h; Ok (of_Z (Z.of_nat n) / width :: h')
  end.
(* src/analysis.rs 402-420 [draw] *)
Fixpoint fill_lin (count : list nat) (width : S) (hist : list S) : outcome (list S) :=
  match count, hist with
  | [], h => Ok h
  | _ :: _, [] => Panic
  | n :: c, _ :: h => do h' <- fill_lin c width h; Ok (of_Z (Z.of_nat n) / width :: h')
  end.
(* src/analysis.rs 402-420 [draw] *)
Definition ta_draw (a : tana) : outcome tana :=
  let en := of_Z (Z.of_nat (ta_ens a)) in
  let mean := ta_mean a / en in
  let stddev := fsqrt (ta_sq a / en - mean * mean) in
  let b := ta_bins a in
  do h <- fill_lin (ta_count a) (en * b_size b) (ta_hist a);
  do lh <- fill (ta_lcount a) (b_min b * en * (b_lsize b - s1)) (b_lsize b) (ta_lhist a);
  Ok (Tana mean stddev (ta_ens a) b h lh (ta_count a) (ta_lcount a)).
(** [clear]. *)
(* src/analysis.rs 428-434 [clear] *)
Definition ta_clear (a : tana) : outcome tana :=
  do c <- alloc 0 (b_num (ta_bins a)); do lc <- alloc 0 (b_lnum (ta_bins a));
  Ok (Tana s0 s0 0 (ta_bins a) (ta_hist a) (ta_lhist a) c lc).
(** [export_mean_stddev]: the columns in the order they are written; [export_form]: the column titles. *)
(* src/analysis.rs 447-449 [export_mean_stddev] *)
Inductive column := CEnsemble (n : nat) | CMean (x : S) | CStddev (x : S).
(* src/analysis.rs 443 *)
Inductive title := TEnsemble | TMean | TStddev.
(* src/analysis.rs 447-449 [export_mean_stddev] *)
Definition ta_export_row (a : tana) : list column := [CMean (ta_mean a); CStddev (ta_sq a); CEnsemble (ta_ens a)].
(* src/analysis.rs 443 *)
Definition ta_export_form : list title := [TEnsemble; TMean; TStddev].
(** [export_distribution]: time, count and density of each bin whose density is not below 1e-15. *)
(* src/analysis.rs 452-464 [export_distribution] *)
Fixpoint rows_lin (time step : S) (hist : list S) (i : nat) (count : list nat) : outcome (list (S * nat * S)) :=
  match hist with
  | [] => Ok []
  | x :: h =>
    let time' := time + step in
    if fabs x <? tiny then rows_lin time' step h (Datatypes.S i) count
    else do n <- idx count i; do r <- rows_lin time' step h (Datatypes.S i) count; Ok ((time', n, x) :: r)
  end.
(* src/analysis.rs 467-480 [export_log_scaled_distribution] *)
Fixpoint rows_log (time step : S) (hist : list S) (i : nat) (count : list nat) : outcome (list (S * nat * S)) :=
  match hist with
  | [] => Ok []
  | x :: h =>
    let time' := time * step in
    if fabs x <? tiny then rows_log time' step h (Datatypes.S i) count
    else do n <- idx count i; do r <- rows_log time' step h (Datatypes.S i) count; Ok ((time', n, x) :: r)
  end.
(* src/analysis.rs 452-464 [export_distribution] *)
Definition ta_export_lin (a : tana) : outcome (list (S * nat * S)) :=
  rows_lin (b_min (ta_bins a) - b_size (ta_bins a) / s2) (b_size (ta_bins a)) (ta_hist a) 0 (ta_count a).
(** [export_log_scaled_distribution]. *)
(* src/analysis.rs 467-480 [export_log_scaled_distribution] *)
Definition ta_export_log (a : tana) : outcome (list (S * nat * S)) :=
  rows_log (b_min (ta_bins a) / fsqrt (b_lsize (ta_bins a))) (b_lsize (ta_bins a)) (ta_lhist a) 0 (ta_lcount a).
(** The loop over the lines of a data file in [analyze], 588-592. *)
(* the loop over the lines in src/analysis.rs 501-610 [analyze] *)
Fixpoint ta_adds (a : tana) (xs : list S) : outcome tana :=
  match xs with [] => Ok a | x :: r => do a' <- ta_add a x; ta_adds a' r end.
(** a new analysis for a data set seen for the first time. *)
(* the new analysis of a data set in src/analysis.rs 501-610 [analyze] *)
Definition ta_fresh (mn mx size lsize : S) : outcome tana :=
  do b <- from_bin_size mn mx size lsize; ta_allocate (ta_set_bins ta_new b).

(** ** [TimeVecAnalysis], 615-631 *)
(* src/analysis.rs 620-635 *)
Record tvec := Tvec { tv_means : list S; tv_sqs : list S; tv_ens : nat; tv_bins : bins; tv_nvar : nat;
                      tv_hist : list (list S); tv_lhist : list (list S); tv_count : list (list nat); tv_lcount : list (list nat) }.
(** [new]. *)
(* src/analysis.rs 639-656 [new] *)
Definition tv_new (n : nat) : tvec := Tvec (repeat s0 n) (repeat s0 n) 0 (Bins s0 s0 s0 s0 0 0) n [] [] [] [].
(* assignment of the bin fields in src/analysis.rs 155-178 [update_from_bin_size] *)
Definition tv_set_bins (a : tvec) (b : bins) : tvec := Tvec (tv_means a) (tv_sqs a) (tv_ens a) b (tv_nvar a) (tv_hist a) (tv_lhist a) (tv_count a) (tv_lcount a).
(** [allocate_vectors]. *)
(* src/analysis.rs 662-670 [allocate_vectors] *)
Definition tv_allocate (a : tvec) : outcome tvec :=
  let n := tv_nvar a in
  do h <- alloc s0 (b_num (tv_bins a)); do lh <- alloc s0 (b_lnum (tv_bins a));
  do c <- alloc 0 (b_num (tv_bins a)); do lc <- alloc 0 (b_lnum (tv_bins a));
  Ok (Tvec (repeat s0 n) (repeat s0 n) (tv_ens a) (tv_bins a) n (repeat h n) (repeat lh n) (repeat c n) (repeat lc n)).
(** [add_ensemble]: the loop over the values. *)
(* src/analysis.rs 696-719 [add_ensemble] *)
Fixpoint tv_loop (b : bins) (idx : nat) (xs : list S) (st : list S * list S * list (list nat) * list (list nat)) :
    outcome (list S * list S * list (list nat) * list (list nat)) :=
  match xs with
  | [] => Ok st
  | x :: r =>
    let '(m, q, c, lc) := st in
    do m' <- upd idx (fun y => y + x) m;
    do q' <- upd idx (fun y => y + x * x) q;
    do ci <- Base.idx c idx; do ci' <- bump (bin_pos b x) Datatypes.S ci; do c' <- upd idx (fun _ => ci') c;
    do li <- Base.idx lc idx; do li' <- bump (lbin_pos b x) Datatypes.S li; do lc' <- upd idx (fun _ => li') lc;
    tv_loop b (Datatypes.S idx) r (m', q', c', lc')
  end.
(* src/analysis.rs 696-719 [add_ensemble] *)
Definition tv_add (a : tvec) (xs : list S) : outcome tvec :=
  do a1 <- (if (tv_nvar a =? 0)%nat then
              tv_allocate (Tvec (tv_means a) (tv_sqs a) (tv_ens a) (tv_bins a) (length xs) (tv_hist a) (tv_lhist a) (tv_count a) (tv_lcount a))
            else if negb (tv_nvar a =? length xs)%nat then Panic else Ok a);
  do st <- tv_loop (tv_bins a1) 0 xs (tv_means a1, tv_sqs a1, tv_count a1, tv_lcount a1);
  let '(m, q, c, lc) := st in
  Ok (Tvec m q (Datatypes.S (tv_ens a1)) (tv_bins a1) (tv_nvar a1) (tv_hist a1) (tv_lhist a1) c lc).
(* the loop over the lines in src/analysis.rs 864-979 [analyze] *)
Fixpoint tv_adds (a : tvec) (rows : list (list S)) : outcome tvec :=
  match rows with [] => Ok a | r :: rs => do a' <- tv_add a r; tv_adds a' rs end.
(** [draw]. *)
(* src/analysis.rs 722-746 [draw] *)
Fixpoint tv_draw_loop (is : list nat) (b : bins) (en : S) (cnt lcnt : list (list nat)) (st : list S * list S * list (list S) * list (list S)) :
    outcome (list S * list S * list (list S) * list (list S)) :=
  match is with
  | [] => Ok st
  | i :: r =>
    let '(m, q, h, lh) := st in
    do mi <- Base.idx m i; let mi' := mi / en in do m' <- upd i (fun _ => mi') m;
    do qi <- Base.idx q i; do q' <- upd i (fun _ => fsqrt (qi / en - mi' * mi')) q;
    do c <- Base.idx cnt i; do hi <- Base.idx h i; do hi' <- fill_lin c (en * b_size b) hi; do h' <- upd i (fun _ => hi') h;
    do lc <- Base.idx lcnt i; do lhi <- Base.idx lh i; do lhi' <- fill lc (b_min b * en * (b_lsize b - s1)) (b_lsize b) lhi; do lh' <- upd i (fun _ => lhi') lh;
    tv_draw_loop r b en cnt lcnt (m', q', h', lh')
  end.
(* src/analysis.rs 722-746 [draw] *)
Definition tv_draw (a : tvec) : outcome tvec :=
  let en := of_Z (Z.of_nat (tv_ens a)) in
  do st <- tv_draw_loop (seq 0 (tv_nvar a)) (tv_bins a) en (tv_count a) (tv_lcount a) (tv_means a, tv_sqs a, tv_hist a, tv_lhist a);
  let '(m, q, h, lh) := st in
  Ok (Tvec m q (tv_ens a) (tv_bins a) (tv_nvar a) h lh (tv_count a) (tv_lcount a)).
(** [clear]. *)
(* src/analysis.rs 753-760 [clear] *)
Definition tv_clear (a : tvec) : outcome tvec :=
  do c <- alloc 0 (b_num (tv_bins a)); do lc <- alloc 0 (b_lnum (tv_bins a));
  let n := tv_nvar a in
  Ok (Tvec (repeat s0 n) (repeat s0 n) 0 (tv_bins a) n (tv_hist a) (tv_lhist a) (repeat c n) (repeat lc n)).
(** [export_mean_stddev]; [export_form]. *)
(* src/analysis.rs 773-780 [export_mean_stddev] *)
Definition tv_export_row (a : tvec) : list column :=
  CEnsemble (tv_ens a) :: flat_map (fun mq => [CMean (fst mq); CStddev (snd mq)]) (combine (tv_means a) (tv_sqs a)).
(* src/analysis.rs 770 *)
Definition tv_export_form : list title := [TEnsemble; TMean; TStddev].
(** [export_distribution], [export_log_scaled_distribution]: [while time <= max_time].  [next] is the update of [time]. *)
(* src/analysis.rs 783-811 [export_distribution] *)
Fixpoint tv_cells (cols : list (list nat)) (hists : list (list S)) (idxs : list nat) (i : nat) : outcome (list (nat * S)) :=
  match idxs with
  | [] => Ok []
  | k :: r =>
    do c <- Base.idx cols k; do n <- Base.idx c i;
    do h <- Base.idx hists k; do x <- Base.idx h i;
    do rest <- tv_cells cols hists r i; Ok ((n, x) :: rest)
  end.
(* src/analysis.rs 783-811 [export_distribution]; src/analysis.rs 814-841 [export_log_scaled_distribution] *)
Fixpoint tv_rows (fuel : nat) (next : S -> S) (mx time : S) (i nvar : nat) (cols : list (list nat)) (hists : list (list S)) : outcome (list (S * list (nat * S))) :=
  match fuel with
  | 0%nat => Fuel
  | Datatypes.S k =>
    if time <=? mx then
      do cells <- tv_cells cols hists (seq 0 nvar) i;
      do rest <- tv_rows k next mx (next time) (Datatypes.S i) nvar cols hists;
      Ok (if existsb (fun nx => tiny <? snd nx) cells then (time, cells) :: rest else rest)
    else Ok []
  end.
(* src/analysis.rs 783-811 [export_distribution] *)
Definition tv_export_lin (fuel : nat) (a : tvec) := let b := tv_bins a in
  tv_rows fuel (fun t => t + b_size b) (b_max b) (b_min b + b_size b / s2) 0 (tv_nvar a) (tv_count a) (tv_hist a).
(* src/analysis.rs 814-841 [export_log_scaled_distribution] *)
Definition tv_export_log (fuel : nat) (a : tvec) := let b := tv_bins a in
  tv_rows fuel (fun t => t * b_lsize b) (b_max b) (b_min b * fsqrt (b_lsize b)) 0 (tv_nvar a) (tv_lcount a) (tv_lhist a).

(** ** [ProcessAnalysis], 1009-1027 *)
(* src/analysis.rs 1010-1027 *)
Record pana := Pana { pa_mean : S; pa_sq : S; pa_points : nat; pa_ens : nat; pa_bins : bins;
                      pa_bmean : list S; pa_bsq : list S; pa_count : list nat; pa_lmean : list S; pa_lsq : list S; pa_lcount : list nat }.
(** [new]. *)
(* src/analysis.rs 1031-1050 [new] *)
Definition pa_new : pana := Pana s0 s0 0 0 (Bins s0 s0 s0 s0 0 0) [] [] [] [] [] [].
(* assignment of the bin fields in src/analysis.rs 155-178 [update_from_bin_size] *)
Definition pa_set_bins (a : pana) (b : bins) : pana :=
  Pana (pa_mean a) (pa_sq a) (pa_points a) (pa_ens a) b (pa_bmean a) (pa_bsq a) (pa_count a) (pa_lmean a) (pa_lsq a) (pa_lcount a).
(** [allocate_vectors]. *)
(* src/analysis.rs 1056-1064 [allocate_vectors] *)
Definition pa_allocate (a : pana) : outcome pana :=
  do h <- alloc s0 (b_num (pa_bins a)); do c <- alloc 0 (b_num (pa_bins a));
  do lh <- alloc s0 (b_lnum (pa_bins a)); do lc <- alloc 0 (b_lnum (pa_bins a));
  Ok (Pana (pa_mean a) (pa_sq a) (pa_points a) (pa_ens a) (pa_bins a) h h c lh lh lc).
(** [add_ensemble]. *)
(* src/analysis.rs 1091-1093 [add_ensemble] *)
Definition pa_add (a : pana) : pana :=
  Pana (pa_mean a) (pa_sq a) (pa_points a) (Datatypes.S (pa_ens a)) (pa_bins a) (pa_bmean a) (pa_bsq a) (pa_count a) (pa_lmean a) (pa_lsq a) (pa_lcount a).
(** [add_pair]. *)
(* src/analysis.rs 1096-1120 [add_pair] *)
Definition pa_pair (a : pana) (t v : S) : outcome pana :=
  do c <- bump (bin_pos (pa_bins a) t) Datatypes.S (pa_count a);
  do m <- bump (bin_pos (pa_bins a) t) (fun y => y + v) (pa_bmean a);
  do q <- bump (bin_pos (pa_bins a) t) (fun y => y + v * v) (pa_bsq a);
  do lc <- bump (lbin_pos (pa_bins a) t) Datatypes.S (pa_lcount a);
  do lm <- bump (lbin_pos (pa_bins a) t) (fun y => y + v) (pa_lmean a);
  do lq <- bump (lbin_pos (pa_bins a) t) (fun y => y + v * v) (pa_lsq a);
  Ok (Pana (pa_mean a + v) (pa_sq a + v * v) (Datatypes.S (pa_points a)) (pa_ens a) (pa_bins a) m q c lm lq lc).
(* the loop over the pairs of a line in src/analysis.rs 1246-1362 [analyze] *)
Fixpoint pa_pairs (a : pana) (ps : list (S * S)) : outcome pana :=
  match ps with [] => Ok a | (t, v) :: r => do a' <- pa_pair a t v; pa_pairs a' r end.
(** [draw]: the loops over the bins. *)
(* src/analysis.rs 1123-1144 [draw] *)
Fixpoint means_loop (count : list nat) (mean sq : list S) : outcome (list S * list S) :=
  match count, mean, sq with
  | [], m, q => Ok (m, q)
  | n :: c, m :: ms, q :: qs =>
    let m' := m / of_Z (Z.of_nat n) in
    do r <- means_loop c ms qs; Ok (m' :: fst r, fsqrt (q / of_Z (Z.of_nat n) - m' * m') :: snd r)
  | _, _, _ => Panic
  end.
(* src/analysis.rs 1123-1144 [draw] *)
Definition pa_draw (a : pana) : outcome pana :=
  let en := of_Z (Z.of_nat (pa_points a)) in
  let mean := pa_mean a / en in
  do l <- means_loop (pa_count a) (pa_bmean a) (pa_bsq a);
  do ll <- means_loop (pa_lcount a) (pa_lmean a) (pa_lsq a);
  Ok (Pana mean (fsqrt (pa_sq a / en - mean * mean)) (pa_points a) (pa_ens a) (pa_bins a) (fst l) (snd l) (pa_count a) (fst ll) (snd ll) (pa_lcount a)).
(** [clear]: [tot_point] is not reset. *)
(* src/analysis.rs 1151-1163 [clear] *)
Definition pa_clear (a : pana) : outcome pana :=
  do h <- alloc s0 (b_num (pa_bins a)); do c <- alloc 0 (b_num (pa_bins a));
  do lh <- alloc s0 (b_lnum (pa_bins a)); do lc <- alloc 0 (b_lnum (pa_bins a));
  Ok (Pana s0 s0 (pa_points a) 0 (pa_bins a) h h c lh lh lc).
(** [export_mean_stddev]; [export_form]. *)
(* src/analysis.rs 1175-1180 [export_mean_stddev] *)
Definition pa_export_row (a : pana) : list column := [CMean (pa_mean a); CStddev (pa_sq a); CEnsemble (pa_ens a)].
(* src/analysis.rs 1172 *)
Definition pa_export_form : list title := [TEnsemble; TMean; TStddev].
(** [export_distribution]; [export_log_scaled_distribution]. *)
(* src/analysis.rs 1183-1202 [export_distribution]; src/analysis.rs 1205-1223 [export_log_scaled_distribution] *)
Fixpoint pa_rows (fuel : nat) (next : S -> S) (mx time : S) (i : nat) (count : list nat) (mean sq : list S) : outcome (list (S * nat * S * S)) :=
  match fuel with
  | 0%nat => Fuel
  | Datatypes.S k =>
    if time <=? mx then
      do n <- Base.idx count i; do x <- Base.idx mean i; do dx <- Base.idx sq i;
      do rest <- pa_rows k next mx (next time) (Datatypes.S i) count mean sq;
      Ok (if tiny <? x then (time, n, x, dx) :: rest else rest)
    else Ok []
  end.
(* src/analysis.rs 1183-1202 [export_distribution] *)
Definition pa_export_lin (fuel : nat) (a : pana) := let b := pa_bins a in
  pa_rows fuel (fun t => t + b_size b) (b_max b) (b_min b + b_size b / s2) 0 (pa_count a) (pa_bmean a) (pa_bsq a).
(* src/analysis.rs 1205-1223 [export_log_scaled_distribution] *)
Definition pa_export_log (fuel : nat) (a : pana) := let b := pa_bins a in
  pa_rows fuel (fun t => t * b_lsize b) (b_max b) (b_min b * fsqrt (b_lsize b)) 0 (pa_lcount a) (pa_lmean a) (pa_lsq a).

(** ** Grouping files: [derive_hash!], analysis.rs 107-121 *)
(** The number fed to the hasher for one field ([self.var as f64]). *)
(* src/macros.rs 134-151 *)
Definition field_key (v : S) : Z :=
  let c := v * of_Z (10 ^ 10) in
  if c <? s0 then as_usize (opp c + s1) else as_usize (c + s0).
(* src/macros.rs 134-151 *)
Definition keys (vs : list S) : list Z := map field_key vs.
(** [PartialEq]: [sip] is the 64-bit digest of the sequence of keys ([DefaultHasher]). *)
(* src/analysis.rs 108-121 *)
Definition same_dataset (sip : list Z -> Z) (v w : list S) : bool := (sip (keys v) =? sip (keys w))%Z.
End An.
Arguments bins S : clear implicits.
Arguments tana S : clear implicits.
Arguments tvec S : clear implicits.
Arguments pana S : clear implicits.
Arguments column S : clear implicits.

(** ** [analyze], 553-611 ([TimeAnalysis]), 905-976 ([TimeVecAnalysis]), 1289-1363 ([ProcessAnalysis]): the files of the data
    directory in the order [read_dir] gives them.  A file is [None] when [H::from_file] fails (skipped), otherwise its parameters and
    its contents, a list of lines.  The [HashMap] is a list with one entry per class of [same_dataset]; its iteration order is not
    specified in Rust.  [empty] tells which analyses the last loop skips. *)
Section Analyze.
Context {S : scalar} {A L : Type}.
Variables (sip : list Z -> Z) (fresh : outcome A) (add_line : A -> L -> outcome A) (draw : A -> outcome A) (empty : A -> bool).
(* the loop over the lines in src/analysis.rs 501-610 [analyze]; src/analysis.rs 864-979 [analyze]; src/analysis.rs 1246-1362 [analyze] *)
Fixpoint add_lines (a : A) (ls : list L) : outcome A :=
  match ls with [] => Ok a | l :: r => do a' <- add_line a l; add_lines a' r end.
(* HashMap entry of the data set in src/analysis.rs 501-610 [analyze]; src/analysis.rs 864-979 [analyze]; src/analysis.rs 1246-1362 [analyze] *)
Fixpoint insert_file (ds : list S) (xs : list L) (m : list (list S * A)) : outcome (list (list S * A)) :=
  match m with
  | [] => do a <- fresh; do a' <- add_lines a xs; Ok [(ds, a')]
  | (d, a) :: r =>
    if same_dataset sip d ds then do a' <- add_lines a xs; Ok ((d, a') :: r)
    else do r' <- insert_file ds xs r; Ok ((d, a) :: r')
  end.
(* the loop over the directory in src/analysis.rs 501-610 [analyze]; src/analysis.rs 864-979 [analyze]; src/analysis.rs 1246-1362 [analyze] *)
Fixpoint read_files (files : list (option (list S * list L))) (m : list (list S * A)) : outcome (list (list S * A)) :=
  match files with
  | [] => Ok m
  | None :: r => read_files r m
  | Some (ds, xs) :: r => do m' <- insert_file ds xs m; read_files r m'
  end.
(* the last loop of src/analysis.rs 501-610 [analyze]; src/analysis.rs 864-979 [analyze]; src/analysis.rs 1246-1362 [analyze] *)
Fixpoint draw_all (m : list (list S * A)) : outcome (list (list S * A)) :=
  match m with
  | [] => Ok []
  | (d, a) :: r => if empty a then draw_all r else do a' <- draw a; do r' <- draw_all r; Ok ((d, a') :: r')
  end.
(* src/analysis.rs 501-610 [analyze]; src/analysis.rs 864-979 [analyze]; src/analysis.rs 1246-1362 [analyze] *)
Definition analyze (files : list (option (list S * list L))) : outcome (list (list S * A)) :=
  do m <- read_files files []; draw_all m.
End Analyze.

(** The three instances; the bin sizes are those given, or those of [convert_num_bin] (503-513, 867-878, 1247-1258). *)
Section Instances.
Context {S : scalar}.
Variables (sip : list Z -> Z) (mn mx size lsize : S).
(* src/analysis.rs 501-610 [analyze] *)
Definition ta_analyze := analyze (S := S) (L := S) sip (ta_fresh mn mx size lsize) ta_add ta_draw (fun _ => false).
(* src/analysis.rs 864-979 [analyze] *)
Definition tv_fresh (n : nat) : outcome (tvec S) := do b <- from_bin_size mn mx size lsize; tv_allocate (tv_set_bins (tv_new n) b).
(* src/analysis.rs 864-979 [analyze] *)
Definition tv_analyze (n : nat) := analyze (S := S) (L := list S) sip (tv_fresh n) tv_add tv_draw (fun a => Nat.eqb (tv_ens a) 0).
(* src/analysis.rs 1246-1362 [analyze] *)
Definition pa_fresh : outcome (pana S) := do b <- from_bin_size mn mx size lsize; pa_allocate (pa_set_bins pa_new b).
(** one line is a list of pairs. *)
(* src/analysis.rs 1246-1362 [analyze] *)
Definition pa_line (a : pana S) (l : list (S * S)) : outcome (pana S) := do a' <- pa_pairs a l; Ok (pa_add a').
(* src/analysis.rs 1246-1362 [analyze] *)
Definition pa_analyze := analyze (S := S) (L := list (S * S)) sip pa_fresh pa_line pa_draw (fun a => Nat.eqb (pa_ens a) 0).
End Instances.

(** the directory chosen for the results: [analysis_<date>], or the first free [analysis_<date>_<i>], i = 2, 3, ...
    [exists_dir None] is the plain name, [exists_dir (Some i)] the name with suffix [i]. *)
(* the search for a free directory name in src/analysis.rs 501-610 [analyze] *)
Fixpoint free_suffix (fuel : nat) (exists_dir : option nat -> bool) (i : nat) : outcome nat :=
  match fuel with
  | 0 => Fuel
  | S k => if exists_dir (Some i) then free_suffix k exists_dir (S i) else Ok i
  end.
(* the directory of the results in src/analysis.rs 501-610 [analyze] *)
Definition summary_dir (fuel : nat) (exists_dir : option nat -> bool) : outcome (option nat) :=
  if exists_dir None then do i <- free_suffix fuel exists_dir 2; Ok (Some i) else Ok None.
