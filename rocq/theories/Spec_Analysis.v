(** Specification vocabulary for the analyses: counting samples by real intervals, plain means and deviations. *)
From Coq Require Import Reals ZArith List Bool.
From Flocq.IEEE754 Require Import BinarySingleNaN.
From Verif Require Import Base Scalar Model_Analysis.
Import ListNotations.

(** The number of elements of [l] for which [f] holds. *)
Definition number_of {A : Type} (f : A -> bool) (l : list A) : nat := length (filter f l).
(** [lo <= x <= hi], by the comparisons of the number type ([x] is not below [lo] and not above [hi]). *)
Definition between {S : scalar} (lo hi x : S) : bool := negb (ltb x lo) && negb (ltb hi x).
(** Reals: [lo <= x < hi]. *)
Definition cell (lo hi x : R) : bool := Rleb lo x && Rltb x hi.
(** The edges of linear bin [i] and of logarithmic bin [i]. *)
Definition edge (m b : R) (i : nat) : R := (m + INR i * b)%R.
Definition ledge (m l : R) (i : nat) : R := (m * l ^ i)%R.
(** The lower end of the histogram: the requested minimum, but at least 1e-15. *)
Definition low_end (mn : R) : R := if Rlt_dec mn (1 / 10 ^ 15) then (1 / 10 ^ 15)%R else mn.
(** The samples of bin [i] that are inside the requested range. *)
Definition hits (m M b : R) (xs : list R) (i : nat) : nat :=
  number_of (fun x => between (S := RR) m M x && cell (edge m b i) (edge m b (S i)) x) xs.
Definition lhits (m M l : R) (xs : list R) (i : nat) : nat :=
  number_of (fun x => between (S := RR) m M x && cell (ledge m l i) (ledge m l (S i)) x) xs.

Definition rsum (l : list R) : R := fold_right Rplus 0%R l.
Definition average (l : list R) : R := (rsum l / INR (length l))%R.
(** Population standard deviation. *)
Definition deviation (l : list R) : R := sqrt (average (map (fun x => (x - average l) ^ 2)%R l)).

(** Everything a user can do to an analysis between configuring and exporting it. *)
Inductive op (S : scalar) := OAdd (x : S) | ODraw | OClear.
Arguments OAdd {S}. Arguments ODraw {S}. Arguments OClear {S}.
Definition apply {S : scalar} (a : tana S) (o : op S) : outcome (tana S) :=
  match o with OAdd x => ta_add a x | ODraw => ta_draw a | OClear => ta_clear a end.
Fixpoint history {S : scalar} (a : tana S) (os : list (op S)) : outcome (tana S) :=
  match os with [] => Ok a | o :: r => do a' <- apply a o; history a' r end.
Inductive vop (S : scalar) := VAdd (xs : list S) | VDraw | VClear.
Arguments VAdd {S}. Arguments VDraw {S}. Arguments VClear {S}.
Definition vapply {S : scalar} (a : tvec S) (o : vop S) : outcome (tvec S) :=
  match o with VAdd x => tv_add a x | VDraw => tv_draw a | VClear => tv_clear a end.
Fixpoint vhistory {S : scalar} (a : tvec S) (os : list (vop S)) : outcome (tvec S) :=
  match os with [] => Ok a | o :: r => do a' <- vapply a o; vhistory a' r end.

(** Column [k] of a multi-column analysis, read as a single-variable analysis. *)
Definition column_of {S : scalar} (k : nat) (a : tvec S) : option (tana S) :=
  match nth_error (tv_means a) k, nth_error (tv_sqs a) k, nth_error (tv_hist a) k, nth_error (tv_lhist a) k,
        nth_error (tv_count a) k, nth_error (tv_lcount a) k with
  | Some m, Some q, Some h, Some lh, Some c, Some lc => Some (Tana m q (tv_ens a) (tv_bins a) h lh c lc)
  | _, _, _, _, _, _ => None
  end.

(** The lines of all readable files whose parameters satisfy [same], in the order in which the files are read. *)
Definition lines_of {S : scalar} {L : Type} (same : list S -> bool) (files : list (option (list S * list L))) : list L :=
  flat_map (fun f => match f with Some (ds, xs) => if same ds then xs else [] | None => [] end) files.
(** An analysis configured by a number of bins. *)
Definition ta_fresh_num {S : scalar} (mn mx : S) (n : Z) : outcome (tana S) :=
  do b <- from_num_bin mn mx n; ta_allocate (ta_set_bins ta_new b).
(** Rows of an exported distribution: bin centre, count, density. *)
Definition big_enough (row : R * nat * R) : bool := negb (Rltb (Rabs (snd row)) (1 / 10 ^ 15)).
(** The values of the pairs whose time is in bin [i]. *)
Definition values_in (m M b : R) (ps : list (R * R)) (i : nat) : list R :=
  map snd (filter (fun tv => between (S := RR) m M (fst tv) && cell (edge m b i) (edge m b (S i)) (fst tv)) ps).
Definition lvalues_in (m M l : R) (ps : list (R * R)) (i : nat) : list R :=
  map snd (filter (fun tv => between (S := RR) m M (fst tv) && cell (ledge m l i) (ledge m l (S i)) (fst tv)) ps).
(** [K] bins have their centre at most [M]. *)
Definition shown (centre : nat -> R) (M : R) (K : nat) : Prop := forall k : nat, (k < K)%nat <-> (centre k <= M)%R.
(** What an analysis shows apart from the floating-point sums. *)
Definition tally {S : scalar} (o : outcome (tana S)) : outcome (nat * bins S * list nat * list nat) :=
  do a <- o; Ok (ta_ens a, ta_bins a, ta_count a, ta_lcount a).
(** What an operation on all columns does to column [k]. *)
Definition op_column {S : scalar} (k : nat) (o : vop S) : op S := match o with VAdd xs => OAdd (nth k xs s0) | VDraw => ODraw | VClear => OClear end.
(** A row of an exported multi-column distribution (centre, then count and density per column) is written when some density exceeds 1e-15. *)
Definition visible (row : R * list (nat * R)) : bool := existsb (fun nx => Rltb (1 / 10 ^ 15) (snd nx)) (snd row).
(** Column [j] of rows of numbers. *)
Definition column (j : nat) (rows : list (list R)) : list R := map (fun row => nth j row 0%R) rows.
(** What is asked of the platform's [log2]: NaN in, NaN out; finite, non-negative and increasing on finite numbers from 1 on. *)
Definition sane_log2 (lm : libm) : Prop :=
  (forall x, is_nan x = true -> is_nan (m_log2 lm x) = true) /\
  (forall x y, is_finite x = true -> is_finite y = true -> (1 <= B2R x)%R -> (B2R x <= B2R y)%R ->
     is_finite (m_log2 lm x) = true /\ is_finite (m_log2 lm y) = true /\ (0 <= B2R (m_log2 lm x))%R /\ (B2R (m_log2 lm x) <= B2R (m_log2 lm y))%R).

(** What a written column is. *)
Definition kind {S : scalar} (c : Model_Analysis.column S) : title := match c with CEnsemble _ => TEnsemble | CMean _ => TMean | CStddev _ => TStddev end.

(** The lower end of the histogram for any number type: the requested minimum, but at least 1e-15. *)
Definition raised {S : scalar} (mn : S) : S := if ltb mn (lit 1 (10 ^ 15)) then lit 1 (10 ^ 15) else mn.

(** The number [derive_hash!] feeds to the hasher for a real parameter [u]: u * 1e10 (for u < 0: - u * 1e10 + 1) without fraction, at most 2^64 - 1. *)
Definition hash_cell (u : R) (k : Z) : Prop :=
  (0 <= k <= usize_max)%Z /\
  exists w : R, (((0 <= u /\ w = u * 10 ^ 10) \/ (u < 0 /\ w = - u * 10 ^ 10 + 1)) /\ IZR k <= w /\ (w < IZR (k + 1) \/ k = usize_max))%R.
