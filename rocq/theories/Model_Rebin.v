(** src/analysis.rs: [update_from_bin_size] and [update_from_num_bin] called on an analysis that was used before ([analyze] calls the first on a new one only, see [ta_fresh] in [Model_Analysis]).  Both
    return before they assign anything when they refuse, so the pair (analysis afterwards, result) is what a caller sees. *)
From Coq Require Import ZArith List.
From Verif Require Import Base Scalar Model_Analysis.

Section Rebin.
Context {S : scalar}.
(** The result of computing new bins, written into an analysis by [set]. *)
(* src/analysis.rs 171-177 *)
Definition assign_bins {A : Type} (set : A -> bins S -> A) (a : A) (nb : outcome (bins S)) : A * outcome unit :=
  match nb with Ok b => (set a b, Ok tt) | Err e => (a, Err e) | Panic => (a, Panic) | Fuel => (a, Fuel) end.
(* src/analysis.rs 155-178 [update_from_bin_size] for the fields of src/analysis.rs 313-327 *)
Definition ta_update_size (a : tana S) (mn mx size lsize : S) : tana S * outcome unit := assign_bins ta_set_bins a (from_bin_size mn mx size lsize).
(* src/analysis.rs 181-203 [update_from_num_bin] for the fields of src/analysis.rs 313-327 *)
Definition ta_update_num (a : tana S) (mn mx : S) (n : Z) : tana S * outcome unit := assign_bins ta_set_bins a (from_num_bin mn mx n).
(* src/analysis.rs 155-178 [update_from_bin_size] for the fields of src/analysis.rs 620-635 *)
Definition tv_update_size (a : tvec S) (mn mx size lsize : S) : tvec S * outcome unit := assign_bins tv_set_bins a (from_bin_size mn mx size lsize).
(* src/analysis.rs 181-203 [update_from_num_bin] for the fields of src/analysis.rs 620-635 *)
Definition tv_update_num (a : tvec S) (mn mx : S) (n : Z) : tvec S * outcome unit := assign_bins tv_set_bins a (from_num_bin mn mx n).
(* src/analysis.rs 155-178 [update_from_bin_size] for the fields of src/analysis.rs 1010-1027 *)
Definition pa_update_size (a : pana S) (mn mx size lsize : S) : pana S * outcome unit := assign_bins pa_set_bins a (from_bin_size mn mx size lsize).
(* src/analysis.rs 181-203 [update_from_num_bin] for the fields of src/analysis.rs 1010-1027 *)
Definition pa_update_num (a : pana S) (mn mx : S) (n : Z) : pana S * outcome unit := assign_bins pa_set_bins a (from_num_bin mn mx n).
End Rebin.
