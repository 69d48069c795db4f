(** Model of the default values of the analyses (src/analysis.rs 674-691, 1068-1087; that of [TimeAnalysis] is Model_Analysis.ta_default). *)
From Coq Require Import ZArith List.
From Verif Require Import Base Scalar Model_Analysis.
Import ListNotations.

Section Default.
Context {S : scalar}.
(** [TimeVecAnalysis::default()]. *)
(* src/analysis.rs 674-691 [default] *)
Definition tv_default : tvec S :=
  Tvec (repeat s0 10) (repeat s0 10) 0 default_bins 10 (repeat (repeat s0 1001) 10) (repeat (repeat s0 355) 10) (repeat (repeat 0 1001) 10) (repeat (repeat 0 355) 10).
(** [ProcessAnalysis::default()]. *)
(* src/analysis.rs 1068-1087 [default] *)
Definition pa_default : pana S :=
  Pana s0 s0 0 0 default_bins (repeat s0 1001) (repeat s0 1001) (repeat 0 1001) (repeat s0 355) (repeat s0 355) (repeat 0 355).
End Default.
