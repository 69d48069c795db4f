(** Specification vocabulary for the files written by the analyses of vectors of times and of processes. *)
From Coq Require Import String List ZArith.
From Verif Require Import Base Scalar Model_Text Model_Args Model_Analysis Model_Program Spec_Program.
Import ListNotations.
Local Open Scope string_scope.
Local Open Scope list_scope.

Section Words.
Context {S : scalar} (show_e : S -> string).
(** The parameters of a data set as they stand in the summary. *)
Definition parameter_words (entries : list (entry S)) : list string := map (fun e => match e with EFloat x => show_e x | EInt n => show_usize n end) entries.
(** A row of the summary for vectors: the parameters, the number of samples, then mean and deviation of each column. *)
Definition vec_summary_words (entries : list (entry S)) (a : tvec S) : list string :=
  parameter_words entries ++ show_usize (tv_ens a) :: flat_map (fun mq => [show_e (fst mq); show_e (snd mq)]) (combine (tv_means a) (tv_sqs a)).
(** ... and of a distribution: the time, then count and density of each column. *)
Definition vec_histogram_words (row : S * list (nat * S)) : list string :=
  show_e (fst row) :: flat_map (fun nx => [show_usize (fst nx); show_e (snd nx)]) (snd row).
(** A row of the summary for processes: the parameters, mean, deviation, number of runs; of a distribution: time, count, mean, deviation. *)
Definition proc_summary_words (entries : list (entry S)) (a : pana S) : list string :=
  parameter_words entries ++ [show_e (pa_mean a); show_e (pa_sq a); show_usize (pa_ens a)].
Definition proc_histogram_words (row : S * nat * S * S) : list string :=
  let '(t, n, x, dx) := row in [show_e t; show_usize n; show_e x; show_e dx].
End Words.
(** The two files of a data set. *)
Definition linear_path (dir name : string) : string := (dir ++ "/linear_distribution/" ++ name)%string.
Definition logarithmic_path (dir name : string) : string := (dir ++ "/logarithmic_distribution/" ++ name)%string.
(** [m] is the mean of the [n] numbers [xs] and [q] the square root of the mean of their squares minus the square of the mean, as computed from left to right. *)
Definition has_moments {S : scalar} (n : nat) (xs : list S) (m q : S) : Prop :=
  let N := of_Z (Z.of_nat n) in let sum := fold_left add xs s0 in let squares := fold_left (fun s x => s + x * x)%S xs s0 in
  m = (sum / N)%S /\ q = fsqrt (squares / N - sum / N * (sum / N))%S.
