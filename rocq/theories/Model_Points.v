(** Model of the sampling tests that write or bin what they draw: tests/random_vec.rs, tests/random_histogram.rs.  The numbers fixed in the tests (10000 points, a disc of
    radius 3, 1000000 samples) are arguments; the seed is the state of the generator; a file is its text.  Not modelled: the drawing of the pictures (plotlib). *)
From Coq Require Import ZArith List String Ascii.
From Verif Require Import Base Scalar Model_Position Model_System Model_Text Model_Args.
Import ListNotations.
Local Open Scope string_scope.

(* the "\t" in tests/random_vec.rs 25, 47, 69, 91, 112, 133 *)
Definition tab : string := String (ascii_of_nat 9) "".

Section Points.
Context {S : scalar} {G : rng S}.
Variable nt : numtext S.
Notation gen := (rstate G).

(** [let (x, y) = (pos[0], pos[1]); write!(&mut file, "{}\t{}\n", x, y)]. *)
(* tests/random_vec.rs 23-25 *)
Definition point_line (p : pos S) : outcome string :=
  do x <- idx p 0; do y <- idx p 1; Ok (n_show nt x ++ tab ++ n_show nt y ++ newline).
(** [for _i in 0..n{ let pos = ..; write!(..)?; }], with a new position for every point. *)
(* tests/random_vec.rs 22-26 *)
Fixpoint dump_new (sample : gen -> outcome (pos S * gen)) (n : nat) (g : gen) : string * outcome gen :=
  match n with
  | 0%nat => ("", Ok g)
  | Datatypes.S k =>
    match sample g with
    | Ok (p, g1) =>
      match point_line p with
      | Ok l => let (t, o) := dump_new sample k g1 in (l ++ t, o)
      | Err e => ("", Err e) | Panic => ("", Panic) | Fuel => ("", Fuel)
      end
    | Err e => ("", Err e) | Panic => ("", Panic) | Fuel => ("", Fuel)
    end
  end.
(** [for _i in 0..n{ ..(&mut rng, &mut pos)?; write!(..)?; }], with one position for all points. *)
(* tests/random_vec.rs 44-48 *)
Fixpoint dump_to (sample : gen -> pos S -> pos S * gen * outcome unit) (n : nat) (v : pos S) (g : gen) : string * outcome gen :=
  match n with
  | 0%nat => ("", Ok g)
  | Datatypes.S k =>
    let '(p, g1, r) := sample g v in
    match r with
    | Ok _ =>
      match point_line p with
      | Ok l => let (t, o) := dump_to sample k p g1 in (l ++ t, o)
      | Err e => ("", Err e) | Panic => ("", Panic) | Fuel => ("", Fuel)
      end
    | Err e => ("", Err e) | Panic => ("", Panic) | Fuel => ("", Fuel)
    end
  end.
(** [Position::new(vec![0.0, 0.0])]. *)
(* tests/random_vec.rs 39, 83, 126 *)
Definition origin2 : pos S := [s0; s0].

(* tests/random_vec.rs 10-29 [test_cont_circ_random_pos_contour] *)
Definition disc_file (fuel : nat) (sys : circ S) (n : nat) (g : gen) := dump_new (circ_random_pos fuel sys) n g.
(* tests/random_vec.rs 33-51 [test_cont_circ_random_pos_to_vec_contour] *)
Definition disc_to_file (fuel : nat) (sys : circ S) (n : nat) (g : gen) := dump_to (circ_random_to fuel sys) n origin2 g.
(* tests/random_vec.rs 55-72 [test_get_uniform_vec] *)
Definition uniform_file (n : nat) (g : gen) := dump_new (fun h => Ok (get_uniform_vec h 2)) n g.
(* tests/random_vec.rs 76-94 [test_get_uniform_to_vec] *)
Definition uniform_to_file (n : nat) (g : gen) := dump_to (fun h v => let (p, h1) := get_uniform_to_vec h v in (p, h1, Ok tt)) n origin2 g.
(* tests/random_vec.rs 98-115 [test_get_gaussian_vec] *)
Definition gaussian_file (n : nat) (g : gen) := dump_new (fun h => Ok (get_gaussian_vec h 2)) n g.
(* tests/random_vec.rs 119-137 [test_get_gaussian_to_vec] *)
Definition gaussian_to_file (n : nat) (g : gen) := dump_to (fun h v => let (p, h1) := get_gaussian_to_vec h v in (p, h1, Ok tt)) n origin2 g.
End Points.

Section Bounds.
Context {S : scalar} {G : rng S}.
Local Open Scope s_scope.
Notation gen := (rstate G).
(** Simplification: [HistogramBins::Bounds(bounds)] is the list of bounds. *)
(* tests/random_histogram.rs 10-19 [bin_bounds] *)
Definition bin_bounds (mn mx : S) (count : nat) : list S :=
  let range := mx - mn in
  (map (fun n => (of_Z (Z.of_nat n) / of_Z (Z.of_nat count)) * range + mn) (seq 0 count) ++ [mx])%list.
(** [data.push(get_uniform(&mut rng))], a number of times. *)
(* tests/random_histogram.rs 27-30 *)
Fixpoint uniform_data (m : nat) (g : gen) : list S * gen :=
  match m with
  | 0%nat => ([], g)
  | Datatypes.S k => let (x, g1) := get_uniform g in let (xs, g2) := uniform_data k g1 in (x :: xs, g2)
  end.
(** The value recorded for a sample: those outside the range are moved inside it. *)
(* tests/random_histogram.rs 86-95; tests/random_histogram.rs 133-142 *)
Definition clamped (mn mx : S) (n : nat) (x : S) : S :=
  if x <? mn then mn + (lit 1 2 / of_Z (Z.of_nat n)) else if mx <? x then mx - (lit 1 2 / of_Z (Z.of_nat n)) else x.
(* tests/random_histogram.rs 84-96 [histogram_gaussian] *)
Fixpoint gaussian_data (mn mx : S) (n m : nat) (g : gen) : list S * gen :=
  match m with
  | 0%nat => ([], g)
  | Datatypes.S k => let (x, g1) := get_gaussian g in let (xs, g2) := gaussian_data mn mx n k g1 in (clamped mn mx n x :: xs, g2)
  end.
End Bounds.
