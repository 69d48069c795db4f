(** Model of tests/boundary_cond.rs: the programs that check and compare the reflections at the wall of a disc.  The functions [cos] and [sin] and the number pi are arguments; the rows written to a
    file are kept as the numbers written, without their text ([{:.5e}]).  The three nested loops are flattened into the list of their cases, in the order of the loops. *)
From Coq Require Import ZArith List.
From Verif Require Import Base Scalar Model_Position Model_System.
Import ListNotations.

Section Check.
Context {S : scalar}.
Variables (fcos fsin : S -> S) (pi : S).

(** [assert!((s.norm() - r0).abs() < 1e-10)], [assert!(inner.abs() < 1e-10)]: a failed assertion is a panic. *)
(* tests/boundary_cond.rs 124-153 [single_test_cont_circ_exact] *)
Definition single_check (s : circ S) (p dp : pos S) : outcome unit :=
  do e <- pos_add p dp;
  do inside <- circ_inclusion s e;
  if inside : bool then Ok tt else
  let r0 := ci_size s in let r := norm p in let dr := norm dp in
  do rdr <- inner_product p dp;
  let t := ((opp rdr + fsqrt (rdr * rdr + dr * dr * (r0 * r0 - r * r))) / (dr * dr))%S in
  let k := ((s1 - t) * (rdr + t * dr * dr) / (r0 * r0))%S in
  do h <- pos_add p (scalar_mul dp t);
  if negb (fabs (norm h - r0) <? lit 1 10000000000)%S then Panic else
  do dx <- pos_sub (scalar_mul dp (s1 - t)%S) (scalar_mul h k);
  do inner <- inner_product dx h;
  if negb (fabs inner <? lit 1 10000000000)%S then Panic else
  do q <- pos_add (scalar_mul p (s1 - s2 * k)%S) (scalar_mul dp (s1 - s2 * k * t)%S);
  do inside2 <- circ_inclusion s q;
  if inside2 : bool then Ok tt else Err TooLargeTimeStep.

(** The positions [(0.05 + i * 0.1, 0)] for [i] in [is] and the displacements [y (cos t, sin t)] with [y = j * step] for [j < nj] and [t = k * PI * 0.1] for [k < 10]. *)
(* tests/boundary_cond.rs 13-22; tests/boundary_cond.rs 42-50; tests/boundary_cond.rs 87-95 *)
Definition cases (is : list nat) (nj : nat) (step : S) : list (pos S * pos S) :=
  flat_map (fun i => let x := (lit 5 100 + of_Z (Z.of_nat i) * lit 1 10)%S in
    flat_map (fun j => let y := (of_Z (Z.of_nat j) * step)%S in
      map (fun k => let t := (of_Z (Z.of_nat k) * pi * lit 1 10)%S in ([x; s0], [(y * fcos t)%S; (y * fsin t)%S])) (seq 0 10)) (seq 0 nj)) is.

(** A loop that stops at the first error or panic. *)
(* tests/boundary_cond.rs 22 [?] *)
Fixpoint run_all (f : pos S -> pos S -> outcome unit) (l : list (pos S * pos S)) : outcome unit :=
  match l with [] => Ok tt | (p, d) :: l => do _ <- f p d; run_all f l end.
(** A loop that writes at most one row per case; the rows written before an error stay in the file. *)
(* tests/boundary_cond.rs 63-68; tests/boundary_cond.rs 113-117 *)
Fixpoint run_rows {A : Type} (f : pos S -> pos S -> outcome (option A)) (l : list (pos S * pos S)) : list A * outcome unit :=
  match l with
  | [] => ([], Ok tt)
  | (p, d) :: l =>
    match f p d with
    | Ok (Some a) => let (r, o) := run_rows f l in (a :: r, o)
    | Ok None => run_rows f l
    | Err e => ([], Err e) | Panic => ([], Panic) | Fuel => ([], Fuel)
    end
  end.

(** The disc of all three tests: [ContCircSystem::new(1.0, 2)]. *)
(* tests/boundary_cond.rs 12; tests/boundary_cond.rs 40; tests/boundary_cond.rs 85 *)
Definition with_disc {A : Type} (f : circ S -> A) (bad : A) : A := match circ_new s1 2 with Ok s => f s | _ => bad end.

(* tests/boundary_cond.rs 10-29 [test_cont_circ_reflection] *)
Definition reflection_test : outcome unit := with_disc (fun s => run_all (single_check s) (cases (seq 0 10) 30 (lit 1 1000))) Panic.

(** A failed reflection ends the test ([?]). *)
(* tests/boundary_cond.rs 52-54; tests/boundary_cond.rs 97-99; tests/boundary_cond.rs 105-107 *)
Definition moved {A : Type} (o : pos S * A * outcome unit) : outcome (pos S) := match snd o with Ok _ => Ok (fst (fst o)) | Err e => Err e | Panic => Panic | Fuel => Fuel end.
(* tests/boundary_cond.rs 56-58; tests/boundary_cond.rs 101-103 *)
Definition moved_by (o : pos S * outcome unit) : outcome (pos S) := match snd o with Ok _ => Ok (fst o) | Err e => Err e | Panic => Panic | Fuel => Fuel end.

(** A row: position, end of the displacement, exact and radial image. *)
(* tests/boundary_cond.rs 52-68 *)
Definition realization_row (s : circ S) (p dp : pos S) : outcome (option (pos S * pos S * pos S * pos S)) :=
  do p1 <- moved (circ_check_bc_exact s p dp);
  do p2 <- moved_by (circ_check_bc s p dp);
  do d <- pos_sub p1 p2;
  if (norm d <? lit 1 10000000000)%S then Ok None else
  do e <- pos_add p dp;
  Ok (Some (p, e, p1, p2)).
(* tests/boundary_cond.rs 33-73 [test_check_bc_realization] *)
Definition realization_test : list (pos S * pos S * pos S * pos S) * outcome unit :=
  with_disc (fun s => run_rows (realization_row s) (cases (seq 9 1) 80 (lit 1 100))) ([], Panic).

(** A row: the distances from the exact image to the radial and to the first order image, and the lengths of position and displacement. *)
(* tests/boundary_cond.rs 97-117 *)
Definition error_row (s : circ S) (p dp : pos S) : outcome (option (S * S * S * S)) :=
  do p1 <- moved (circ_check_bc_exact s p dp);
  do p2 <- moved_by (circ_check_bc s p dp);
  do p3 <- moved (circ_check_bc_first_order s p dp);
  do d2 <- pos_sub p1 p2;
  do d3 <- pos_sub p1 p3;
  if ((norm d2 <? lit 1 10000000000)%S && (norm d3 <? lit 1 10000000000)%S)%bool then Ok None else Ok (Some (norm d2, norm d3, norm p, norm dp)).
(* tests/boundary_cond.rs 77-122 [test_error_check_bc] *)
Definition error_test : list (S * S * S * S) * outcome unit :=
  with_disc (fun s => run_rows (error_row s) (cases (seq 0 10) 10 (lit 1 1000))) ([], Panic).
End Check.
