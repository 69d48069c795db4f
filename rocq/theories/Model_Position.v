(** Model of src/position.rs (the numeric part; text is in [Model_Text]) and src/random_mod/mod.rs.
    A [Position<T>] is the list of its coordinates. *)
From Verif Require Import Base Scalar.

(** ** Operations available for every scalar type *)
Section Pos.
Context {S : scalar}.
Local Open Scope s_scope.

(* src/position.rs 10-12 *)
Definition pos := list S.

(** [new]; [push]; [extend]; [dim]. *)
(* src/position.rs 15-19 [new] *)
Definition pos_new (v : list S) : pos := v.
(* src/position.rs 21-23 [push] *)
Definition pos_push (p : pos) (x : S) : pos := p ++ [x].
(* src/position.rs 27-31 [extend] *)
Definition pos_extend (p : pos) (xs : list S) : pos := fold_left pos_push xs p.
(* src/position.rs 73-76 [dim] *)
Definition dim (p : pos) : nat := length p.

(** [clear]: every coordinate becomes [Default::default()], which is 0. *)
(* src/position.rs 105-114 [clear] *)
Definition pos_clear (p : pos) : pos := map (fun _ => s0) p.

(** [norm]: [res] starts at 0, [res += x*x] in order, then [sqrt]. *)
(* src/position.rs 133-140 [norm] *)
Definition norm (p : pos) : S := fsqrt (fold_left (fun r x => r + x * x) p s0).

(** [distance]. *)
(* src/position.rs 142-156 [distance] *)
Definition distance (p q : pos) : outcome S :=
  if negb (dim p =? dim q) then Err InvalidDimension
  else Ok (fsqrt (fold_left (fun r xy => r + (fst xy - snd xy) * (fst xy - snd xy)) (combine p q) s0)).

(** [inner_product]. *)
(* src/position.rs 158-169 [inner_product] *)
Definition inner_product (p q : pos) : outcome S :=
  if negb (dim p =? dim q) then Err InvalidDimension
  else Ok (fold_left (fun r xy => r + fst xy * snd xy) (combine p q) s0).

(** [Add] for references (two copies of the same text); [Sub]. *)
(* src/position.rs 214-225 [add]; src/position.rs 233-244 [add] *)
Definition pos_add (p q : pos) : outcome pos :=
  if negb (dim p =? dim q) then Panic else Ok (map (fun xy => fst xy + snd xy) (combine p q)).
(* src/position.rs 255-266 [sub]; src/position.rs 274-285 [sub] *)
Definition pos_sub (p q : pos) : outcome pos :=
  if negb (dim p =? dim q) then Panic else Ok (map (fun xy => fst xy - snd xy) (combine p q)).

(** [scalar_mul]; [mut_scalar_mul]. *)
(* src/position.rs 310-318 [scalar_mul] *)
Definition scalar_mul (p : pos) (c : S) : pos := map (fun x => x * c) p.
(* src/position.rs 320-324 [mut_scalar_mul] *)
Definition mut_scalar_mul (p : pos) (c : S) : pos := map (fun x => x * c) p.

(** [mut_add]; [mut_sub]: a loop over the indices of [self]; reading
    [other.coordinate[idx]] panics when [other] is shorter. *)
(* src/position.rs 326-332 [mut_add]; src/position.rs 334-340 [mut_sub] *)
Fixpoint mut_zip (op : S -> S -> S) (p q : pos) : outcome pos :=
  match p, q with
  | [], _ => Ok []
  | x :: p', y :: q' => do r <- mut_zip op p' q'; Ok (op x y :: r)
  | _ :: _, [] => Panic
  end.
(* src/position.rs 326-332 [mut_add] *)
Definition mut_add := mut_zip add.
(* src/position.rs 334-340 [mut_sub] *)
Definition mut_sub := mut_zip sub.

(** [mut_add_bench]: [zip] stops at the shorter operand. *)
(* src/position.rs 348-352 [mut_add_bench] *)
Fixpoint mut_add_bench (p q : pos) : pos :=
  match p, q with
  | [], _ => []
  | x :: p', y :: q' => (x + y) :: mut_add_bench p' q'
  | p, [] => p
  end.

(** ** src/random_mod/mod.rs.  The generator is a state with two sampling functions. *)
(* rand_pcg::Pcg64, an oracle; src/random_mod/mod.rs 18-24 [rng_seed] *)
Record rng := Rng { rstate : Type; unif : rstate -> S * rstate; gauss : rstate -> S * rstate }.

Context {G : rng}.

(** One sample per coordinate, in order: the [for x in &mut vec] loops. *)
(* the loops of the functions below; src/random_mod/mod.rs 34-44 [get_uniform_vec]; src/random_mod/mod.rs 46-56 [get_uniform_to_vec]; src/random_mod/mod.rs 58-73 [get_uniform_to_vec_nonstandard]; src/random_mod/mod.rs 82-92 [get_gaussian_vec]; src/random_mod/mod.rs 94-105 [get_gaussian_to_vec]; src/random_mod/mod.rs 107-121 [get_gaussian_to_vec_nonstandard] *)
Fixpoint sample_map (draw : rstate G -> S * rstate G) (f : S -> S -> S) (p : pos) (g : rstate G) : pos * rstate G :=
  match p with
  | [] => ([], g)
  | x :: p' =>
    let '(r, g1) := draw g in
    let '(q, g2) := sample_map draw f p' g1 in (f x r :: q, g2)
  end.

(** [get_uniform]; [get_uniform_vec]. *)
(* src/random_mod/mod.rs 27-32 [get_uniform] *)
Definition get_uniform (g : rstate G) := unif G g.
(* src/random_mod/mod.rs 34-44 [get_uniform_vec] *)
Definition get_uniform_vec (g : rstate G) (d : nat) := sample_map (unif G) (fun _ r => r) (repeat s0 d) g.
(** [get_uniform_to_vec]. *)
(* src/random_mod/mod.rs 46-56 [get_uniform_to_vec] *)
Definition get_uniform_to_vec (g : rstate G) (p : pos) := sample_map (unif G) (fun _ r => r) (pos_clear p) g.
(** [get_uniform_to_vec_nonstandard]. *)
(* src/random_mod/mod.rs 58-73 [get_uniform_to_vec_nonstandard] *)
Definition get_uniform_to_vec_nonstandard (g : rstate G) (p : pos) (mn mx : S) :=
  sample_map (unif G) (fun x r => x + r * (mx - mn) + mn) p g.
(** [get_gaussian]; [get_gaussian_vec]; [get_gaussian_to_vec]. *)
(* src/random_mod/mod.rs 75-80 [get_gaussian] *)
Definition get_gaussian (g : rstate G) := gauss G g.
(* src/random_mod/mod.rs 82-92 [get_gaussian_vec] *)
Definition get_gaussian_vec (g : rstate G) (d : nat) := sample_map (gauss G) (fun _ r => r) (repeat s0 d) g.
(* src/random_mod/mod.rs 94-105 [get_gaussian_to_vec] *)
Definition get_gaussian_to_vec (g : rstate G) (p : pos) := sample_map (gauss G) (fun _ r => r) (pos_clear p) g.
(** [get_gaussian_to_vec_nonstandard]. *)
(* src/random_mod/mod.rs 107-121 [get_gaussian_to_vec_nonstandard] *)
Definition get_gaussian_to_vec_nonstandard (g : rstate G) (p : pos) (mean stddev : S) :=
  sample_map (gauss G) (fun x r => x + r * stddev + mean) p g.
End Pos.
Arguments pos S : clear implicits.
Arguments rng S : clear implicits.

(** ** [Position<i32>]: src/position.rs 174-209 *)
Section I32.
(** [checked = true]: debug build, arithmetic overflow panics; [false]: release build, it wraps. *)
Variable checked : bool.
Local Open Scope Z_scope.
(* i32::MIN *)
Definition i32_min : Z := - 2 ^ 31.
(* i32::MAX *)
Definition i32_max : Z := 2 ^ 31 - 1.
(* range of i32 *)
Definition in_i32 (z : Z) : bool := (i32_min <=? z) && (z <=? i32_max).
(* two's complement wrap of i32 (release build) *)
Definition wrap32 (z : Z) : Z := (z + 2 ^ 31) mod 2 ^ 32 - 2 ^ 31.
(* result of an i32 operation used in src/position.rs 181-191 [distance]; src/position.rs 193-203 [taxi_distance] *)
Definition i32_res (z : Z) : outcome Z :=
  if in_i32 z then Ok z else if checked then Panic else Ok (wrap32 z).

Context {S : scalar}.

(** [norm]: each coordinate is converted to f64 first. *)
(* src/position.rs 173-179 [norm] *)
Definition i32_norm (p : list Z) : S :=
  fsqrt (fold_left (fun r x => (r + of_Z x * of_Z x)%S) p s0).

(** [distance]: [((x-y)*(x-y)) as f64], subtraction and product in i32. *)
(* src/position.rs 181-191 [distance] *)
Fixpoint i32_dist_loop (p q : list Z) (r : S) : outcome S :=
  match p, q with
  | x :: p', y :: q' =>
    do d <- i32_res (x - y); do d' <- i32_res (x - y); do m <- i32_res (d * d');
    i32_dist_loop p' q' (r + of_Z m)%S
  | _, _ => Ok r
  end.
(* src/position.rs 181-191 [distance] *)
Definition i32_distance (p q : list Z) : outcome S :=
  if negb (length p =? length q)%nat then Err InvalidDimension
  else do r <- i32_dist_loop p q s0; Ok (fsqrt r).

(** [taxi_distance]; [abs] of [i32::MIN] overflows as well. *)
(* src/position.rs 193-203 [taxi_distance] *)
Fixpoint taxi_loop (p q : list Z) (r : Z) : outcome Z :=
  match p, q with
  | x :: p', y :: q' =>
    do d <- i32_res (x - y); do a <- i32_res (Z.abs d); do r' <- i32_res (r + a); taxi_loop p' q' r'
  | _, _ => Ok r
  end.
(* src/position.rs 193-203 [taxi_distance] *)
Definition taxi_distance (p q : list Z) : outcome Z :=
  if negb (length p =? length q)%nat then Err InvalidDimension else taxi_loop p q 0.
End I32.
