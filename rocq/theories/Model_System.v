(** Model of src/system_mod/{mod,cont_circ,cont_cubic,cont_cyl}.rs (text conversion is in [Model_Text]). *)
From Verif Require Import Base Scalar Model_Position.

(** [SystemType]; [BoundaryCond]. *)
(* src/system_mod/mod.rs 46-52 *)
Inductive systype := ContinuousCircular | ContinuousRectangular | ContinuousCylindrical (d : nat) | Lattice | Network.
(* src/system_mod/mod.rs 115-119 *)
Inductive bcond := Periodic | Reflection | Mixed (d : nat).

Section Sys.
Context {S : scalar}.
Local Open Scope s_scope.
Notation pos := (pos S).

(** [if self.check_inclusion(pos)?{ return Ok(()); }] followed by [k]: the position is left as it is when the function
    returns here, with [Ok] or with the error. *)
(* the test after the move in src/system_mod/cont_circ.rs 76-96 [check_bc]; src/system_mod/cont_cubic.rs 87-179 [check_bc]; src/system_mod/cont_cyl.rs 108-163 [check_bc] *)
Definition if_inside (incl : pos -> outcome bool) (p : pos) (k : pos * outcome unit) : pos * outcome unit :=
  match incl p with
  | Ok true => (p, Ok tt)
  | Ok false => k
  | Err e => (p, Err e)
  | Panic => (p, Panic)
  | Fuel => (p, Fuel)
  end.

(** [pos.mut_add(dp);] followed by [k].  When it panics the caller's position is no longer observable by normal code;
    the old one is returned. *)
(* the first statement of src/system_mod/cont_circ.rs 76-96 [check_bc]; src/system_mod/cont_cubic.rs 87-179 [check_bc]; src/system_mod/cont_cyl.rs 108-163 [check_bc] *)
Definition after_move (p dp : pos) (k : pos -> pos * outcome unit) : pos * outcome unit :=
  match mut_add p dp with Ok p1 => k p1 | _ => (p, Panic) end.

(** ** src/system_mod/cont_circ.rs *)
(** [struct ContCircSystem]; the generated [ContCircSystemArguments] (32-36) has the same fields. *)
(* src/system_mod/cont_circ.rs 7-12 *)
Record circ := Circ { ci_type : systype; ci_bc : bcond; ci_size : S; ci_dim : nat }.

(** [new]. *)
(* src/system_mod/cont_circ.rs 15-29 [new] *)
Definition circ_new (r : S) (d : nat) : outcome circ :=
  if (r <=? s0) || (d =? 0)%nat then Panic else Ok (Circ ContinuousCircular Reflection r d).
(** [convert_from]. *)
(* src/system_mod/cont_circ.rs 40-52 [convert_from] *)
Definition circ_convert_from (a : circ) : outcome circ :=
  if (ci_size a <=? s0) || (ci_dim a =? 0)%nat then Panic
  else Ok (Circ (ci_type a) (ci_bc a) (ci_size a) (ci_dim a)).

(** [check_inclusion]. *)
(* src/system_mod/cont_circ.rs 57-74 [check_inclusion] *)
Definition circ_inclusion (s : circ) (p : pos) : outcome bool :=
  if negb (ci_dim s =? length p)%nat then Err InvalidDimension
  else if norm p >? ci_size s then Ok false else Ok true.

(** [check_bc].  [dp] is [&mut] but never written. *)
(* src/system_mod/cont_circ.rs 76-96 [check_bc] *)
Definition circ_check_bc (s : circ) (p dp : pos) : pos * outcome unit :=
  after_move p dp (fun p1 =>
  if_inside (circ_inclusion s) p1
    (let r0 := ci_size s in
     let n := norm p1 in
     let p2 := mut_scalar_mul p1 ((s2 * r0 - n) / n) in
     if_inside (circ_inclusion s) p2 (p2, Err TooLargeTimeStep))).

(** [check_bc_exact]: writes [dp] as well.  Result: position, displacement, outcome. *)
(* src/system_mod/cont_circ.rs 167-199 [check_bc_exact] *)
Definition circ_check_bc_exact (s : circ) (p dp : pos) : pos * pos * outcome unit :=
  match mut_add p dp with
  | Ok p1 =>
    match circ_inclusion s p1 with
    | Ok true => (p1, dp, Ok tt)
    | Ok false =>
      match mut_sub p1 dp with
      | Ok p2 =>
        let r0 := ci_size s in
        let r := norm p2 in
        let dr := norm dp in
        match inner_product p2 dp with
        | Ok rdr =>
          let t := (opp rdr + fsqrt (rdr * rdr + dr * dr * (r0 * r0 - r * r))) / (dr * dr) in
          let k := (s1 - t) * (rdr + t * dr * dr) / (r0 * r0) in
          let dp1 := mut_scalar_mul dp (s1 - s2 * k * t) in
          let p3 := mut_scalar_mul p2 (s1 - s2 * k) in
          match mut_add p3 dp1 with
          | Ok p4 =>
            match circ_inclusion s p4 with
            | Ok true => (p4, dp1, Ok tt)
            | Ok false => (p4, dp1, Err TooLargeTimeStep)
            | Err e => (p4, dp1, Err e) | Panic => (p4, dp1, Panic) | Fuel => (p4, dp1, Fuel)
            end
          | _ => (p3, dp1, Panic)
          end
        | Err e => (p2, dp, Err e) | Panic => (p2, dp, Panic) | Fuel => (p2, dp, Fuel)
        end
      | _ => (p1, dp, Panic)
      end
    | Err e => (p1, dp, Err e) | Panic => (p1, dp, Panic) | Fuel => (p1, dp, Fuel)
    end
  | _ => (p, dp, Panic)
  end.

(** [check_bc_first_order]: as above with [t], [k] from a first order expansion. *)
(* src/system_mod/cont_circ.rs 201-230 [check_bc_first_order] *)
Definition circ_check_bc_first_order (s : circ) (p dp : pos) : pos * pos * outcome unit :=
  match mut_add p dp with
  | Ok p1 =>
    match circ_inclusion s p1 with
    | Ok true => (p1, dp, Ok tt)
    | Ok false =>
      match mut_sub p1 dp with
      | Ok p2 =>
        let r0 := ci_size s in
        let r := norm p2 in
        let dr := norm dp in
        match inner_product p2 dp with
        | Ok rdr =>
          let a := r / r0 in let b := dr / r0 in let cos := rdr / (r * dr) in
          let t := (s1 - a) / (b * cos) in
          let k := a * b * cos - a * (s1 - a) in
          let p3 := mut_scalar_mul p2 (s1 - s2 * k) in
          let dp1 := mut_scalar_mul dp (s1 - s2 * k * t) in
          match mut_add p3 dp1 with
          | Ok p4 =>
            match circ_inclusion s p4 with
            | Ok true => (p4, dp1, Ok tt)
            | Ok false => (p4, dp1, Err TooLargeTimeStep)
            | Err e => (p4, dp1, Err e) | Panic => (p4, dp1, Panic) | Fuel => (p4, dp1, Fuel)
            end
          | _ => (p3, dp1, Panic)
          end
        | Err e => (p2, dp, Err e) | Panic => (p2, dp, Panic) | Fuel => (p2, dp, Fuel)
        end
      | _ => (p1, dp, Panic)
      end
    | Err e => (p1, dp, Err e) | Panic => (p1, dp, Panic) | Fuel => (p1, dp, Fuel)
    end
  | _ => (p, dp, Panic)
  end.

(** [position_out_of_system]; [position_out_of_system_to_vec]. *)
(* src/system_mod/cont_circ.rs 143-150 [position_out_of_system] *)
Definition circ_out (s : circ) : pos := repeat (s2 * ci_size s) (ci_dim s).
(* src/system_mod/cont_circ.rs 152-164 [position_out_of_system_to_vec] *)
Definition circ_out_to (s : circ) (v : pos) : pos * outcome unit :=
  if negb (ci_dim s =? dim v)%nat then (v, Err InvalidDimension) else (map (fun _ => s2 * ci_size s) v, Ok tt).

(** ** src/system_mod/cont_cubic.rs *)
(** [struct ContCubicSystem]; the generated arguments struct (38-42) has the same fields. *)
(* src/system_mod/cont_cubic.rs 7-12 *)
Record cubic := Cubic { cu_type : systype; cu_bc : bcond; cu_size : S; cu_dim : nat }.

(** [new]. *)
(* src/system_mod/cont_cubic.rs 15-35 [new] *)
Definition cubic_new (b : bcond) (l : S) (d : nat) : outcome cubic :=
  if (l <=? s0) || (d =? 0)%nat then Panic
  else match b with
       | Mixed m => if (d <? m)%nat then Panic else Ok (Cubic ContinuousRectangular b l d)
       | _ => Ok (Cubic ContinuousRectangular b l d)
       end.
(** [convert_from]. *)
(* src/system_mod/cont_cubic.rs 46-64 [convert_from] *)
Definition cubic_convert_from (a : cubic) : outcome cubic :=
  if (cu_size a <=? s0) || (cu_dim a =? 0)%nat then Panic
  else match cu_bc a with
       | Mixed m => if (cu_dim a <? m)%nat then Panic else Ok (Cubic (cu_type a) (cu_bc a) (cu_size a) (cu_dim a))
       | _ => Ok (Cubic (cu_type a) (cu_bc a) (cu_size a) (cu_dim a))
       end.

(** The loop [for x in ..{ if x.abs() > length{ return Ok(false); } } return Ok(true)]. *)
(* src/system_mod/cont_cubic.rs 69-85 [check_inclusion] *)
Fixpoint within (l : S) (p : pos) : bool :=
  match p with
  | [] => true
  | x :: p' => if fabs x >? l then false else within l p'
  end.

(** [check_inclusion]. *)
(* src/system_mod/cont_cubic.rs 69-85 [check_inclusion] *)
Definition cubic_inclusion (s : cubic) (p : pos) : outcome bool :=
  if negb (cu_dim s =? length p)%nat then Err InvalidDimension else Ok (within (cu_size s) p).

(** 101-112 the body of the reflection loop; 120-131 the body of the periodic loop.  [- 2f64 * length] is [(-2) * length]. *)
(* src/system_mod/cont_cubic.rs 87-179 [check_bc] *)
Definition reflect1 (l x : S) : S :=
  if fabs x <=? l then x
  else if x <? s0 then opp s2 * l - x else s2 * l - x.
(* src/system_mod/cont_cubic.rs 87-179 [check_bc] *)
Definition period1 (l x : S) : S :=
  if fabs x <=? l then x
  else if x <? s0 then s2 * l + x else opp s2 * l + x.

(** [check_bc].  [&mut pos.coordinate[..d]] panics when [d] exceeds the length. *)
(* src/system_mod/cont_cubic.rs 87-179 [check_bc] *)
Definition cubic_check_bc (s : cubic) (p dp : pos) : pos * outcome unit :=
  after_move p dp (fun p1 =>
  if_inside (cubic_inclusion s) p1
    (let l := cu_size s in
     match cu_bc s with
     | Reflection =>
       let p2 := map (reflect1 l) p1 in if_inside (cubic_inclusion s) p2 (p2, Err TooLargeTimeStep)
     | Periodic =>
       let p2 := map (period1 l) p1 in if_inside (cubic_inclusion s) p2 (p2, Err TooLargeTimeStep)
     | Mixed d =>
       if (length p1 <? d)%nat then (p1, Panic)
       else let p2 := map (reflect1 l) (firstn d p1) ++ map (period1 l) (skipn d p1) in
            if_inside (cubic_inclusion s) p2 (p2, Err TooLargeTimeStep)
     end)).

(** [position_out_of_system]; [position_out_of_system_to_vec]. *)
(* src/system_mod/cont_cubic.rs 214-221 [position_out_of_system] *)
Definition cubic_out (s : cubic) : pos := repeat (s2 * cu_size s) (cu_dim s).
(* src/system_mod/cont_cubic.rs 223-235 [position_out_of_system_to_vec] *)
Definition cubic_out_to (s : cubic) (v : pos) : pos * outcome unit :=
  if negb (cu_dim s =? dim v)%nat then (v, Err InvalidDimension) else (map (fun _ => s2 * cu_size s) v, Ok tt).

(** ** src/system_mod/cont_cyl.rs *)
(** [struct ContCylindricalSystem]; the generated arguments struct (34-39) has the same fields. *)
(* src/system_mod/cont_cyl.rs 7-13 *)
Record cyl := Cyl { cy_type : systype; cy_bc : bcond; cy_radius : S; cy_length : S; cy_dim : nat }.

(** [new]. *)
(* src/system_mod/cont_cyl.rs 16-31 [new] *)
Definition cyl_new (c : nat) (r l : S) (d : nat) : outcome cyl :=
  if (d <? c)%nat || (r <=? s0) || (l <=? s0) || (d =? 0)%nat then Panic
  else Ok (Cyl (ContinuousCylindrical c) (Mixed c) r l d).
(** [convert_from].  Note [sys_radius < 0]: a zero radius is accepted here. *)
(* src/system_mod/cont_cyl.rs 43-68 [convert_from] *)
Definition cyl_convert_from (a : cyl) : outcome cyl :=
  match cy_type a, cy_bc a with
  | ContinuousCylindrical c1, Mixed c2 =>
    if negb (c1 =? c2)%nat || (cy_dim a <? c1)%nat || (cy_radius a <? s0) || (cy_length a <=? s0) || (cy_dim a =? 0)%nat
    then Panic
    else Ok (Cyl (cy_type a) (cy_bc a) (cy_radius a) (cy_length a) (cy_dim a))
  | _, _ => Panic
  end.

(** [r += x * x] over a slice, then [sqrt]: the same computation as [norm]. *)
(* src/system_mod/cont_cyl.rs 73-106 [check_inclusion] *)
Definition slice_norm (p : pos) : S := fsqrt (fold_left (fun r x => r + x * x) p s0).

(** [check_inclusion].  [&pos[..d]] panics when [d] exceeds the length. *)
(* src/system_mod/cont_cyl.rs 73-106 [check_inclusion] *)
Definition cyl_inclusion (s : cyl) (p : pos) : outcome bool :=
  if negb (cy_dim s =? length p)%nat then Err InvalidDimension
  else match cy_type s with
       | ContinuousCylindrical d =>
         if (length p <? d)%nat then Panic
         else if slice_norm (firstn d p) >? cy_radius s then Ok false
         else Ok (within (cy_length s) (skipn d p))
       | _ => Err InvalidType
       end.

(** [check_bc].  (The loop [for i in d..self.dim] runs over the tail of the position: after the first inclusion test
    the length of the position is [self.dim].) *)
(* src/system_mod/cont_cyl.rs 108-163 [check_bc] *)
Definition cyl_check_bc (s : cyl) (p dp : pos) : pos * outcome unit :=
  after_move p dp (fun p1 =>
  if_inside (cyl_inclusion s) p1
    (match cy_bc s with
     | Mixed d =>
       if (length p1 <? d)%nat then (p1, Panic)
       else
         let rd := cy_radius s in
         let l := cy_length s in
         let r := slice_norm (firstn d p1) in
         let head := if r >? rd then let t := (s2 * rd - r) / r in map (fun x => x * t) (firstn d p1)
                     else firstn d p1 in
         let p2 := head ++ map (period1 l) (skipn d p1) in
         if_inside (cyl_inclusion s) p2 (p2, Err TooLargeTimeStep)
     | _ => (p1, Err InvalidType)
     end)).

(** [position_out_of_system]; [position_out_of_system_to_vec]. *)
(* src/system_mod/cont_cyl.rs 247-254 [position_out_of_system] *)
Definition cyl_out (s : cyl) : pos := repeat (s2 * cy_length s) (cy_dim s).
(* src/system_mod/cont_cyl.rs 256-268 [position_out_of_system_to_vec] *)
Definition cyl_out_to (s : cyl) (v : pos) : pos * outcome unit :=
  if negb (cy_dim s =? dim v)%nat then (v, Err InvalidDimension) else (map (fun _ => s2 * cy_length s) v, Ok tt).

(** ** Random positions.  [fuel] bounds the number of rounds of [loop]. *)
Context {G : rng S}.
Notation gen := (rstate G).

(* the literal 0.5 in src/system_mod/cont_circ.rs 100-119 [random_pos]; src/system_mod/cont_cubic.rs 183-195 [random_pos]; src/system_mod/cont_cyl.rs 167-204 [random_pos] *)
Definition half : S := lit 1 2.

(** [random_pos]. *)
(* src/system_mod/cont_circ.rs 100-119 [random_pos] *)
Fixpoint circ_random_pos (fuel : nat) (s : circ) (g : gen) : outcome (pos * gen) :=
  match fuel with
  | 0%nat => Fuel
  | Datatypes.S k =>
    let '(u, g1) := get_uniform_vec g (ci_dim s) in
    do p0 <- pos_add u (repeat (opp half) (ci_dim s));
    let p1 := mut_scalar_mul p0 (s2 * ci_size s) in
    do b <- circ_inclusion s p1;
    if b : bool then Ok (p1, g1) else circ_random_pos k s g1
  end.

(** [random_pos_to_vec]. *)
(* src/system_mod/cont_circ.rs 121-141 [random_pos_to_vec] *)
Fixpoint circ_random_loop (fuel : nat) (s : circ) (g : gen) (v : pos) : pos * gen * outcome unit :=
  match fuel with
  | 0%nat => (v, g, Fuel)
  | Datatypes.S k =>
    let r := ci_size s in
    let '(v1, g1) := get_uniform_to_vec_nonstandard g (pos_clear v) (opp r) r in
    match circ_inclusion s v1 with
    | Ok true => (v1, g1, Ok tt)
    | Ok false => circ_random_loop k s g1 v1
    | Err e => (v1, g1, Err e) | Panic => (v1, g1, Panic) | Fuel => (v1, g1, Fuel)
    end
  end.
(* src/system_mod/cont_circ.rs 121-141 [random_pos_to_vec] *)
Definition circ_random_to (fuel : nat) (s : circ) (g : gen) (v : pos) : pos * gen * outcome unit :=
  if negb (dim v =? ci_dim s)%nat then (v, g, Err InvalidDimension) else circ_random_loop fuel s g v.

(** [random_pos]; [random_pos_to_vec].  No loop: the fuel is unused. *)
(* src/system_mod/cont_cubic.rs 183-195 [random_pos] *)
Definition cubic_random_pos (fuel : nat) (s : cubic) (g : gen) : outcome (pos * gen) :=
  let '(u, g1) := get_uniform_vec g (cu_dim s) in
  do p0 <- pos_add u (repeat (opp half) (cu_dim s));
  Ok (mut_scalar_mul p0 (s2 * cu_size s), g1).
(* src/system_mod/cont_cubic.rs 197-212 [random_pos_to_vec] *)
Definition cubic_random_to (fuel : nat) (s : cubic) (g : gen) (v : pos) : pos * gen * outcome unit :=
  if negb (dim v =? cu_dim s)%nat then (v, g, Err InvalidDimension)
  else let l := cu_size s in
       let '(v1, g1) := get_uniform_to_vec_nonstandard g (pos_clear v) (opp l) l in (v1, g1, Ok tt).

(** cont_cyl.rs 186-201 and 228-243, the common tail of the two loops: scale the first [d] coordinates by [2*radius], the
    others by [2*length], and test the radial part. *)
(* src/system_mod/cont_cyl.rs 167-204 [random_pos] *)
Definition cyl_scale (s : cyl) (d : nat) (p : pos) : pos :=
  map (fun x => x * (s2 * cy_radius s)) (firstn d p) ++ map (fun x => x * (s2 * cy_length s)) (skipn d p).

(** [random_pos]. *)
(* src/system_mod/cont_cyl.rs 167-204 [random_pos] *)
Fixpoint cyl_random_loop (fuel : nat) (s : cyl) (d : nat) (g : gen) : outcome (pos * gen) :=
  match fuel with
  | 0%nat => Fuel
  | Datatypes.S k =>
    let '(u, g1) := get_uniform_vec g (cy_dim s) in
    do p0 <- pos_add u (repeat (opp half) (cy_dim s));
    if (length p0 <? d)%nat then Panic
    else let p1 := cyl_scale s d p0 in
         if slice_norm (firstn d p1) <? cy_radius s then Ok (p1, g1) else cyl_random_loop k s d g1
  end.
(* src/system_mod/cont_cyl.rs 167-204 [random_pos] *)
Definition cyl_random_pos (fuel : nat) (s : cyl) (g : gen) : outcome (pos * gen) :=
  match cy_type s with
  | ContinuousCylindrical d => cyl_random_loop fuel s d g
  | _ => Err InvalidType
  end.

(** [random_pos_to_vec]: samples from (-1,1), then multiplies by [2*size]. *)
(* src/system_mod/cont_cyl.rs 206-245 [random_pos_to_vec] *)
Fixpoint cyl_random_to_loop (fuel : nat) (s : cyl) (d : nat) (g : gen) (v : pos) : pos * gen * outcome unit :=
  match fuel with
  | 0%nat => (v, g, Fuel)
  | Datatypes.S k =>
    let '(v0, g1) := get_uniform_to_vec_nonstandard g (pos_clear v) (opp s1) s1 in
    if (length v0 <? d)%nat then (v0, g1, Panic)
    else let v1 := cyl_scale s d v0 in
         if slice_norm (firstn d v1) <? cy_radius s then (v1, g1, Ok tt) else cyl_random_to_loop k s d g1 v1
  end.
(* src/system_mod/cont_cyl.rs 206-245 [random_pos_to_vec] *)
Definition cyl_random_to (fuel : nat) (s : cyl) (g : gen) (v : pos) : pos * gen * outcome unit :=
  match cy_type s with
  | ContinuousCylindrical d =>
    if negb (dim v =? cy_dim s)%nat then (v, g, Err InvalidDimension) else cyl_random_to_loop fuel s d g v
  | _ => (v, g, Err InvalidType)
  end.

(** ** src/system_mod/mod.rs 13-33: the trait [SystemCore<f64>] as a record of methods (a [&dyn SystemCore]). *)
(* src/system_mod/mod.rs 13-33 *)
Record syscore := Syscore {
  sc_inclusion : pos -> outcome bool;
  sc_check_bc : pos -> pos -> pos * outcome unit;
  sc_random_pos : nat -> gen -> outcome (pos * gen);
  sc_random_to : nat -> gen -> pos -> pos * gen * outcome unit;
  sc_out : pos;
  sc_out_to : pos -> pos * outcome unit
}.
(* src/system_mod/cont_circ.rs 56-165 *)
Definition circ_core (s : circ) : syscore := Syscore (circ_inclusion s) (circ_check_bc s)
  (fun n => circ_random_pos n s) (fun n => circ_random_to n s) (circ_out s) (circ_out_to s).
(* src/system_mod/cont_cubic.rs 68-236 *)
Definition cubic_core (s : cubic) : syscore := Syscore (cubic_inclusion s) (cubic_check_bc s)
  (fun n => cubic_random_pos n s) (fun n => cubic_random_to n s) (cubic_out s) (cubic_out_to s).
(* src/system_mod/cont_cyl.rs 72-269 *)
Definition cyl_core (s : cyl) : syscore := Syscore (cyl_inclusion s) (cyl_check_bc s)
  (fun n => cyl_random_pos n s) (fun n => cyl_random_to n s) (cyl_out s) (cyl_out_to s).
End Sys.
Arguments circ S : clear implicits.
Arguments cubic S : clear implicits.
Arguments cyl S : clear implicits.
Arguments syscore S G : clear implicits.

(** ** src/target_mod/cont_bulk.rs *)
Section Target.
Context {S : scalar}.
Local Open Scope s_scope.
(** [TargetType]. *)
(* src/target_mod/mod.rs 33-39 *)
Inductive targettype := ContinuousInBulk | ContinuousAtBoundary | LatticeInBulk | LatticeAtBoundary | NetworkSingleNode.
(** [struct ContBulkTarget]; [new]; [convert_from] (the arguments struct has the same fields). *)
(* src/target_mod/cont_bulk.rs 6-10 *)
Record target := Target { tg_type : targettype; tg_pos : pos S; tg_size : S }.
(* src/target_mod/cont_bulk.rs 14-20 [new] *)
Definition target_new (p : pos S) (r : S) : target := Target ContinuousInBulk p r.
(* src/target_mod/cont_bulk.rs 35-41 [convert_from] *)
Definition target_convert_from (a : target) : target := Target (tg_type a) (tg_pos a) (tg_size a).
(** [distance]; [check_find]. *)
(* src/target_mod/cont_bulk.rs 23-25 [distance] *)
Definition target_distance (t : target) (p : pos S) : outcome S := distance (tg_pos t) p.
(* src/target_mod/cont_bulk.rs 52-60 [check_find] *)
Definition check_find (t : target) (p : pos S) : outcome bool :=
  do d <- target_distance t p;
  if d <? tg_size t then Ok true else Ok false.
End Target.
Arguments target S : clear implicits.
