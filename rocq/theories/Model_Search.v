(** Model of the simulations with one searcher at a time: tests/rts_n_searcher.rs, tests/single_ptl_rts.rs, and of the ensemble loops of the
    tests.  The parameters fixed in the tests (a disc of radius 10, target of size 1, time step, diffusion coefficient 1) are arguments here.
    Loops run on fuel. *)
From Coq Require Import ZArith List.
From Verif Require Import Base Scalar Model_Position Model_System Model_Agent.
Import ListNotations.

Section Search.
Context {S : scalar} {G : rng S}.
Local Open Scope s_scope.
Notation gen := (rstate G).

(** [while !target.check_find(&searcher.pos)?{ .. time += dt; }]. *)
(* tests/rts_n_searcher.rs 67-71 *)
Fixpoint search_loop (sys : syscore S G) (tg : target S) (dt : S) (fuel : nat) (time : S) (a : indep S) (g : gen) : indep S * gen * outcome S :=
  match fuel with
  | 0%nat => (a, g, Fuel)
  | Datatypes.S k =>
    match check_find tg (in_pos a) with
    | Ok true => (a, g, Ok time)
    | Ok false =>
      let (g1, mv) := indep_random_move a g dt in
      match mv with
      | Ok dp =>
        let (p, r) := sc_check_bc sys (in_pos a) dp in
        let a1 := in_set a (in_dim a) p in
        match r with
        | Ok _ => search_loop sys tg dt k (time + dt) a1 g1
        | Err e => (a1, g1, Err e) | Panic => (a1, g1, Panic) | Fuel => (a1, g1, Fuel)
        end
      | Err e => (a, g1, Err e) | Panic => (a, g1, Panic) | Fuel => (a, g1, Fuel)
      end
    | Err e => (a, g, Err e) | Panic => (a, g, Panic) | Fuel => (a, g, Fuel)
    end
  end.
(** One searcher, placed and followed until it finds the target. *)
(* tests/rts_n_searcher.rs 64-71 *)
Definition one_search (inner place_fuel fuel : nat) (sys : syscore S G) (tg : target S) (mt : movetype S) (dt : S) (g : gen) : gen * outcome S :=
  let (g1, r) := indep_new_uniform inner place_fuel sys tg g mt in
  match r with
  | Ok a => let '(_, g2, t) := search_loop sys tg dt fuel s0 a g1 in (g2, t)
  | Err e => (g1, Err e) | Panic => (g1, Panic) | Fuel => (g1, Fuel)
  end.
(** [for _i in 0..n{ .. if min_fpt > time{ min_fpt = time; } }]. *)
(* tests/rts_n_searcher.rs 62-75 *)
Fixpoint min_loop (sample : gen -> gen * outcome S) (n : nat) (min_fpt : S) (g : gen) : gen * outcome S :=
  match n with
  | 0%nat => (g, Ok min_fpt)
  | Datatypes.S k =>
    let (g1, r) := sample g in
    match r with
    | Ok time => min_loop sample k (if min_fpt >? time then time else min_fpt) g1
    | Err e => (g1, Err e) | Panic => (g1, Panic) | Fuel => (g1, Fuel)
    end
  end.
(* tests/rts_n_searcher.rs 50-78 [n_ptl_fpt] *)
Definition n_searcher_fpt (inner place_fuel fuel : nat) (sys : syscore S G) (tg : target S) (mt : movetype S) (dt : S) (n : nat) (g : gen) : gen * outcome S :=
  min_loop (one_search inner place_fuel fuel sys tg mt dt) n fmax g.

(** [for _i in 0..num_ensemble{ data += ..?; }] and [data / num_ensemble as f64]; [sample] is one call of [n_ptl_fpt]. *)
(* tests/rts_n_searcher.rs 41-45; tests/merge_fpt.rs 36-40; tests/n_ptl_rts_iterator.rs 36-40 *)
Fixpoint sum_loop (sample : gen -> gen * outcome S) (num : nat) (data : S) (g : gen) : gen * outcome S :=
  match num with
  | 0%nat => (g, Ok data)
  | Datatypes.S k =>
    let (g1, r) := sample g in
    match r with
    | Ok time => sum_loop sample k (data + time) g1
    | Err e => (g1, Err e) | Panic => (g1, Panic) | Fuel => (g1, Fuel)
    end
  end.
(* tests/rts_n_searcher.rs 39-47 [ensemble_n_ptl_fpt]; tests/merge_fpt.rs 34-42 [ensemble_n_ptl_fpt]; tests/n_ptl_rts_iterator.rs 34-42 [ensemble_n_ptl_fpt] *)
Definition ensemble_mean (sample : gen -> gen * outcome S) (num : nat) (g : gen) : gen * outcome S :=
  let (g1, r) := sum_loop sample num s0 g in (g1, do data <- r; Ok (data / of_Z (Z.of_nat num))).

(** The same search with a displacement vector that is cleared and reused. *)
(* tests/single_ptl_rts.rs 76-81 *)
Fixpoint search_loop_to_vec (sys : syscore S G) (tg : target S) (dt : S) (fuel : nat) (time : S) (a : indep S) (v : pos S) (g : gen)
  : indep S * pos S * gen * outcome S :=
  match fuel with
  | 0%nat => (a, v, g, Fuel)
  | Datatypes.S k =>
    match check_find tg (in_pos a) with
    | Ok true => (a, v, g, Ok time)
    | Ok false =>
      let '(v1, g1, mv) := indep_random_move_to_vec a g dt (pos_clear v) in
      match mv with
      | Ok _ =>
        let (p, r) := sc_check_bc sys (in_pos a) v1 in
        let a1 := in_set a (in_dim a) p in
        match r with
        | Ok _ => search_loop_to_vec sys tg dt k (time + dt) a1 v1 g1
        | Err e => (a1, v1, g1, Err e) | Panic => (a1, v1, g1, Panic) | Fuel => (a1, v1, g1, Fuel)
        end
      | Err e => (a, v1, g1, Err e) | Panic => (a, v1, g1, Panic) | Fuel => (a, v1, g1, Fuel)
      end
    | Err e => (a, v, g, Err e) | Panic => (a, v, g, Panic) | Fuel => (a, v, g, Fuel)
    end
  end.
(** The loop over the samples and the mean; the state is the scratch vector and the sum. *)
(* tests/single_ptl_rts.rs 71-83 *)
Fixpoint single_sum (inner place_fuel fuel : nat) (sys : syscore S G) (tg : target S) (mt : movetype S) (dt : S) (num : nat) (data : S) (v : pos S) (g : gen)
  : gen * outcome S :=
  match num with
  | 0%nat => (g, Ok data)
  | Datatypes.S k =>
    let (g1, r) := indep_new_uniform inner place_fuel sys tg g mt in
    match r with
    | Ok a =>
      let '(_, v1, g2, t) := search_loop_to_vec sys tg dt fuel s0 a v g1 in
      match t with
      | Ok time => single_sum inner place_fuel fuel sys tg mt dt k (data + time) v1 g2
      | Err e => (g2, Err e) | Panic => (g2, Panic) | Fuel => (g2, Fuel)
      end
    | Err e => (g1, Err e) | Panic => (g1, Panic) | Fuel => (g1, Fuel)
    end
  end.
(* tests/single_ptl_rts.rs 53-88 [test_single_ptl_fpt] *)
Definition single_mfpt (inner place_fuel fuel : nat) (sys : syscore S G) (d : nat) (tg : target S) (mt : movetype S) (dt : S) (num : nat) (g : gen) : gen * outcome S :=
  let (g1, r) := single_sum inner place_fuel fuel sys tg mt dt num s0 (repeat s0 d) g in (g1, do data <- r; Ok (data / of_Z (Z.of_nat num))).

(** ** The free diffusion test *)
(** [for k in 0..NUM_STEP{ .. data[k+1] += dx2; }]; [is] is the remaining range. *)
(* tests/single_ptl_rts.rs 31-38 *)
Fixpoint walk_loop (is : list nat) (dt : S) (a : indep S) (v : pos S) (data : list S) (g : gen) : pos S * list S * gen * outcome unit :=
  match is with
  | [] => (v, data, g, Ok tt)
  | k :: r =>
    let '(v1, g1, mv) := indep_random_move_to_vec a g dt (pos_clear v) in
    match mv with
    | Ok _ =>
      match mut_add (in_pos a) v1 with
      | Ok p =>
        match upd (k + 1) (fun x => x + norm p * norm p) data with
        | Ok data1 => walk_loop r dt (in_set a (in_dim a) p) v1 data1 g1
        | Err e => (v1, data, g1, Err e) | Panic => (v1, data, g1, Panic) | Fuel => (v1, data, g1, Fuel)
        end
      | Err e => (v1, data, g1, Err e) | Panic => (v1, data, g1, Panic) | Fuel => (v1, data, g1, Fuel)
      end
    | Err e => (v1, data, g1, Err e) | Panic => (v1, data, g1, Panic) | Fuel => (v1, data, g1, Fuel)
    end
  end.
(** [for _j in 0..NUM_ENSEMBLE]. *)
(* tests/single_ptl_rts.rs 27-39 *)
Fixpoint diffusion_loop (num steps d : nat) (c dt : S) (v : pos S) (data : list S) (g : gen) : list S * gen * outcome unit :=
  match num with
  | 0%nat => (data, g, Ok tt)
  | Datatypes.S k =>
    let '(v1, data1, g1, r) := walk_loop (seq 0 steps) dt (indep_new (Brownian c) (repeat s0 d)) v data g in
    match r with
    | Ok _ => diffusion_loop k steps d c dt v1 data1 g1
    | Err e => (data1, g1, Err e) | Panic => (data1, g1, Panic) | Fuel => (data1, g1, Fuel)
    end
  end.
(** [single_move : Position<f64> = Default::default()]: the derived [Default], a position without coordinates. *)
(* tests/single_ptl_rts.rs 17-39 [test_ptl_diffusion_in_time]; src/position.rs 9 *)
Definition diffusion_test (num steps d : nat) (c dt : S) (g : gen) : list S * gen * outcome unit :=
  diffusion_loop num steps d c dt [] (repeat s0 (steps + 1)) g.
End Search.
