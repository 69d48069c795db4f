(** Model of the simulation loops written on top of the crate: tests/merge_fpt.rs, tests/n_ptl_rts_iterator.rs,
    tests/large_n_simulation.rs and examples/mfpt_exp.rs.  Loops run on fuel. *)
From Coq Require Import ZArith List.
From Verif Require Import Base Scalar Model_Position Model_System Model_Agent Model_LinkedList Model_Time.
Import ListNotations.

Section Run.
Context {S : scalar} {G : rng S}.
Local Open Scope s_scope.
Notation gen := (rstate G).

(** What the movement loops use of an agent type: [random_move] and the public field [pos]. *)
(* random_move and the field pos, as used in tests/merge_fpt.rs 68-71 *)
Record mover (A : Type) := Mover {
  mv_move : A -> gen -> S -> gen * outcome (pos S);
  mv_pos : A -> pos S;
  mv_put : A -> pos S -> A }.
Arguments Mover {A}. Arguments mv_move {A}. Arguments mv_pos {A}. Arguments mv_put {A}.
(* src/agent_mod/cont_passive_indep.rs 156-172 [random_move] *)
Definition indep_mover : mover (indep S) := Mover indep_random_move in_pos (fun a p => in_set a (in_dim a) p).
(* src/agent_mod/cont_passive_merge.rs 187-203 [random_move] *)
Definition merger_mover : mover (merger S) := Mover merger_random_move mg_pos (fun a p => mg_set a (mg_dim a) p).

Section Loop.
Context {A : Type} (m : mover A) (sys : syscore S G) (tg : target S).

(** tests/merge_fpt.rs, n_ptl_rts_iterator.rs, large_n_simulation.rs:
    [while let Some(agent) = list_agents.get_mut(){ .. }].  [Ok true]: an agent found the target and the loop was left. *)
(* tests/merge_fpt.rs 68-74; tests/n_ptl_rts_iterator.rs 67-73; tests/large_n_simulation.rs 69-75 *)
Fixpoint move_loop (fuel : nat) (dt : S) (l : llist A) (g : gen) : llist A * gen * outcome bool :=
  match fuel with
  | 0%nat => (l, g, Fuel)
  | Datatypes.S k =>
    match enumerate l with
    | Ok (l1, None) => (l1, g, Ok false)
    | Ok (l1, Some (i, a)) =>
      let (g1, mv) := mv_move m a g dt in
      match mv with
      | Ok dp =>
        let (p, r) := sc_check_bc sys (mv_pos m a) dp in
        let l2 := with_contents l1 (replace_nth i (mv_put m a p) (contents l1)) in
        match r with
        | Ok _ =>
          match check_find tg p with
          | Ok true => (l2, g1, Ok true)
          | Ok false => move_loop k dt l2 g1
          | Err e => (l2, g1, Err e) | Panic => (l2, g1, Panic) | Fuel => (l2, g1, Fuel)
          end
        | Err e => (l2, g1, Err e) | Panic => (l2, g1, Panic) | Fuel => (l2, g1, Fuel)
        end
      | Err e => (l1, g1, Err e) | Panic => (l1, g1, Panic) | Fuel => (l1, g1, Fuel)
      end
    | Err e => (l, g, Err e) | Panic => (l, g, Panic) | Fuel => (l, g, Fuel)
    end
  end.
(** [list_agents.into_iter();] and the loop.  A pass visits every live agent once: one round more than agents is enough fuel. *)
(* tests/merge_fpt.rs 67-74; tests/n_ptl_rts_iterator.rs 65-73; tests/large_n_simulation.rs 68-75 *)
Definition move_pass (dt : S) (l : llist A) (g : gen) := move_loop (Datatypes.S (length (contents l))) dt (into_iter l) g.

(** The loop over the time steps of tests/merge_fpt.rs and [time += dt], one step, until
    an agent has found the target. *)
(* tests/merge_fpt.rs 62-83; tests/n_ptl_rts_iterator.rs 62-74 *)
Fixpoint fixed_run (step : S -> llist A -> gen -> llist A * gen * outcome bool) (fuel : nat) (dt time : S) (l : llist A) (g : gen)
  : llist A * gen * outcome S :=
  match fuel with
  | 0%nat => (l, g, Fuel)
  | Datatypes.S k =>
    let time := time + dt in
    match step dt l g with
    | (l1, g1, Ok true) => (l1, g1, Ok time)
    | (l1, g1, Ok false) => fixed_run step k dt time l1 g1
    | (l1, g1, Err e) => (l1, g1, Err e) | (l1, g1, Panic) => (l1, g1, Panic) | (l1, g1, Fuel) => (l1, g1, Fuel)
    end
  end.

(** [for (time, dt) in timeiter.into_diff(){ .. return Ok(time) .. }] followed by [last]: tests/large_n_simulation.rs
    ([last] is the error [UnexpectedEnd]); examples/mfpt_exp.rs ([last] is [fpt = 0]). *)
(* tests/large_n_simulation.rs 67-86 *)
Fixpoint clocked_run {St : Type} (next : St -> outcome (St * option (S * S))) (step : S -> llist A -> gen -> llist A * gen * outcome bool)
    (last : outcome S) (fuel : nat) (s : St) (l : llist A) (g : gen) : llist A * gen * outcome S :=
  match fuel with
  | 0%nat => (l, g, Fuel)
  | Datatypes.S k =>
    match next s with
    | Ok (_, None) => (l, g, last)
    | Ok (s1, Some (time, dt)) =>
      match step dt l g with
      | (l1, g1, Ok true) => (l1, g1, Ok time)
      | (l1, g1, Ok false) => clocked_run next step last k s1 l1 g1
      | (l1, g1, Err e) => (l1, g1, Err e) | (l1, g1, Panic) => (l1, g1, Panic) | (l1, g1, Fuel) => (l1, g1, Fuel)
      end
    | Err e => (l, g, Err e) | Panic => (l, g, Panic) | Fuel => (l, g, Fuel)
    end
  end.

(** tests/merge_fpt.rs, n_ptl_rts_iterator.rs, [for _i in 0..n] build and push. *)
(* tests/merge_fpt.rs 57-60; tests/n_ptl_rts_iterator.rs 57-60; tests/large_n_simulation.rs 41-44 *)
Fixpoint build_agents (new : gen -> gen * outcome A) (n : nat) (g : gen) : gen * outcome (list A) :=
  match n with
  | 0%nat => (g, Ok [])
  | Datatypes.S k =>
    let (g1, r) := new g in
    match r with
    | Ok a => let (g2, r2) := build_agents new k g1 in (g2, do v <- r2; Ok (a :: v))
    | Err e => (g1, Err e) | Panic => (g1, Panic) | Fuel => (g1, Fuel)
    end
  end.
End Loop.

(** tests/merge_fpt.rs ([radius] is the same for all agents) and large_n_simulation.rs ([s1.ptl_radius]): the pair loop. *)
(* tests/merge_fpt.rs 77-82; tests/large_n_simulation.rs 78-83 *)
Fixpoint pair_loop (radius : merger S -> S) (fuel : nat) (l : llist (merger S)) : llist (merger S) * outcome unit :=
  match fuel with
  | 0%nat => (l, Fuel)
  | Datatypes.S k =>
    match enumerate_double l with
    | Ok (l1, None) => (l1, Ok tt)
    | Ok (l1, Some (i, a, j, b)) =>
      match distance (mg_pos a) (mg_pos b) with
      | Ok d =>
        if d <? s2 * radius a then
          match ll_merge merger_size merger_add_size l1 i j with
          | (l2, Ok _) => pair_loop radius k l2
          | (l2, Err e) => (l2, Err e) | (l2, Panic) => (l2, Panic) | (l2, Fuel) => (l2, Fuel)
          end
        else pair_loop radius k l1
      | Err e => (l1, Err e) | Panic => (l1, Panic) | Fuel => (l1, Fuel)
      end
    | Err e => (l, Err e) | Panic => (l, Panic) | Fuel => (l, Fuel)
    end
  end.
(** [list_agents.into_double_iter();] and the loop; [n * n] rounds are enough for [n] agents. *)
(* tests/merge_fpt.rs 76-82; tests/large_n_simulation.rs 77-83 *)
Definition pair_pass (radius : merger S -> S) (l : llist (merger S)) : llist (merger S) * outcome unit :=
  match into_double_iter l with
  | Ok l1 => pair_loop radius (Datatypes.S (length (contents l) * length (contents l))) l1
  | Err e => (l, Err e) | Panic => (l, Panic) | Fuel => (l, Fuel)
  end.

(** One time step of the merging simulations: everybody moves, then close pairs merge. *)
(* tests/merge_fpt.rs 67-82; tests/large_n_simulation.rs 68-83 *)
Definition merge_step (sys : syscore S G) (tg : target S) (radius : merger S -> S) (dt : S) (l : llist (merger S)) (g : gen)
  : llist (merger S) * gen * outcome bool :=
  match move_pass merger_mover sys tg dt l g with
  | (l1, g1, Ok false) =>
    match pair_pass radius l1 with
    | (l2, Ok _) => (l2, g1, Ok false)
    | (l2, Err e) => (l2, g1, Err e) | (l2, Panic) => (l2, g1, Panic) | (l2, Fuel) => (l2, g1, Fuel)
    end
  | r => r
  end.

(** [n_ptl_fpt].  Simplified: system, target, move type and time step are arguments (the test
    fixes a disc of radius 10, a target of size 1 at the origin, [Brownian(1)], 0.01). *)
(* tests/merge_fpt.rs 45-86 [n_ptl_fpt] *)
Definition merge_fpt (inner place_fuel fuel : nat) (sys : syscore S G) (tg : target S) (mt : movetype S) (dt : S) (n : nat) (radius alpha : S) (g : gen)
  : gen * outcome S :=
  let (g1, r) := build_agents (fun g => merger_new_uniform inner place_fuel sys tg g mt radius alpha) n g in
  match r with
  | Ok v =>
    match ll_from v with
    | Ok l => let '(_, g2, t) := fixed_run (merge_step sys tg (fun _ => radius)) fuel dt s0 l g1 in (g2, t)
    | Err e => (g1, Err e) | Panic => (g1, Panic) | Fuel => (g1, Fuel)
    end
  | Err e => (g1, Err e) | Panic => (g1, Panic) | Fuel => (g1, Fuel)
  end.

(** [n_ptl_fpt], simplified in the same way. *)
(* tests/n_ptl_rts_iterator.rs 45-77 [n_ptl_fpt] *)
Definition indep_fpt (inner place_fuel fuel : nat) (sys : syscore S G) (tg : target S) (mt : movetype S) (dt : S) (n : nat) (g : gen) : gen * outcome S :=
  let (g1, r) := build_agents (fun g => indep_new_uniform inner place_fuel sys tg g mt) n g in
  match r with
  | Ok v =>
    match ll_from v with
    | Ok l => let '(_, g2, t) := fixed_run (move_pass indep_mover sys tg) fuel dt s0 l g1 in (g2, t)
    | Err e => (g1, Err e) | Panic => (g1, Panic) | Fuel => (g1, Fuel)
    end
  | Err e => (g1, Err e) | Panic => (g1, Panic) | Fuel => (g1, Fuel)
  end.

(** [into_iter] and [renew_uniform] on every live agent. *)
(* tests/large_n_simulation.rs 62-65 *)
Fixpoint renew_loop (inner place_fuel : nat) (sys : syscore S G) (tg : target S) (fuel : nat) (l : llist (merger S)) (g : gen)
  : llist (merger S) * gen * outcome unit :=
  match fuel with
  | 0%nat => (l, g, Fuel)
  | Datatypes.S k =>
    match enumerate l with
    | Ok (l1, None) => (l1, g, Ok tt)
    | Ok (l1, Some (i, a)) =>
      let '(a', g1, r) := merger_renew inner place_fuel sys tg g a in
      let l2 := with_contents l1 (replace_nth i a' (contents l1)) in
      match r with
      | Ok _ => renew_loop inner place_fuel sys tg k l2 g1
      | Err e => (l2, g1, Err e) | Panic => (l2, g1, Panic) | Fuel => (l2, g1, Fuel)
      end
    | Err e => (l, g, Err e) | Panic => (l, g, Panic) | Fuel => (l, g, Fuel)
    end
  end.
(** [n_ptl_fpt] (time steps of an [ExponentialStep]).  The clock after the run is not returned:
    the next run renews it. *)
(* tests/large_n_simulation.rs 56-87 [n_ptl_fpt] *)
Definition large_n_fpt (inner place_fuel fuel : nat) (sys : syscore S G) (tg : target S) (clock : expstep S) (l : llist (merger S)) (g : gen)
  : llist (merger S) * gen * outcome S :=
  match es_renew clock with
  | Ok clock =>
    match connect_all l with
    | Ok l1 =>
      match renew_loop inner place_fuel sys tg (Datatypes.S (length (contents l1))) (into_iter l1) g with
      | (l2, g2, Ok _) => clocked_run (diff_next es_next es_dt) (merge_step sys tg mg_radius) (Err UnexpectedEnd) fuel clock l2 g2
      | (l2, g2, Err e) => (l2, g2, Err e) | (l2, g2, Panic) => (l2, g2, Panic) | (l2, g2, Fuel) => (l2, g2, Fuel)
      end
    | Err e => (l, g, Err e) | Panic => (l, g, Panic) | Fuel => (l, g, Fuel)
    end
  | Err e => (l, g, Err e) | Panic => (l, g, Panic) | Fuel => (l, g, Fuel)
  end.

(** ** examples/mfpt_exp.rs *)

(** the pair loop adding the pair forces to the planned moves.  [disp] is the scratch vector [displacement]. *)
(* examples/mfpt_exp.rs 51-58 *)
Fixpoint force_loop (dt : S) (fuel : nat) (l : llist (expag S)) (disp : pos S) (moves : llist (pos S))
  : llist (expag S) * pos S * llist (pos S) * outcome unit :=
  match fuel with
  | 0%nat => (l, disp, moves, Fuel)
  | Datatypes.S k =>
    match enumerate_double l with
    | Ok (l1, None) => (l1, disp, moves, Ok tt)
    | Ok (l1, Some (i, a, j, b)) =>
      let (d1, r) := expag_mutual_displacement_to_vec a b disp in
      match r with
      | Ok distance =>
        let d2 := mut_scalar_mul d1 (expag_force a distance * dt) in
        match (do mi <- idx (contents moves) i; do mi' <- mut_sub mi d2;
               let cs := replace_nth i mi' (contents moves) in
               do mj <- idx cs j; do mj' <- mut_add mj d2;
               Ok (with_contents moves (replace_nth j mj' cs))) with
        | Ok moves' => force_loop dt k l1 d2 moves'
        | Err e => (l1, d2, moves, Err e) | Panic => (l1, d2, moves, Panic) | Fuel => (l1, d2, moves, Fuel)
        end
      | Err e => (l1, d1, moves, Err e) | Panic => (l1, d1, moves, Panic) | Fuel => (l1, d1, moves, Fuel)
      end
    | Err e => (l, disp, moves, Err e) | Panic => (l, disp, moves, Panic) | Fuel => (l, disp, moves, Fuel)
    end
  end.

(** limit the displacement. *)
(* examples/mfpt_exp.rs 66-70 *)
Definition limit_move (limit : S) (v : pos S) : pos S :=
  let disp := norm v / limit in
  if disp >? s1 then mut_scalar_mul v (s1 / disp) else v.

(** the movement loop.  [Ok true]: target found ([break 'outer]). *)
(* examples/mfpt_exp.rs 62-77 *)
Fixpoint exp_move_loop (sys : syscore S G) (tg : target S) (limit dt : S) (fuel : nat) (l : llist (expag S)) (moves : llist (pos S)) (g : gen)
  : llist (expag S) * llist (pos S) * gen * outcome bool :=
  match fuel with
  | 0%nat => (l, moves, g, Fuel)
  | Datatypes.S k =>
    match enumerate l with
    | Ok (l1, None) => (l1, moves, g, Ok false)
    | Ok (l1, Some (i, a)) =>
      match idx (contents moves) i with
      | Ok v =>
        let '(v1, g1, r) := expag_random_move_to_vec a g dt v in
        match r with
        | Ok _ =>
          let v2 := limit_move limit v1 in
          let moves' := with_contents moves (replace_nth i v2 (contents moves)) in
          let (p, r2) := sc_check_bc sys (ex_pos a) v2 in
          let l2 := with_contents l1 (replace_nth i (Expag (ex_type a) (ex_int a) (ex_mtype a) (ex_itype a) (ex_dim a) p
                      (ex_gamma a) (ex_strength a) (ex_cpot a) (ex_cforce a)) (contents l1)) in
          match r2 with
          | Ok _ =>
            match check_find tg p with
            | Ok true => (l2, moves', g1, Ok true)
            | Ok false => exp_move_loop sys tg limit dt k l2 moves' g1
            | Err e => (l2, moves', g1, Err e) | Panic => (l2, moves', g1, Panic) | Fuel => (l2, moves', g1, Fuel)
            end
          | Err e => (l2, moves', g1, Err e) | Panic => (l2, moves', g1, Panic) | Fuel => (l2, moves', g1, Fuel)
          end
        | Err e => (l1, moves, g1, Err e) | Panic => (l1, moves, g1, Panic) | Fuel => (l1, moves, g1, Fuel)
        end
      | Err e => (l1, moves, g, Err e) | Panic => (l1, moves, g, Panic) | Fuel => (l1, moves, g, Fuel)
      end
    | Err e => (l, moves, g, Err e) | Panic => (l, moves, g, Panic) | Fuel => (l, moves, g, Fuel)
    end
  end.

(** one time step. *)
(* examples/mfpt_exp.rs 49-77 *)
Definition exp_step (sys : syscore S G) (tg : target S) (limit dt : S) (l : llist (expag S)) (disp : pos S) (moves : llist (pos S)) (g : gen)
  : llist (expag S) * pos S * llist (pos S) * gen * outcome bool :=
  match ll_clear pos_clear (Datatypes.S (length (contents moves))) moves with
  | Ok moves0 =>
    match into_double_iter l with
    | Ok l1 =>
      match force_loop dt (Datatypes.S (length (contents l) * length (contents l))) l1 disp moves0 with
      | (l2, disp2, moves2, Ok _) =>
        let '(l3, moves3, g3, r) := exp_move_loop sys tg limit dt (Datatypes.S (length (contents l))) (into_iter l2) moves2 g in
        (l3, disp2, moves3, g3, r)
      | (l2, disp2, moves2, Err e) => (l2, disp2, moves2, g, Err e) | (l2, disp2, moves2, Panic) => (l2, disp2, moves2, g, Panic)
      | (l2, disp2, moves2, Fuel) => (l2, disp2, moves2, g, Fuel)
      end
    | Err e => (l, disp, moves0, g, Err e) | Panic => (l, disp, moves0, g, Panic) | Fuel => (l, disp, moves0, g, Fuel)
    end
  | Err e => (l, disp, moves, g, Err e) | Panic => (l, disp, moves, g, Panic) | Fuel => (l, disp, moves, g, Fuel)
  end.

(** the loop over [timeiter.into_diff()] (the [skip(1)] is the caller's first [next]); the result is the value of [fpt]. *)
(* examples/mfpt_exp.rs 48-78 *)
Fixpoint exp_run {St : Type} (next : St -> outcome (St * option (S * S))) (sys : syscore S G) (tg : target S) (limit : S) (fuel : nat)
    (s : St) (l : llist (expag S)) (disp : pos S) (moves : llist (pos S)) (g : gen) : llist (expag S) * pos S * llist (pos S) * gen * outcome S :=
  match fuel with
  | 0%nat => (l, disp, moves, g, Fuel)
  | Datatypes.S k =>
    match next s with
    | Ok (_, None) => (l, disp, moves, g, Ok s0)
    | Ok (s1, Some (time, dt)) =>
      match exp_step sys tg limit dt l disp moves g with
      | (l1, d1, m1, g1, Ok true) => (l1, d1, m1, g1, Ok time)
      | (l1, d1, m1, g1, Ok false) => exp_run next sys tg limit k s1 l1 d1 m1 g1
      | (l1, d1, m1, g1, Err e) => (l1, d1, m1, g1, Err e) | (l1, d1, m1, g1, Panic) => (l1, d1, m1, g1, Panic)
      | (l1, d1, m1, g1, Fuel) => (l1, d1, m1, g1, Fuel)
      end
    | Err e => (l, disp, moves, g, Err e) | Panic => (l, disp, moves, g, Panic) | Fuel => (l, disp, moves, g, Fuel)
    end
  end.
(** [for s in &mut list_agents.contents{ s.renew_uniform(..)?; }] (every slot, dead or alive). *)
(* examples/mfpt_exp.rs 43-45 *)
Fixpoint renew_slots (inner place_fuel : nat) (sys : syscore S G) (tg : target S) (cs : list (expag S)) (g : gen) : list (expag S) * gen * outcome unit :=
  match cs with
  | [] => ([], g, Ok tt)
  | a :: r =>
    let '(a', g1, o) := expag_renew inner place_fuel sys tg g a in
    match o with
    | Ok _ => let '(r', g2, o2) := renew_slots inner place_fuel sys tg r g1 in (a' :: r', g2, o2)
    | Err e => (a' :: r, g1, Err e) | Panic => (a' :: r, g1, Panic) | Fuel => (a' :: r, g1, Fuel)
    end
  end.
(** one sample of the ensemble; the result is the value of [fpt] that is written to the data file.  [timeiter.into_diff()] works
    on a copy of the clock (src/time_mod/mod.rs 297-301), so every sample starts from the same clock; [skip(1)] drops its first item. *)
(* examples/mfpt_exp.rs 41-78 *)
Definition exp_sample {St : Type} (next : St -> outcome (St * option (S * S))) (inner place_fuel : nat) (sys : syscore S G) (tg : target S) (limit : S) (fuel : nat)
    (clock : St) (l : llist (expag S)) (disp : pos S) (moves : llist (pos S)) (g : gen) : llist (expag S) * pos S * llist (pos S) * gen * outcome S :=
  let '(cs, g1, o) := renew_slots inner place_fuel sys tg (contents l) g in
  let l1 := with_contents l cs in
  match o with
  | Ok _ =>
    match connect_all l1 with
    | Ok l2 =>
      match next clock with
      | Ok (_, None) => (l2, disp, moves, g1, Ok s0)
      | Ok (c1, Some _) => exp_run next sys tg limit fuel c1 l2 disp moves g1
      | Err e => (l2, disp, moves, g1, Err e) | Panic => (l2, disp, moves, g1, Panic) | Fuel => (l2, disp, moves, g1, Fuel)
      end
    | Err e => (l1, disp, moves, g1, Err e) | Panic => (l1, disp, moves, g1, Panic) | Fuel => (l1, disp, moves, g1, Fuel)
    end
  | Err e => (l1, disp, moves, g1, Err e) | Panic => (l1, disp, moves, g1, Panic) | Fuel => (l1, disp, moves, g1, Fuel)
  end.
(** the ensemble; the values written before a failure stay in the file. *)
(* examples/mfpt_exp.rs 40-83 *)
Fixpoint exp_ensemble {St : Type} (next : St -> outcome (St * option (S * S))) (inner place_fuel : nat) (sys : syscore S G) (tg : target S) (limit : S) (fuel : nat)
    (clock : St) (num : nat) (l : llist (expag S)) (disp : pos S) (moves : llist (pos S)) (g : gen) : list S * gen * outcome unit :=
  match num with
  | 0%nat => ([], g, Ok tt)
  | Datatypes.S k =>
    match exp_sample next inner place_fuel sys tg limit fuel clock l disp moves g with
    | (l1, d1, m1, g1, Ok t) => let '(ts, g2, o) := exp_ensemble next inner place_fuel sys tg limit fuel clock k l1 d1 m1 g1 in (t :: ts, g2, o)
    | (_, _, _, g1, Err e) => ([], g1, Err e) | (_, _, _, g1, Panic) => ([], g1, Panic) | (_, _, _, g1, Fuel) => ([], g1, Fuel)
    end
  end.
(** The program refuses an interaction dimension other than the system's, makes the scratch vector and one planned move per agent. *)
(* examples/mfpt_exp.rs 18-20; examples/mfpt_exp.rs 34-36; examples/mfpt_exp.rs 40-83 *)
Definition mfpt_exp {St : Type} (next : St -> outcome (St * option (S * S))) (inner place_fuel fuel num : nat) (sys : syscore S G) (sys_dim : nat) (tg : target S)
    (args : expag_args S) (limit : S) (clock : St) (g : gen) : list S * gen * outcome unit :=
  match expag_convert_from args with
  | Ok v =>
    if negb (sys_dim =? ea_dim args)%nat then ([], g, Panic)
    else match ll_from (repeat (repeat s0 sys_dim) (length v)), ll_from v with
         | Ok moves, Ok l => exp_ensemble next inner place_fuel sys tg limit fuel clock num l (repeat s0 sys_dim) moves g
         | Ok _, Err e | Err e, _ => ([], g, Err e) | Ok _, Panic | Panic, _ => ([], g, Panic) | Ok _, Fuel | Fuel, _ => ([], g, Fuel)
         end
  | Err e => ([], g, Err e) | Panic => ([], g, Panic) | Fuel => ([], g, Fuel)
  end.
(** [limit]. *)
(* examples/mfpt_exp.rs 38 *)
Definition exp_limit (target_size gamma : S) : S := if lit 1 10 * target_size >? gamma then gamma else lit 1 10 * target_size.
End Run.
Arguments Mover {S G A}. Arguments mv_move {S G A}. Arguments mv_pos {S G A}. Arguments mv_put {S G A}.
