(** Specification vocabulary for the programs tests/test_setup.rs and tests/arguments.rs. *)
From Coq Require Import String List NArith ZArith.
From Verif Require Import Base Scalar Model_LinkedList Model_Position Spec_Position Model_System Model_Agent Spec_Agent Model_Time Model_Text Spec_Text Model_Args Spec_Args Model_Run Spec_Run Spec_Search
  Model_Program Spec_Program Model_Program3.
Import ListNotations.
Local Open Scope nat_scope.
Local Open Scope string_scope.
Local Open Scope list_scope.
Local Notation length := List.length.

(** ** One searcher that adds its Brownian displacements to a cleared vector *)
Section Walk.
Context {S : scalar} {G : rng S}.
Notation gen := (rstate G).
(** The [j]-th displacement from generator state [g] on: zeros plus a block of [n] normal samples times sqrt(2 c dt). *)
Definition stride (c dt : S) (n : nat) (g : gen) (j : nat) : pos S := noisy_kick c dt (repeat s0 n) (nth_block (gauss G) n j g).
(** After [j] displacements, each through the boundary rule [bc], the searcher is at [q]. *)
Definition walks_to bc (c dt : S) n (p : pos S) (g : gen) (j : nat) (q : pos S) : Prop := travel bc p (map (stride c dt n g) (seq 0 j)) = Some q.
(** Off the target after each of the first [k] displacements (before the [k]-th included, at the start as well). *)
Definition off_until bc (tg : target S) (c dt : S) n (p : pos S) (g : gen) (k : nat) : Prop :=
  forall j, j < k -> exists q, walks_to bc c dt n p g j q /\ check_find tg q = Ok false.
(** The target is found after [k] displacements and not before. *)
Definition finds_after bc (tg : target S) (c dt : S) n (p : pos S) (g : gen) (k : nat) : Prop :=
  off_until bc tg c dt n p g k /\ exists q, walks_to bc c dt n p g k q /\ check_find tg q = Ok true.

(** Searchers that have their turns one after the other: each is placed by [new] and makes [k] displacements; [n] normal samples for each of them. *)
Inductive in_turn (new : gen -> gen * outcome (indep S)) (n : nat) : gen -> list (indep S * gen * nat) -> gen -> Prop :=
| turn_none g : in_turn new n g [] g
| turn_one g g1 a k rest g' : new g = (g1, Ok a) -> in_turn new n (after_blocks (gauss G) n k g1) rest g' -> in_turn new n g ((a, g1, k) :: rest) g'.
(** The result of one ensemble of tests/test_setup.rs, with a fresh displacement vector. *)
Definition race_sample (inner pf fuel : nat) (sys : syscore S G) (d : nat) (tg : target S) (mt : movetype S) (dt : S) (n : nat) (g : gen) : gen * outcome S :=
  let '(_, g', o) := race inner pf fuel sys tg mt dt n fmax (repeat s0 d) g in (g', o).

End Walk.

(** ** The settings of a call *)
Record ind_settings (S : scalar) := IndSettings {
  i_size : S; i_dim : nat; i_target : pos S; i_tsize : S; i_move : movetype S; i_init : inittype S; i_agents : nat;
  i_dt : S; i_tmax : S; i_num : nat; i_idx : nat; i_seed : N; i_dir : string }.
Arguments i_size {S}. Arguments i_dim {S}. Arguments i_target {S}. Arguments i_tsize {S}. Arguments i_move {S}. Arguments i_init {S}. Arguments i_agents {S}. Arguments i_dt {S}.
Arguments i_tmax {S}. Arguments i_num {S}. Arguments i_idx {S}. Arguments i_seed {S}. Arguments i_dir {S}.
Section Settings.
Context {S : scalar} (nt : numtext S).
Definition i_sys_part (p : ind_settings S) : args_of (circ_spec nt) := (ContinuousCircular, (Reflection, (i_size p, (i_dim p, tt)))).
Definition i_target_part (p : ind_settings S) : args_of (bulk_spec nt) := (ContinuousInBulk, (i_target p, (i_tsize p, tt))).
Definition i_agent_part (p : ind_settings S) : args_of (indep_spec nt) := (ContinuousPassiveIndependent, (i_move p, (i_init p, (i_agents p, tt)))).
Definition i_clock_part (p : ind_settings S) : args_of (const_spec nt) := (i_dt p, (i_tmax p, tt)).
Definition i_sim_part (p : ind_settings S) : args_of varsim_spec := (i_num p, (i_idx p, (i_seed p, (i_dir p, tt)))).
(** The values of the five structures, *)
Definition ind_part (p : ind_settings S) : all_args (ind_structs nt) := (i_sys_part p, (i_target_part p, (i_agent_part p, (i_clock_part p, (i_sim_part p, tt))))).
(** of those that tests/test_setup.rs writes to its file, *)
Definition written_part (p : ind_settings S) : all_args (race_written nt) := (i_sys_part p, (i_target_part p, (i_agent_part p, (i_sim_part p, tt)))).
(** and the words of a command line. *)
Definition ind_command (p : ind_settings S) (ws : list string) : Prop := exists b1 b2 b3 b4 b5,
  ws = b1 ++ b2 ++ b3 ++ b4 ++ b5 /\
  word_values (a_vars (circ_spec nt)) b1 (i_size p, (i_dim p, tt)) /\
  word_values (a_vars (bulk_spec nt)) b2 (i_target p, (i_tsize p, tt)) /\
  word_values (a_vars (indep_spec nt)) b3 (i_move p, (i_init p, (i_agents p, tt))) /\
  word_values (a_vars (const_spec nt)) b4 (i_clock_part p) /\
  word_values (a_vars varsim_spec) b5 (i_sim_part p).
(** Settings whose texts can be written and read back. *)
Record ind_writable (p : ind_settings S) : Prop := IndWritable {
  iw_dim : usize_fits (i_dim p); iw_target : i_target p <> []; iw_init : forall q, i_init p = SpecificPosition q -> q <> [];
  iw_agents : usize_fits (i_agents p); iw_num : usize_fits (i_num p);
  iw_idx : usize_fits (i_idx p); iw_seed : (i_seed p < 2 ^ 128)%N; iw_dir : one_line (i_dir p) /\ trimmed (i_dir p) }.
(** A system, and a target and searchers for it. *)
Record race_accepted (p : ind_settings S) : Prop := RaceAccepted {
  ra_size : (i_size p <=? s0)%S = false; ra_dim : i_dim p <> 0; ra_target : length (i_target p) = i_dim p; ra_move : exists c, i_move p = Brownian c }.
(** The same with a clock. *)
Record crowd_accepted (p : ind_settings S) : Prop := CrowdAccepted {
  ca_race : race_accepted p; ca_dt : (i_dt p <? s0)%S = false; ca_tmax : (i_tmax p <? s0)%S = false }.
Definition crowd_clock (p : ind_settings S) : conststep S := ConstStep (Constant (i_dt p)) s0 (i_dt p) (if (i_tmax p <? lit 1 (10 ^ 10))%S then fmax else i_tmax p).
Definition i_system (p : ind_settings S) : circ S := Circ ContinuousCircular Reflection (i_size p) (i_dim p).
Definition i_the_target (p : ind_settings S) : target S := Target ContinuousInBulk (i_target p) (i_tsize p).
(** The number added to the seed. *)
Definition i_hash (p : ind_settings S) : S := ind_hash (i_size p) (i_dim p) (i_tsize p) (i_agents p) (i_idx p).
(** The name of a file of these settings. *)
Definition i_name (prefix : string) (p : ind_settings S) : string :=
  let num n v := ("_" ++ n ++ "_" ++ n_show nt v)%string in let int n v := ("_" ++ n ++ "_" ++ show_usize v)%string in
  (prefix ++ num "sys_size" (i_size p) ++ int "dim" (i_dim p) ++ num "target_size" (i_tsize p) ++ int "num_agent" (i_agents p) ++ num "dt" (i_dt p) ++
   int "idx_set" (i_idx p) ++ ".dat")%string.
End Settings.

(** ** What a value in a file of tests/test_setup.rs means *)
Section RaceValue.
Context {S : scalar} {G : rng S} (inner pf : nat) (p : ind_settings S) (c : S).
Notation gen := (rstate G).
Notation bc := (sc_check_bc (circ_core (G := G) (i_system p))).
Notation tg := (i_the_target p).
Definition placed_searcher (g : gen) : gen * outcome (indep S) := indep_new_uniform inner pf (circ_core (i_system p)) tg g (Brownian c).
(** From [g] to [g'] all searchers have had their turn; [t] is the number of steps after which one of them found the target, times dt (summed), or the largest
    number if none did; and no searcher, followed as long as one likes, finds it earlier. *)
Definition race_result (g : gen) (t : S) (g' : gen) : Prop := exists runs,
  in_turn placed_searcher (i_dim p) g runs g' /\ length runs = i_agents p /\
  (t = fmax \/ Exists (fun r => let '(a, g1, k) := r in 1 <= k /\ finds_after bc tg c (i_dt p) (i_dim p) (in_pos a) g1 k /\ t = ticks (i_dt p) k) runs) /\
  Forall (fun r => let '(a, g1, _) := r in length (in_pos a) = i_dim p /\ check_find tg (in_pos a) = Ok false /\
    forall k, finds_after bc tg c (i_dt p) (i_dim p) (in_pos a) g1 k -> (ticks (i_dt p) k <? t)%S = false) runs.
(** The searcher that is on turn after some others makes a displacement that the boundary rule refuses. *)
Definition race_refusal (g : gen) : Prop := exists runs g1 g2 a k q q',
  in_turn placed_searcher (i_dim p) g runs g1 /\ length runs < i_agents p /\ placed_searcher g1 = (g2, Ok a) /\
  off_until bc tg c (i_dt p) (i_dim p) (in_pos a) g2 (Datatypes.S k) /\ walks_to bc c (i_dt p) (i_dim p) (in_pos a) g2 k q /\
  bc q (stride c (i_dt p) (i_dim p) g2 k) = (q', Err TooLargeTimeStep).
End RaceValue.

(** ** Searchers that take turns in every step (tests/arguments.rs) *)
Section Crowd.
Context {S : scalar} {G : rng S}.
Notation gen := (rstate G).
(** Things that happen one after the other, the generator going from [g] to [g']. *)
Inductive in_order {X : Type} (R : gen -> X -> gen -> Prop) : gen -> list X -> gen -> Prop :=
| order_none g : in_order R g [] g
| order_one g g1 x xs g' : R g x g1 -> in_order R g1 xs g' -> in_order R g (x :: xs) g'.

Section Steps.
Context (bc : pos S -> pos S -> pos S * outcome unit) (tg : target S) (c dt : S) (n : nat) (ps : list (pos S)) (g : gen).
Notation N := (length ps).
(** Searcher [i] of those placed at [ps] is at [q] after [s] steps: in step [j] it uses the block number [j * N + i] of normal samples. *)
Definition crowd_at (i s : nat) (q : pos S) : Prop := exists p, nth_error ps i = Some p /\ travel bc p (map (fun j => stride c dt n g (j * N + i)) (seq 0 s)) = Some q.
(** Before the turn of searcher [i] in step [s] (from 0) nobody was on the target after a move. *)
Definition crowd_off (s i : nat) : Prop := forall s' i', i' < N -> s' * N + i' < s * N + i -> exists q, crowd_at i' (Datatypes.S s') q /\ check_find tg q = Ok false.
(** Searcher [i] is the first to find the target, in step [s]. *)
Definition crowd_found (s i : nat) : Prop := i < N /\ crowd_off s i /\ exists q, crowd_at i (Datatypes.S s) q /\ check_find tg q = Ok true.
(** The move of searcher [i] in step [s] is refused, nobody has found the target before. *)
Definition crowd_refused (s i : nat) : Prop := i < N /\ crowd_off s i /\ exists q q', crowd_at i s q /\ bc q (stride c dt n g (s * N + i)) = (q', Err TooLargeTimeStep).
End Steps.

Context (inner pf : nat) (p : ind_settings S) (c : S).
Notation bc := (sc_check_bc (circ_core (G := G) (i_system p))).
Notation tg := (i_the_target p).
Notation n := (i_dim p).
Notation N := (i_agents p).
(** A new position for a searcher. *)
Definition new_place (g : gen) : gen * outcome (pos S) := let (g1, r) := placed_searcher inner pf p c g in (g1, do a <- r; Ok (in_pos a)).
(** The time limit of the clock: the one given, unless it is below 1e-10. *)
Definition crowd_tmax : S := if (i_tmax p <? lit 1 (10 ^ 10))%S then fmax else i_tmax p.
(** Steps 0 to [s] all begin within the time limit. *)
Definition in_time (s : nat) : Prop := forall j, j <= s -> (ticks (i_dt p) j <=? crowd_tmax)%S = true.
(** One value of the file: the time of the step in which the target is found, or zero if the time ends before. *)
Definition crowd_value (g : gen) (t : S) (g' : gen) : Prop := exists ps g1, sampled new_place g ps g1 /\ length ps = N /\
  ((exists s i, crowd_found bc tg c (i_dt p) n ps g1 s i /\ in_time s /\ t = ticks (i_dt p) s /\ g' = after_blocks (gauss G) n (s * N + i + 1) g1) \/
   (exists s, crowd_off bc tg c (i_dt p) n ps g1 s 0 /\ (forall j, j < s -> in_time j) /\ (ticks (i_dt p) s <=? crowd_tmax)%S = false /\ t = s0 /\ g' = after_blocks (gauss G) n (s * N) g1)).
Definition crowd_refusal (g : gen) : Prop := exists ps g1 s i, sampled new_place g ps g1 /\ length ps = N /\ in_time s /\ crowd_refused bc tg c (i_dt p) n ps g1 s i.
End Crowd.
