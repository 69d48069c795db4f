(** C14-C18: the clocks. *)
From Coq Require Import Reals ZArith List Lra Lia.
From Flocq Require Import Core.
From Flocq.IEEE754 Require Import BinarySingleNaN.
From Verif Require Import Base Scalar Float64 Model_Time Spec_Time Spec_Position Proof_Time Proof_Time2 Proof_Time3 Proof_Time4.
Import ListNotations.
Local Open Scope nat_scope.

(** C14, any arithmetic: [n] calls of [next] return the repeated sums current, current+dt, (current+dt)+dt, ...,
    all of them <= tmax, and stop early only at the first sum that is not <= tmax. *)
Theorem C14_constant_clock : forall (S : scalar) n (s : conststep S), exists vs s',
  collect cs_next n s = Ok (vs, s') /\ length vs <= n /\
  (forall k v, nth_error vs k = Some v -> v = plus_times (cs_current s) (cs_dt s) k /\ leb v (cs_tmax s) = true) /\
  (length vs < n -> leb (plus_times (cs_current s) (cs_dt s) (length vs)) (cs_tmax s) = false) /\
  s' = ConstStep (cs_titype s) (plus_times (cs_current s) (cs_dt s) (length vs)) (cs_dt s) (cs_tmax s).
Proof. exact @cs_collect. Qed.
Print Assumptions C14_constant_clock.

(** C14: the diff form pairs every time with the step that leads to the next one. *)
Theorem C14_constant_clock_diff : forall (S : scalar) n (s : conststep S) vs s', collect cs_next n s = Ok (vs, s') ->
  collect (diff_next cs_next cs_dt) n s = Ok (map (fun t => (t, cs_dt s)) vs, s').
Proof. exact @cs_diff. Qed.
Print Assumptions C14_constant_clock_diff.

(** C14: after the end, [next] keeps returning None. *)
Theorem C14_constant_clock_stays_ended : forall (S : scalar) (s s' : conststep S),
  cs_next s = Ok (s', None) -> cs_next s' = Ok (s', None).
Proof. exact @cs_fused. Qed.
Print Assumptions C14_constant_clock_stays_ended.

(** C14 in binary64: with a non-negative step the times never decrease and never become NaN, despite rounding and overflow. *)
Theorem C14_f64_times_never_decrease : forall (lm : libm) n (s : conststep (F64 lm)) vs s',
  Bleb (B754_zero false) (cs_current s : b64) = true -> Bleb (B754_zero false) (cs_dt s : b64) = true ->
  collect cs_next n s = Ok (vs, s') ->
  chained (fun x y : b64 => Bleb x y = true) vs /\ Forall (fun x : b64 => Bleb (B754_zero false) x = true) vs /\
  (forall x r, vs = x :: r -> x = cs_current s).
Proof. exact cs_mono. Qed.
Print Assumptions C14_f64_times_never_decrease.

(** C15 on exact reals: the k-th item is (sum of the first k steps, min(dt_max, dt_min * inc^(k/length))). *)
Theorem C15_exponential_clock_closed_form : forall (a b inc : R) len (s : expstep RR) n vs s',
  (0 < a)%R -> (a <= b)%R -> (1 <= inc)%R -> 1 <= len ->
  es_fresh s -> es_titype s = Exponential (S := RR) a b len -> es_inc s = inc ->
  collect (diff_next es_next es_dt) n s = Ok (vs, s') ->
  forall k t d, nth_error vs k = Some (t, d) ->
    d = d_at a b inc len k /\ t = rsum (map (d_at a b inc len) (seq 0 k)) /\ (t <= es_tmax s)%R.
Proof. exact rr_exp_closed. Qed.
Print Assumptions C15_exponential_clock_closed_form.

(** C15, any arithmetic: t_{k+1} = t_k + dt_k for the reported dt_k, times <= tmax, the first is the current time,
    an early stop means that the next time is not <= tmax. *)
Theorem C15_exponential_clock_chain : forall (S : scalar) n (s : expstep S) vs s',
  collect (diff_next es_next es_dt) n s = Ok (vs, s') ->
  chained (fun x y => fst y = add (fst x) (snd x)) vs /\
  Forall (fun x => leb (fst x) (es_tmax s) = true) vs /\
  (forall x r, vs = x :: r -> fst x = es_current s) /\
  (length vs < n -> leb (es_current s') (es_tmax s) = false) /\
  (vs = [] -> es_current s' = es_current s) /\
  (forall x, vs <> [] -> es_current s' = add (fst (last vs x)) (snd (last vs x))).
Proof. exact @es_collect_chain. Qed.
Print Assumptions C15_exponential_clock_chain.

(** C15 in binary64, for every clock a program can build ([ready]: [new] or [convert_from], then [set_tmax] and [set_inc], with numbers,
    [set_inc] on lengths from 2 on): the steps lie in [dt_min, dt_max] and never decrease, the times start at 0, never decrease, never
    exceed tmax and each time is the previous one plus the reported step. *)
Theorem C15_f64_exponential_clock : forall (lm : libm) (a b : b64) len, nan a = false -> nan b = false ->
  forall (s : expstep (F64 lm)) n vs s', ready (fun i : F64 lm => nan (i : b64) = false) (a : F64 lm) (b : F64 lm) len s ->
  collect (diff_next es_next es_dt) n s = Ok (vs, s') ->
  Forall (fun td : b64 * b64 => Bleb a (snd td) = true /\ Bleb (snd td) b = true /\
     Bleb (B754_zero false) (fst td) = true /\ Bleb (fst td) (es_tmax s : b64) = true) vs /\
  chained (fun x y : b64 * b64 => fst y = Bplus mode_NE (fst x) (snd x) /\
     Bleb (fst x) (fst y) = true /\ Bleb (snd x) (snd y) = true) vs /\
  (forall x r, vs = x :: r -> x = (B754_zero false, a)).
Proof. exact ready_life. Qed.
Print Assumptions C15_f64_exponential_clock.

(** C15: the exponential iterator never panics and the plain iterator yields the times of the diff form. *)
Theorem C15_plain_and_diff_agree : forall (S : scalar) n (s : expstep S) a b len, es_titype s = Exponential a b len ->
  exists vs s', collect (diff_next es_next es_dt) n s = Ok (vs, s') /\ collect es_next n s = Ok (map fst vs, s') /\
    length vs <= n /\ es_titype s' = es_titype s /\ es_inc s' = es_inc s /\ es_tmax s' = es_tmax s.
Proof. exact @es_collect_total. Qed.
Print Assumptions C15_plain_and_diff_agree.

(** C15: after the end it stays ended. *)
Theorem C15_exponential_clock_stays_ended : forall (S : scalar) (s s' : expstep S),
  es_next s = Ok (s', None) -> exists s'', es_next s' = Ok (s'', None).
Proof. exact @es_fused. Qed.
Print Assumptions C15_exponential_clock_stays_ended.

(** Limit of C15 after [set_inc] on a clock of length 1: inc becomes 1/2 and the second step (1/2) is below dt_min = 1. *)
Theorem C15_set_inc_steps_below_minimum_counterexample : forall lm : libm,
  (do s <- es_new (S := F64 lm) (b64_of_Z 1) (b64_of_Z 10) 1;
   let '(s, r) := es_set_inc s (b64_of_Z 3 : F64 lm) in
   do q <- collect (diff_next es_next es_dt) 2 s;
   Ok (r, map (fun td : b64 * b64 => (B2SF (fst td), B2SF (snd td), Bltb (snd td) (b64_of_Z 1))) (fst q))) =
  Ok (Ok tt, [(B2SF (b64_of_Z 0), B2SF (b64_of_Z 1), false);
              (B2SF (b64_of_Z 1), B2SF (Bdiv mode_NE (b64_of_Z 1) (b64_of_Z 2)), true)]).
Proof. intros lm. vm_compute. reflexivity. Qed.
Print Assumptions C15_set_inc_steps_below_minimum_counterexample.

(** C16: [renew] after any number of steps gives back the starting state, hence the same sequence. *)
Theorem C16_constant_renew : forall (S : scalar) n (s : conststep S) vs s',
  cs_current s = s0 -> collect cs_next n s = Ok (vs, s') -> cs_renew s' = s.
Proof. exact @cs_renew_fresh. Qed.
Print Assumptions C16_constant_renew.

Theorem C16_exponential_renew : forall (S : scalar) n (s : expstep S) vs s',
  es_fresh s -> collect es_next n s = Ok (vs, s') -> es_renew s' = Ok s.
Proof. exact @es_renew_fresh. Qed.
Print Assumptions C16_exponential_renew.

(** C16: the states clocks are made in are fresh, also after [set_tmax] and [set_inc]. *)
Theorem C16_constructors_are_fresh : forall (S : scalar) (a b t i : S) len (s : expstep S),
  (es_new a b len = Ok s -> es_fresh s) /\ (es_convert a b len t = Ok s -> es_fresh s) /\
  (es_fresh s -> es_fresh (fst (es_set_tmax s t))) /\ (es_fresh s -> es_fresh (fst (es_set_inc s i))).
Proof. exact (fun S a b t i len s => conj (es_new_fresh a b len s) (conj (es_convert_fresh a b len t s)
  (conj (es_set_tmax_fresh s t) (es_set_inc_fresh s i)))). Qed.
Print Assumptions C16_constructors_are_fresh.

(** C17 on exact reals: the constant clock yields floor(tmax/dt)+1 values 0, dt, 2dt, ... and ends. *)
Theorem C17_constant_clock_count : forall s : conststep RR, cs_current s = 0%R -> (0 < cs_dt s)%R -> (0 <= cs_tmax s)%R ->
  exists vs, yields_all cs_next s vs /\ Z.of_nat (length vs) = (Zfloor (cs_tmax s / cs_dt s) + 1)%Z /\
    forall k v, nth_error vs k = Some v -> v = (INR k * cs_dt s)%R.
Proof. exact rr_const_count. Qed.
Print Assumptions C17_constant_clock_count.

Theorem C17_exponential_clock_ends : forall (a b inc : R) len (s : expstep RR),
  (0 < a)%R -> (a <= b)%R -> (1 <= inc)%R -> 1 <= len ->
  es_fresh s -> es_titype s = Exponential (S := RR) a b len -> es_inc s = inc -> (0 <= es_tmax s)%R ->
  exists vs, yields_all (diff_next es_next es_dt) s vs /\ (INR (length vs) <= es_tmax s / a + 1)%R.
Proof. exact rr_exp_ends. Qed.
Print Assumptions C17_exponential_clock_ends.

(** C17 in binary64: if tmax <= 2^52 dt the constant clock ends, after at most 4 tmax/dt + 1 values. *)
Theorem C17_f64_constant_clock_ends : forall (lm : libm) (s : conststep (F64 lm)),
  Bltb (B754_zero false) (cs_dt s : b64) = true -> fin (cs_dt s) = true -> fin (cs_tmax s) = true ->
  (0 <= B2 (cs_tmax s) <= 2 ^ 52 * B2 (cs_dt s))%R -> Bleb (B754_zero false) (cs_current s : b64) = true ->
  exists vs, yields_all cs_next s vs /\ (INR (length vs) <= 4 * (B2 (cs_tmax s) / B2 (cs_dt s)) + 1)%R.
Proof. exact const_ends. Qed.
Print Assumptions C17_f64_constant_clock_ends.

Theorem C17_f64_exponential_clock_ends : forall (lm : libm) (a b : b64) len, nan a = false -> nan b = false ->
  forall s : expstep (F64 lm), ready (fun i : F64 lm => nan (i : b64) = false) (a : F64 lm) (b : F64 lm) len s ->
  fin a = true -> fin (es_tmax s) = true -> (0 <= B2 (es_tmax s) <= 2 ^ 52 * B2 a)%R ->
  exists vs, yields_all (diff_next es_next es_dt) s vs /\ (INR (length vs) <= 4 * (B2 (es_tmax s) / B2 a) + 1)%R.
Proof. exact ready_ends. Qed.
Print Assumptions C17_f64_exponential_clock_ends.

(** C17, exactly: a constant clock started at 0 with a step that is not negative ends if and only if it never gets stuck, that is, never
    reaches a time within tmax to which adding dt changes nothing. *)
Theorem C17_f64_constant_clock_ends_iff : forall (lm : libm) (s : conststep (F64 lm)),
  cs_current s = B754_zero false -> Bleb (B754_zero false) (cs_dt s : b64) = true ->
  ((exists vs, yields_all cs_next s vs) <->
   ~ exists k, Bleb (plus_times (cs_current s) (cs_dt s) k) (cs_tmax s) = true /\
               plus_times (cs_current s) (cs_dt s) (S k) = plus_times (cs_current s) (cs_dt s) k).
Proof. exact const_ends_iff. Qed.
Print Assumptions C17_f64_constant_clock_ends_iff.

(** Limit of C17 in binary64 beyond that: with dt = 1 and tmax = 2^54 the clock reaches 2^53, where adding 1 rounds back,
    and yields values <= tmax forever. *)
Theorem C17_f64_clock_never_ends_counterexample : forall (lm : libm) (n : nat), exists vs s',
  collect cs_next n (ConstStep (S := F64 lm) (Constant (S := F64 lm) (b64_of_Z 1)) (b64_of_Z 0) (b64_of_Z 1) (b64_of_Z (2 ^ 54)))
    = Ok (vs, s') /\ length vs = n.
Proof. exact never_ends. Qed.
Print Assumptions C17_f64_clock_never_ends_counterexample.

(** C18 on exact reals: [ConstStep::new] accepts exactly dt >= 1e-15. *)
Theorem C18_constant_new_validates : forall dt : R,
  ((dt < 1 / 10 ^ 15)%R -> cs_new (S := RR) dt = Err InvalidArgumentInput) /\
  ((1 / 10 ^ 15 <= dt)%R -> cs_new (S := RR) dt = Ok (ConstStep (S := RR) (Constant (S := RR) dt) 0%R dt Rfmax)).
Proof. exact rr_cs_new. Qed.
Print Assumptions C18_constant_new_validates.

(** C18, any arithmetic: [set_tmax] rejects negative values and then changes nothing, otherwise only tmax changes. *)
Theorem C18_set_tmax_validates : forall (S : scalar) (s : conststep S) t,
  (ltb t s0 = true -> cs_set_tmax s t = (s, Err InvalidArgumentInput)) /\
  (ltb t s0 = false -> exists s', cs_set_tmax s t = (s', Ok tt) /\ cs_current s' = cs_current s /\ cs_dt s' = cs_dt s /\
     cs_titype s' = cs_titype s /\ cs_tmax s' = if ltb t (lit 1 (10 ^ 10)) then fmax else t).
Proof. exact @gen_cs_set_tmax. Qed.
Print Assumptions C18_set_tmax_validates.

Theorem C18_exponential_set_tmax_validates : forall (S : scalar) (s : expstep S) t,
  (ltb t s0 = true -> es_set_tmax s t = (s, Err InvalidArgumentInput)) /\
  (ltb t s0 = false -> exists s', es_set_tmax s t = (s', Ok tt) /\ es_titype s' = es_titype s /\ es_current s' = es_current s /\
     es_dt s' = es_dt s /\ es_inc s' = es_inc s /\ es_count s' = es_count s /\ es_tmax s' = if ltb t (lit 1 (10 ^ 15)) then fmax else t).
Proof. exact @set_tmax_err_same. Qed.
Print Assumptions C18_exponential_set_tmax_validates.

(** C18, any arithmetic (so also NaN): what [new] accepts and builds, exactly. *)
Theorem C18_new_exact : forall (S : scalar) (dt a b : S) len,
  (ltb dt (lit 1 (10 ^ 15)) = true -> cs_new dt = Err InvalidArgumentInput) /\
  (ltb dt (lit 1 (10 ^ 15)) = false -> cs_new dt = Ok (ConstStep (Constant dt) s0 dt fmax)) /\
  (ltb a (lit 1 (10 ^ 15)) = true \/ ltb b a = true \/ len = 0 -> es_new a b len = Err InvalidArgumentInput) /\
  (ltb a (lit 1 (10 ^ 15)) = false -> ltb b a = false -> 1 <= len ->
   es_new a b len = Ok (ExpStep (Exponential a b len) s0 a
     (if len =? 1 then lit 12 10 else if len <? 10 then div (of_Z (Z.of_nat len)) s2 else of_Z 10) fmax 0)).
Proof. exact @gen_new_exact. Qed.
Print Assumptions C18_new_exact.

(** C18, any arithmetic: [convert_from] panics on a negative tmax or step, on inverted steps and on a length below 10; everything else,
    in particular a step of 0, is accepted. *)
Theorem C18_convert_exact : forall (S : scalar) (dt a b t : S) len,
  (ltb t s0 = true \/ ltb dt s0 = true -> cs_convert dt t = Panic) /\
  (ltb t s0 = false -> ltb dt s0 = false ->
     cs_convert dt t = Ok (ConstStep (Constant dt) s0 dt (if ltb t (lit 1 (10 ^ 10)) then fmax else t))) /\
  (ltb t s0 = true \/ ltb a s0 = true \/ ltb b a = true \/ len < 10 -> es_convert a b len t = Panic) /\
  (ltb t s0 = false -> ltb a s0 = false -> ltb b a = false -> 10 <= len ->
     es_convert a b len t = Ok (ExpStep (Exponential a b len) s0 a (lit 12 10) (if ltb t (lit 1 (10 ^ 15)) then fmax else t) 0)).
Proof.
  intros S dt a b t len. destruct (gen_cs_convert dt t) as (A & B). destruct (gen_es_convert a b t len) as (C & D). auto.
Qed.
Print Assumptions C18_convert_exact.

(** C18 on exact reals: [ExponentialStep::new] accepts exactly 1e-15 <= dt_min <= dt_max and length >= 1; inc > 1 except for length 2. *)
Theorem C18_exponential_new_validates : forall (a b : R) (len : nat),
  ((a < 1 / 10 ^ 15)%R \/ (b < a)%R \/ len = 0 -> es_new (S := RR) a b len = Err InvalidArgumentInput) /\
  ((1 / 10 ^ 15 <= a)%R /\ (a <= b)%R /\ 1 <= len -> exists s, es_new (S := RR) a b len = Ok s /\
    es_fresh s /\ es_titype s = Exponential (S := RR) a b len /\ es_tmax s = Rfmax /\
    (1 <= es_inc s)%R /\ (len <> 2 -> (1 < es_inc s)%R)).
Proof. exact rr_es_new. Qed.
Print Assumptions C18_exponential_new_validates.

(** C18 on exact reals: [set_inc] rejects inc <= 1 and changes nothing; otherwise inc becomes min(inc, length/2), and only inc changes. *)
Theorem C18_set_inc_validates : forall (s : expstep RR) (a b : R) len (i : R), es_titype s = Exponential (S := RR) a b len ->
  ((i <= 1)%R -> es_set_inc s i = (s, Err InvalidArgumentInput)) /\
  ((1 < i)%R -> exists s', es_set_inc s i = (s', Ok tt) /\ es_inc s' = Rmin i (IZR (Z.of_nat len) / 2) /\
     (3 <= len -> (1 < es_inc s')%R) /\ es_titype s' = es_titype s /\ es_current s' = es_current s /\ es_dt s' = es_dt s /\
     es_tmax s' = es_tmax s /\ es_count s' = es_count s).
Proof. exact rr_es_set_inc. Qed.
Print Assumptions C18_set_inc_validates.

(** For every scalar type, so also in binary64: exactly when [set_inc] accepts (a NaN is not [<= 1], so it is accepted) and what it stores. *)
Theorem C18_set_inc_exact : forall (S : scalar) (s : expstep S) (a b : S) len (i : S), es_titype s = Exponential a b len ->
  (leb i s1 = true -> es_set_inc s i = (s, Err InvalidArgumentInput)) /\
  (leb i s1 = false -> es_set_inc s i =
     (ExpStep (Exponential a b len) (es_current s) (es_dt s)
        (if ltb (of_Z (Z.of_nat len)) (mul i s2) then div (of_Z (Z.of_nat len)) s2 else i) (es_tmax s) (es_count s), Ok tt)).
Proof.
  intros S s a b len i T. unfold es_set_inc. rewrite T. destruct (leb i s1); split; try discriminate; [reflexivity|].
  intros _. destruct (ltb _ _); reflexivity.
Qed.
Print Assumptions C18_set_inc_exact.
Example set_inc_nan : forall lm : libm, (leb (s := F64 lm) B754_nan s1) = false.
Proof. reflexivity. Qed.


(** C18 in binary64: what [new] accepts is positive and ordered, unless it is NaN. *)
Theorem C18_f64_new_positive : forall (lm : libm) (a b : b64) len (s : expstep (F64 lm)),
  nan a = false -> nan b = false -> es_new (S := F64 lm) a b len = Ok s ->
  Bltb (B754_zero false) a = true /\ Bleb a b = true /\ Bleb (b64_of_Z 1) (es_inc s : b64) = true /\ 1 <= len /\
  es_fresh s /\ es_titype s = Exponential (S := F64 lm) a b len.
Proof. exact f64_es_new. Qed.
Print Assumptions C18_f64_new_positive.

(** Limit of C18: NaN steps are accepted. *)
Theorem C18_nan_accepted_counterexample : forall lm : libm,
  (do s <- cs_new (S := F64 lm) B754_nan; Ok (B2SF (cs_dt s : b64))) = Ok (@B2SF 53 1024 B754_nan) /\
  (do s <- es_new (S := F64 lm) B754_nan B754_nan 1; Ok (B2SF (es_dt s : b64))) = Ok (@B2SF 53 1024 B754_nan).
Proof. intros lm. split; vm_compute; reflexivity. Qed.
Print Assumptions C18_nan_accepted_counterexample.

(** Limit of C18: a length-2 exponential clock gets inc = 1 and never increases its step. *)
Theorem C18_length_two_never_increases_counterexample : forall lm : libm,
  (do s <- es_new (S := F64 lm) (b64_of_Z 1) (b64_of_Z 10) 2; Ok (B2SF (es_inc s : b64))) = Ok (B2SF (b64_of_Z 1)).
Proof. intros lm. vm_compute. reflexivity. Qed.
Print Assumptions C18_length_two_never_increases_counterexample.

(** Limit of C18: [convert_from] accepts a zero step, and that clock stays at time 0 forever. *)
Theorem C18_zero_step_accepted_counterexample : exists s : conststep RR, cs_convert (S := RR) 0%R 1%R = Ok s /\
  forall n, exists vs s', collect cs_next n s = Ok (vs, s') /\ length vs = n /\ Forall (fun t => t = 0%R) vs.
Proof. exact zero_step. Qed.
Print Assumptions C18_zero_step_accepted_counterexample.

(** Limit of C18: a positive tmax below 1e-10 is silently replaced by infinity (f64::MAX). *)
Theorem C18_small_tmax_becomes_infinite_counterexample : forall s : conststep RR,
  snd (cs_set_tmax s (5 / 10 ^ 11)%R) = Ok tt /\ cs_tmax (fst (cs_set_tmax s (5 / 10 ^ 11)%R)) = Rfmax.
Proof. exact small_tmax. Qed.
Print Assumptions C18_small_tmax_becomes_infinite_counterexample.

(** * Concrete cases *)
(** The clock of the crate's own test: dt 1, tmax 5 yields 0..5. *)
Example const_demo : forall lm : libm,
  (do s <- cs_new (S := F64 lm) (b64_of_Z 1);
   let '(s, r) := cs_set_tmax s (b64_of_Z 5 : F64 lm) in
   do q <- collect cs_next 20 s; Ok (r, map (fun x : b64 => B2SF x) (fst q))) =
  Ok (Ok tt, map (fun z => B2SF (b64_of_Z z)) [0; 1; 2; 3; 4; 5]%Z).
Proof. intros lm. vm_compute. reflexivity. Qed.

(** dt_min 1, dt_max 3, length 1 (inc 1.2), tmax 4: the steps grow and the last time is below tmax. *)
Example exp_demo : forall lm : libm,
  (do s <- es_new (S := F64 lm) (b64_of_Z 1) (b64_of_Z 3) 4;
   let '(s, r) := es_set_tmax s (b64_of_Z 9 : F64 lm) in
   do q <- collect (diff_next es_next es_dt) 20 s;
   Ok (r, map (fun x : b64 * b64 => (B2SF (fst x), B2SF (snd x))) (fst q))) =
  Ok (Ok tt, map (fun z => (B2SF (b64_of_Z (fst z)), B2SF (b64_of_Z (snd z))))
    [(0, 1); (1, 1); (2, 1); (3, 1); (4, 2); (6, 2); (8, 2)]%Z).
Proof. intros lm. vm_compute. reflexivity. Qed.

Example fresh_demo : exists s : expstep RR, es_new (S := RR) 1%R 3%R 4 = Ok s /\ es_fresh s /\ (1 <= es_inc s)%R.
Proof. exact fresh_rr. Qed.

(** A ready clock on which everything was called. *)
Example ready_demo : forall lm : libm, exists s : expstep (F64 lm),
  es_new (b64_of_Z 1 : F64 lm) (b64_of_Z 3 : F64 lm) 4 = Ok s /\
  ready (fun i : F64 lm => nan (i : b64) = false) (b64_of_Z 1 : F64 lm) (b64_of_Z 3 : F64 lm) 4
    (fst (es_set_inc (fst (es_set_tmax s (b64_of_Z 9 : F64 lm))) (b64_of_Z 2 : F64 lm))).
Proof.
  intros lm. destruct (gen_new_exact (S := F64 lm) (b64_of_Z 1) (b64_of_Z 1) (b64_of_Z 3) 4) as (_ & _ & _ & H).
  assert (E := H ltac:(vm_compute; reflexivity) ltac:(vm_compute; reflexivity) ltac:(lia)).
  eexists. split; [exact E|]. apply rd_inc; [apply rd_tmax, rd_new; exact E|vm_compute; reflexivity|lia].
Qed.
