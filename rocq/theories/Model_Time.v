(** Model of src/time_mod/mod.rs: [TimeType], [ConstStep], [ExponentialStep], [TimeDiffIterator]. *)
From Verif Require Import Base Scalar.

Section Time.
Context {S : scalar}.
Local Open Scope s_scope.

(** [enum TimeType]. *)
(* src/time_mod/mod.rs 44-47 *)
Inductive timetype := Constant (dt : S) | Exponential (dt_min dt_max : S) (length : nat).

(** [struct ConstStep]. *)
(* src/time_mod/mod.rs 96-101 *)
Record conststep := ConstStep { cs_titype : timetype; cs_current : S; cs_dt : S; cs_tmax : S }.

(** [ConstStep::new]. *)
(* src/time_mod/mod.rs 105-115 [new] *)
Definition cs_new (dt : S) : outcome conststep :=
  if dt <? lit 1 (10 ^ 15) then Err InvalidArgumentInput
  else Ok (ConstStep (Constant dt) s0 dt fmax).

(** [current_time]; [dt]: the fields.  [renew]. *)
(* src/time_mod/mod.rs 127-129 [renew] *)
Definition cs_renew (s : conststep) : conststep := ConstStep (cs_titype s) s0 (cs_dt s) (cs_tmax s).

(** [set_tmax]; returns the new state with the result. *)
(* src/time_mod/mod.rs 131-143 [set_tmax] *)
Definition cs_set_tmax (s : conststep) (tmax : S) : conststep * outcome unit :=
  if tmax <? s0 then (s, Err InvalidArgumentInput)
  else if tmax <? lit 1 (10 ^ 10) then (ConstStep (cs_titype s) (cs_current s) (cs_dt s) fmax, Ok tt)
  else (ConstStep (cs_titype s) (cs_current s) (cs_dt s) tmax, Ok tt).

(** [next]. *)
(* src/time_mod/mod.rs 155-164 [next] *)
Definition cs_next (s : conststep) : outcome (conststep * option S) :=
  let time := cs_current s in
  if time <=? cs_tmax s then
    Ok (ConstStep (cs_titype s) (cs_current s + cs_dt s) (cs_dt s) (cs_tmax s), Some time)
  else Ok (s, None).

(** [convert_from]. *)
(* src/time_mod/mod.rs 173-192 [convert_from] *)
Definition cs_convert (dt tmax : S) : outcome conststep :=
  if (tmax <? s0) || (dt <? s0) then Panic
  else let t := if tmax <? lit 1 (10 ^ 10) then fmax else tmax in
  Ok (ConstStep (Constant dt) s0 dt t).

(** [struct ExponentialStep]. *)
(* src/time_mod/mod.rs 199-206 *)
Record expstep := ExpStep {
  es_titype : timetype; es_current : S; es_dt : S; es_inc : S; es_tmax : S; es_count : nat }.

(** [ExponentialStep::new]. *)
(* src/time_mod/mod.rs 210-234 [new] *)
Definition es_new (dt_min dt_max : S) (length : nat) : outcome expstep :=
  if (dt_min <? lit 1 (10 ^ 15)) || (dt_min >? dt_max) || (length =? 0)%nat then Err InvalidArgumentInput
  else
    let inc := if (length =? 1)%nat then lit 12 10
               else if (length <? 10)%nat then of_Z (Z.of_nat length) / s2
               else of_Z 10 in
    Ok (ExpStep (Exponential dt_min dt_max length) s0 dt_min inc fmax 0).

(** [set_inc]. *)
(* src/time_mod/mod.rs 237-256 [set_inc] *)
Definition es_set_inc (s : expstep) (inc : S) : expstep * outcome unit :=
  let upd_inc i := ExpStep (es_titype s) (es_current s) (es_dt s) i (es_tmax s) (es_count s) in
  if inc <=? s1 then (s, Err InvalidArgumentInput)
  else match es_titype s with
  | Exponential _ _ length =>
    if inc * s2 >? of_Z (Z.of_nat length) then (upd_inc (of_Z (Z.of_nat length) / s2), Ok tt)
    else (upd_inc inc, Ok tt)
  | _ => (s, Err InvalidType)
  end.

(** [renew]. *)
(* src/time_mod/mod.rs 269-281 [renew] *)
Definition es_renew (s : expstep) : outcome expstep :=
  match es_titype s with
  | Exponential dt_min _ _ => Ok (ExpStep (es_titype s) s0 dt_min (es_inc s) (es_tmax s) 0)
  | _ => Panic
  end.

(** [set_tmax]. *)
(* src/time_mod/mod.rs 283-295 [set_tmax] *)
Definition es_set_tmax (s : expstep) (tmax : S) : expstep * outcome unit :=
  let upd_tmax t := ExpStep (es_titype s) (es_current s) (es_dt s) (es_inc s) t (es_count s) in
  if tmax <? s0 then (s, Err InvalidArgumentInput)
  else if tmax <? lit 1 (10 ^ 15) then (upd_tmax fmax, Ok tt)
  else (upd_tmax tmax, Ok tt).

(** [next]. *)
(* src/time_mod/mod.rs 307-331 [next] *)
Definition es_next (s : expstep) : outcome (expstep * option S) :=
  match es_titype s with
  | Exponential _ dt_max length =>
    let '(dt, count) :=
      if (es_dt s <? dt_max) && (es_count s =? length)%nat then
        let d := es_dt s * es_inc s in
        ((if d >? dt_max then dt_max else d), 0)
      else (es_dt s, es_count s) in
    let time := es_current s in
    if time <=? es_tmax s then
      Ok (ExpStep (es_titype s) (es_current s + dt) dt (es_inc s) (es_tmax s) (count + 1), Some time)
    else Ok (ExpStep (es_titype s) (es_current s) dt (es_inc s) (es_tmax s) count, None)
  | _ => Panic
  end.

(** [convert_from]. *)
(* src/time_mod/mod.rs 342-365 [convert_from] *)
Definition es_convert (dt_min dt_max : S) (length : nat) (tmax : S) : outcome expstep :=
  if (tmax <? s0) || (dt_min <? s0) || (dt_min >? dt_max) || (length <? 10)%nat then Panic
  else let t := if tmax <? lit 1 (10 ^ 15) then fmax else tmax in
  Ok (ExpStep (Exponential dt_min dt_max length) s0 dt_min (lit 12 10) t 0).

(** [TimeDiffIterator::next]: the underlying item together with [dt()] read after the step. *)
(* src/time_mod/mod.rs 35-40 [next] *)
Definition diff_next {St : Type} (next : St -> outcome (St * option S)) (dt : St -> S) (s : St)
  : outcome (St * option (S * S)) :=
  do q <- next s;
  match q with
  | (s', Some time) => Ok (s', Some (time, dt s'))
  | (s', None) => Ok (s', None)
  end.
End Time.
Arguments timetype S : clear implicits.
Arguments conststep S : clear implicits.
Arguments expstep S : clear implicits.
