(** Model of the text forms: [Display]/[FromStr] of positions (src/position.rs 117-132, 356-379) and of the type tags
    (src/system_mod/mod.rs 46-190, src/target_mod/mod.rs 30-60, src/agent_mod/types.rs 112-364, src/time_mod/mod.rs 41-92).

    Simplifications: text is a sequence of ASCII characters (Coq [string]), so a byte offset is a character offset and
    [char::is_whitespace] is the ASCII part of White_Space.  The decimal text of [f64] is not modelled digit by digit: it is a
    record [numtext] of the functions of the standard library that are called.  [usize] and [u128] text is modelled fully. *)
From Coq Require Export String Ascii.
From Coq Require Import NArith DecimalString.
From Verif Require Import Base Scalar Model_Position Model_System Model_Agent Model_Time.
Local Open Scope string_scope.
Local Open Scope list_scope.

(** ** The functions of [str] that are used *)
(** [char::is_whitespace] on ASCII: U+0009..U+000D and U+0020. *)
(* std: char::is_whitespace *)
Definition is_ws (c : ascii) : bool := let n := nat_of_ascii c in ((9 <=? n) && (n <=? 13))%nat || (n =? 32)%nat.
(* std: char equality *)
Definition is_char (d c : ascii) : bool := Ascii.eqb c d.
(* the characters removed in src/position.rs 120-129 [from_str]; src/analysis.rs 993-1002 [from_str] *)
Definition is_paren (c : ascii) : bool := is_char "(" c || is_char ")" c.
(* std: str::is_empty *)
Definition is_empty (s : string) : bool := match s with EmptyString => true | _ => false end.

(** [s.split(p)]: always at least one piece. *)
(* std: str::split *)
Fixpoint split_on (p : ascii -> bool) (s : string) : list string :=
  match s with
  | EmptyString => [""]
  | String c r => if p c then "" :: split_on p r
                  else match split_on p r with [] => [String c ""] | h :: t => String c h :: t end
  end.
(** [s.split_whitespace().collect()]. *)
(* std: str::split_whitespace *)
Definition split_ws (s : string) : list string := filter (fun w => negb (is_empty w)) (split_on is_ws s).
(** [s.trim_start_matches(p)], [s.trim_end_matches(p)], [s.trim_matches(p)], [s.trim()]. *)
(* std: str::trim_start_matches *)
Fixpoint trim_start (p : ascii -> bool) (s : string) : string :=
  match s with EmptyString => "" | String c r => if p c then trim_start p r else s end.
(* std: str::trim_end_matches *)
Fixpoint trim_end (p : ascii -> bool) (s : string) : string :=
  match s with
  | EmptyString => ""
  | String c r => let r' := trim_end p r in if is_empty r' && p c then "" else String c r'
  end.
(* std: str::trim_matches *)
Definition trim_matches (p : ascii -> bool) (s : string) : string := trim_end p (trim_start p s).
(* std: str::trim *)
Definition trim (s : string) : string := trim_matches is_ws s.
(** [s.retain(|c| !p(c))]. *)
(* std: String::retain / trim in src/analysis.rs 993-1002 [from_str] *)
Fixpoint remove_chars (p : ascii -> bool) (s : string) : string :=
  match s with EmptyString => "" | String c r => if p c then remove_chars p r else String c (remove_chars p r) end.
(** [&s[n..]]: panics past the end. *)
(* std: &s[n..] *)
Fixpoint slice_from (n : nat) (s : string) : outcome string :=
  match n, s with
  | O, _ => Ok s
  | S k, String _ r => slice_from k r
  | S _, EmptyString => Panic
  end.

(** ** Numbers *)
(** [usize::from_str], [u128::from_str]: an optional plus sign, then at least one digit, at most [max]. *)
(* std: integer from_str *)
Definition strip_plus (s : string) : string :=
  match s with String c r => if is_char "+" c then r else s | EmptyString => s end.
(* std: integer from_str *)
Definition parse_uint (max : N) (s : string) : option N :=
  match NilZero.uint_of_string (strip_plus s) with
  | Some u => let n := N.of_uint u in if (n <=? max)%N then Some n else None
  | None => None
  end.
(* std: integer Display *)
Definition show_uint (n : N) : string := NilZero.string_of_uint (N.to_uint n).
(* std: usize::MAX *)
Definition usize_maxN : N := (2 ^ 64 - 1)%N.
(* std: u128::MAX *)
Definition u128_maxN : N := (2 ^ 128 - 1)%N.
(** [usize] values are [nat] in the model. *)
(* std: usize::from_str *)
Definition parse_usize (s : string) : option nat := option_map N.to_nat (parse_uint usize_maxN s).
(* std: usize Display *)
Definition show_usize (n : nat) : string := show_uint (N.of_nat n).

(** The text functions of a coordinate or parameter type ([f64]): [{}], [{:.5e}], [str::parse] and [Default::default()]. *)
(* std: f64 Display, LowerExp, from_str, Default: parameters *)
Record numtext (T : Type) := NumText { n_show : T -> string; n_sci : T -> string; n_parse : string -> option T; n_default : T }.
Arguments n_show {T}. Arguments n_sci {T}. Arguments n_parse {T}. Arguments n_default {T}.

(** [.map_err(|_| InvalidArgumentInput)], [.expect(..)]. *)
(* std: Result::map_err *)
Definition or_err {A} (o : option A) : outcome A := match o with Some a => Ok a | None => Err InvalidArgumentInput end.
(* std: Result::expect *)
Definition expect {A} (o : option A) : outcome A := match o with Some a => Ok a | None => Panic end.

(** ** Positions *)
Section Pos.
Context {T : Type} (nt : numtext T).
(** [Display], [LowerExp]: [show] is the printing of one coordinate. *)
(* src/position.rs 356-364 [fmt]; src/position.rs 368-377 [fmt] *)
Definition pos_text (show : T -> string) (p : list T) : outcome string :=
  match p with
  | [] => Panic
  | x :: r => Ok (fold_left (fun acc y => acc ++ "," ++ show y)%string r (show x))
  end.
(* src/position.rs 356-364 [fmt] *)
Definition pos_show (p : list T) : outcome string := pos_text (n_show nt) p.
(** [from_str]. *)
(* src/position.rs 120-129 [from_str] *)
Definition pos_parse (s : string) : outcome (list T) :=
  let coords := split_on (fun c => is_char "," c || is_char ":" c) (trim_matches is_paren (trim s)) in
  Ok (map (fun w => match n_parse nt w with Some v => v | None => n_default nt end) coords).
(** [Pair::from_str]. *)
(* src/analysis.rs 993-1002 [from_str] *)
Definition pair_parse (s : string) : outcome (T * T) :=
  match map (n_parse nt) (split_on (is_char ",") (remove_chars is_paren s)) with
  | [Some a; Some b] => Ok (a, b)
  | l => if existsb (fun o => match o with None => true | _ => false end) l then Panic else Err InvalidNumberOfArguments
  end.
End Pos.

(** ** Tables: [impl_fmt_for_type!], [impl_fromstr_for_type!] *)
(* src/macros.rs 34-47 *)
Fixpoint table_parse {A} (t : list (A * string)) (s : string) : outcome A :=
  match t with [] => Err InvalidArgumentInput | (a, d) :: r => if String.eqb s d then Ok a else table_parse r s end.
(* src/agent_mod/types.rs 113-125 *)
Definition agenttype_show (a : agenttype) : string :=
  match a with
  | ContinuousPassiveIndependent => "Passive Independent Agent in Continous system."
  | ContinuousPassiveInteracting => "Passive Interacting Agent in Continous system."
  | ContinuousActiveIndependent => "Active Independent Agent in Continous system."
  | ContinuousActiveInteracting => "Active Interacting Agent in Continous system."
  | LatticePassiveIndependent => "Passive Independent Agent in Lattice system."
  | LatticePassiveInteracting => "Passive Interacting Agent in Lattice system."
  | LatticeActiveIndependent => "Active Independent Agent in Lattice system."
  | LatticeActiveInteracting => "Active Interacting Agent in Lattice system."
  | NetworkPassiveIndependent => "Passive Independent Agent in Network."
  | NetworkPassiveInteracting => "Passive Interacting Agent in Network."
  | NetworkActiveIndependent => "Active Independent Agent in Network."
  | NetworkActiveInteracting => "Active Interacting Agent in Network."
  end.
(* src/agent_mod/types.rs 127-139 *)
Definition agenttype_parse : string -> outcome agenttype := table_parse
  [(ContinuousPassiveIndependent, "Passive Independent Agent in Continous system.");
   (ContinuousPassiveInteracting, "Passive Interacting Agent in Continous system.");
   (ContinuousActiveIndependent, "Active Independent Agent in Continous system.");
   (ContinuousActiveInteracting, "Active Interacting Agent in Continous system.");
   (LatticePassiveIndependent, "Passive Independent Agent in Lattice system.");
   (LatticePassiveInteracting, "Passive Interacting Agent in Lattice system.");
   (LatticeActiveIndependent, "Active Independent Agent in Lattice system.");
   (LatticeActiveInteracting, "Active Interacting Agent in Lattice system.");
   (NetworkPassiveIndependent, "Passive Independent Agent in Network.");
   (NetworkPassiveInteracting, "Passive Interacting Agent in Network.");
   (NetworkActiveIndependent, "Active Independent Agent in Network.");
   (NetworkActiveInteracting, "Active Interacting Agent in Network.")].
(* src/target_mod/mod.rs 41-46 *)
Definition targettype_show (t : targettype) : string :=
  match t with
  | ContinuousInBulk => "Target in Bulk of Continous System."
  | ContinuousAtBoundary => "Target at Boundary of Continous System."
  | LatticeInBulk => "Target in Bulk of Lattice System."
  | LatticeAtBoundary => "Target at Boundary of Lattice System."
  | NetworkSingleNode => "Target is a Single Node in Network."
  end.
(* src/target_mod/mod.rs 48-53 *)
Definition targettype_parse : string -> outcome targettype := table_parse
  [(ContinuousInBulk, "Target in Bulk of Continous System.");
   (ContinuousAtBoundary, "Target at Boundary of Continous System.");
   (LatticeInBulk, "Target in Bulk of Lattice System.");
   (LatticeAtBoundary, "Target at Boundary of Lattice System.");
   (NetworkSingleNode, "Target is a Single Node in Network.")].

(** ** System type and boundary condition *)
(* src/system_mod/mod.rs 56-64 [fmt] *)
Definition systype_show (t : systype) : string :=
  match t with
  | ContinuousCircular => "Continuous Circular system."
  | ContinuousRectangular => "Continuous Rectangular system."
  | ContinuousCylindrical d =>
      "Continuous Cylindrical system. 0.." ++ show_usize d ++ " : Circular, " ++ show_usize d ++ ".. : Rectangular"
  | Lattice => "Lattice system."
  | Network => "Network system."
  end%string.
(** [s.parse::<usize>()] followed by the test [d <= 0]. *)
(* parse and test of the dimension in src/system_mod/mod.rs 71-99 [from_str] *)
Definition positive_usize (s : string) : outcome nat :=
  do d <- or_err (parse_usize s); if (d =? 0)%nat then Err InvalidArgumentInput else Ok d.
(* src/system_mod/mod.rs 71-99 [from_str] *)
Definition systype_parse (s : string) : outcome systype :=
  let split := split_ws s in
  do w <- idx split 0;
  if String.eqb w "Continuous" then
    do w1 <- idx split 1;
    if String.eqb w1 "Circular" then Ok ContinuousCircular
    else if String.eqb w1 "Rectangular" then Ok ContinuousRectangular
    else if String.eqb w1 "Cylindrical" then
      do w3 <- idx split 3; do t <- slice_from 3 w3; do d <- or_err (parse_usize t); Ok (ContinuousCylindrical d)
    else Err InvalidArgumentInput
  else if String.eqb w "Lattice" then Ok Lattice
  else if String.eqb w "Network" then Ok Network
  else if String.eqb w "Circular" then Ok ContinuousCircular
  else if String.eqb w "Rectangular" then Ok ContinuousRectangular
  else do d <- positive_usize w; Ok (ContinuousCylindrical d).
(* src/system_mod/mod.rs 123-129 [fmt] *)
Definition bcond_show (b : bcond) : string :=
  match b with
  | Periodic => "Periodic Boundary Condition"
  | Reflection => "Reflective Boundary Condtion"
  | Mixed d => "Mixed Boundary Condition. 0.." ++ show_usize d ++ " : Reflection, " ++ show_usize d ++ ".. : Periodic"
  end%string.
(* src/system_mod/mod.rs 137-156 [from_str] *)
Definition bcond_parse (s : string) : outcome bcond :=
  let split := split_ws s in
  do w <- idx split 0;
  if String.eqb w "Reflective" then Ok Reflection
  else if String.eqb w "Periodic" then Ok Periodic
  else if String.eqb w "Mixed" then
    do w3 <- idx split 3; do t <- slice_from 3 w3; do d <- or_err (parse_usize t); Ok (Mixed d)
  else do d <- positive_usize w; Ok (Mixed d).

(** ** Agent parameters *)
Section Tags.
Context {S : scalar} (nt : numtext S).
(* src/agent_mod/types.rs 158-165 [fmt] *)
Definition movetype_show (m : movetype S) : string :=
  match m with
  | Brownian c => "Brownian with diffusion coefficient " ++ n_show nt c
  | Levy => "Levy walk"
  end%string.
(* src/agent_mod/types.rs 172-188 [from_str] *)
Definition movetype_parse (s : string) : outcome (movetype S) :=
  let split := split_ws s in
  do w <- idx split 0;
  if String.eqb w "Brownian" then do w4 <- idx split 4; do c <- expect (n_parse nt w4); Ok (Brownian c)
  else if String.eqb w "Levy" then Ok Levy
  else if (length split =? 1)%nat then do w0 <- idx split 0; do c <- or_err (n_parse nt w0); Ok (Brownian c)
  else Err InvalidArgumentInput.
(** types.rs 210-219.  [Position]'s [Display] panics on a position without coordinates. *)
(* src/agent_mod/types.rs 211-218 [fmt] *)
Definition inittype_show (i : inittype S) : outcome string :=
  match i with
  | SpecificPosition p => do t <- pos_show nt p; Ok ("Initialize all agents at " ++ t)%string
  | Uniform => Ok "Initialize agents uniformly"
  end.
(* src/agent_mod/types.rs 224-241 [from_str] *)
Definition inittype_parse (s : string) : outcome (inittype S) :=
  let split := split_ws s in
  if (length split =? 1)%nat then
    do w <- idx split 0;
    if String.eqb w "Uniform" then Ok Uniform else do p <- pos_parse nt w; Ok (SpecificPosition p)
  else
    do w1 <- idx split 1;
    if String.eqb w1 "all" then
      do w4 <- idx split 4;
      match pos_parse nt w4 with Ok p => Ok (SpecificPosition p) | _ => Panic end
    else if String.eqb w1 "agents" then Ok Uniform
    else Err InvalidArgumentInput.
(* src/agent_mod/types.rs 278-289 [fmt] *)
Definition interacttype_show (i : interacttype S) : string :=
  match i with
  | Model_Agent.Exponential d g =>
      "Exponential form interaction in " ++ show_usize d ++ " D with typical length " ++ n_show nt g
  | Coulomb2D => "Coulomb potential in 2 D"
  | Coulomb3D => "Coulomb potential in 3 D"
  | LennardJones a => "Lennard Jones potential with particle size " ++ n_show nt a
  end%string.
(* src/agent_mod/types.rs 296-363 [from_str] *)
Definition interacttype_parse (s : string) : outcome (interacttype S) :=
  let split := split_ws s in
  if (length split =? 1)%nat then
    do w <- idx split 0;
    let split := split_on is_paren w in
    do name <- idx split 0;
    if String.eqb name "Exponential" then
      do a <- idx split 1;
      let args := split_on (is_char ",") a in
      if negb (length args =? 2)%nat then Err InvalidArgumentInput
      else do a0 <- idx args 0; do d <- or_err (parse_usize a0);
           do a1 <- idx args 1; do g <- or_err (n_parse nt a1); Ok (Model_Agent.Exponential d g)
    else if String.eqb name "Coulomb2D" then Ok Coulomb2D
    else if String.eqb name "Coulomb3D" then Ok Coulomb3D
    else if String.eqb name "LennardJones" then
      do a <- idx split 1; do x <- or_err (n_parse nt a); Ok (LennardJones x)
    else Err InvalidArgumentInput
  else
    do w <- idx split 0;
    if String.eqb w "Exponential" then
      if negb (length split =? 10)%nat then Err InvalidArgumentInput
      else do w4 <- idx split 4; do d <- or_err (parse_usize w4);
           do w9 <- idx split 9; do g <- or_err (n_parse nt w9); Ok (Model_Agent.Exponential d g)
    else if String.eqb w "Coulomb" then
      if negb (length split =? 5)%nat then Err InvalidArgumentInput
      else do w3 <- idx split 3;
           if String.eqb w3 "2" then Ok Coulomb2D
           else if String.eqb w3 "3" then Ok Coulomb3D
           else Err InvalidArgumentInput
    else if String.eqb w "Lennard" then
      if negb (length split =? 7)%nat then Err InvalidArgumentInput
      else do w6 <- idx split 6; do x <- or_err (n_parse nt w6); Ok (LennardJones x)
    else Err InvalidArgumentInput.
(** [f64::from(InteractType)]. *)
(* src/agent_mod/types.rs 373-379 [from] *)
Definition interacttype_f64 (i : interacttype S) : S :=
  match i with Model_Agent.Exponential _ g => g | LennardJones a => a | _ => s0 end.
(* src/time_mod/mod.rs 51-56 [fmt] *)
Definition timetype_show (t : timetype S) : string :=
  match t with
  | Constant dt => "Constant Time step with size " ++ n_sci nt dt
  | Model_Time.Exponential a b n =>
      "Exponential time step increase from " ++ n_sci nt a ++ " to " ++ n_sci nt b
      ++ " Each increase occurs in every " ++ show_usize n ++ " step"
  end%string.
(* src/time_mod/mod.rs 63-90 [from_str] *)
Definition timetype_parse (s : string) : outcome (timetype S) :=
  let split := split_ws s in
  do w <- idx split 0;
  if String.eqb w "Constant" then do w5 <- idx split 5; do c <- expect (n_parse nt w5); Ok (Constant c)
  else if String.eqb w "Exponential" then
    do w5 <- idx split 5; do a <- or_err (n_parse nt w5);
    do w7 <- idx split 7; do b <- or_err (n_parse nt w7);
    do w13 <- idx split 13; do n <- or_err (parse_usize w13); Ok (Model_Time.Exponential a b n)
  else if (length split =? 1)%nat then do w0 <- idx split 0; do c <- or_err (n_parse nt w0); Ok (Constant c)
  else if (length split =? 3)%nat then
    do w0 <- idx split 0; do a <- or_err (n_parse nt w0);
    do w1 <- idx split 1; do b <- or_err (n_parse nt w1);
    do w2 <- idx split 2; do n <- or_err (parse_usize w2); Ok (Model_Time.Exponential a b n)
  else Err InvalidArgumentInput.
End Tags.
