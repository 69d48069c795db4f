(** Specification vocabulary for text: characters, words, decimal numbers, and what is assumed of the text of [f64]. *)
From Coq Require Import String Ascii NArith.
From Verif Require Import Base Scalar Model_Position Model_System Model_Agent Model_Time Model_Text.
Local Open Scope string_scope.
Local Open Scope list_scope.

(** Every character of the text satisfies [P]. *)
Fixpoint all_chars (P : ascii -> Prop) (s : string) : Prop :=
  match s with EmptyString => True | String c r => P c /\ all_chars P r end.
(** Space, tab, line feed, vertical tab, form feed, carriage return. *)
Definition whitespace (c : ascii) : Prop := In (nat_of_ascii c) [9; 10; 11; 12; 13; 32].
Definition blank (s : string) : Prop := all_chars whitespace s.
Definition solid (s : string) : Prop := all_chars (fun c => ~ whitespace c) s.
Definition without (d : ascii) (s : string) : Prop := all_chars (fun c => c <> d) s.

(** [Words s ws]: the text [s] consists of the words [ws], separated and surrounded by white space. *)
Inductive Words : string -> list string -> Prop :=
| Words_none s : blank s -> Words s []
| Words_last a w b : blank a -> w <> "" -> solid w -> blank b -> Words (a ++ w ++ b)%string [w]
| Words_more a w c r w' ws : blank a -> w <> "" -> solid w -> whitespace c -> Words r (w' :: ws) ->
    Words (a ++ w ++ String c r)%string (w :: w' :: ws).

(** Texts put together with a separator. *)
Definition join (sep : string) (ps : list string) : string :=
  match ps with [] => "" | p :: r => (p ++ fold_right (fun q acc => sep ++ q ++ acc) "" r)%string end.

(** Decimal numbers: the value of a digit sequence, the texts accepted for a number of at most [max]. *)
Definition digit_value (c : ascii) : option N :=
  let n := N.of_nat (nat_of_ascii c) in if ((48 <=? n) && (n <=? 57))%N then Some (n - 48)%N else None.
Fixpoint digits_value (acc : N) (s : string) : option N :=
  match s with
  | EmptyString => Some acc
  | String c r => match digit_value c with Some d => digits_value (10 * acc + d) r | None => None end
  end.
Definition uint_text (max : N) (s : string) (n : N) : Prop :=
  exists ds, (s = ds \/ s = String "+" ds) /\ ds <> "" /\ digits_value 0 ds = Some n /\ (n <= max)%N.
Definition usize_text (s : string) (n : nat) : Prop := uint_text (2 ^ 64 - 1) s (N.of_nat n).
(** A value that a [usize] can hold. *)
Definition usize_fits (n : nat) : Prop := (N.of_nat n < 2 ^ 64)%N.

(** The first and the last character, if any, satisfy [P]. *)
Definition both_ends (P : ascii -> Prop) (s : string) : Prop :=
  (forall c r, s = String c r -> P c) /\ (forall r c, s = (r ++ String c "")%string -> P c).
(** [Pieces sep s ws]: [ws] are the parts of [s] between its separators. *)
Inductive Pieces (sep : ascii -> Prop) : string -> list string -> Prop :=
| Pieces_last w : all_chars (fun c => ~ sep c) w -> Pieces sep w [w]
| Pieces_more w d r ws : all_chars (fun c => ~ sep c) w -> sep d -> Pieces sep r ws -> Pieces sep (w ++ String d r)%string (w :: ws).
(** A text without some characters. *)
Inductive Dropped (P : ascii -> Prop) : string -> string -> Prop :=
| Drop_nil : Dropped P "" ""
| Drop_skip c s t : P c -> Dropped P s t -> Dropped P (String c s) t
| Drop_keep c s t : ~ P c -> Dropped P s t -> Dropped P (String c s) (String c t).

(** What is assumed of the text of a number type: printing then parsing is the identity and the text is a non-empty
    sequence of digits, letters, signs and points ([-1.5], [1e300], [NaN], [inf]). *)
Definition number_char (c : ascii) : Prop :=
  let n := nat_of_ascii c in
  (48 <= n <= 57 \/ 65 <= n <= 90 \/ 97 <= n <= 122 \/ n = 43 \/ n = 45 \/ n = 46)%nat.
Definition number_word (s : string) : Prop := s <> "" /\ all_chars number_char s.
Definition round_trips {T} (nt : numtext T) (x : T) : Prop := n_parse nt (n_show nt x) = Some x.
Definition faithful {T} (nt : numtext T) : Prop :=
  forall x, round_trips nt x /\ number_word (n_show nt x) /\ number_word (n_sci nt x).

(** A parser accepts exactly the texts that are [good] for some value, crashes exactly on those in [crash], and returns an
    error on all others. *)
Definition classifies {A} (o : outcome A) (good : A -> Prop) (crash : Prop) : Prop :=
  (forall a, o = Ok a <-> good a) /\ (o = Panic <-> crash) /\ (o = Err InvalidArgumentInput <-> (forall a, ~ good a) /\ ~ crash).
(** Tags whose number fits a [usize]. *)
Definition sys_fits (t : systype) : Prop := match t with ContinuousCylindrical d => usize_fits d | _ => True end.
Definition bc_fits (t : bcond) : Prop := match t with Mixed d => usize_fits d | _ => True end.

(** ** Which texts name a system type, a boundary condition, ... (in terms of their words) *)
Inductive system_words : list string -> systype -> Prop :=
| SW_circ r : system_words ("Continuous" :: "Circular" :: r) ContinuousCircular
| SW_rect r : system_words ("Continuous" :: "Rectangular" :: r) ContinuousRectangular
| SW_cyl w c1 c2 c3 t d r : usize_text t d ->
    system_words ("Continuous" :: "Cylindrical" :: w :: String c1 (String c2 (String c3 t)) :: r) (ContinuousCylindrical d)
| SW_lattice r : system_words ("Lattice" :: r) Lattice
| SW_network r : system_words ("Network" :: r) Network
| SW_circ' r : system_words ("Circular" :: r) ContinuousCircular
| SW_rect' r : system_words ("Rectangular" :: r) ContinuousRectangular
| SW_num w d r : usize_text w d -> (0 < d)%nat -> system_words (w :: r) (ContinuousCylindrical d).
(** The texts on which parsing a system type crashes instead of returning an error. *)
Inductive system_crash : list string -> Prop :=
| SC_empty : system_crash []
| SC_cont : system_crash ["Continuous"]
| SC_cyl2 : system_crash ["Continuous"; "Cylindrical"]
| SC_cyl3 w : system_crash ["Continuous"; "Cylindrical"; w]
| SC_short w x r : (String.length x < 3)%nat -> system_crash ("Continuous" :: "Cylindrical" :: w :: x :: r).

Inductive boundary_words : list string -> bcond -> Prop :=
| BW_refl r : boundary_words ("Reflective" :: r) Reflection
| BW_per r : boundary_words ("Periodic" :: r) Periodic
| BW_mixed w1 w2 c1 c2 c3 t d r : usize_text t d ->
    boundary_words ("Mixed" :: w1 :: w2 :: String c1 (String c2 (String c3 t)) :: r) (Mixed d)
| BW_num w d r : usize_text w d -> (0 < d)%nat -> boundary_words (w :: r) (Mixed d).
Inductive boundary_crash : list string -> Prop :=
| BC_empty : boundary_crash []
| BC_mixed1 : boundary_crash ["Mixed"]
| BC_mixed2 w : boundary_crash ["Mixed"; w]
| BC_mixed3 w w' : boundary_crash ["Mixed"; w; w']
| BC_short w w' x r : (String.length x < 3)%nat -> boundary_crash ("Mixed" :: w :: w' :: x :: r).

Definition paren (c : ascii) : Prop := c = "("%char \/ c = ")"%char.
(** Coordinates: separated by commas or colons; one that is not a number counts as the default. *)
Definition coordinate_sep (c : ascii) : Prop := c = ","%char \/ c = ":"%char.
Definition coordinate_value {T} (nt : numtext T) (w : string) (x : T) : Prop :=
  n_parse nt w = Some x \/ (n_parse nt w = None /\ x = n_default nt).
Section Tags.
Context {S : scalar} (nt : numtext S).
(** [number w x]: the word [w] is a text of the number [x]. *)
Definition number (w : string) (x : S) : Prop := n_parse nt w = Some x.
Definition not_number (w : string) : Prop := n_parse nt w = None.

Inductive move_words : list string -> movetype S -> Prop :=
| MW_brown w1 w2 w3 w4 c r : number w4 c -> move_words ("Brownian" :: w1 :: w2 :: w3 :: w4 :: r) (Brownian c)
| MW_levy r : move_words ("Levy" :: r) Levy
| MW_num w c : w <> "Brownian" -> w <> "Levy" -> number w c -> move_words [w] (Brownian c).
Inductive move_crash : list string -> Prop :=
| MC_empty : move_crash []
| MC_short r : (List.length r < 4)%nat -> move_crash ("Brownian" :: r)
| MC_bad w1 w2 w3 w4 r : not_number w4 -> move_crash ("Brownian" :: w1 :: w2 :: w3 :: w4 :: r).

Inductive init_words : list string -> inittype S -> Prop :=
| IW_uniform : init_words ["Uniform"] Uniform
| IW_pos w p : w <> "Uniform" -> pos_parse nt w = Ok p -> init_words [w] (SpecificPosition p)
| IW_all w w2 w3 w4 p r : pos_parse nt w4 = Ok p -> init_words (w :: "all" :: w2 :: w3 :: w4 :: r) (SpecificPosition p)
| IW_agents w r : init_words (w :: "agents" :: r) Uniform.
Inductive init_crash : list string -> Prop :=
| IC_empty : init_crash []
| IC_short w r : (List.length r < 3)%nat -> init_crash (w :: "all" :: r).

Inductive time_words : list string -> timetype S -> Prop :=
| TW_const w1 w2 w3 w4 w5 c r : number w5 c -> time_words ("Constant" :: w1 :: w2 :: w3 :: w4 :: w5 :: r) (Constant c)
| TW_exp w1 w2 w3 w4 w5 w6 w7 w8 w9 w10 w11 w12 w13 a b n r : number w5 a -> number w7 b -> usize_text w13 n ->
    time_words ("Exponential" :: w1 :: w2 :: w3 :: w4 :: w5 :: w6 :: w7 :: w8 :: w9 :: w10 :: w11 :: w12 :: w13 :: r)
      (Model_Time.Exponential a b n)
| TW_num w c : w <> "Constant" -> w <> "Exponential" -> number w c -> time_words [w] (Constant c)
| TW_three w0 w1 w2 a b n : w0 <> "Constant" -> w0 <> "Exponential" -> number w0 a -> number w1 b -> usize_text w2 n ->
    time_words [w0; w1; w2] (Model_Time.Exponential a b n).
(** A word missing: the first missing or unreadable one among the needed words decides. *)
Inductive time_crash : list string -> Prop :=
| TC_empty : time_crash []
| TC_const_short r : (List.length r < 5)%nat -> time_crash ("Constant" :: r)
| TC_const_bad w1 w2 w3 w4 w5 r : not_number w5 -> time_crash ("Constant" :: w1 :: w2 :: w3 :: w4 :: w5 :: r)
| TC_exp5 r : (List.length r < 5)%nat -> time_crash ("Exponential" :: r)
| TC_exp7 w1 w2 w3 w4 w5 a r : number w5 a -> (List.length r < 2)%nat ->
    time_crash ("Exponential" :: w1 :: w2 :: w3 :: w4 :: w5 :: r)
| TC_exp13 w1 w2 w3 w4 w5 w6 w7 a b r : number w5 a -> number w7 b -> (List.length r < 6)%nat ->
    time_crash ("Exponential" :: w1 :: w2 :: w3 :: w4 :: w5 :: w6 :: w7 :: r).

(** One-word form of an interaction: a name, a parenthesis, the parameters, a parenthesis. *)
Definition no_paren (s : string) : Prop := all_chars (fun c => ~ paren c) s.
Definition paren_rest (s : string) : Prop := s = "" \/ exists c r, s = String c r /\ paren c.
Inductive interact_words : list string -> interacttype S -> Prop :=
| XW_exp w1 w2 w3 w4 w5 w6 w7 w8 w9 d g : usize_text w4 d -> number w9 g ->
    interact_words ["Exponential"; w1; w2; w3; w4; w5; w6; w7; w8; w9] (Model_Agent.Exponential d g)
| XW_c2 w1 w2 w4 : interact_words ["Coulomb"; w1; w2; "2"; w4] Coulomb2D
| XW_c3 w1 w2 w4 : interact_words ["Coulomb"; w1; w2; "3"; w4] Coulomb3D
| XW_lj w1 w2 w3 w4 w5 w6 a : number w6 a -> interact_words ["Lennard"; w1; w2; w3; w4; w5; w6] (LennardJones a)
| XW_exp' c a b rest d g : paren c -> no_paren a -> no_paren b -> without "," a -> without "," b -> paren_rest rest ->
    usize_text a d -> number b g ->
    interact_words ["Exponential" ++ String c (a ++ "," ++ b ++ rest)]%string (Model_Agent.Exponential d g)
| XW_c2' rest : paren_rest rest -> interact_words ["Coulomb2D" ++ rest]%string Coulomb2D
| XW_c3' rest : paren_rest rest -> interact_words ["Coulomb3D" ++ rest]%string Coulomb3D
| XW_lj' c x rest a : paren c -> no_paren x -> paren_rest rest -> number x a ->
    interact_words ["LennardJones" ++ String c (x ++ rest)]%string (LennardJones a).
Inductive interact_crash : list string -> Prop :=
| XC_empty : interact_crash []
| XC_exp : interact_crash ["Exponential"]
| XC_lj : interact_crash ["LennardJones"].
End Tags.
