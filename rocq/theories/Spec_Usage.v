(** What the message about the expected arguments has to say. *)
From Coq Require Import String Ascii NArith.
From Verif Require Import Base Scalar Model_Position Model_System Model_Agent Model_Time Model_Text Spec_Text Model_Args Spec_Args Model_Usage.
Local Open Scope string_scope.
Local Open Scope list_scope.
Local Notation length := List.length.
Local Notation concat := List.concat.

(** The texts between an opening and the next closing parenthesis, in order. *)
Fixpoint in_parentheses_from (inside : option string) (s : string) : list string :=
  match s with
  | EmptyString => []
  | String c r =>
      match inside with
      | None => if Ascii.eqb c "(" then in_parentheses_from (Some "") r else in_parentheses_from None r
      | Some n => if Ascii.eqb c ")" then n :: in_parentheses_from None r else in_parentheses_from (Some (n ++ String c "")%string) r
      end
  end.
Definition in_parentheses (s : string) : list string := in_parentheses_from None s.

(** The names of the arguments of some structures, in the order of the command line. *)
Definition argument_names (specs : list argspec) : list string := map f_name (concat (map a_vars specs)).
(** A line explaining one argument: its name, blanks up to the width, a colon, the explanation. *)
Definition explains (width : nat) (f : field) (line : string) : Prop :=
  exists blanks, line = (f_name f ++ blanks ++ ": " ++ f_desc f)%string /\ without ":" (f_name f) /\
    all_chars (fun c => c = " "%char) blanks /\ String.length (f_name f ++ blanks) = Nat.max width (String.length (f_name f)).
(** The explanations of some structures: a line for every argument, an empty line after every structure. *)
Inductive explanations (width : nat) : list argspec -> list string -> Prop :=
| NoExplanation : explanations width [] []
| OneExplanation sp r ls rest : Forall2 (explains width) (a_vars sp) ls -> explanations width r rest -> explanations width (sp :: r) (ls ++ "" :: rest).
(** Every word is the value of the argument of that name, for structures one after the other; white space around a word is ignored. *)
Fixpoint assigned (specs : list argspec) (names words : list string) : all_args specs -> Prop :=
  match specs with
  | [] => fun _ => names = [] /\ words = []
  | sp :: r => fun v => exists u n1 n2 w1 w2, names = n1 ++ n2 /\ words = w1 ++ w2 /\ n1 = map f_name (a_vars sp) /\
                 fst v = args_new sp u /\ word_values (a_vars sp) w1 u /\ assigned r n2 w2 (snd v)
  end.
(** A text without line breaks. *)
Definition no_break (s : string) : Prop := without line_feed s /\ without carriage_return s.
