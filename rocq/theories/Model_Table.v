(** Model of the macros of src/macros.rs that write one line of a table: [export_form!], [export_data!] and their public forms, with the dispatch on the type of a variable.

    Simplification: the static types of Rust are a tag of the value; the widths of the integer types are not distinguished, for the text of an integer does not depend on them. *)
From Coq Require Import String.
From Verif Require Import Base Scalar Model_Text Model_Args.
Local Open Scope string_scope.

Section Table.
Context {S : scalar}.
(** A variable: an integer (usize, u8, ..., u128, i8, ..., i128), a float (f32, f64), or any other type of the list of [type_info!] (String, &str). *)
(* src/macros.rs 187-201 [type_info!] *)
Inductive tableval := TInt (z : Z) | TFloat (x : S) | TText (s : string).
(** The text of an integer: [{}]. *)
(* std: Display of integers *)
Definition show_int (z : Z) : string := match z with Zneg p => "-" ++ show_uint (Npos p) | _ => show_uint (Z.to_N z) end.
(** [export_data!]: [{:<w}] for integers and [{:<we}] for floats, each followed by a tab; [show_e]: [{:e}]. *)
(* src/macros.rs 205-230 *)
Fixpoint export_row (show_e : S -> string) (prec : nat) (vs : list tableval) : outcome string :=
  match vs with
  | [] => Ok ""
  | v :: r =>
    do c <- match v with
            | TInt z => Ok (pad prec (show_int z) ++ String (ascii_of_nat 9) "")
            | TFloat x => Ok (pad prec (show_e x) ++ String (ascii_of_nat 9) "")
            | TText _ => Err InvalidType
            end;
    do rest <- export_row show_e prec r;
    Ok (c ++ rest)
  end.
(** [pub_export_data!]: a float is written by [{:.pe}], with [p] digits after the point and no padding; [show_p p]: that text. *)
(* src/macros.rs 234-258 *)
Fixpoint pub_export_row (show_p : nat -> S -> string) (prec : nat) (vs : list tableval) : outcome string :=
  match vs with
  | [] => Ok ""
  | v :: r =>
    do c <- match v with
            | TInt z => Ok (pad prec (show_int z) ++ String (ascii_of_nat 9) "")
            | TFloat x => Ok (show_p prec x ++ String (ascii_of_nat 9) "")
            | TText _ => Err InvalidType
            end;
    do rest <- pub_export_row show_p prec r;
    Ok (c ++ rest)
  end.
End Table.
Arguments tableval S : clear implicits.
(** [pub_export_form!]: as [export_form!]. *)
(* src/macros.rs 171-181 *)
Definition pub_export_form (width : nat) (names : list string) : string := fold_right (fun n acc => pad width n ++ acc)%string "" names.
