(** Model of src/error.rs: errors, their categories, comparison and text.  The io error of the standard library is its text. *)
From Coq Require Import String.
From Verif Require Import Base.
Local Open Scope string_scope.

(** [enum ErrorCode], with payloads; [Code] collects the constructors without payload. *)
(* src/error.rs 85-121 *)
Inductive errorcode := EMessage (msg : string) | EIo (err : string) | ECode (c : errcode).
(** [ECode] of a constructor that has a payload in Rust is not a value. *)
(* no counterpart: excludes terms that are not values of the Rust enum *)
Definition proper (e : errorcode) : bool := match e with ECode Message | ECode Io => false | _ => true end.
(** [enum Category]. *)
(* src/error.rs 78-82 *)
Inductive category := CatIo | CatData | CatSyntax.
(* derived PartialEq of src/error.rs 78-82 *)
Definition category_eqb (a b : category) : bool :=
  match a, b with CatIo, CatIo | CatData, CatData | CatSyntax, CatSyntax => true | _, _ => false end.
(** [make_error_msg], [make_error_io], [make_error_syntax]. *)
(* src/error.rs 19-23 [make_error_msg] *)
Definition make_error_msg (m : string) : errorcode := EMessage m.
(* src/error.rs 25-29 [make_error_io] *)
Definition make_error_io (e : string) : errorcode := EIo e.
(* src/error.rs 31-35 [make_error_syntax] *)
Definition make_error_syntax (c : errorcode) : errorcode := c.
(** [classify]. *)
(* src/error.rs 37-52 [classify] *)
Definition classify_error (e : errorcode) : category :=
  match e with
  | EMessage _ => CatData
  | EIo _ => CatIo
  | ECode c => match c with
    | Message => CatData | Io => CatIo
    | InvalidDimension | InvalidType | InvalidConfiguration | InvalidNumberOfArguments | InvalidArgumentInput
    | InvalidFormat | InvalidFile | TooLargeTimeStep | FeatureNotProvided | UnexpectedEnd => CatSyntax
    end
  end.
(* src/error.rs 54-56 [is_io] *)
Definition is_io (e : errorcode) : bool := category_eqb (classify_error e) CatIo.
(* src/error.rs 58-60 [is_data] *)
Definition is_data (e : errorcode) : bool := category_eqb (classify_error e) CatData.
(* src/error.rs 62-64 [is_syntax] *)
Definition is_syntax (e : errorcode) : bool := category_eqb (classify_error e) CatSyntax.
(** [PartialEq]. *)
(* src/error.rs 70-72 [eq] *)
Definition error_eq (a b : errorcode) : bool := category_eqb (classify_error a) (classify_error b).
(** [Display]. *)
(* src/error.rs 124-139 [fmt] *)
Definition error_show (e : errorcode) : string :=
  match e with
  | EMessage m => m
  | EIo m => m
  | ECode c => match c with
    | Message | Io => ""
    | InvalidType => "Invalid Type input"
    | InvalidDimension => "Invalid Dimension of vectors"
    | InvalidConfiguration => "Invalid Configuration is given"
    | InvalidNumberOfArguments => "Number of Arguments is invalid"
    | InvalidArgumentInput => "Given argument is invalid"
    | InvalidFormat => "Invalid Format"
    | InvalidFile => "Invalid File"
    | TooLargeTimeStep => "Time step is too large"
    | FeatureNotProvided => "Functionality is not provided yet"
    | UnexpectedEnd => "Function ends unexpectedly"
    end
  end.
