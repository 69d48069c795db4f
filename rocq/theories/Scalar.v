(** Scalars: the operations of Rust's f64 used by the crate, collected in a record so that one model
    text can be read both over IEEE binary64 ([F64], Flocq) and over exact reals ([RR]). *)
From Coq Require Export ZArith Reals.
From Flocq Require Import Core.
From Flocq.IEEE754 Require Import BinarySingleNaN.
From Verif Require Export Base.

(* std: f64 *)
Record scalar := Scalar {
  car :> Type;
  of_Z : Z -> car;                  (** integer literal or [n as f64] *)
  add : car -> car -> car;
  sub : car -> car -> car;
  mul : car -> car -> car;
  div : car -> car -> car;
  opp : car -> car;
  fabs : car -> car;                (** [.abs()] *)
  fsqrt : car -> car;               (** [.sqrt()] *)
  fexp : car -> car;                (** [.exp()] *)
  flog2 : car -> car;               (** [.log2()] *)
  fpow : car -> car -> car;         (** [.powf(y)] *)
  ltb : car -> car -> bool;         (** [<] *)
  leb : car -> car -> bool;         (** [<=] *)
  as_usize : car -> Z;              (** [as usize]: truncation, saturating, NaN to 0 *)
  fmax : car                        (** [std::f64::MAX] *)
}.
Arguments of_Z {s}. Arguments add {s}. Arguments sub {s}. Arguments mul {s}. Arguments div {s}.
Arguments opp {s}. Arguments fabs {s}. Arguments fsqrt {s}. Arguments fexp {s}. Arguments flog2 {s}.
Arguments fpow {s}. Arguments ltb {s}. Arguments leb {s}. Arguments as_usize {s}. Arguments fmax {s}.

Declare Scope s_scope.
Delimit Scope s_scope with S.
Infix "+" := add : s_scope.
Infix "-" := sub : s_scope.
Infix "*" := mul : s_scope.
Infix "/" := div : s_scope.
Infix "<?" := ltb : s_scope.
Infix "<=?" := leb : s_scope.
Notation "x >? y" := (ltb y x) (only parsing) : s_scope.
Notation "x >=? y" := (leb y x) (only parsing) : s_scope.

(** A decimal literal [n/d] with [n] and [d] exactly representable: IEEE division is correctly rounded, so
    this is the double nearest to the literal, which is what rustc produces. *)
(* std: decimal literals *)
Definition lit {s : scalar} (n d : Z) : s := div (of_Z n) (of_Z d).
(* std: 0f64 *)
Definition s0 {s : scalar} : s := of_Z 0.
(* std: 1f64 *)
Definition s1 {s : scalar} : s := of_Z 1.
(* std: 2f64 *)
Definition s2 {s : scalar} : s := of_Z 2.

(* std: usize::MAX *)
Definition usize_max : Z := 2 ^ 64 - 1.
(* std: as usize *)
Definition sat_usize (z : Z) : Z := Z.max 0 (Z.min z usize_max).

(** ** Exact reals *)
(* < on exact reals *)
Definition Rltb (x y : R) : bool := if Rlt_dec x y then true else false.
(* <= on exact reals *)
Definition Rleb (x y : R) : bool := if Rle_dec x y then true else false.

(** [f64::MAX] as a real number. *)
(* std: f64::MAX *)
Definition Rfmax : R := (2 ^ 1024 - 2 ^ 971)%R.

(* idealised f64 *)
Definition RR : scalar := Scalar R IZR Rplus Rminus Rmult Rdiv Ropp Rabs sqrt exp
  (fun x => (ln x / ln 2)%R) Rpower Rltb Rleb (fun x => sat_usize (Ztrunc x)) Rfmax.

(** ** IEEE binary64, round to nearest even *)
Lemma prec53 : Prec_gt_0 53. Proof. reflexivity. Qed.
Lemma max1024 : Prec_lt_emax 53 1024. Proof. reflexivity. Qed.
Global Existing Instance prec53.
Global Existing Instance max1024.

Notation b64 := (binary_float 53 1024).

(** The libm functions are not specified by IEEE 754; they are a parameter. *)
(* std: libm *)
Record libm := Libm { m_exp : b64 -> b64; m_log2 : b64 -> b64; m_pow : b64 -> b64 -> b64 }.

(* std: f64 as usize *)
Definition b64_as_usize (x : b64) : Z :=
  match x with
  | B754_infinity false => usize_max
  | B754_infinity true | B754_nan => 0%Z
  | _ => sat_usize (Btrunc x)
  end.

(* std: integer as f64 *)
Definition b64_of_Z (z : Z) : b64 := binary_normalize 53 1024 _ _ mode_NE z 0 false.

(* std: f64 *)
Definition F64 (lm : libm) : scalar := Scalar b64 b64_of_Z
  (Bplus mode_NE) (Bminus mode_NE) (Bmult mode_NE) (Bdiv mode_NE) Bopp Babs (Bsqrt mode_NE)
  (m_exp lm) (m_log2 lm) (m_pow lm) Bltb Bleb b64_as_usize Bmax_float.
