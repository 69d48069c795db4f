(** A text form of binary64 numbers that meets the assumption [faithful]: sign, mantissa, [e], binary exponent; [inf], [NaN], [0].
    It is not the text Rust prints; it shows that the hypothesis can be met. *)
From Coq Require Import String Ascii NArith ZArith Lia.
From Flocq.IEEE754 Require Import BinarySingleNaN.
From Flocq Require Import Core.
From Verif Require Import Base Scalar Float64 Model_Position Model_System Model_Agent Model_Time Model_Text Spec_Text Proof_Text Proof_Text2 Proof_Text3.
Local Open Scope string_scope.
Local Open Scope list_scope.

Definition show_z (z : Z) : string := match z with Zneg p => String "-" (show_uint (Npos p)) | _ => show_uint (Z.to_N z) end.
Definition big : N := (2 ^ 2000)%N.
Definition parse_z (s : string) : option Z :=
  match s with
  | String c r => if is_char "-" c then option_map (fun n => (- Z.of_N n)%Z) (parse_uint big r) else option_map Z.of_N (parse_uint big s)
  | EmptyString => None
  end.
Definition sf_of (x : b64) : SpecFloat.spec_float := B2SF x.
Definition b64_show (x : b64) : string :=
  match sf_of x with
  | SpecFloat.S754_zero s => if s then "-0" else "0"
  | SpecFloat.S754_infinity s => if s then "-inf" else "inf"
  | SpecFloat.S754_nan => "NaN"
  | SpecFloat.S754_finite s m e => ((if s then "-" else "+") ++ show_uint (Npos m) ++ String "e" (show_z e))%string
  end.
Definition b64_of (sf : SpecFloat.spec_float) : option b64 :=
  match SpecFloat.valid_binary 53 1024 sf as b return SpecFloat.valid_binary 53 1024 sf = b -> option b64 with
  | true => fun H => Some (SF2B sf H)
  | false => fun _ => None
  end eq_refl.
Definition b64_parse (s : string) : option b64 :=
  if String.eqb s "0" then Some (B754_zero false) else if String.eqb s "-0" then Some (B754_zero true)
  else if String.eqb s "inf" then Some (B754_infinity false) else if String.eqb s "-inf" then Some (B754_infinity true)
  else if String.eqb s "NaN" then Some B754_nan
  else match s with
       | String c r =>
           match split_on (is_char "e") r with
           | [a; b] => match parse_uint big a, parse_z b with
                       | Some (Npos m), Some e => b64_of (SpecFloat.S754_finite (is_char "-" c) m e)
                       | _, _ => None
                       end
           | _ => None
           end
       | EmptyString => None
       end.
(** [n_sci]: a text that forgets part of the value, as [{:.5e}] does: the sign and the exponent with a mantissa of one bit. *)
Definition b64_sci (x : b64) : string :=
  match sf_of x with
  | SpecFloat.S754_finite s m e => ((if s then "-" else "+") ++ show_uint 1 ++ String "e" (show_z (e + Zpos (SpecFloat.digits2_pos m) - 1)))%string
  | _ => b64_show x
  end.
Definition b64_text : numtext b64 := NumText _ b64_show b64_sci b64_parse (B754_zero false).

Lemma b64_of_valid (x : b64) : b64_of (B2SF x) = Some x.
Proof.
  unfold b64_of. generalize (eq_refl (SpecFloat.valid_binary 53 1024 (B2SF x))).
  generalize (SpecFloat.valid_binary 53 1024 (B2SF x)) at 2 3. intros [|] H.
  - f_equal. apply B2SF_inj. now rewrite B2SF_SF2B.
  - pose proof (valid_binary_B2SF 53 1024 x). congruence.
Qed.
Lemma digits_no_e s acc n : digits_value acc s = Some n -> all_chars (fun c => is_char "e" c = false) s.
Proof.
  revert acc. induction s as [|c s IH]; intros acc H; cbn in *; auto. destruct (digit_value c) eqn:E; [|discriminate]. split; eauto.
  apply is_char_false. intros ->. discriminate.
Qed.
Lemma show_z_e z : all_chars (fun c => is_char "e" c = false) (show_z z).
Proof.
  destruct z as [|p|p]; unfold show_z; [destruct (show_digits (Z.to_N 0)) as [_ H]|destruct (show_digits (Z.to_N (Zpos p))) as [_ H]|destruct (show_digits (Npos p)) as [_ H]];
    [eapply digits_no_e; eauto|eapply digits_no_e; eauto|]. split; [reflexivity|eapply digits_no_e; eauto].
Qed.
Lemma parse_show_uint n : (n <= big)%N -> parse_uint big (show_uint n) = Some n.
Proof. intros. apply parse_uint_spec. now apply show_uint_text. Qed.
Lemma show_uint_head n : exists c r, show_uint n = String c r /\ is_char "-" c = false.
Proof.
  destruct (show_digits n) as [H1 H2]. destruct (show_uint n) as [|c r]; [easy|]. exists c, r. split; auto.
  cbn in H2. apply is_char_false. intros ->. discriminate.
Qed.
Lemma parse_show_z z : (Z.abs_N z <= big)%N -> parse_z (show_z z) = Some z.
Proof.
  intros H. destruct z as [|p|p]; cbn [show_z].
  - destruct (show_uint_head (Z.to_N 0)) as (c & r & E & E'). pose proof (parse_show_uint (Z.to_N 0) H) as P. rewrite E in *. cbn [parse_z]. now rewrite E', P.
  - destruct (show_uint_head (Z.to_N (Zpos p))) as (c & r & E & E'). pose proof (parse_show_uint (Z.to_N (Zpos p)) H) as P. rewrite E in *. cbn [parse_z]. now rewrite E', P.
  - cbn [parse_z]. change (is_char "-" "-") with true. cbn iota. now rewrite (parse_show_uint (Npos p) H).
Qed.
Lemma b64_range m e : SpecFloat.bounded 53 1024 m e = true -> (Npos m <= big)%N /\ (Z.abs_N e <= big)%N.
Proof.
  intros H. apply andb_prop in H as [H1 H2]. apply Zeq_bool_eq in H1. apply Z.leb_le in H2.
  assert (D : (Zpos (SpecFloat.digits2_pos m) <= 53)%Z).
  { unfold SpecFloat.fexp, SpecFloat.emin in H1. lia. }
  assert (E : (-1074 <= e)%Z) by (unfold SpecFloat.fexp, SpecFloat.emin in H1; lia).
  assert (B2000 : (2 ^ 64 <= big)%N) by (apply N.pow_le_mono_r; lia).
  split.
  - pose proof (Digits.Zdigits_correct radix2 (Zpos m)) as [_ C]. rewrite Digits.Zpos_digits2_pos in D.
    assert (P : (2 ^ Digits.Zdigits radix2 (Zpos m) <= 2 ^ 53)%Z) by (apply Z.pow_le_mono_r; lia).
    cbn [Z.abs radix2 radix_val] in C. assert (Zpos m < 2 ^ 53)%Z by lia. change (2 ^ 64)%N with 18446744073709551616%N in B2000. lia.
  - change (2 ^ 64)%N with 18446744073709551616%N in B2000. lia.
Qed.
Lemma b64_faithful : faithful b64_text.
Proof.
  intros x. assert (SZ : forall z, all_chars number_char (show_z z)).
  { intros [|p|p]; cbn [show_z]; [apply show_uint_word|apply show_uint_word|split; [unfold number_char; cbn; lia|apply show_uint_word]]. }
  assert (NW : forall s m e, number_word ((if s : bool then "-" else "+") ++ show_uint m ++ String "e" (show_z e))%string).
  { intros s m e. split; [now destruct s|]. apply all_app. split; [destruct s; cbn; unfold number_char; cbn; lia|].
    apply all_app. split; [apply show_uint_word|]. split; [unfold number_char; cbn; lia|apply SZ]. }
  assert (NS : number_word (b64_show x)).
  { unfold b64_show. destruct (sf_of x) as [s|s| |s m e].
    - destruct s; (split; [discriminate|]); cbn; unfold number_char; cbn; lia.
    - destruct s; (split; [discriminate|]); cbn; unfold number_char; cbn; lia.
    - split; [discriminate|]; cbn; unfold number_char; cbn; lia.
    - apply NW. }
  split; [|split; auto].
  - unfold round_trips. cbn [b64_text n_parse n_show]. unfold b64_show, sf_of.
    pose proof (b64_of_valid x) as V. destruct x as [s|s| |s m e Hb]; cbn [B2SF] in *.
    + destruct s; reflexivity.
    + destruct s; reflexivity.
    + reflexivity.
    + destruct (b64_range m e Hb) as [R1 R2].
      set (t := (show_uint (N.pos m) ++ String "e" (show_z e))%string) in *.
      assert (Sp : split_on (is_char "e") t = [show_uint (N.pos m); show_z e]).
      { unfold t. rewrite split_sep; [|eapply digits_no_e; apply show_digits|reflexivity]. f_equal. apply split_none, show_z_e. }
      assert (Q : forall c, match split_on (is_char "e") t with
           | [a; b] => match parse_uint big a, parse_z b with
                       | Some (Npos m), Some e => b64_of (SpecFloat.S754_finite (is_char "-" c) m e)
                       | _, _ => None
                       end
           | _ => None
           end = b64_of (SpecFloat.S754_finite (is_char "-" c) m e)).
      { intros c. rewrite Sp, (parse_show_uint _ R1), (parse_show_z _ R2). reflexivity. }
      assert (L : t <> "0" /\ t <> "inf" /\ t <> "NaN" /\ t <> "").
      { destruct (show_digits (N.pos m)) as [N1 N2]. assert (T : t = (show_uint (N.pos m) ++ String "e" (show_z e))%string) by reflexivity.
        destruct (show_uint (N.pos m)) as [|c r]; [easy|]. cbn in N2. destruct (digit_value c) eqn:Dc; [|discriminate].
        rewrite T. cbn [append]. repeat split; try discriminate.
        - intros E. injection E as _ E. now destruct r.
        - intros E. injection E as -> _. discriminate.
        - intros E. injection E as -> _. discriminate. }
      destruct L as (L1 & L2 & L3 & L4).
      destruct s; cbn [append]; unfold b64_parse.
      * rewrite !(proj2 (String.eqb_neq _ _)); [rewrite Q; exact V|..]; intros E; try discriminate; injection E as E; auto.
      * rewrite !(proj2 (String.eqb_neq _ _)); [rewrite Q; exact V|..]; intros E; discriminate.
  - cbn [b64_text n_sci]. unfold b64_sci. destruct (sf_of x) eqn:E; auto.
Qed.
