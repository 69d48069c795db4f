(** The data files of tests/test_setup.rs cannot be read by its own analysis; adding a step to a clock. *)
From Coq Require Import String Ascii NArith ZArith Lia Reals Lra.
From Flocq Require Import Core IEEE754.BinarySingleNaN.
From Verif Require Import Base Scalar Float64 Model_LinkedList Model_Position Spec_Position Model_System Spec_System Model_Agent Spec_Agent Model_Time Model_Text Spec_Text Proof_Text Proof_Text3 Proof_Text5
  Model_Args Spec_Args Proof_Args Proof_Args2 Proof_Args3 Model_Analysis Spec_Analysis Model_Run Spec_Run Spec_Search Model_Program Spec_Program Proof_Program Proof_Program2
  Model_Program3 Spec_Program3 Proof_Time Proof_Time2 Proof_Race Proof_Race2.
Local Open Scope nat_scope.
Local Open Scope string_scope.
Local Open Scope list_scope.
Local Notation length := List.length.

(** ** Adding a step that is not negative *)
Lemma up64 (dt x m : b64) : Bltb dt (B754_zero false) = false -> Bltb x m = false -> Bltb (Bplus mode_NE x dt) m = false.
Proof.
  intros Hd Hx. destruct (Bltb (Bplus mode_NE x dt) m) eqn:E; [|reflexivity]. destruct (ltb_nan _ _ E) as (N1 & N2).
  assert (Nx : nan x = false) by (destruct x; try reflexivity; destruct dt; discriminate N1).
  assert (Nd : nan dt = false) by (destruct dt; try reflexivity; destruct x as [|[]| |]; discriminate N1).
  assert (Pd : Bleb (B754_zero false) dt = true) by (apply nltb_leb; [exact Nd|reflexivity|exact Hd]).
  destruct (match x with B754_infinity true => true | _ => false end) eqn:X.
  - destruct x as [|[]| |]; try discriminate X. destruct dt as [|[]| |]; try discriminate N1; try discriminate Hd; cbn in E; try congruence; cbn in Hx; congruence.
  - assert (Ix : x <> B754_infinity true) by (intros ->; discriminate X).
    pose proof (plus_ge x dt Nx Pd Ix) as L. rewrite <- Hx. symmetry. revert L E. destruct (leb_nan _ _ (plus_ge x dt Nx Pd Ix)) as (_ & Np).
    intros L E. apply leb_val in L; auto. apply ltb_val in E; auto. apply ltb_val; auto. lra.
Qed.
Lemma upR (dt x m : R) : Rltb dt 0 = false -> Rltb x m = false -> Rltb (x + dt) m = false.
Proof. rewrite !Rltb_false. lra. Qed.

(** ** Reading a line *)
Lemma read_line_inv f fs l ls v rest : read_lines (f :: fs) (l :: ls) = Ok (v, rest) -> exists a s, split_on (is_char ":") l = [a; s] /\ f_parse f (trim s) = Ok (fst v) /\ read_lines fs ls = Ok (snd v, rest).
Proof.
  cbn [read_lines]. destruct (split_on (is_char ":") l) as [|a [|s [|? ?]]]; cbn [length Nat.eqb negb]; try discriminate. cbn [idx nth_error bind].
  destruct (f_parse f (trim s)) as [x|e| |] eqn:E; cbn [expect_ok bind]; try discriminate.
  destruct (read_lines fs ls) as [[v1 r1]| | |]; cbn [bind]; try discriminate. intros H. injection H as <- <-. exists a, s. auto.
Qed.
Lemma read_line_step f fs l ls a s : split_on (is_char ":") l = [a; s] ->
  read_lines (f :: fs) (l :: ls) = do x <- expect_ok (f_parse f (trim s)); do '(v, rest) <- read_lines fs ls; Ok ((x, v), rest).
Proof. intros E. cbn [read_lines]. rewrite E. reflexivity. Qed.
Lemma read_empty_inv f fs v rest : read_lines (f :: fs) [] = Ok (v, rest) -> False. Proof. discriminate. Qed.

Lemma four_lines f1 f2 f3 f4 ls (v : vals [f1; f2; f3; f4]) rest : read_lines [f1; f2; f3; f4] ls = Ok (v, rest) ->
  exists l1 l2 l3 l4 a1 s1 a2 s2 a3 s3 a4 s4, ls = l1 :: l2 :: l3 :: l4 :: rest /\ split_on (is_char ":") l1 = [a1; s1] /\ split_on (is_char ":") l2 = [a2; s2] /\
    split_on (is_char ":") l3 = [a3; s3] /\ split_on (is_char ":") l4 = [a4; s4] /\ f_parse f4 (trim s4) = Ok (fst (snd (snd (snd v)))).
Proof.
  intros E. destruct ls as [|l1 ls]; [discriminate E|]. apply read_line_inv in E as (a1 & s1 & S1 & _ & E).
  destruct ls as [|l2 ls]; [discriminate E|]. apply read_line_inv in E as (a2 & s2 & S2 & _ & E).
  destruct ls as [|l3 ls]; [discriminate E|]. apply read_line_inv in E as (a3 & s3 & S3 & _ & E).
  destruct ls as [|l4 ls]; [discriminate E|]. apply read_line_inv in E as (a4 & s4 & S4 & P4 & E).
  cbn [read_lines] in E. exists l1, l2, l3, l4, a1, s1, a2, s2, a3, s3, a4, s4. split; [|auto 8]. congruence.
Qed.
(** Either the value is read or the program panics. *)
Definition strict (f : field) : Prop := forall s, (exists x, f_parse f s = Ok x) \/ expect_ok (f_parse f s) = Panic.
Lemma shifted c1 c2 f1 f2 f3 f4 l1 l2 l3 l4 a1 s1 a2 s2 a3 s3 a4 s4 rest : strict c1 -> strict c2 -> strict f1 -> strict f2 ->
  split_on (is_char ":") l1 = [a1; s1] -> split_on (is_char ":") l2 = [a2; s2] -> split_on (is_char ":") l3 = [a3; s3] -> split_on (is_char ":") l4 = [a4; s4] ->
  let two := read_lines [c1; c2] (l1 :: l2 :: l3 :: l4 :: data_line :: rest) in
  let all := (do '(_, ls) <- two; do '(v, ls') <- read_lines [f1; f2; f3; f4] ls; Ok ls') in
  (expect_ok (f_parse f2 (trim s4)) = Panic -> all = Panic) /\ (all = Panic \/ all = Err InvalidFormat).
Proof.
  intros C1 C2 F1 F2 S1 S2 S3 S4 two all. unfold all, two. clear all two.
  assert (N : forall ls, read_lines [] ls = Ok (tt, ls)) by reflexivity.
  assert (Last : read_lines [f3; f4] (data_line :: rest) = Err InvalidFormat) by reflexivity.
  rewrite (read_line_step c1 [c2] l1 _ a1 s1 S1). destruct (C1 (trim s1)) as [(x1 & ->)|X]; [|rewrite X; cbn [bind]; auto]. cbn [expect_ok bind].
  rewrite (read_line_step c2 [] l2 _ a2 s2 S2). destruct (C2 (trim s2)) as [(x2 & ->)|X]; [|rewrite X; cbn [bind]; auto]. cbn [expect_ok bind].
  rewrite N. cbn [bind].
  rewrite (read_line_step f1 _ l3 _ a3 s3 S3). destruct (F1 (trim s3)) as [(x3 & ->)|X]; [|rewrite X; cbn [bind]; auto]. cbn [expect_ok bind].
  rewrite (read_line_step f2 _ l4 _ a4 s4 S4). destruct (F2 (trim s4)) as [(x4 & E4)|X]; [|rewrite X; cbn [bind]; auto]. rewrite E4. cbn [expect_ok bind].
  rewrite Last. cbn [bind]. split; [discriminate|auto].
Qed.
Section File.
Context {S : scalar} (nt : numtext S).
Lemma strict_f64 n d : strict (fld_f64 nt n d).
Proof. intros s. cbn [fld_f64 f_parse]. unfold parsed. destruct (n_parse nt s); cbn; eauto. Qed.
Lemma strict_usize n d : strict (fld_usize n d).
Proof. intros s. cbn [fld_usize f_parse]. unfold parsed. destruct (parse_usize s); cbn; eauto. Qed.
Lemma not_readable (sysv : args_of (circ_spec nt)) (tgv : args_of (bulk_spec nt)) (agv : args_of (indep_spec nt)) (simv : args_of varsim_spec) ls rest :
  read_all (race_written nt) ls = Ok ((sysv, (tgv, (agv, (simv, tt)))), data_line :: rest) ->
  (parse_usize (fst (snd (snd (snd simv)))) = None -> read_all (ind_structs nt) ls = Panic) /\ (read_all (ind_structs nt) ls = Panic \/ read_all (ind_structs nt) ls = Err InvalidFormat).
Proof.
  unfold race_written, ind_structs. cbn [read_all].
  destruct (read_args_from_lines (circ_spec nt) ls) as [[v1 ls1]| | |]; cbn [bind]; try discriminate.
  destruct (read_args_from_lines (bulk_spec nt) ls1) as [[v2 ls2]| | |]; cbn [bind]; try discriminate.
  destruct (read_args_from_lines (indep_spec nt) ls2) as [[v3 ls3]| | |]; cbn [bind]; try discriminate.
  destruct (read_args_from_lines varsim_spec ls3) as [[v4 ls4]| | |] eqn:E4; cbn [bind]; try discriminate.
  intros H. assert (X : v4 = simv /\ ls4 = data_line :: rest) by (split; congruence). destruct X as (-> & ->). clear H.
  destruct (four_lines _ _ _ _ ls3 simv (data_line :: rest) E4) as (l1 & l2 & l3 & l4 & a1 & s1 & a2 & s2 & a3 & s3 & a4 & s4 & -> & S1 & S2 & S3 & S4 & P4).
  assert (P : trim s4 = fst (snd (snd (snd simv)))) by (assert (Y : forall a b : string, Ok a = Ok b -> a = b) by congruence; apply Y; exact P4). rewrite <- P. clear P P4.
  clear E4.
  destruct (shifted (fld_f64 nt "dt" "Time step size") (fld_f64 nt "tmax" tmax_desc) (fld_usize "num_ensemble" "Number of Ensemble") (fld_usize "idx_set" "Index of Ensemble Set")
    (fld_u128 "seed" seed_desc) (fld_string "output_dir" dir_desc) l1 l2 l3 l4 a1 s1 a2 s2 a3 s3 a4 s4 rest (strict_f64 _ _) (strict_f64 _ _) (strict_usize _ _) (strict_usize _ _) S1 S2 S3 S4) as (A & B).
  cbv zeta in A, B.
  assert (A' : parse_usize (trim s4) = None -> expect_ok (f_parse (fld_usize "idx_set" "Index of Ensemble Set") (trim s4)) = Panic) by (intros Y; cbn [fld_usize f_parse]; rewrite Y; reflexivity).
  unfold read_args_from_lines.
  change (a_fields (const_spec nt)) with [fld_f64 nt "dt" "Time step size"; fld_f64 nt "tmax" tmax_desc].
  change (a_fields varsim_spec) with [fld_usize "num_ensemble" "Number of Ensemble"; fld_usize "idx_set" "Index of Ensemble Set"; fld_u128 "seed" seed_desc; fld_string "output_dir" dir_desc].
  revert A B A'. generalize (expect_ok (f_parse (fld_usize "idx_set" "Index of Ensemble Set") (trim s4))).
  destruct (read_lines _ (l1 :: l2 :: l3 :: l4 :: data_line :: rest)) as [[w ls4]| | |]; cbn [bind].
  1: destruct (read_lines _ ls4) as [[w5 ls5]|e| |]; cbn [bind].
  all: intros o A B A'; (split; [intros Y; specialize (A (A' Y)); try discriminate A; reflexivity|]).
  all: destruct B as [B|B]; try discriminate B; try (left; reflexivity).
  all: right; assert (X : e = InvalidFormat) by congruence; rewrite X; reflexivity.
Qed.

Lemma race_unreadable (p : ind_settings S) head ts : faithful nt -> ind_writable p -> file_header (race_written nt) ind_width (written_part nt p) = Ok head ->
  let r := read_data (ind_structs nt) no_sim (head ++ lines_text (map (n_sci nt) ts))%string in
  (parse_usize (i_dir p) = None -> r = Panic) /\ (r = Panic \/ r = Err InvalidFormat).
Proof.
  intros F W Hh r. destruct (file_read_back nt (race_written nt) ind_width (written_part nt p) (lines_text (map (n_sci nt) ts)) F (written_known nt) (written_survive nt p W)) as (t & Et & Er).
  rewrite Hh in Et. injection Et as <-. unfold from_file in Er.
  destruct (not_readable _ _ _ _ _ _ Er) as (A & B). unfold r, read_data. split; [intros Y; now rewrite (A Y)|]. destruct B as [B|B]; rewrite B; auto.
Qed.
End File.
