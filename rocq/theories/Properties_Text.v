(** C12 and C29: the text forms of positions and of the type tags.  [faithful nt]: every number is printed as a word of digits,
    letters, signs and points that reads back as that number ([b64_faithful] gives an instance for binary64). *)
From Coq Require Import String Ascii NArith ZArith Lia.
From Flocq.IEEE754 Require Import BinarySingleNaN.
From Verif Require Import Base Scalar Float64 Model_Position Model_System Model_Agent Model_Time Model_Text Spec_Text Proof_Text Proof_Text2 Proof_Text3 Proof_Text4 Proof_Text5.
Local Open Scope string_scope.
Local Open Scope list_scope.
Local Notation length := List.length.

(** The assumption on the text of numbers can be met. *)
Theorem C12_faithful_number_text_exists : faithful b64_text.
Proof. exact b64_faithful. Qed.
Print Assumptions C12_faithful_number_text_exists.

(** C12: the printed text of a position with at least one coordinate reads back as that position. *)
Theorem C12_round_trip : forall T (nt : numtext T) p, faithful nt -> p <> [] ->
  exists t, pos_show nt p = Ok t /\ pos_parse nt t = Ok p.
Proof. intros T nt p F H. destruct (pos_round_T nt p F H) as (t & E1 & E2 & _). eauto. Qed.
Print Assumptions C12_round_trip.

(** C12: distinct positions print differently. *)
Theorem C12_distinct_text : forall T (nt : numtext T) p q t, faithful nt -> p <> [] -> q <> [] -> pos_show nt p = Ok t -> pos_show nt q = Ok t -> p = q.
Proof.
  intros T nt p q t F Hp Hq E1 E2. destruct (pos_round_T nt p F Hp) as (u & A1 & A2 & _), (pos_round_T nt q F Hq) as (v & B1 & B2 & _).
  rewrite E1 in A1. rewrite E2 in B1. injection A1 as <-. injection B1 as <-. congruence.
Qed.
Print Assumptions C12_distinct_text.

(** C12, every text: around the core only white space and then parentheses are ignored; the core is cut at commas and colons; the
    coordinates are the values of the pieces, in order, and a piece that is not a number is read as the default value 0. *)
Theorem C12_reading : forall T (nt : numtext T) a b x y core ws, blank a -> blank b -> all_chars paren x -> all_chars paren y ->
  both_ends (fun c => ~ whitespace c) (x ++ core ++ y)%string -> both_ends (fun c => ~ paren c) core -> Pieces coordinate_sep core ws ->
  exists p, pos_parse nt (a ++ x ++ core ++ y ++ b)%string = Ok p /\ Forall2 (coordinate_value nt) ws p.
Proof. exact @pos_parse_core. Qed.
Print Assumptions C12_reading.

(** Limit of C12: "an unparsable coordinate is rejected" does not hold: no text is ever rejected. *)
Theorem C12_bad_text_counterexample : forall T (nt : numtext T) s, exists p, pos_parse nt s = Ok p /\ p <> [].
Proof. exact @pos_parse_total. Qed.
Print Assumptions C12_bad_text_counterexample.
(** In particular "(1.0, 2.0)", with a space after the comma, is read as (1.0, 0.0) if " 2.0" is not the text of a number. *)
Theorem C12_space_after_comma_counterexample : forall T (nt : numtext T) x, n_parse nt "1.0" = Some x -> n_parse nt " 2.0" = None ->
  pos_parse nt "(1.0, 2.0)" = Ok [x; n_default nt].
Proof. intros T nt x E1 E2. unfold pos_parse. change (split_on _ _) with ["1.0"; " 2.0"]. cbn [map]. now rewrite E1, E2. Qed.
Print Assumptions C12_space_after_comma_counterexample.

(** C12: a pair "(a,b)" is read exactly when the text without parentheses has two pieces that are numbers; a piece that is not a
    number crashes, another number of pieces is an error. *)
Theorem C12_pair_reading : forall T (nt : numtext T) s t ws, Dropped paren s t -> Pieces (eq ","%char) t ws ->
  (forall a b, pair_parse nt s = Ok (a, b) <-> exists u w, ws = [u; w] /\ n_parse nt u = Some a /\ n_parse nt w = Some b) /\
  (pair_parse nt s = Panic <-> exists w, In w ws /\ n_parse nt w = None) /\
  (pair_parse nt s = Err InvalidNumberOfArguments <-> (forall w, In w ws -> n_parse nt w <> None) /\ length ws <> 2%nat).
Proof. exact @pair_parse_core. Qed.
Print Assumptions C12_pair_reading.

Example C12_case : exists t, pos_show b64_text [b64_of_Z 1; b64_of_Z (-3)] = Ok t /\ pos_parse b64_text t = Ok [b64_of_Z 1; b64_of_Z (-3)].
Proof. apply C12_round_trip; [exact b64_faithful|discriminate]. Qed.
Example C12_reading_case : Pieces coordinate_sep "0:1.5,2" ["0"; "1.5"; "2"] /\ both_ends (fun c => ~ paren c) "0:1.5,2" /\
  both_ends (fun c => ~ whitespace c) ("(" ++ "0:1.5,2" ++ ")").
Proof.
  split; [|split].
  - apply (Pieces_more _ "0" ":"); [|now right|]. 2: apply (Pieces_more _ "1.5" ","); [|now left|]. 3: apply Pieces_last.
    all: cbn; unfold coordinate_sep; intuition discriminate.
  - apply (both_ends_of _ _ "0" ":1.5,2" "0:1.5," "2"); try reflexivity; unfold paren; intuition discriminate.
  - apply (both_ends_of _ _ "(" "0:1.5,2)" "(0:1.5,2" ")"); try reflexivity; cbn; lia.
Qed.
Example C12_bad_case : b64_parse " 2.0" = None. Proof. reflexivity. Qed.

(** ** C29: the printed form of a tag reads back as that tag. *)
Theorem C29_system_type : forall t, sys_fits t -> systype_parse (systype_show t) = Ok t.
Proof. exact systype_round. Qed.
Print Assumptions C29_system_type.
Theorem C29_boundary_condition : forall t, bc_fits t -> bcond_parse (bcond_show t) = Ok t.
Proof. exact bcond_round. Qed.
Print Assumptions C29_boundary_condition.
Theorem C29_target_type : forall t, targettype_parse (targettype_show t) = Ok t.
Proof. exact targettype_round. Qed.
Print Assumptions C29_target_type.
Theorem C29_agent_type : forall t, agenttype_parse (agenttype_show t) = Ok t.
Proof. exact agenttype_round. Qed.
Print Assumptions C29_agent_type.
Theorem C29_move_type : forall S (nt : numtext (car S)) m, faithful nt -> movetype_parse nt (movetype_show nt m) = Ok m.
Proof. exact @movetype_round. Qed.
Print Assumptions C29_move_type.
Theorem C29_init_type : forall S (nt : numtext (car S)) i, faithful nt -> (forall p, i = SpecificPosition p -> p <> []) ->
  exists t, inittype_show nt i = Ok t /\ inittype_parse nt t = Ok i.
Proof. exact @inittype_round. Qed.
Print Assumptions C29_init_type.
Theorem C29_interact_type : forall S (nt : numtext (car S)) i, faithful nt -> (forall d g, i = Model_Agent.Exponential d g -> usize_fits d) ->
  interacttype_parse nt (interacttype_show nt i) = Ok i.
Proof. exact @interacttype_round. Qed.
Print Assumptions C29_interact_type.
(** The number of an interaction is the number at the end of its text, zero if its text has none (Coulomb). *)
Theorem C29_interact_number : forall S (nt : numtext (car S)) (i : interacttype S),
  (i = Coulomb2D \/ i = Coulomb3D -> interacttype_f64 i = s0) /\
  (i <> Coulomb2D -> i <> Coulomb3D -> exists words, interacttype_show nt i = (words ++ " " ++ n_show nt (interacttype_f64 i))%string).
Proof.
  intros S nt i. split; [intros [-> | ->]; reflexivity|]. intros N2 N3. destruct i as [d g| | |a]; [|now destruct N2|now destruct N3|].
  - exists ("Exponential form interaction in " ++ show_usize d ++ " D with typical length")%string. cbn [interacttype_show interacttype_f64]. now rewrite !app_s_assoc.
  - exists "Lennard Jones potential with particle size". reflexivity.
Qed.
Print Assumptions C29_interact_number.
(** The time types print their steps with five decimals: what is read back is what that shortened text stands for. *)
Theorem C29_time_type_constant : forall S (nt : numtext (car S)) dt, number_word (n_sci nt dt) ->
  timetype_parse nt (timetype_show nt (Constant dt)) = match n_parse nt (n_sci nt dt) with Some x => Ok (Constant x) | None => Panic end.
Proof. exact @timetype_const. Qed.
Print Assumptions C29_time_type_constant.
Theorem C29_time_type_exponential : forall S (nt : numtext (car S)) a b n, number_word (n_sci nt a) -> number_word (n_sci nt b) -> usize_fits n ->
  timetype_parse nt (timetype_show nt (Model_Time.Exponential a b n)) =
  match n_parse nt (n_sci nt a), n_parse nt (n_sci nt b) with Some x, Some y => Ok (Model_Time.Exponential x y n) | _, _ => Err InvalidArgumentInput end.
Proof. exact @timetype_exp. Qed.
Print Assumptions C29_time_type_exponential.
(** so two steps with the same five decimals print the same, and one of them does not read back. *)
Theorem C29_time_type_counterexample : forall S (nt : numtext (car S)) a b, n_sci nt a = n_sci nt b -> a <> b ->
  Constant a <> Constant b /\ timetype_show nt (Constant a) = timetype_show nt (Constant b) /\
  ~ (timetype_parse nt (timetype_show nt (Constant a)) = Ok (Constant a) /\ timetype_parse nt (timetype_show nt (Constant b)) = Ok (Constant b)).
Proof.
  intros S nt a b E N. assert (Q : timetype_show nt (Constant a) = timetype_show nt (Constant b)) by (unfold timetype_show; now rewrite E).
  split; [congruence|]. split; [exact Q|]. intros [H1 H2]. rewrite Q, H2 in H1. congruence.
Qed.
Print Assumptions C29_time_type_counterexample.
Example C29_time_case : b64_sci (b64_of_Z 4) = b64_sci (b64_of_Z 5) /\ b64_of_Z 4 <> b64_of_Z 5.
Proof. split; [reflexivity|]. intros E. apply (f_equal B2SF) in E. vm_compute in E. discriminate. Qed.

(** C29: distinct values print differently. *)
Theorem C29_distinct_system_types : forall a b, sys_fits a -> sys_fits b -> systype_show a = systype_show b -> a = b.
Proof. intros a b Ha Hb. apply (show_inj systype_show systype_parse); now apply systype_round. Qed.
Print Assumptions C29_distinct_system_types.
Theorem C29_distinct_boundary_conditions : forall a b, bc_fits a -> bc_fits b -> bcond_show a = bcond_show b -> a = b.
Proof. intros a b Ha Hb. apply (show_inj bcond_show bcond_parse); now apply bcond_round. Qed.
Print Assumptions C29_distinct_boundary_conditions.
Theorem C29_distinct_target_and_agent_types : (forall a b, targettype_show a = targettype_show b -> a = b) /\ (forall a b, agenttype_show a = agenttype_show b -> a = b).
Proof. split; intros a b; [apply (show_inj targettype_show targettype_parse); apply targettype_round|apply (show_inj agenttype_show agenttype_parse); apply agenttype_round]. Qed.
Print Assumptions C29_distinct_target_and_agent_types.
Theorem C29_distinct_move_types : forall S (nt : numtext (car S)) a b, faithful nt -> movetype_show nt a = movetype_show nt b -> a = b.
Proof. intros S nt a b F. apply (show_inj (movetype_show nt) (movetype_parse nt)); now apply movetype_round. Qed.
Print Assumptions C29_distinct_move_types.
Theorem C29_distinct_init_types : forall S (nt : numtext (car S)) a b t, faithful nt ->
  (forall p, a = SpecificPosition p -> p <> []) -> (forall p, b = SpecificPosition p -> p <> []) ->
  inittype_show nt a = Ok t -> inittype_show nt b = Ok t -> a = b.
Proof.
  intros S nt a b t F Ha Hb E1 E2. destruct (inittype_round nt a F Ha) as (u & A1 & A2), (inittype_round nt b F Hb) as (w & B1 & B2).
  rewrite E1 in A1. rewrite E2 in B1. injection A1 as <-. injection B1 as <-. congruence.
Qed.
Print Assumptions C29_distinct_init_types.
Theorem C29_distinct_interact_types : forall S (nt : numtext (car S)) a b, faithful nt ->
  (forall d g, a = Model_Agent.Exponential d g -> usize_fits d) -> (forall d g, b = Model_Agent.Exponential d g -> usize_fits d) ->
  interacttype_show nt a = interacttype_show nt b -> a = b.
Proof. intros S nt a b F Ha Hb. apply (show_inj (interacttype_show nt) (interacttype_parse nt)); now apply interacttype_round. Qed.
Print Assumptions C29_distinct_interact_types.

(** C29, every text: which texts are read as which value, which ones crash, and that all others are an error.  [Words s ws]: the
    words of [s]; the grammars are in Spec_Text. *)
Theorem C29_reading_words : forall s, exists! ws, Words s ws.
Proof. intros s. exists (split_ws s). split; [apply split_Words|]. intros ws H. now apply Words_split in H. Qed.
Print Assumptions C29_reading_words.
Theorem C29_reading_system_type : forall s ws, Words s ws -> classifies (systype_parse s) (system_words ws) (system_crash ws).
Proof. exact systype_classify. Qed.
Print Assumptions C29_reading_system_type.
Theorem C29_reading_boundary_condition : forall s ws, Words s ws -> classifies (bcond_parse s) (boundary_words ws) (boundary_crash ws).
Proof. exact bcond_classify. Qed.
Print Assumptions C29_reading_boundary_condition.
Theorem C29_reading_target_type : forall s, classifies (targettype_parse s) (fun a => s = targettype_show a) False.
Proof. exact targettype_classify. Qed.
Print Assumptions C29_reading_target_type.
Theorem C29_reading_agent_type : forall s, classifies (agenttype_parse s) (fun a => s = agenttype_show a) False.
Proof. exact agenttype_classify. Qed.
Print Assumptions C29_reading_agent_type.
Theorem C29_reading_move_type : forall S (nt : numtext (car S)) s ws, Words s ws -> classifies (movetype_parse nt s) (move_words nt ws) (move_crash nt ws).
Proof. exact @movetype_classify. Qed.
Print Assumptions C29_reading_move_type.
Theorem C29_reading_init_type : forall S (nt : numtext (car S)) s ws, Words s ws -> classifies (inittype_parse nt s) (init_words nt ws) (init_crash ws).
Proof. exact @inittype_classify. Qed.
Print Assumptions C29_reading_init_type.
Theorem C29_reading_interact_type : forall S (nt : numtext (car S)) s ws, Words s ws -> classifies (interacttype_parse nt s) (interact_words nt ws) (interact_crash ws).
Proof. exact @interacttype_classify. Qed.
Print Assumptions C29_reading_interact_type.
Theorem C29_reading_time_type : forall S (nt : numtext (car S)) s ws, Words s ws -> classifies (timetype_parse nt s) (time_words nt ws) (time_crash nt ws).
Proof. exact @timetype_classify. Qed.
Print Assumptions C29_reading_time_type.
(** Limit of C29: "malformed text gives Err rather than a panic" does not hold: blank text crashes six of the eight parsers. *)
Theorem C29_blank_text_counterexample : forall S (nt : numtext (car S)) s, blank s ->
  systype_parse s = Panic /\ bcond_parse s = Panic /\ movetype_parse nt s = Panic /\ inittype_parse nt s = Panic /\
  interacttype_parse nt s = Panic /\ timetype_parse nt s = Panic.
Proof.
  intros S nt s H. assert (W : Words s []) by now constructor.
  repeat split; [apply (systype_classify s [] W)|apply (bcond_classify s [] W)|apply (movetype_classify nt s [] W)|
    apply (inittype_classify nt s [] W)|apply (interacttype_classify nt s [] W)|apply (timetype_classify nt s [] W)]; constructor.
Qed.
Print Assumptions C29_blank_text_counterexample.
Example C29_texts : systype_parse "3" = Ok (ContinuousCylindrical 3) /\ systype_parse "Mars" = Err InvalidArgumentInput /\
  bcond_show (Mixed 12) = "Mixed Boundary Condition. 0..12 : Reflection, 12.. : Periodic".
Proof. repeat split. Qed.
Example C29_fits : sys_fits (ContinuousCylindrical 3) /\ bc_fits (Mixed 2).
Proof. split; reflexivity. Qed.
Example C29_move_case : forall lm, movetype_parse (S := F64 lm) b64_text (movetype_show (S := F64 lm) b64_text (Brownian (b64_of_Z 2 : F64 lm))) = Ok (Brownian (b64_of_Z 2 : F64 lm)).
Proof. intros lm. apply (C29_move_type (F64 lm)). exact b64_faithful. Qed.
