(** The value of a race for the settings of a call, and the analysis of its files. *)
From Coq Require Import String Ascii NArith ZArith Lia Reals Lra.
From Flocq Require Import Core IEEE754.BinarySingleNaN.
From Verif Require Import Base Scalar Float64 Model_LinkedList Model_Position Spec_Position Model_System Spec_System Model_Agent Spec_Agent Model_Time Model_Text Spec_Text Proof_Text Proof_Text3 Proof_Text5
  Model_Args Spec_Args Proof_Args Proof_Args2 Proof_Args3 Model_Analysis Spec_Analysis Model_Run Spec_Run Spec_Search Proof_Search3 Model_Program Spec_Program Proof_Program Proof_Program2
  Proof_Program6 Model_Program3 Spec_Program3 Proof_Time Proof_Time2 Proof_Race Proof_Race2 Proof_Race3.
Local Open Scope nat_scope.
Local Open Scope string_scope.
Local Open Scope list_scope.
Local Notation length := List.length.

Section Value.
Context {S : scalar} {G : rng S}.
Notation gen := (rstate G).
Hypothesis trans : forall x y z : S, (x <? y)%S = true -> (y <? z)%S = true -> (x <? z)%S = true.
Hypothesis irr : forall x : S, (x <? x)%S = false.
Lemma race_value (p : ind_settings S) c inner pf fuel (g g' : gen) t : (forall x m : S, (x <? m)%S = false -> (x + i_dt p <? m)%S = false) -> race_accepted p -> i_move p = Brownian c ->
  race_sample inner pf fuel (circ_core (i_system p)) (i_dim p) (i_the_target p) (i_move p) (i_dt p) (i_agents p) g = (g', Ok t) ->
  race_result inner pf p c g t g'.
Proof.
  intros up A M. rewrite M. unfold race_sample, race_result.
  destruct (race_ends (G := G) (ACirc (i_system p)) (i_the_target p) c (i_dt p) inner pf fuel (i_built p A) (ra_target p A) trans irr (i_agents p) fmax (repeat s0 (i_dim p)) g (repeat_length _ _))
    as (v' & _ & [(runs & g1 & m & T & L & F & W & W' & E)|[(runs & g1 & g2 & a & k & q & q' & _ & _ & _ & _ & _ & _ & _ & E)|(runs & g1 & g2 & _ & _ & _ & E)]]);
    cbn [core] in E; rewrite E; intros X; try discriminate X.
  assert (Y : forall (a b : gen) (x y : S), (a, Ok x) = (b, Ok y) -> a = b /\ x = y) by (intros ? ? ? ? Q; split; congruence).
  apply Y in X. destruct X as (-> & ->). exists runs. split; [exact T|]. split; [exact L|]. split.
  - destruct W as [W|W]; [left; exact W|]. right. revert W. apply Exists_impl. intros [[a g2] k] (H1 & H2 & H3). split; [|split]; assumption.
  - revert F. apply Forall_impl. intros [[a g2] k] H. pose proof H as (H1 & H2 & _). split; [exact H1|]. split; [exact H2|]. intros j Hj.
    exact (no_faster (G := G) (ACirc (i_system p)) (i_the_target p) c (i_dt p) up t (a, g2, k) j H Hj).
Qed.
Lemma race_refused (p : ind_settings S) c inner pf fuel (g g' : gen) e : race_accepted p -> i_move p = Brownian c ->
  race_sample inner pf fuel (circ_core (i_system p)) (i_dim p) (i_the_target p) (i_move p) (i_dt p) (i_agents p) g = (g', Err e) ->
  e = TooLargeTimeStep /\ race_refusal inner pf p c g.
Proof.
  intros A M. rewrite M. unfold race_sample, race_refusal.
  destruct (race_ends (G := G) (ACirc (i_system p)) (i_the_target p) c (i_dt p) inner pf fuel (i_built p A) (ra_target p A) trans irr (i_agents p) fmax (repeat s0 (i_dim p)) g (repeat_length _ _))
    as (v' & _ & [(runs & g1 & m & T & L & F & W & W' & E)|[(runs & g1 & g2 & a & k & q & q' & H1 & H2 & H3 & H4 & H5 & H6 & H7 & E)|(runs & g1 & g2 & _ & _ & _ & E)]]);
    cbn [core] in E; rewrite E; intros X; try discriminate X.
  split; [congruence|]. exists runs, g1, g2, a, k, q, q'. auto 10.
Qed.
End Value.

Lemma Bup lm (p : ind_settings (F64 lm)) : (i_dt p <? s0)%S = false -> forall x m : F64 lm, (x <? m)%S = false -> (x + i_dt p <? m)%S = false.
Proof. intros H x m. exact (up64 (i_dt p) x m H). Qed.
Lemma Rup (p : ind_settings RR) : (i_dt p <? s0)%S = false -> forall x m : RR, (x <? m)%S = false -> (x + i_dt p <? m)%S = false.
Proof. intros H x m. exact (upR (i_dt p) x m H). Qed.

Section Files.
Context {S : scalar} (nt : numtext S).
(** A text that a run of tests/test_setup.rs leaves. *)
Definition race_text (p : ind_settings S) (text : string) : Prop :=
  exists head ts, file_header (race_written nt) ind_width (written_part nt p) = Ok head /\ text = (head ++ lines_text (map (n_sci nt) ts))%string.
Lemma race_dir {A} (F : faithful nt) sip fresh add_line (m : list (all_args (ind_structs nt) * A)) ps texts : Forall2 race_text ps texts -> Forall ind_writable ps ->
  let r := read_dir (ind_structs nt) no_sim (ind_values nt) sip fresh add_line texts m in
  (r = Panic \/ r = Ok m) /\ (Exists (fun p => parse_usize (i_dir p) = None) ps -> r = Panic).
Proof.
  cbn zeta. induction 1 as [|p text ps texts (head & ts & Hh & ->) H2 IH]; intros W.
  - cbn [read_dir]. split; [auto|]. intros X. inversion X.
  - pose proof (Forall_inv W) as W1. apply Forall_inv_tail in W. destruct (IH W) as (I1 & I2). destruct (race_unreadable nt p head ts F W1 Hh) as (U1 & U2). cbn [read_dir].
    destruct U2 as [E|E]; rewrite E; [auto|]. split; [exact I1|]. intros X. apply I2. apply Exists_cons in X. destruct X as [X|X]; [|exact X].
    apply U1 in X. rewrite E in X. discriminate X.
Qed.
Lemma race_groups (F : faithful nt) sip req b ps texts : Forall2 race_text ps texts -> Forall ind_writable ps -> bin_sizes req = Ok b ->
  (ind_groups nt sip req texts = Panic \/ ind_groups nt sip req texts = Ok []) /\
  (Exists (fun p => parse_usize (i_dir p) = None) ps -> ind_groups nt sip req texts = Panic).
Proof.
  intros H W B. destruct b as [[[mn mx] size] lsize]. unfold ind_groups. rewrite B. cbn [bind]. unfold analyze_dir.
  destruct (race_dir F sip (ta_fresh mn mx size lsize) (ta_text_line nt) [] ps texts H W) as (I1 & I2). split.
  - destruct I1 as [->| ->]; [left|right]; reflexivity.
  - intros X. rewrite (I2 X). reflexivity.
Qed.
End Files.
Section Words.
Context {S : scalar} (nt : numtext S).
Hypothesis F : faithful nt.
Lemma ind_command_exists (p : ind_settings S) : ind_writable p -> exists ws, ind_command nt p ws.
Proof.
  intros W. pose proof (ind_survive nt p W) as H. destruct H as (A1 & A2 & A3 & A4 & A5 & _). 
  destruct A1 as (_ & _ & A1). destruct A2 as (_ & A2). destruct A3 as (_ & A3).
  destruct (words_exist nt F (a_vars (circ_spec nt)) (i_size p, (i_dim p, tt)) A1) as (b1 & H1).
  destruct (words_exist nt F (a_vars (bulk_spec nt)) (i_target p, (i_tsize p, tt)) A2) as (b2 & H2).
  destruct (words_exist nt F (a_vars (indep_spec nt)) (i_move p, (i_init p, (i_agents p, tt))) A3) as (b3 & H3).
  destruct (words_exist nt F (a_vars (const_spec nt)) (i_clock_part nt p) A4) as (b4 & H4).
  destruct (words_exist nt F (a_vars varsim_spec) (i_sim_part p) A5) as (b5 & H5).
  exists (b1 ++ b2 ++ b3 ++ b4 ++ b5), b1, b2, b3, b4, b5. auto 10.
Qed.
End Words.
