(** The meaning of a value of tests/arguments.rs determines it; which runs are averaged together. *)
From Coq Require Import String Ascii NArith List Lia Arith ZArith Reals Lra.
From Flocq Require Import Core IEEE754.BinarySingleNaN.
From Verif Require Import Base Scalar Float64 Model_Position Spec_Position Model_System Spec_System Model_Agent Spec_Agent
  Model_LinkedList Model_Time Model_Text Spec_Text Proof_Text Model_Args Spec_Args Proof_Args Proof_Args2 Proof_Args3 Model_Analysis Spec_Analysis
  Proof_Analysis3 Proof_Analysis9 Proof_Analysis11
  Model_Run Spec_Run Spec_Search Model_Program Spec_Program Proof_Program Proof_Program6 Model_Program3 Spec_Program3 Spec_Disk Proof_Race2 Proof_Crowd2 Proof_Crowd3.
Import ListNotations.
Local Open Scope nat_scope.
Local Open Scope list_scope.
Local Notation length := List.length.

Section U.
Context {S : scalar} {G : rng S}.
Notation gen := (rstate G).
Lemma sampled_same {X : Type} (sample : gen -> gen * outcome X) g xs g1 : sampled sample g xs g1 -> forall ys g2, sampled sample g ys g2 -> length xs = length ys -> xs = ys /\ g1 = g2.
Proof.
  induction 1 as [g|g g1 g' x xs E H IH]; intros ys g2 H2 L.
  - destruct H2; [auto|discriminate L].
  - destruct H2 as [|h h1 h' y ys E2 H2]; [discriminate L|]. cbn [List.length] in L. injection L as L. assert (X1 : h1 = g1) by congruence. assert (X2 : y = x) by congruence. subst.
    destruct (IH _ _ H2 L) as [-> ->]. auto.
Qed.
Lemma in_order_same {X : Type} (Rl : gen -> X -> gen -> Prop) : (forall g x g1 y g2, Rl g x g1 -> Rl g y g2 -> x = y /\ g1 = g2) ->
  forall g xs g1, in_order Rl g xs g1 -> forall ys g2, in_order Rl g ys g2 -> length xs <= length ys -> xs = firstn (length xs) ys.
Proof.
  intros U g xs g1 H. induction H as [g|g g1 x xs g' E H IH]; intros ys g2 H2 L; [reflexivity|].
  destruct H2 as [|h h1 y ys h' E2 H2]; [cbn in L; lia|]. destruct (U _ _ _ _ _ E E2) as [<- <-]. cbn [List.length firstn]. f_equal. apply (IH ys _ H2). cbn [List.length] in L. lia.
Qed.

Section Steps.
Context (bc : pos S -> pos S -> pos S * outcome unit) (tg : target S) (c dt : S) (n : nat) (ps : list (pos S)) (g : gen).
Lemma at_same i s q q' : crowd_at bc c dt n ps g i s q -> crowd_at bc c dt n ps g i s q' -> q = q'.
Proof. intros (p & E & T) (p' & E' & T'). congruence. Qed.
Lemma found_not_off s i s' i' : crowd_found bc tg c dt n ps g s i -> crowd_off bc tg c dt n ps g s' i' -> s * length ps + i < s' * length ps + i' -> False.
Proof.
  intros (Hi & _ & q & A & E) O L. destruct (O s i Hi L) as (q' & A' & E'). rewrite (at_same _ _ _ _ A' A) in E'. congruence.
Qed.
Lemma found_same s i s' i' : crowd_found bc tg c dt n ps g s i -> crowd_found bc tg c dt n ps g s' i' -> s = s' /\ i = i'.
Proof.
  intros F1 F2. pose proof F1 as (Hi & O1 & _). pose proof F2 as (Hi' & O2 & _).
  destruct (Nat.lt_trichotomy (s * length ps + i) (s' * length ps + i')) as [L|[L|L]]; [destruct (found_not_off _ _ _ _ F1 O2 L)| |destruct (found_not_off _ _ _ _ F2 O1 L)].
  apply (Nat.div_mod_unique (length ps)); lia.
Qed.
End Steps.

Context (inner pf : nat) (p : ind_settings S) (c : S).
Notation value := (crowd_value (G := G) inner pf p c).
Lemma crowd_value_same g t g' u g'' : value g t g' -> value g u g'' -> t = u /\ g' = g''.
Proof.
  intros (ps & g1 & Sm & L & C) (ps' & g1' & Sm' & L' & C'). destruct (sampled_same _ _ _ _ Sm _ _ Sm' ltac:(congruence)) as [<- <-].
  destruct C as [(s & i & Fd & T & -> & ->)|(s & O & T & N & -> & ->)]; destruct C' as [(s' & i' & Fd' & T' & -> & ->)|(s' & O' & T' & N' & -> & ->)].
  - destruct (found_same _ _ _ _ _ _ _ _ _ _ _ Fd Fd') as [-> ->]. auto.
  - exfalso. assert (s < s'). { apply Nat.nle_gt. intros H. rewrite (T s' H) in N'. discriminate. }
    apply (found_not_off _ _ _ _ _ _ _ _ _ _ _ Fd O'). destruct Fd as (Hi & _). nia.
  - exfalso. assert (s' < s). { apply Nat.nle_gt. intros H. rewrite (T' s H) in N. discriminate. }
    apply (found_not_off _ _ _ _ _ _ _ _ _ _ _ Fd' O). destruct Fd' as (Hi & _). nia.
  - assert (s = s') as ->; [|auto]. destruct (Nat.lt_trichotomy s s') as [H|[H|H]]; auto; exfalso.
    + specialize (T' s H s (le_n s)). congruence.
    + specialize (T s' H s' (le_n s')). congruence.
Qed.
Lemma crowd_first_step g t g' ps g1 i : value g t g' -> sampled (new_place inner pf p c) g ps g1 -> length ps = i_agents p ->
  crowd_found (sc_check_bc (circ_core (G := G) (i_system p))) (i_the_target p) c (i_dt p) (i_dim p) ps g1 0 i -> t = s0.
Proof.
  intros (ps' & g1' & Sm' & L' & C') Sm L Fd. destruct (sampled_same _ _ _ _ Sm _ _ Sm' ltac:(congruence)) as [<- <-].
  destruct C' as [(s' & i' & Fd' & T' & -> & _)|(s' & _ & _ & _ & -> & _)]; [|reflexivity]. destruct (found_same _ _ _ _ _ _ _ _ _ _ _ Fd Fd') as [<- <-]. reflexivity.
Qed.
Lemma crowd_nobody g t g' : i_agents p = 0 -> value g t g' -> t = s0.
Proof.
  intros N (ps & g1 & _ & L & [(s & i & (Hi & _) & _)|(s & _ & _ & _ & -> & _)]); [|reflexivity]. lia.
Qed.
End U.

(** ** Data sets *)
Section Idx.
Variable lm : libm.
Lemma idx_keys (sip : list Z -> Z) (us vs : list b64) (i j : nat) : i < j -> (Z.of_nat j <= 900000)%Z -> length us = length vs ->
  let a := (us ++ [b64_of_Z (Z.of_nat i)])%list in let b := (vs ++ [b64_of_Z (Z.of_nat j)])%list in
  (sip (keys (S := F64 lm) a) = sip (keys (S := F64 lm) b) -> keys (S := F64 lm) a = keys (S := F64 lm) b) -> same_dataset (S := F64 lm) sip a b = false.
Proof.
  intros Hij Hj L a b Inj. apply Bool.not_true_is_false. intros E. unfold same_dataset in E. apply Z.eqb_eq in E. apply Inj in E. unfold keys, a, b in E. rewrite !map_app in E.
  apply app_inj_tail in E as [_ E].
  assert (Bd : forall k, (Z.of_nat k <= 900000)%Z -> (Z.abs (Z.of_nat k) <= 2 ^ 53)%Z) by (intros k Hk; change (2 ^ 53)%Z with 9007199254740992%Z; lia).
  destruct (of_Z_exact (Z.of_nat i) (Bd i ltac:(lia))) as [F1 V1]. destruct (of_Z_exact (Z.of_nat j) (Bd j Hj)) as [F2 V2].
  pose proof (key_apart lm (b64_of_Z (Z.of_nat i)) (b64_of_Z (Z.of_nat j))) as K.
  assert (P10 : (10 ^ 10 = 10000000000)%R) by (rewrite pow_IZR; reflexivity).
  assert (Z0 : (0 <= IZR (Z.of_nat i))%R) by (apply IZR_le; lia). assert (Z1 : (IZR (Z.of_nat i) + 1 <= IZR (Z.of_nat j))%R) by (rewrite <- plus_IZR; apply IZR_le; lia).
  assert (Z2 : (IZR (Z.of_nat j) <= 900000)%R) by (apply IZR_le; lia).
  assert (X : (field_key (S := F64 lm) (b64_of_Z (Z.of_nat i)) < field_key (S := F64 lm) (b64_of_Z (Z.of_nat j)))%Z).
  { apply K; auto.
    - rewrite V1. exact Z0.
    - rewrite V2, P10. apply Rle_trans with (900000 * 10000000000)%R; [lra|]. rewrite <- mult_IZR. apply IZR_le. vm_compute. discriminate.
    - rewrite V1, V2, P10. lra. }
  rewrite E in X. exact (Z.lt_irrefl _ X).
Qed.
Lemma idx_apart (nt : numtext (car (F64 lm))) sip (p q : ind_settings (F64 lm)) : i_idx p < i_idx q -> (Z.of_nat (i_idx q) <= 900000)%Z ->
  let a := ind_values nt (ind_part nt p) in let b := ind_values nt (ind_part nt q) in
  (sip (keys (S := F64 lm) a) = sip (keys (S := F64 lm) b) -> keys (S := F64 lm) a = keys (S := F64 lm) b) -> same_dataset (S := F64 lm) sip a b = false.
Proof.
  intros Ha Hb. exact (idx_keys sip [i_size p; b64_of_Z (Z.of_nat (i_dim p)); i_tsize p; b64_of_Z (Z.of_nat (i_agents p)); i_dt p] [i_size q; b64_of_Z (Z.of_nat (i_dim q)); i_tsize q; b64_of_Z (Z.of_nat (i_agents q)); i_dt q]
    (i_idx p) (i_idx q) Ha Hb eq_refl).
Qed.
End Idx.

(** ** The analysis of such files succeeds *)
Section Succeeds.
Context {S : scalar} (nt : numtext S) (r : S -> S).
Lemma ind_analysis_succeeds show_e sip prefix dir req mn mx size lsize (a0 : tana S) files texts : faithful nt -> rereads nt r ->
  bin_sizes req = Ok (mn, mx, size, lsize) -> ta_fresh mn mx size lsize = Ok a0 -> (forall xs, exists a, ta_adds a0 xs = Ok a) ->
  Forall2 (directory_file nt (ind_structs nt) no_sim ind_width (number_line nt)) files texts ->
  exists out, ind_analyze nt show_e sip prefix dir req texts = Ok out.
Proof.
  intros F RR B Fr T H. unfold ind_analyze, ind_groups. rewrite B. cbn [bind]. unfold analyze_dir.
  destruct (read_total nt r (ind_structs nt) no_sim ind_width (ind_values nt) sip F RR mn mx size lsize a0 Fr T files texts (ind_all_known nt) H []) as (m & Em & Rm); [constructor|].
  rewrite Em. cbn [bind]. destruct (draw_total (ind_structs nt) mn mx size lsize a0 Fr m Rm) as (gs & Eg & Sg). rewrite Eg. cbn [bind]. unfold result_files. rewrite map_map. cbn [fst snd].
  assert (X : exists fs, group_files show_e ind_width dir (map (fun g => (ind_file nt prefix (fst g), snd g)) gs) = Ok fs).
  { clear -Sg. induction Sg as [|[v a] gs Ha _ (fs & E)]; [eexists; reflexivity|]. cbn [map group_files fst snd]. destruct (shape_exports _ _ Ha) as [(l1 & E1) (l2 & E2)]. cbn [snd] in E1, E2. rewrite E1. cbn [bind]. rewrite E2. cbn [bind]. rewrite E. cbn [bind]. eauto. }
  destruct X as (fs & Ef). rewrite Ef. cbn [bind]. eauto.
Qed.
End Succeeds.

(** ** The call of an analysis *)
Section Call.
Context {S : scalar} {G : rng S} (nt : numtext S) (as_u128 : S -> N) (rng_seed : N -> rstate G).
Lemma words_read ws req dir : analysis_words nt ws req dir -> analyze_args nt ws = Ok (req, dir).
Proof.
  intros H. destruct H as [w1 w2 w3 dir mn mx n E1 E2 E3|w1 w2 w3 w4 dir mn mx b lb E1 E2 E3 E4]; unfold analyze_args; cbn [List.length idx nth_error bind]; rewrite ?E1, ?E2, ?E3, ?E4; cbn [expect bind];
      rewrite ?E1, ?E2, ?E3, ?E4; cbn [expect bind]; rewrite ?E1, ?E2, ?E3, ?E4; cbn [expect bind]; reflexivity.
Qed.
Lemma crowd_main_analyzes ws req dir prog inner pf fuel show_e sip texts summary : analysis_words nt ws req dir ->
  crowd_main nt as_u128 rng_seed inner pf fuel show_e sip texts summary (prog :: ws) =
    match ind_analyze nt show_e sip crowd_analysis_prefix (summary dir) req (texts dir) with
    | Ok fs => (fs, Ok tt) | Err e => ([], Err e) | Panic => ([], Panic) | Fuel => ([], Fuel)
    end.
Proof.
  intros H. unfold crowd_main. assert (L : length ws = 4 \/ length ws = 5) by (destruct H; [left|right]; reflexivity).
  rewrite (setup_analyze false 1 analysis_num_args (ind_structs nt) (prog :: ws)); [|cbn; lia|cbn [List.length]; unfold analysis_num_args; lia].
  change (skipn 1 (prog :: ws)) with ws. rewrite (words_read _ _ _ H). reflexivity.
Qed.
Lemma race_main_analyzes ws req dir inner pf fuel show_e sip texts summary : analysis_words nt ws req dir ->
  race_main nt as_u128 rng_seed inner pf fuel show_e sip texts summary ws =
    match ind_analyze nt show_e sip race_prefix (summary dir) req (texts dir) with
    | Ok fs => (fs, Ok tt) | Err e => ([], Err e) | Panic => ([], Panic) | Fuel => ([], Fuel)
    end.
Proof.
  intros H. unfold race_main. assert (L : length ws = 4 \/ length ws = 5) by (destruct H; [left|right]; reflexivity).
  rewrite (setup_analyze true 0 analysis_num_args (ind_structs nt) ws); [|cbn; lia|unfold analysis_num_args; lia].
  rewrite (words_read _ _ _ H). reflexivity.
Qed.
End Call.
