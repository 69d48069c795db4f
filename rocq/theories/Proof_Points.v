(** Proofs about the sampling tests. *)
From Coq Require Import Reals ZArith List String Ascii Lia Lra.
From Verif Require Import Base Scalar Model_Position Spec_Position Proof_Position Model_System Spec_System Proof_System Proof_System2 Proof_System3 Proof_System10 Proof_Agent Model_Text Spec_Text Proof_Text Model_Args Spec_Args Proof_Args Model_Points Spec_Points Proof_Run14.
Import ListNotations.
Local Notation length := List.length.
Local Open Scope string_scope.

Section Files.
Context {S : scalar} {G : rng S}.
Variable nt : numtext S.
Notation gen := (rstate G).

Lemma line_ok (p : pos S) : length p = 2%nat -> exists l, written_point (n_show nt) p l /\ point_line nt p = Ok (l ++ newline).
Proof.
  destruct p as [|x [|y [|z p]]]; try discriminate. intros _. exists (n_show nt x ++ tab ++ n_show nt y). split; [exists x, y; split; reflexivity|].
  unfold point_line. cbn [idx nth_error bind]. now rewrite !app_s_assoc.
Qed.
Lemma file_nil : point_file (n_show nt) [] "".
Proof. exists []. split; [constructor|reflexivity]. Qed.
Lemma file_cons p l ps t : written_point (n_show nt) p l -> point_file (n_show nt) ps t -> point_file (n_show nt) (p :: ps) (l ++ newline ++ t).
Proof. intros W (ls & F & ->). exists (l :: ls). split; [now constructor|reflexivity]. Qed.

(** A loop whose points are those of [pt] and whose generator goes through [nx]. *)
Lemma dump_new_ok (Q : pos S -> Prop) (sample : gen -> outcome (pos S * gen)) :
  (forall g, sample g = Fuel \/ exists p g1, sample g = Ok (p, g1) /\ length p = 2%nat /\ Q p) ->
  forall n g, exists ps, point_file (n_show nt) ps (fst (dump_new nt sample n g)) /\ Forall Q ps /\
    ((length ps = n /\ exists g', snd (dump_new nt sample n g) = Ok g') \/ ((length ps < n)%nat /\ snd (dump_new nt sample n g) = Fuel)).
Proof.
  intros H. induction n as [|n IH]; intros g; cbn [dump_new].
  - exists []. split; [exact file_nil|]. split; [constructor|]. left. split; [reflexivity|]. now exists g.
  - destruct (H g) as [->|(p & g1 & -> & L & Qp)].
    + exists []. split; [exact file_nil|]. split; [constructor|]. right. cbn [length fst snd]. split; [lia|reflexivity].
    + destruct (line_ok p L) as (l & W & ->). destruct (IH g1) as (ps & F & Fq & O). destruct (dump_new nt sample n g1) as [t o]. cbn [fst snd] in *.
      exists (p :: ps). split; [rewrite app_s_assoc; now apply file_cons|]. split; [now constructor|]. cbn [length]. destruct O as [(E & O)|(E & O)]; [left|right]; (split; [lia|exact O]).
Qed.
Lemma dump_to_ok (Q : pos S -> Prop) (sample : gen -> pos S -> pos S * gen * outcome unit) :
  (forall g v, length v = 2%nat -> snd (sample g v) = Fuel \/ exists p g1, sample g v = (p, g1, Ok tt) /\ length p = 2%nat /\ Q p) ->
  forall n v g, length v = 2%nat -> exists ps, point_file (n_show nt) ps (fst (dump_to nt sample n v g)) /\ Forall Q ps /\
    ((length ps = n /\ exists g', snd (dump_to nt sample n v g) = Ok g') \/ ((length ps < n)%nat /\ snd (dump_to nt sample n v g) = Fuel)).
Proof.
  intros H. induction n as [|n IH]; intros v g Lv; cbn [dump_to].
  - exists []. split; [exact file_nil|]. split; [constructor|]. left. split; [reflexivity|]. now exists g.
  - destruct (H g v Lv) as [E|(p & g1 & -> & L & Qp)].
    + destruct (sample g v) as [[p g1] r]. cbn [snd] in E. subst r. exists []. split; [exact file_nil|]. split; [constructor|]. right. cbn [length fst snd]. split; [lia|reflexivity].
    + destruct (line_ok p L) as (l & W & ->). destruct (IH p g1 L) as (ps & F & Fq & O). destruct (dump_to nt sample n p g1) as [t o]. cbn [fst snd] in *.
      exists (p :: ps). split; [rewrite app_s_assoc; now apply file_cons|]. split; [now constructor|]. cbn [length]. destruct O as [(E & O)|(E & O)]; [left|right]; (split; [lia|exact O]).
Qed.
(** Two loops that sample alike write alike. *)
Lemma dump_alike (snew : gen -> outcome (pos S * gen)) (sto : gen -> pos S -> pos S * gen * outcome unit) :
  (forall g v, length v = 2%nat -> (snew g = Fuel /\ snd (sto g v) = Fuel) \/ exists p g1, length p = 2%nat /\ snew g = Ok (p, g1) /\ sto g v = (p, g1, Ok tt)) ->
  forall n v g, length v = 2%nat -> dump_to nt sto n v g = dump_new nt snew n g.
Proof.
  intros H. induction n as [|n IH]; intros v g Lv; cbn [dump_to dump_new]; [reflexivity|].
  destruct (H g v Lv) as [(E1 & E2)|(p & g1 & L & E1 & E2)].
  - rewrite E1. destruct (sto g v) as [[p g1] r]. cbn [snd] in E2. now subst r.
  - rewrite E1, E2. destruct (line_ok p L) as (l & _ & ->). now rewrite (IH p g1 L).
Qed.

Lemma blocks_file (draw : gen -> S * gen) : forall n g, exists t, point_file (n_show nt) (map (fun k => nth_block draw 2 k g) (seq 0 n)) t /\
  dump_new nt (fun h => Ok (draws draw 2 h)) n g = (t, Ok (after_blocks draw 2 n g)).
Proof.
  induction n as [|n IH]; intros g; [exists ""; split; [exact file_nil|reflexivity]|]. cbn [dump_new].
  destruct (draws draw 2 g) as [p g1] eqn:E. assert (L : length p = 2%nat) by (pose proof (draws_length draw 2 g) as X; rewrite E in X; exact X).
  destruct (line_ok p L) as (l & W & ->). destruct (IH g1) as (t & F & ->). exists (l ++ newline ++ t). split.
  - cbn [seq map]. replace (nth_block draw 2 0 g) with p by (unfold nth_block; cbn [after_blocks]; now rewrite E). apply file_cons; [exact W|].
    rewrite <- seq_shift, map_map. replace (map (fun k => nth_block draw 2 (Datatypes.S k) g) (seq 0 n)) with (map (fun k => nth_block draw 2 k g1) (seq 0 n)); [exact F|].
    apply map_ext. intros k. unfold nth_block. cbn [after_blocks]. now rewrite E.
  - cbn [after_blocks]. rewrite E. cbn [snd]. now rewrite app_s_assoc.
Qed.
Lemma dump_new_ext (s1 s2 : gen -> outcome (pos S * gen)) : (forall g, s1 g = s2 g) -> forall n g, dump_new nt s1 n g = dump_new nt s2 n g.
Proof.
  intros H. induction n as [|n IH]; intros g; [reflexivity|]. cbn [dump_new]. rewrite H. destruct (s2 g) as [[p g1]| | |]; try reflexivity. destruct (point_line nt p); try reflexivity. now rewrite IH.
Qed.
Lemma origin_len : length (origin2 (S := S)) = 2%nat. Proof. reflexivity. Qed.
Lemma vec_files n (g : gen) :
  (exists t, point_file (n_show nt) (map (fun k => nth_block (unif G) 2 k g) (seq 0 n)) t /\
     uniform_file nt n g = (t, Ok (after_blocks (unif G) 2 n g)) /\ uniform_to_file nt n g = (t, Ok (after_blocks (unif G) 2 n g))) /\
  (exists t, point_file (n_show nt) (map (fun k => nth_block (gauss G) 2 k g) (seq 0 n)) t /\
     gaussian_file nt n g = (t, Ok (after_blocks (gauss G) 2 n g)) /\ gaussian_to_file nt n g = (t, Ok (after_blocks (gauss G) 2 n g))).
Proof.
  split.
  - destruct (blocks_file (unif G) n g) as (t & F & E). exists t. split; [exact F|].
    assert (U : uniform_file nt n g = (t, Ok (after_blocks (unif G) 2 n g))).
    { unfold uniform_file. rewrite <- E. apply dump_new_ext. intros h. now rewrite uniform_vec_draws. }
    split; [exact U|]. rewrite <- U. unfold uniform_to_file, uniform_file. apply dump_alike; [|exact origin_len]. intros h v Lv. right.
    destruct (vec_draws h 2 v s0 s0 s0 s0) as (V1 & _ & V3 & _). rewrite V1, V3, Lv. destruct (draws (unif G) 2 h) as [p h1] eqn:D. exists p, h1. split; [|split; reflexivity].
    pose proof (draws_length (unif G) 2 h) as X. rewrite D in X. exact X.
  - destruct (blocks_file (gauss G) n g) as (t & F & E). exists t. split; [exact F|].
    assert (U : gaussian_file nt n g = (t, Ok (after_blocks (gauss G) 2 n g))).
    { unfold gaussian_file. rewrite <- E. apply dump_new_ext. intros h. destruct (vec_draws h 2 [] s0 s0 s0 s0) as (_ & V2 & _). now rewrite V2. }
    split; [exact U|]. rewrite <- U. unfold gaussian_to_file, gaussian_file. apply dump_alike; [|exact origin_len]. intros h v Lv. right.
    destruct (vec_draws h 2 v s0 s0 s0 s0) as (_ & V2 & _ & V4 & _). rewrite V2, V4, Lv. destruct (draws (gauss G) 2 h) as [p h1] eqn:D. exists p, h1. split; [|split; reflexivity].
    pose proof (draws_length (gauss G) 2 h) as X. rewrite D in X. exact X.
Qed.

(** The disc. *)
Lemma disc_new_cases fuel (sys : circ S) (g : gen) : ci_dim sys = 2%nat ->
  circ_random_pos fuel sys g = Fuel \/ exists p g1, circ_random_pos fuel sys g = Ok (p, g1) /\ length p = 2%nat /\ circ_inclusion sys p = Ok true.
Proof.
  intros D. destruct (circ_random_result fuel sys g) as [(H & _)|(k & _ & H)]; [now left|right]. cbv zeta in H. destruct H as (H & I).
  eexists _, _. split; [exact H|]. assert (L : length (shifted (mul s2 (ci_size sys)) (fst (draws (unif G) (ci_dim sys) (after_blocks (unif G) (ci_dim sys) k g)))) = 2%nat).
  { unfold shifted. rewrite map_length, draws_length. exact D. }
  split; [exact L|]. rewrite circ_inclusion_eq by (rewrite L; now symmetry). cbv zeta. now rewrite I.
Qed.
Lemma disc_to_cases fuel (sys : circ S) (g : gen) v : ci_dim sys = 2%nat -> length v = 2%nat ->
  snd (circ_random_to fuel sys g v) = Fuel \/ exists p g1, circ_random_to fuel sys g v = (p, g1, Ok tt) /\ length p = 2%nat /\ circ_inclusion sys p = Ok true.
Proof.
  intros D Lv. assert (E : circ_random_to fuel sys g v = circ_random_loop fuel sys g v).
  { unfold circ_random_to, dim. rewrite Lv, D. reflexivity. }
  rewrite E. assert (Lv' : length v = ci_dim sys) by congruence. destruct (circ_random_to_result fuel sys g v Lv') as [(H & _)|(k & _ & H)]; [now left|right]. cbv zeta in H. destruct H as (H & I).
  eexists _, _. split; [exact H|]. assert (L : length (spread (ci_size sys) (fst (draws (unif G) (ci_dim sys) (after_blocks (unif G) (ci_dim sys) k g)))) = 2%nat).
  { unfold spread. rewrite map_length, draws_length. exact D. }
  split; [exact L|]. rewrite circ_inclusion_eq by (rewrite L; now symmetry). cbv zeta. now rewrite I.
Qed.
Lemma disc_files fuel (sys : circ S) n (g : gen) (file : string * outcome gen) : ci_dim sys = 2%nat -> file = disc_file nt fuel sys n g \/ file = disc_to_file nt fuel sys n g ->
  exists ps, point_file (n_show nt) ps (fst file) /\ Forall (fun p => circ_inclusion sys p = Ok true) ps /\
    ((length ps = n /\ exists g', snd file = Ok g') \/ ((length ps < n)%nat /\ snd file = Fuel)).
Proof.
  intros D [->| ->].
  - apply (dump_new_ok (fun p => circ_inclusion sys p = Ok true)). intros h. now apply disc_new_cases.
  - apply (dump_to_ok (fun p => circ_inclusion sys p = Ok true)); [|exact origin_len]. intros h v Lv. now apply disc_to_cases.
Qed.

(** Reading. *)
Lemma number_word_chars w d : (d = 9 \/ d = 10 \/ d = 13)%nat -> number_word w -> without (ascii_of_nat d) w.
Proof.
  intros Hd (_ & A). unfold without. induction w as [|c w IH]; [exact I|]. destruct A as (C & A). split; [|now apply IH].
  intros ->. unfold number_char in C. destruct Hd as [->|[->| ->]]; cbn in C; lia.
Qed.
Lemma without_app d a b : without d a -> without d b -> without d (a ++ b).
Proof. unfold without. induction a as [|c a IH]; intros A B; [exact B|]. destruct A. split; [assumption|now apply IH]. Qed.
Lemma read_points (ps : list (pos S)) t : faithful nt -> point_file (n_show nt) ps t ->
  map (fun l => map (n_parse nt) (split_on (is_char (ascii_of_nat 9)) l)) (text_lines t) = map (map Some) ps.
Proof.
  intros Fa (ls & F & ->). induction F as [|p l ps ls (x & y & -> & ->) _ IH]; [reflexivity|]. cbn [text_of fold_right].
  destruct (Fa x) as (Rx & Wx & _), (Fa y) as (Ry & Wy & _).
  change (String (ascii_of_nat 10) "") with newline. fold (text_of ls).
  rewrite text_lines_cons. 2,3: (apply without_app; [apply number_word_chars; [tauto|exact Wx]|]; split; [intros X; vm_compute in X; discriminate X|]; apply number_word_chars; [tauto|exact Wy]).
  cbn [map]. f_equal; [|exact IH].
  assert (Sp : split_on (is_char (ascii_of_nat 9)) (n_show nt x ++ String (ascii_of_nat 9) "" ++ n_show nt y) = [n_show nt x; n_show nt y]).
  { assert (A : forall z, number_word z -> all_chars (fun c => is_char (ascii_of_nat 9) c = false) z).
    { intros z (_ & C). induction z as [|c z IHz]; [exact I|]. destruct C as (C & C'). split; [|now apply IHz]. unfold is_char. apply Ascii.eqb_neq. intros E. rewrite E in C || rewrite <- E in C. unfold number_char in C. cbn in C. lia. }
    rewrite (split_app _ _ _ "" [n_show nt y] (A _ Wx)); [now rewrite app_s_nil|]. cbn [append]. 
    pose proof (split_none _ _ (A _ Wy)) as Y. cbn [split_on]. rewrite Y. reflexivity. }
  rewrite Sp. cbn [map]. unfold round_trips in Rx, Ry. now rewrite Rx, Ry.
Qed.
End Files.

Section Exact.
Context {G : rng RR}.
Variable nt : numtext RR.
Lemma disc_same fuel (sys : circ RR) n (g : rstate G) : built_circ sys -> ci_dim sys = 2%nat -> disc_to_file nt fuel sys n g = disc_file nt fuel sys n g.
Proof.
  intros B D. unfold disc_to_file, disc_file. apply dump_alike; [|reflexivity]. intros h v Lv.
  assert (Lv' : List.length (v : list R) = ci_dim sys) by (rewrite D; exact Lv).
  destruct (circ_random_exact fuel sys h B) as [(k & K & E)|(N & E)]; destruct (circ_random_to_exact fuel sys h v B Lv') as [(j & J & F)|(M & F)].
  - right. assert (j = k) as ->.
    { destruct K as (_ & K1 & K2), J as (_ & J1 & J2). destruct (lt_eq_lt_dec j k) as [[X|X]|X]; [exfalso; exact (K2 j X J1)|exact X|exfalso; exact (J2 k X K1)]. }
    eexists _, _. split; [|split; [exact E|exact F]]. refine (eq_trans (map_length _ _) _). unfold nth_block. exact (eq_trans (draws_length (unif G) (ci_dim sys) _) D).
  - exfalso. destruct K as (K0 & K1 & _). exact (M k K0 K1).
  - exfalso. destruct J as (J0 & J1 & _). exact (N j J0 J1).
  - left. split; [exact E|exact F].
Qed.
End Exact.

Lemma bounds_cut (a b : R) n : (0 < n)%nat -> cuts a b n (bin_bounds (S := RR) a b n).
Proof.
  intros N. assert (N0 : (INR n <> 0)%R) by (apply not_0_INR; lia). unfold bin_bounds, cuts. split.
  { rewrite app_length, map_length, seq_length. cbn. lia. }
  intros k K. destruct (Nat.eq_dec k n) as [->|H].
  - rewrite app_nth2 by (rewrite map_length, seq_length; lia). rewrite map_length, seq_length, Nat.sub_diag. cbn [nth]. field. exact N0.
  - rewrite app_nth1 by (rewrite map_length, seq_length; lia).
    set (f := fun i : nat => (IZR (Z.of_nat i) / IZR (Z.of_nat n) * (b - a) + a)%R).
    change (nth k (map f (seq 0 n)) 0 = a + INR k * ((b - a) / INR n))%R.
    rewrite (nth_indep (map f (seq 0 n)) 0%R (f 0%nat)) by (rewrite map_length, seq_length; lia). rewrite map_nth, seq_nth by lia. unfold f. cbn [Nat.add]. rewrite <- !INR_IZR_INZ. field. exact N0.
Qed.
Lemma some_bin (a b x : R) n bs : (0 < n)%nat -> cuts a b n bs -> (a <= x <= b)%R -> exists k, (k < n)%nat /\ (nth k bs 0 <= x <= nth (Datatypes.S k) bs 0)%R.
Proof.
  intros N (L & C) X.
  assert (H : forall j, (j <= n)%nat -> (x <= nth j bs 0)%R -> (0 < j)%nat -> exists k, (k < n)%nat /\ (nth k bs 0 <= x <= nth (Datatypes.S k) bs 0)%R).
  { induction j as [|j IH]; intros J Xj J0; [lia|]. destruct (Rle_lt_dec (nth j bs 0%R) x) as [Y|Y]; [exists j; split; [lia|lra]|].
    destruct j as [|j]; [|apply IH; [lia|lra|lia]]. exfalso. rewrite (C 0%nat) in Y by lia. cbn [INR] in Y. lra. }
  apply (H n); [lia| |exact N]. rewrite C by lia. assert (N0 : (INR n <> 0)%R) by (apply not_0_INR; lia).
  replace (a + INR n * ((b - a) / INR n))%R with b by (field; exact N0). lra.
Qed.
Lemma clamped_R (a b x : R) n : (0 < n)%nat -> (1 / 2 < b - a)%R ->
  let y := clamped (S := RR) a b n x in let w := ((b - a) / INR n)%R in
  ((a <= x <= b)%R -> y = x) /\ ((x < a)%R -> (a <= y < a + w)%R) /\ ((b < x)%R -> (b - w < y <= b)%R).
Proof.
  intros N W. cbv zeta. unfold clamped. change (@Scalar.ltb RR) with Rltb. change (@lit RR 1 2) with (1 / 2)%R.
  assert (E : of_Z (s := RR) (Z.of_nat n) = INR n) by (change (IZR (Z.of_nat n) = INR n); symmetry; apply INR_IZR_INZ). rewrite E.
  change (@Scalar.div RR) with Rdiv. change (@Scalar.add RR) with Rplus. change (@Scalar.sub RR) with Rminus.
  assert (N0 : (0 < INR n)%R) by (apply lt_0_INR; lia).
  assert (H1 : (0 < 1 / 2 / INR n)%R) by (apply Rdiv_lt_0_compat; lra).
  assert (H2 : (1 / 2 / INR n < (b - a) / INR n)%R) by (unfold Rdiv at 1 3; apply Rmult_lt_compat_r; [now apply Rinv_0_lt_compat|lra]).
  unfold Rltb. destruct (Rlt_dec x a), (Rlt_dec b x); repeat split; intros; lra.
Qed.
Lemma uniform_all {S : scalar} {G : rng S} m : forall g : rstate G, uniform_data m g = draws (unif G) m g.
Proof. induction m as [|m IH]; intros g; [reflexivity|]. cbn [uniform_data draws]. unfold get_uniform. destruct (unif G g) as [x g1]. rewrite IH. reflexivity. Qed.
Lemma gaussian_all {S : scalar} {G : rng S} (mn mx : S) n m : forall g : rstate G, gaussian_data mn mx n m g = (map (clamped mn mx n) (fst (draws (gauss G) m g)), snd (draws (gauss G) m g)).
Proof. induction m as [|m IH]; intros g; [reflexivity|]. cbn [gaussian_data draws]. unfold get_gaussian. destruct (gauss G g) as [x g1]. rewrite IH. destruct (draws (gauss G) m g1). reflexivity. Qed.
