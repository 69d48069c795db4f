(** Multi-column analyses refine single-variable analyses column by column. *)
From Coq Require Import ZArith List Bool Lia Permutation.
From Verif Require Import Base Scalar Model_Analysis Spec_Analysis Proof_Analysis.
Import ListNotations.

Section Vec.
Context {S : scalar}.
Implicit Types (b : bins S) (a : tvec S).

Lemma upd_nth_error {A} i (f : A -> A) l l' : upd i f l = Ok l' ->
  (forall j, j <> i -> nth_error l' j = nth_error l j) /\ nth_error l' i = option_map f (nth_error l i).
Proof. revert i l'. induction l as [|y l IH]; intros [|i] l'; cbn; intros H; try discriminate.
  - injection H as <-. split; [|reflexivity]. intros [|j] Hj; [congruence|reflexivity].
  - destruct (upd i f l) eqn:E; try discriminate. injection H as <-. destruct (IH _ _ E) as [H1 H2]. split; [|exact H2].
    intros [|j] Hj; [reflexivity|]. cbn. apply H1. lia. Qed.
Lemma idx_ok {A} (l : list A) i x : idx l i = Ok x <-> nth_error l i = Some x.
Proof. unfold idx. destruct (nth_error l i); split; intros H; try discriminate; congruence. Qed.

Definition st4 : Type := (list S * list S * list (list nat) * list (list nat))%type.
Lemma tv_loop_step b i x xs m q c lc st' : tv_loop b i (x :: xs) (m, q, c, lc) = Ok st' ->
  exists m1 q1 c1 lc1 ci ci' li li',
    upd i (fun y => y + x)%S m = Ok m1 /\ upd i (fun y => y + x * x)%S q = Ok q1 /\
    nth_error c i = Some ci /\ bump (bin_pos b x) Datatypes.S ci = Ok ci' /\ upd i (fun _ => ci') c = Ok c1 /\
    nth_error lc i = Some li /\ bump (lbin_pos b x) Datatypes.S li = Ok li' /\ upd i (fun _ => li') lc = Ok lc1 /\
    tv_loop b (Datatypes.S i) xs (m1, q1, c1, lc1) = Ok st'.
Proof. cbn [tv_loop]. intros H.
  destruct (upd i _ m) as [m1| | |] eqn:E1; try discriminate; cbn [bind] in H.
  destruct (upd i _ q) as [q1| | |] eqn:E2; try discriminate; cbn [bind] in H.
  destruct (idx c i) as [ci| | |] eqn:E3; try discriminate; cbn [bind] in H.
  destruct (bump (bin_pos b x) _ ci) as [ci'| | |] eqn:E4; try discriminate; cbn [bind] in H.
  destruct (upd i _ c) as [c1| | |] eqn:E5; try discriminate; cbn [bind] in H.
  destruct (idx lc i) as [li| | |] eqn:E6; try discriminate; cbn [bind] in H.
  destruct (bump (lbin_pos b x) _ li) as [li'| | |] eqn:E7; try discriminate; cbn [bind] in H.
  destruct (upd i _ lc) as [lc1| | |] eqn:E8; try discriminate; cbn [bind] in H.
  apply idx_ok in E3, E6. exists m1, q1, c1, lc1, ci, ci', li, li'. auto 12. Qed.

Lemma tv_loop_before b xs : forall i m q c lc m' q' c' lc', tv_loop b i xs (m, q, c, lc) = Ok (m', q', c', lc') ->
  length m' = length m /\ length q' = length q /\ length c' = length c /\ length lc' = length lc /\
  forall k, k < i -> nth_error m' k = nth_error m k /\ nth_error q' k = nth_error q k /\ nth_error c' k = nth_error c k /\ nth_error lc' k = nth_error lc k.
Proof. induction xs as [|x xs IH]; intros i m q c lc m' q' c' lc' H.
  - cbn in H. injection H as <- <- <- <-. auto 10.
  - apply tv_loop_step in H. destruct H as (m1 & q1 & c1 & lc1 & ci & ci' & li & li' & E1 & E2 & _ & _ & E5 & _ & _ & E8 & H).
    apply IH in H. destruct H as (L1 & L2 & L3 & L4 & H).
    rewrite L1, L2, L3, L4. rewrite (upd_len _ _ _ _ E1), (upd_len _ _ _ _ E2), (upd_len _ _ _ _ E5), (upd_len _ _ _ _ E8). repeat split; auto;
    destruct (H k) as (H1 & H2 & H3 & H4); try lia.
    + rewrite H1. apply upd_nth_error in E1. apply E1. lia.
    + rewrite H2. apply upd_nth_error in E2. apply E2. lia.
    + rewrite H3. apply upd_nth_error in E5. apply E5. lia.
    + rewrite H4. apply upd_nth_error in E8. apply E8. lia. Qed.

Lemma tv_loop_col b xs : forall i m q c lc m' q' c' lc', tv_loop b i xs (m, q, c, lc) = Ok (m', q', c', lc') ->
  forall j x, nth_error xs j = Some x ->
  exists ym yq yc yl yc' yl',
    nth_error m (i + j) = Some ym /\ nth_error q (i + j) = Some yq /\ nth_error c (i + j) = Some yc /\ nth_error lc (i + j) = Some yl /\
    bump (bin_pos b x) Datatypes.S yc = Ok yc' /\ bump (lbin_pos b x) Datatypes.S yl = Ok yl' /\
    nth_error m' (i + j) = Some (ym + x)%S /\ nth_error q' (i + j) = Some (yq + x * x)%S /\ nth_error c' (i + j) = Some yc' /\ nth_error lc' (i + j) = Some yl'.
Proof. induction xs as [|x xs IH]; intros i m q c lc m' q' c' lc' H j z Hz; [destruct j; discriminate|].
  apply tv_loop_step in H. destruct H as (m1 & q1 & c1 & lc1 & ci & ci' & li & li' & E1 & E2 & E3 & E4 & E5 & E6 & E7 & E8 & H).
  pose proof (upd_nth_error _ _ _ _ E1) as [N1 K1]. pose proof (upd_nth_error _ _ _ _ E2) as [N2 K2].
  pose proof (upd_nth_error _ _ _ _ E5) as [N5 K5]. pose proof (upd_nth_error _ _ _ _ E8) as [N8 K8].
  destruct j as [|j]; cbn in Hz.
  - injection Hz as <-. rewrite !Nat.add_0_r. apply tv_loop_before in H. destruct H as (_ & _ & _ & _ & H).
    destruct (H i) as (H1 & H2 & H3 & H4); [lia|].
    assert (Q1 : exists ym, nth_error m i = Some ym). { apply upd_lt in E1. apply nth_error_Some in E1. destruct (nth_error m i); [eauto|congruence]. }
    assert (Q2 : exists ym, nth_error q i = Some ym). { apply upd_lt in E2. apply nth_error_Some in E2. destruct (nth_error q i); [eauto|congruence]. }
    destruct Q1 as [ym Q1], Q2 as [yq Q2].
    exists ym, yq, ci, li, ci', li'. rewrite H1, H2, H3, H4, K1, K2, K5, K8, Q1, Q2, E3, E6. cbn. auto 12.
  - destruct (IH _ _ _ _ _ _ _ _ _ H j z Hz) as (ym & yq & yc & yl & yc' & yl' & H1 & H2 & H3 & H4 & R).
    replace (Datatypes.S i + j) with (i + Datatypes.S j) in * by lia.
    rewrite N1 in H1 by lia. rewrite N2 in H2 by lia. rewrite N5 in H3 by lia. rewrite N8 in H4 by lia.
    exists ym, yq, yc, yl, yc', yl'. intuition. Qed.

Lemma tv_loop_ok b xs : forall i m q c lc,
  (forall j x, nth_error xs j = Some x -> i + j < length m /\ i + j < length q /\
     (exists yc yc', nth_error c (i + j) = Some yc /\ bump (bin_pos b x) Datatypes.S yc = Ok yc') /\
     (exists yc yc', nth_error lc (i + j) = Some yc /\ bump (lbin_pos b x) Datatypes.S yc = Ok yc')) ->
  exists st', tv_loop b i xs (m, q, c, lc) = Ok st'.
Proof. induction xs as [|x xs IH]; intros i m q c lc H; [cbn; eauto|].
  destruct (H 0 x eq_refl) as (L1 & L2 & (yc & yc' & Ec & Bc) & (yl & yl' & El & Bl)). rewrite Nat.add_0_r in *.
  cbn [tv_loop]. destruct (upd_ok i (fun y => y + x)%S m L1) as [m1 E1]. rewrite E1. cbn [bind].
  destruct (upd_ok i (fun y => y + x * x)%S q L2) as [q1 E2]. rewrite E2. cbn [bind].
  assert (Ec' := Ec). apply idx_ok in Ec'. rewrite Ec'. cbn [bind]. rewrite Bc. cbn [bind].
  destruct (upd_ok i (fun _ => yc') c) as [c1 E5]; [apply nth_error_Some; congruence|]. rewrite E5. cbn [bind].
  assert (El' := El). apply idx_ok in El'. rewrite El'. cbn [bind]. rewrite Bl. cbn [bind].
  destruct (upd_ok i (fun _ => yl') lc) as [lc1 E8]; [apply nth_error_Some; congruence|]. rewrite E8. cbn [bind].
  apply IH. intros j z Hz. destruct (H (Datatypes.S j) z Hz) as (M1 & M2 & (zc & zc' & Fc & Gc) & (zl & zl' & Fl & Gl)).
  rewrite (upd_len _ _ _ _ E1), (upd_len _ _ _ _ E2). repeat split; try lia.
  - exists zc, zc'. split; [|exact Gc]. apply upd_nth_error in E5. destruct E5 as [N _]. rewrite <- Fc. rewrite N by lia. f_equal. lia.
  - exists zl, zl'. split; [|exact Gl]. apply upd_nth_error in E8. destruct E8 as [N _]. rewrite <- Fl. rewrite N by lia. f_equal. lia. Qed.

(** All six tables have one entry per column. *)
Definition regular (n : nat) (a : tvec S) : Prop := tv_nvar a = n /\ length (tv_means a) = n /\ length (tv_sqs a) = n /\
  length (tv_hist a) = n /\ length (tv_lhist a) = n /\ length (tv_count a) = n /\ length (tv_lcount a) = n.

Lemma nth_some {A} (l : list A) k n : length l = n -> k < n -> exists x, nth_error l k = Some x.
Proof. intros L H. destruct (nth_error l k) eqn:E; [eauto|]. apply nth_error_None in E. lia. Qed.
Lemma column_ex n a k : regular n a -> k < n -> exists t, column_of k a = Some t.
Proof. intros (_ & L1 & L2 & L3 & L4 & L5 & L6) H. unfold column_of.
  destruct (nth_some _ _ _ L1 H) as [? ->], (nth_some _ _ _ L2 H) as [? ->], (nth_some _ _ _ L3 H) as [? ->],
    (nth_some _ _ _ L4 H) as [? ->], (nth_some _ _ _ L5 H) as [? ->], (nth_some _ _ _ L6 H) as [? ->]. eauto. Qed.
Lemma column_inv k a t : column_of k a = Some t ->
  nth_error (tv_means a) k = Some (ta_mean t) /\ nth_error (tv_sqs a) k = Some (ta_sq t) /\ nth_error (tv_hist a) k = Some (ta_hist t) /\
  nth_error (tv_lhist a) k = Some (ta_lhist t) /\ nth_error (tv_count a) k = Some (ta_count t) /\ nth_error (tv_lcount a) k = Some (ta_lcount t) /\
  ta_ens t = tv_ens a /\ ta_bins t = tv_bins a.
Proof. unfold column_of. destruct (nth_error (tv_means a) k), (nth_error (tv_sqs a) k), (nth_error (tv_hist a) k), (nth_error (tv_lhist a) k),
    (nth_error (tv_count a) k), (nth_error (tv_lcount a) k); try discriminate. intros H. injection H as <-. cbn. auto 10. Qed.

Lemma tv_add_inv n a xs a' : regular n a -> n <> 0 -> tv_add a xs = Ok a' -> length xs = n /\
  exists m q c lc, tv_loop (tv_bins a) 0 xs (tv_means a, tv_sqs a, tv_count a, tv_lcount a) = Ok (m, q, c, lc) /\
    a' = Tvec m q (Datatypes.S (tv_ens a)) (tv_bins a) n (tv_hist a) (tv_lhist a) c lc.
Proof. intros (Hn & _) H0 H. unfold tv_add in H. rewrite Hn in H. destruct (Nat.eqb_spec n 0); [congruence|].
  destruct (Nat.eqb_spec n (length xs)); [|discriminate]. cbn [negb bind] in H.
  destruct (tv_loop _ _ _ _) as [[[[m q] c] lc]| | |] eqn:E; try discriminate. cbn in H. injection H as <-. split; [auto|].
  exists m, q, c, lc. split; [reflexivity|]. now rewrite Hn. Qed.

Lemma tv_add_col n a xs a' : regular n a -> n <> 0 -> tv_add a xs = Ok a' ->
  regular n a' /\ length xs = n /\ forall k t, k < n -> column_of k a = Some t -> exists t', ta_add t (nth k xs s0) = Ok t' /\ column_of k a' = Some t'.
Proof. intros R H0 H. destruct (tv_add_inv _ _ _ _ R H0 H) as (L & m & q & c & lc & E & ->).
  pose proof (tv_loop_before _ _ _ _ _ _ _ _ _ _ _ E) as (L1 & L2 & L3 & L4 & _). destruct R as (_ & R1 & R2 & R3 & R4 & R5 & R6).
  split; [unfold regular; cbn; repeat split; congruence|]. split; [exact L|]. intros k t Hk Hc. apply column_inv in Hc.
  destruct Hc as (C1 & C2 & C3 & C4 & C5 & C6 & C7 & C8).
  destruct (tv_loop_col _ _ _ _ _ _ _ _ _ _ _ E k (nth k xs s0)) as (ym & yq & yc & yl & yc' & yl' & N1 & N2 & N3 & N4 & B1 & B2 & M1 & M2 & M3 & M4).
  { apply nth_error_nth'. lia. }
  cbn [Nat.add] in *. rewrite C1 in N1. rewrite C2 in N2. rewrite C5 in N3. rewrite C6 in N4.
  injection N1 as <-. injection N2 as <-. injection N3 as <-. injection N4 as <-.
  unfold ta_add. rewrite C8, B1. cbn [bind]. rewrite B2. cbn [bind]. eexists. split; [reflexivity|].
  unfold column_of. cbn. rewrite M1, M2, C3, C4, M3, M4, C7. reflexivity. Qed.
Lemma tv_add_total n a xs : regular n a -> n <> 0 -> length xs = n ->
  (forall k t, k < n -> column_of k a = Some t -> exists t', ta_add t (nth k xs s0) = Ok t') -> exists a', tv_add a xs = Ok a'.
Proof. intros R H0 L H. unfold tv_add. destruct R as (Hn & R). rewrite Hn. destruct (Nat.eqb_spec n 0); [congruence|].
  rewrite L, Nat.eqb_refl. cbn [negb bind].
  destruct (tv_loop_ok (tv_bins a) xs 0 (tv_means a) (tv_sqs a) (tv_count a) (tv_lcount a)) as [[[[m q] c] lc] E].
  - cbn [Nat.add]. intros j x Hx. assert (Hj : j < n) by (rewrite <- L; apply nth_error_Some; congruence).
    destruct (column_ex n a j (conj Hn R) Hj) as [t Ht]. destruct (H j t Hj Ht) as [t' Ht']. apply column_inv in Ht.
    destruct Ht as (C1 & C2 & C3 & C4 & C5 & C6 & C7 & C8). apply ta_add_inv in Ht'. destruct Ht' as (c & lc & E1 & E2 & _).
    rewrite (nth_error_nth _ _ _ Hx) in E1, E2. rewrite C8 in E1, E2. destruct R as (R1 & R2 & _). repeat split; try congruence; eauto.
  - rewrite E. cbn. eauto. Qed.

Lemma tv_draw_step i r b en cnt lcnt m q h lh st' : tv_draw_loop (i :: r) b en cnt lcnt (m, q, h, lh) = Ok st' ->
  exists mi qi c hi hi' lc lhi lhi' m1 q1 h1 lh1,
    nth_error m i = Some mi /\ upd i (fun _ => mi / en)%S m = Ok m1 /\ nth_error q i = Some qi /\
    upd i (fun _ => fsqrt (qi / en - (mi / en) * (mi / en)))%S q = Ok q1 /\
    nth_error cnt i = Some c /\ nth_error h i = Some hi /\ fill_lin c (en * b_size b)%S hi = Ok hi' /\ upd i (fun _ => hi') h = Ok h1 /\
    nth_error lcnt i = Some lc /\ nth_error lh i = Some lhi /\ fill lc (b_min b * en * (b_lsize b - s1))%S (b_lsize b) lhi = Ok lhi' /\ upd i (fun _ => lhi') lh = Ok lh1 /\
    tv_draw_loop r b en cnt lcnt (m1, q1, h1, lh1) = Ok st'.
Proof. cbn [tv_draw_loop]. intros H.
  destruct (idx m i) as [mi| | |] eqn:E1; try discriminate; cbn [bind] in H.
  destruct (upd i _ m) as [m1| | |] eqn:E2; try discriminate; cbn [bind] in H.
  destruct (idx q i) as [qi| | |] eqn:E3; try discriminate; cbn [bind] in H.
  destruct (upd i _ q) as [q1| | |] eqn:E4; try discriminate; cbn [bind] in H.
  destruct (idx cnt i) as [c| | |] eqn:E5; try discriminate; cbn [bind] in H.
  destruct (idx h i) as [hi| | |] eqn:E6; try discriminate; cbn [bind] in H.
  destruct (fill_lin c _ hi) as [hi'| | |] eqn:E7; try discriminate; cbn [bind] in H.
  destruct (upd i _ h) as [h1| | |] eqn:E8; try discriminate; cbn [bind] in H.
  destruct (idx lcnt i) as [lc| | |] eqn:E9; try discriminate; cbn [bind] in H.
  destruct (idx lh i) as [lhi| | |] eqn:E10; try discriminate; cbn [bind] in H.
  destruct (fill lc _ _ lhi) as [lhi'| | |] eqn:E11; try discriminate; cbn [bind] in H.
  destruct (upd i _ lh) as [lh1| | |] eqn:E12; try discriminate; cbn [bind] in H.
  apply idx_ok in E1, E3, E5, E6, E9, E10. exists mi, qi, c, hi, hi', lc, lhi, lhi', m1, q1, h1, lh1. auto 15. Qed.

Lemma tv_draw_other b en cnt lcnt is : forall m q h lh m' q' h' lh', tv_draw_loop is b en cnt lcnt (m, q, h, lh) = Ok (m', q', h', lh') ->
  length m' = length m /\ length q' = length q /\ length h' = length h /\ length lh' = length lh /\
  forall k, ~ In k is -> nth_error m' k = nth_error m k /\ nth_error q' k = nth_error q k /\ nth_error h' k = nth_error h k /\ nth_error lh' k = nth_error lh k.
Proof. induction is as [|i r IH]; intros m q h lh m' q' h' lh' H.
  - cbn in H. injection H as <- <- <- <-. auto 10.
  - apply tv_draw_step in H. destruct H as (mi & qi & c & hi & hi' & lc & lhi & lhi' & m1 & q1 & h1 & lh1 & _ & E2 & _ & E4 & _ & _ & _ & E8 & _ & _ & _ & E12 & H).
    apply IH in H. destruct H as (L1 & L2 & L3 & L4 & H). rewrite L1, L2, L3, L4, (upd_len _ _ _ _ E2), (upd_len _ _ _ _ E4), (upd_len _ _ _ _ E8), (upd_len _ _ _ _ E12).
    repeat split; auto; (destruct (H k) as (H1 & H2 & H3 & H4); [intros X; apply H0; now right|]);
    assert (k <> i) by (intros ->; apply H0; now left).
    + rewrite H1. now apply (upd_nth_error _ _ _ _ E2).
    + rewrite H2. now apply (upd_nth_error _ _ _ _ E4).
    + rewrite H3. now apply (upd_nth_error _ _ _ _ E8).
    + rewrite H4. now apply (upd_nth_error _ _ _ _ E12). Qed.

Lemma tv_draw_at b en cnt lcnt is : forall m q h lh m' q' h' lh', NoDup is -> tv_draw_loop is b en cnt lcnt (m, q, h, lh) = Ok (m', q', h', lh') ->
  forall k, In k is -> exists mi qi c hi hi' lc lhi lhi',
    nth_error m k = Some mi /\ nth_error q k = Some qi /\ nth_error cnt k = Some c /\ nth_error h k = Some hi /\
    nth_error lcnt k = Some lc /\ nth_error lh k = Some lhi /\
    fill_lin c (en * b_size b)%S hi = Ok hi' /\ fill lc (b_min b * en * (b_lsize b - s1))%S (b_lsize b) lhi = Ok lhi' /\
    nth_error m' k = Some (mi / en)%S /\ nth_error q' k = Some (fsqrt (qi / en - (mi / en) * (mi / en)))%S /\ nth_error h' k = Some hi' /\ nth_error lh' k = Some lhi'.
Proof. induction is as [|i r IH]; intros m q h lh m' q' h' lh' ND H k Hk; [contradiction|]. apply NoDup_cons_iff in ND. destruct ND as [Hi ND].
  apply tv_draw_step in H. destruct H as (mi & qi & c & hi & hi' & lc & lhi & lhi' & m1 & q1 & h1 & lh1 & E1 & E2 & E3 & E4 & E5 & E6 & E7 & E8 & E9 & E10 & E11 & E12 & H).
  apply upd_nth_error in E2, E4, E8, E12. destruct E2 as [N2 K2], E4 as [N4 K4], E8 as [N8 K8], E12 as [N12 K12].
  destruct Hk as [<-|Hk].
  - apply tv_draw_other in H. destruct H as (_ & _ & _ & _ & H). destruct (H i Hi) as (H1 & H2 & H3 & H4).
    exists mi, qi, c, hi, hi', lc, lhi, lhi'. rewrite H1, H2, H3, H4, K2, K4, K8, K12, E1, E3, E6, E10. cbn. auto 15.
  - assert (k <> i) by (intros ->; contradiction).
    destruct (IH _ _ _ _ _ _ _ _ ND H k Hk) as (mi2 & qi2 & c2 & hi2 & hi2' & lc2 & lhi2 & lhi2' & R1 & R2 & R3 & R4 & R5 & R6 & R).
    rewrite N2 in R1 by auto. rewrite N4 in R2 by auto. rewrite N8 in R4 by auto. rewrite N12 in R6 by auto.
    exists mi2, qi2, c2, hi2, hi2', lc2, lhi2, lhi2'. intuition. Qed.

Lemma tv_draw_col n a a' : regular n a -> tv_draw a = Ok a' ->
  regular n a' /\ forall k t, k < n -> column_of k a = Some t -> exists t', ta_draw t = Ok t' /\ column_of k a' = Some t'.
Proof. intros R H. unfold tv_draw in H. destruct R as (Hn & R1 & R2 & R3 & R4 & R5 & R6). rewrite Hn in H.
  destruct (tv_draw_loop _ _ _ _ _ _) as [[[[m q] h] lh]| | |] eqn:E; try discriminate. cbn in H. injection H as <-.
  pose proof (tv_draw_other _ _ _ _ _ _ _ _ _ _ _ _ _ E) as (L1 & L2 & L3 & L4 & _).
  split; [unfold regular; cbn; repeat split; congruence|].
  intros k t Hk Hc. apply column_inv in Hc. destruct Hc as (C1 & C2 & C3 & C4 & C5 & C6 & C7 & C8).
  assert (Hin : In k (seq 0 n)) by (apply in_seq; lia).
  destruct (tv_draw_at _ _ _ _ _ _ _ _ _ _ _ _ _ (seq_NoDup _ _) E k Hin) as (mi & qi & c & hi & hi' & lc & lhi & lhi' & N1 & N2 & N3 & N4 & N5 & N6 & F1 & F2 & M1 & M2 & M3 & M4).
  rewrite C1 in N1. rewrite C2 in N2. rewrite C5 in N3. rewrite C3 in N4. rewrite C6 in N5. rewrite C4 in N6.
  injection N1 as <-. injection N2 as <-. injection N3 as <-. injection N4 as <-. injection N5 as <-. injection N6 as <-.
  unfold ta_draw. cbv zeta. rewrite C7, C8, F1. cbn [bind]. rewrite F2. cbn [bind]. eexists. split; [reflexivity|].
  unfold column_of. cbn. rewrite M1, M2, M3, M4, C5, C6. reflexivity. Qed.

Lemma nth_error_repeat' {A} (x : A) n k : k < n -> nth_error (repeat x n) k = Some x.
Proof. revert k. induction n; intros [|k] H; cbn; try lia; auto. apply IHn. lia. Qed.
Lemma tv_clear_col n a a' : regular n a -> tv_clear a = Ok a' ->
  regular n a' /\ forall k t, k < n -> column_of k a = Some t -> exists t', ta_clear t = Ok t' /\ column_of k a' = Some t'.
Proof. intros (Hn & R1 & R2 & R3 & R4 & R5 & R6) H. unfold tv_clear in H. rewrite Hn in H.
  destruct (alloc 0 (b_num _)) as [c| | |] eqn:E1; try discriminate. cbn [bind] in H.
  destruct (alloc 0 (b_lnum _)) as [lc| | |] eqn:E2; try discriminate. cbn [bind] in H. injection H as <-.
  split; [unfold regular; cbn; rewrite !repeat_length; auto 10|].
  intros k t Hk Hc. apply column_inv in Hc. destruct Hc as (C1 & C2 & C3 & C4 & C5 & C6 & C7 & C8).
  unfold ta_clear. rewrite C8, E1. cbn [bind]. rewrite E2. cbn [bind]. eexists. split; [reflexivity|].
  unfold column_of. cbn. rewrite !nth_error_repeat', C3, C4 by auto. reflexivity. Qed.

Lemma vhistory_col n os : n <> 0 -> forall a a', regular n a -> vhistory a os = Ok a' ->
  regular n a' /\ (forall xs, In (VAdd xs) os -> length xs = n) /\
  forall k t, k < n -> column_of k a = Some t -> exists t', history t (map (op_column k) os) = Ok t' /\ column_of k a' = Some t'.
Proof. intros H0. induction os as [|o os IH]; intros a a' R H; cbn in H.
  - injection H as <-. split; [exact R|]. split; [intros ? []|]. intros k t _ Hc. exists t. auto.
  - destruct (vapply a o) as [a1| | |] eqn:E; try discriminate. cbn [bind] in H.
    assert (K : regular n a1 /\ (forall xs, o = VAdd xs -> length xs = n) /\ forall k t, k < n -> column_of k a = Some t -> exists t', apply t (op_column k o) = Ok t' /\ column_of k a1 = Some t').
    { destruct o; cbn in E.
      - destruct (tv_add_col _ _ _ _ R H0 E) as (R' & L & C). split; [exact R'|]. split; [|exact C]. intros ys Hy. injection Hy as <-. exact L.
      - destruct (tv_draw_col _ _ _ R E) as (R' & C). split; [exact R'|]. split; [discriminate|exact C].
      - destruct (tv_clear_col _ _ _ R E) as (R' & C). split; [exact R'|]. split; [discriminate|exact C]. }
    destruct K as (R1 & L1 & C1). destruct (IH _ _ R1 H) as (R2 & L2 & C2). split; [exact R2|]. split.
    + intros xs [->|Hx]; auto.
    + intros k t Hk Hc. destruct (C1 k t Hk Hc) as (t1 & A1 & Hc1). destruct (C2 k t1 Hk Hc1) as (t2 & A2 & Hc2).
      exists t2. split; [|exact Hc2]. cbn. rewrite A1. exact A2. Qed.

Lemma tv_fresh_col (mn mx size lsize : S) n a : tv_fresh mn mx size lsize n = Ok a ->
  regular n a /\ exists t, ta_fresh mn mx size lsize = Ok t /\ forall k, k < n -> column_of k a = Some t.
Proof. unfold tv_fresh, ta_fresh. destruct (from_bin_size _ _ _ _) as [b| | |]; try discriminate. cbn [bind].
  unfold tv_allocate, ta_allocate. cbn.
  destruct (alloc (@s0 S) (b_num b)) as [h| | |]; try discriminate. cbn.
  destruct (alloc (@s0 S) (b_lnum b)) as [lh| | |]; try discriminate. cbn.
  destruct (alloc 0 (b_num b)) as [c| | |]; try discriminate. cbn.
  destruct (alloc 0 (b_lnum b)) as [lc| | |]; try discriminate. cbn. intros H. injection H as <-.
  split; [unfold regular; cbn; rewrite !repeat_length; auto 10|]. eexists. split; [reflexivity|].
  intros k Hk. unfold column_of. cbn. rewrite !nth_error_repeat' by auto. reflexivity. Qed.

(** The vector analysis is the single-variable analysis of each column. *)
Lemma columns_refine (mn mx size lsize : S) n a0 os a : n <> 0 -> tv_fresh mn mx size lsize n = Ok a0 -> vhistory a0 os = Ok a ->
  (forall xs, In (VAdd xs) os -> length xs = n) /\
  forall k, k < n -> exists t0 t, ta_fresh mn mx size lsize = Ok t0 /\ history t0 (map (op_column k) os) = Ok t /\ column_of k a = Some t.
Proof. intros H0 HF H. destruct (tv_fresh_col _ _ _ _ _ _ HF) as (R & t0 & E0 & C0). destruct (vhistory_col _ _ H0 _ _ R H) as (_ & L & C).
  split; [exact L|]. intros k Hk. destruct (C k t0 Hk (C0 k Hk)) as (t & A & B). eauto. Qed.

(** With 0 columns requested, the first line decides. *)
Lemma zero_columns (mn mx size lsize : S) a0 r rows : tv_fresh mn mx size lsize 0 = Ok a0 -> r <> [] ->
  exists a1, tv_fresh mn mx size lsize (length r) = Ok a1 /\ tv_adds a0 (r :: rows) = tv_adds a1 (r :: rows).
Proof. intros H Hr. unfold tv_fresh in *. destruct (from_bin_size _ _ _ _) as [b| | |]; try discriminate. cbn [bind] in *.
  unfold tv_allocate in *. cbn in H |- *.
  destruct (alloc (@s0 S) (b_num b)) as [h| | |] eqn:E1; try discriminate. cbn in H |- *.
  destruct (alloc (@s0 S) (b_lnum b)) as [lh| | |] eqn:E2; try discriminate. cbn in H |- *.
  destruct (alloc 0 (b_num b)) as [c| | |] eqn:E3; try discriminate. cbn in H |- *.
  destruct (alloc 0 (b_lnum b)) as [lc| | |] eqn:E4; try discriminate. cbn in H |- *. injection H as <-.
  eexists. split; [reflexivity|]. f_equal. unfold tv_add. cbn [tv_nvar Nat.eqb]. destruct r as [|x r]; [congruence|].
  cbn [length Nat.eqb]. rewrite Nat.eqb_refl. cbn [negb]. unfold tv_allocate. cbn [tv_nvar tv_bins tv_ens]. rewrite E1, E2, E3, E4. reflexivity. Qed.
End Vec.
