(** Proofs about the histograms that hold for any number type: bookkeeping, order, clear, columns, grouping. *)
From Coq Require Import ZArith List Bool Lia Permutation.
From Verif Require Import Base Scalar Model_Analysis Spec_Analysis.
Import ListNotations.

Section Gen.
Context {S : scalar}.
Implicit Types (a : tana S).

Lemma upd_len {A} i (f : A -> A) l l' : upd i f l = Ok l' -> length l' = length l.
Proof. revert i l'. induction l as [|y l IH]; intros [|i] l'; cbn; intros H; try discriminate.
  - injection H as <-. reflexivity.
  - destruct (upd i f l) eqn:E; try discriminate. injection H as <-. cbn. f_equal. eapply IH; eauto. Qed.
Lemma upd_nth {A} i (f : A -> A) l l' j d : upd i f l = Ok l' -> nth j l' d = if Nat.eqb j i then f (nth j l d) else nth j l d.
Proof. revert i j l'. induction l as [|y l IH]; intros [|i] j l'; cbn; intros H; try discriminate.
  - injection H as <-. destruct j; reflexivity.
  - destruct (upd i f l) eqn:E; try discriminate. injection H as <-. destruct j; cbn; [reflexivity|]. now apply IH. Qed.
Lemma upd_ok {A} i (f : A -> A) l : (i < length l)%nat -> exists l', upd i f l = Ok l'.
Proof. revert i. induction l as [|y l IH]; intros [|i] H; cbn in *; try lia; eauto.
  destruct (IH i) as [l' E]; [lia|]. rewrite E. eauto. Qed.
Lemma upd_lt {A} i (f : A -> A) l l' : upd i f l = Ok l' -> (i < length l)%nat.
Proof. revert i l'. induction l as [|y l IH]; intros [|i] l'; cbn; intros H; try discriminate; [lia|].
  destruct (upd i f l) eqn:E; try discriminate. apply IH in E. lia. Qed.
Lemma upd_panic {A} i (f : A -> A) l : (length l <= i)%nat -> upd i f l = Panic.
Proof. revert i. induction l as [|y l IH]; intros [|i] H; cbn in *; try lia; auto. rewrite IH by lia. reflexivity. Qed.
Lemma upd_sum i l l' : upd i Datatypes.S l = Ok l' -> list_sum l' = Datatypes.S (list_sum l).
Proof. revert i l'. induction l as [|y l IH]; intros [|i] l'; cbn; intros H; try discriminate.
  - injection H as <-. reflexivity.
  - destruct (upd i Datatypes.S l) eqn:E; try discriminate. injection H as <-. apply IH in E. unfold list_sum in *. cbn [fold_right]. lia. Qed.

Definition hit (i : nat) (p : option Z) : bool := match p with Some z => Nat.eqb i (Z.to_nat z) | None => false end.
Definition hitany (p : option Z) : bool := match p with Some _ => true | None => false end.

Lemma bump_len {A} p (f : A -> A) l l' : bump p f l = Ok l' -> length l' = length l.
Proof. destruct p as [z|]; cbn; [unfold updz; destruct (_ <? _)%Z; [apply upd_len|discriminate]|]. intros H. injection H as <-. reflexivity. Qed.
Lemma bump_nth p l l' i : bump p Datatypes.S l = Ok l' -> nth i l' 0 = nth i l 0 + if hit i p then 1 else 0.
Proof. destruct p as [z|]; cbn; [unfold updz; destruct (_ <? _)%Z; [|discriminate]|].
  - intros H. rewrite (upd_nth _ _ _ _ i 0 H). destruct (Nat.eqb i (Z.to_nat z)); lia.
  - intros H. injection H as <-. lia. Qed.
Lemma bump_sum p l l' : bump p Datatypes.S l = Ok l' -> list_sum l' = list_sum l + if hitany p then 1 else 0.
Proof. destruct p as [z|]; cbn; [unfold updz; destruct (_ <? _)%Z; [|discriminate]|].
  - intros H. apply upd_sum in H. lia.
  - intros H. injection H as <-. lia. Qed.
(** Whether a position is out of bounds. *)
Definition bad (n : nat) (p : option Z) : bool := match p with Some z => negb (z <? Z.of_nat n)%Z | None => false end.
Definition nonneg (p : option Z) : Prop := match p with Some z => (0 <= z)%Z | None => True end.
Lemma bump_ok {A} p (f : A -> A) l : nonneg p -> bad (length l) p = false -> exists l', bump p f l = Ok l'.
Proof. destruct p as [z|]; cbn; [|eauto]. unfold updz. intros Hz H. apply negb_false_iff in H. rewrite H.
  apply upd_ok. apply Z.ltb_lt in H. lia. Qed.
Lemma bump_bad {A} p (f : A -> A) l : bad (length l) p = true -> bump p f l = Panic.
Proof. destruct p as [z|]; cbn; [|discriminate]. unfold updz. destruct (_ <? _)%Z; [discriminate|]. reflexivity. Qed.

(** ** One analysis, many samples *)
Lemma ta_add_inv a x a' : ta_add a x = Ok a' ->
  exists c lc, bump (bin_pos (ta_bins a) x) Datatypes.S (ta_count a) = Ok c /\ bump (lbin_pos (ta_bins a) x) Datatypes.S (ta_lcount a) = Ok lc /\
    a' = Tana (ta_mean a + x)%S (ta_sq a + x * x)%S (Datatypes.S (ta_ens a)) (ta_bins a) (ta_hist a) (ta_lhist a) c lc.
Proof. unfold ta_add. destruct (bump (bin_pos _ _) _ _) as [c| | |] eqn:E1; cbn; try discriminate.
  destruct (bump (lbin_pos _ _) _ _) as [lc| | |] eqn:E2; cbn; try discriminate. intros H. injection H as <-. eauto 6. Qed.

Lemma ta_adds_inv xs : forall a a', ta_adds a xs = Ok a' ->
  ta_bins a' = ta_bins a /\ ta_hist a' = ta_hist a /\ ta_lhist a' = ta_lhist a /\
  ta_ens a' = ta_ens a + length xs /\ length (ta_count a') = length (ta_count a) /\ length (ta_lcount a') = length (ta_lcount a) /\
  ta_mean a' = fold_left add xs (ta_mean a) /\ ta_sq a' = fold_left (fun s x => s + x * x)%S xs (ta_sq a) /\
  (forall i, nth i (ta_count a') 0 = nth i (ta_count a) 0 + number_of (fun x => hit i (bin_pos (ta_bins a) x)) xs) /\
  (forall i, nth i (ta_lcount a') 0 = nth i (ta_lcount a) 0 + number_of (fun x => hit i (lbin_pos (ta_bins a) x)) xs) /\
  list_sum (ta_count a') = list_sum (ta_count a) + number_of (fun x => hitany (bin_pos (ta_bins a) x)) xs /\
  list_sum (ta_lcount a') = list_sum (ta_lcount a) + number_of (fun x => hitany (lbin_pos (ta_bins a) x)) xs.
Proof. induction xs as [|x xs IH]; intros a a' H.
  - cbn in H. injection H as <-. unfold number_of. cbn. repeat split; intros; lia.
  - cbn in H. destruct (ta_add a x) as [a1| | |] eqn:E; cbn in H; try discriminate.
    apply ta_add_inv in E. destruct E as (c & lc & E1 & E2 & ->).
    destruct (IH _ _ H) as (B & Hh & Hl & En & L1 & L2 & M & Q & N1 & N2 & S1 & S2). cbn [ta_bins ta_hist ta_lhist ta_ens ta_count ta_lcount ta_mean ta_sq] in *.
    unfold number_of in *. cbn [filter].
    pose proof (bump_len _ _ _ _ E1). pose proof (bump_len _ _ _ _ E2). pose proof (bump_sum _ _ _ E1). pose proof (bump_sum _ _ _ E2).
    cbn [length]. repeat split; try congruence; try lia; intros.
    + exact M. + exact Q.
    + rewrite N1, (bump_nth _ _ _ i E1). destruct (hit i (bin_pos _ _)); cbn; lia.
    + rewrite N2, (bump_nth _ _ _ i E2). destruct (hit i (lbin_pos _ _)); cbn; lia.
    + rewrite S1, H2. destruct (hitany (bin_pos _ _)); cbn; lia.
    + rewrite S2, H3. destruct (hitany (lbin_pos _ _)); cbn; lia. Qed.

Lemma hitany_between (b : bins S) x : hitany (bin_pos b x) = between (b_min b) (b_max b) x.
Proof. unfold bin_pos, between. destruct (ltb x _), (ltb _ x); reflexivity. Qed.
Lemma hitany_between_l (b : bins S) x : hitany (lbin_pos b x) = between (b_min b) (b_max b) x.
Proof. unfold lbin_pos, between. destruct (ltb x _), (ltb _ x); reflexivity. Qed.

Lemma bin_pos_cases (b : bins S) x : bin_pos b x = (if between (b_min b) (b_max b) x then Some (as_usize ((x - b_min b) / b_size b)%S) else None) /\
  lbin_pos b x = (if between (b_min b) (b_max b) x then Some (as_usize (flog2 (x / b_min b) / flog2 (b_lsize b))%S) else None).
Proof. unfold bin_pos, lbin_pos, between. destruct (ltb x _), (ltb _ x); auto. Qed.
Lemma number_ext {A} (f g : A -> bool) l : (forall x, In x l -> f x = g x) -> number_of f l = number_of g l.
Proof. unfold number_of. induction l as [|x l IH]; intros H; [reflexivity|]. cbn. rewrite (H x) by now left.
  specialize (IH (fun y Hy => H y (or_intror Hy))). destruct (g x); cbn; lia. Qed.

Lemma list_sum_repeat0 n : list_sum (repeat 0 n) = 0. Proof. induction n; cbn; auto. Qed.
Lemma nth_repeat0 n i : nth i (repeat 0 n) 0 = 0. Proof. revert i; induction n; destruct i; cbn; auto. Qed.
Lemma alloc_inv {A} (x : A) n l : alloc x n = Ok l -> l = repeat x (Z.to_nat n) /\ (8 * n <= 2 ^ 63 - 1)%Z.
Proof. unfold alloc. destruct (_ <=? _)%Z eqn:E; [|discriminate]. intros H. injection H as <-. split; [reflexivity|]. now apply Z.leb_le. Qed.

Lemma ta_allocate_inv a a' : ta_allocate a = Ok a' ->
  let n := Z.to_nat (b_num (ta_bins a)) in let ln := Z.to_nat (b_lnum (ta_bins a)) in
  a' = Tana (ta_mean a) (ta_sq a) (ta_ens a) (ta_bins a) (repeat s0 n) (repeat s0 ln) (repeat 0 n) (repeat 0 ln) /\
  (8 * b_num (ta_bins a) <= 2 ^ 63 - 1)%Z /\ (8 * b_lnum (ta_bins a) <= 2 ^ 63 - 1)%Z.
Proof. unfold ta_allocate. destruct (alloc s0 (b_num _)) eqn:E1; try discriminate. destruct (alloc s0 (b_lnum _)) eqn:E2; try discriminate.
  destruct (alloc 0 (b_num _)) eqn:E3; try discriminate. destruct (alloc 0 (b_lnum _)) eqn:E4; try discriminate. cbn. intros H. injection H as <-.
  apply alloc_inv in E1, E2, E3, E4. destruct E1 as [-> ?], E2 as [-> ?], E3 as [-> ?], E4 as [-> ?]. auto. Qed.

Lemma ta_fresh_inv (mn mx size lsize : S) a : ta_fresh mn mx size lsize = Ok a ->
  exists b, from_bin_size mn mx size lsize = Ok b /\ ta_bins a = b /\
  a = Tana s0 s0 0 b (repeat s0 (Z.to_nat (b_num b))) (repeat s0 (Z.to_nat (b_lnum b))) (repeat 0 (Z.to_nat (b_num b))) (repeat 0 (Z.to_nat (b_lnum b))) /\
  (8 * b_num b <= 2 ^ 63 - 1)%Z /\ (8 * b_lnum b <= 2 ^ 63 - 1)%Z.
Proof. unfold ta_fresh. destruct (from_bin_size _ _ _ _) as [b| | |] eqn:E; try discriminate. cbn [bind]. intros H.
  apply ta_allocate_inv in H. cbn in H. destruct H as (-> & ? & ?). exists b. cbn. auto. Qed.

Lemma alloc_fresh (b : bins S) : (8 * b_num b <= 2 ^ 63 - 1)%Z -> (8 * b_lnum b <= 2 ^ 63 - 1)%Z -> exists a, ta_allocate (ta_set_bins ta_new b) = Ok a.
Proof. intros H1 H2. apply Z.leb_le in H1, H2. unfold ta_allocate, alloc. cbn [ta_bins ta_set_bins]. rewrite H1, H2. cbn. eauto. Qed.
Lemma from_bin_size_inv (mn mx size lsize : S) b : from_bin_size mn mx size lsize = Ok b ->
  b_min b = clip_min mn /\ b_max b = mx /\ b_size b = size /\ b_lsize b = lsize /\
  b_num b = ceil_usize ((mx - clip_min mn) / size + lit 1 2)%S /\
  b_lnum b = ceil_usize (flog2 (mx / clip_min mn) / flog2 lsize + lit 1 2)%S /\
  (ltb mn s0 = false /\ ltb mx mn = false /\ ltb size s0 = false /\ ltb lsize s0 = false).
Proof. unfold from_bin_size. destruct (ltb mn s0) eqn:E1, (ltb mx mn) eqn:E2, (ltb size s0) eqn:E3, (ltb lsize s0) eqn:E4; cbn [orb]; try discriminate.
  intros H. injection H as <-. cbn. auto 10. Qed.

(** C36 *)
Lemma bookkeeping (mn mx size lsize : S) a0 xs a : ta_fresh mn mx size lsize = Ok a0 -> ta_adds a0 xs = Ok a ->
  ta_ens a = length xs /\
  list_sum (ta_count a) = number_of (between (clip_min mn) mx) xs /\
  list_sum (ta_lcount a) = number_of (between (clip_min mn) mx) xs /\
  (forall i, nth i (ta_count a) 0 = number_of (fun x => hit i (bin_pos (ta_bins a0) x)) xs) /\
  (forall i, nth i (ta_lcount a) 0 = number_of (fun x => hit i (lbin_pos (ta_bins a0) x)) xs).
Proof. intros H0 H. apply ta_fresh_inv in H0. destruct H0 as (b & Hb & Eb & -> & _ & _).
  apply ta_adds_inv in H. cbn [ta_bins ta_ens ta_count ta_lcount] in *. apply from_bin_size_inv in Hb.
  destruct Hb as (Em & EM & _). destruct H as (_ & _ & _ & En & _ & _ & _ & _ & N1 & N2 & S1 & S2).
  rewrite list_sum_repeat0 in S1, S2. rewrite <- Em, <- EM. repeat split.
  - exact En.
  - rewrite S1. apply number_ext. intros x _. apply hitany_between.
  - rewrite S2. apply number_ext. intros x _. apply hitany_between_l.
  - intros i. rewrite N1, nth_repeat0. reflexivity.
  - intros i. rewrite N2, nth_repeat0. reflexivity. Qed.

(** ** Order of the samples *)

Lemma nat_list_ext (l l' : list nat) : length l = length l' -> (forall i, nth i l 0 = nth i l' 0) -> l = l'.
Proof. revert l'. induction l as [|x l IH]; intros [|y l'] Hl H; cbn in *; try discriminate; [reflexivity|]. f_equal.
  - exact (H 0).
  - apply IH; [lia|]. intros i. exact (H (Datatypes.S i)). Qed.

Lemma number_perm {A} (f : A -> bool) l l' : Permutation l l' -> number_of f l = number_of f l'.
Proof. unfold number_of. induction 1; cbn; auto.
  - destruct (f x); cbn; auto.
  - destruct (f x), (f y); reflexivity.
  - congruence. Qed.

(** [as_usize] never gives a negative number; true of both number types used. *)
Definition usize_ok : Prop := forall x : S, (0 <= as_usize x)%Z.

Lemma bin_nonneg (b : bins S) x : usize_ok -> nonneg (bin_pos b x).
Proof. intros H. unfold bin_pos. destruct (_ || _); cbn; auto. Qed.
Lemma lbin_nonneg (b : bins S) x : usize_ok -> nonneg (lbin_pos b x).
Proof. intros H. unfold lbin_pos. destruct (_ || _); cbn; auto. Qed.

Definition offends (a : tana S) (x : S) : bool := bad (length (ta_count a)) (bin_pos (ta_bins a) x) || bad (length (ta_lcount a)) (lbin_pos (ta_bins a) x).
Lemma ta_add_cases a x : usize_ok -> if offends a x then ta_add a x = Panic else exists a', ta_add a x = Ok a'.
Proof. intros U. unfold offends, ta_add. destruct (bad (length (ta_count a)) _) eqn:E1; cbn [orb].
  - now rewrite bump_bad.
  - destruct (bump_ok (bin_pos (ta_bins a) x) Datatypes.S (ta_count a) (bin_nonneg _ _ U) E1) as [c ->]. cbn [bind].
    destruct (bad (length (ta_lcount a)) _) eqn:E2.
    + now rewrite bump_bad.
    + destruct (bump_ok (lbin_pos (ta_bins a) x) Datatypes.S (ta_lcount a) (lbin_nonneg _ _ U) E2) as [lc ->]. cbn. eauto. Qed.
Lemma ta_adds_cases xs : usize_ok -> forall a, if existsb (offends a) xs then ta_adds a xs = Panic else exists a', ta_adds a xs = Ok a'.
Proof. intros U. induction xs as [|x xs IH]; intros a; cbn; [eauto|].
  pose proof (ta_add_cases a x U) as H. destruct (offends a x); cbn [orb].
  - now rewrite H.
  - destruct H as [a1 E]. rewrite E. cbn [bind]. pose proof (IH a1) as H1.
    replace (existsb (offends a) xs) with (existsb (offends a1) xs); [exact H1|].
    apply ta_add_inv in E. destruct E as (c & lc & E1 & E2 & ->). apply bump_len in E1, E2.
    clear - E1 E2. induction xs as [|y xs IH]; [reflexivity|]. cbn [existsb]. rewrite IH. f_equal. unfold offends. cbn. rewrite E1, E2. reflexivity. Qed.

Lemma existsb_perm {A} (f : A -> bool) l l' : Permutation l l' -> existsb f l = existsb f l'.
Proof. induction 1; cbn; auto; [now rewrite IHPermutation|destruct (f x), (f y); reflexivity|congruence]. Qed.

(** Counts, ensemble and panics do not depend on the order of the samples. *)
Lemma tally_perm xs ys a : usize_ok -> Permutation xs ys -> tally (ta_adds a xs) = tally (ta_adds a ys).
Proof. intros U P. pose proof (ta_adds_cases xs U a) as Hx. pose proof (ta_adds_cases ys U a) as Hy.
  rewrite (existsb_perm (offends a) _ _ P) in Hx. destruct (existsb (offends a) ys); [rewrite Hx, Hy; reflexivity|].
  destruct Hx as [a1 H1], Hy as [a2 H2]. rewrite H1, H2. cbn.
  apply ta_adds_inv in H1, H2.
  destruct H1 as (B1 & _ & _ & En1 & L1 & LL1 & _ & _ & N1 & NN1 & _ & _), H2 as (B2 & _ & _ & En2 & L2 & LL2 & _ & _ & N2 & NN2 & _ & _).
  assert (C : ta_count a1 = ta_count a2).
  { apply nat_list_ext; [congruence|]. intros i. rewrite N1, N2. f_equal. now apply number_perm. }
  assert (LC : ta_lcount a1 = ta_lcount a2).
  { apply nat_list_ext; [congruence|]. intros i. rewrite NN1, NN2. f_equal. now apply number_perm. }
  rewrite C, LC, En1, En2, B1, B2, (Permutation_length P). reflexivity. Qed.

(** ** clear *)
Definition shape (b : bins S) (a : tana S) : Prop :=
  ta_bins a = b /\ length (ta_count a) = Z.to_nat (b_num b) /\ length (ta_lcount a) = Z.to_nat (b_lnum b) /\
  length (ta_hist a) = Z.to_nat (b_num b) /\ length (ta_lhist a) = Z.to_nat (b_lnum b).

Lemma fill_lin_ok c w : forall h : list S, length h = length c -> exists h', fill_lin c w h = Ok h' /\ length h' = length c.
Proof. induction c as [|n c IH]; intros [|y h] L; cbn in *; try discriminate; eauto.
  destruct (IH h) as (h' & -> & L'); [lia|]. cbn. eexists. split; [reflexivity|]. cbn. lia. Qed.
Lemma fill_ok c g : forall w (h : list S), length h = length c -> exists h', fill c w g h = Ok h' /\ length h' = length c.
Proof. induction c as [|n c IH]; intros w [|y h] L; cbn in *; try discriminate; eauto.
  destruct (IH (w * g)%S h) as (h' & -> & L'); [lia|]. cbn. eexists. split; [reflexivity|]. cbn. lia. Qed.
Lemma fill_lin_irrel c w : forall h1 h2 : list S, length h1 = length c -> length h2 = length c -> fill_lin c w h1 = fill_lin c w h2.
Proof. induction c as [|n c IH]; intros [|y1 h1] [|y2 h2] L1 L2; cbn in *; try discriminate; auto. rewrite (IH h1 h2) by lia. reflexivity. Qed.
Lemma fill_irrel c g : forall w (h1 h2 : list S), length h1 = length c -> length h2 = length c -> fill c w g h1 = fill c w g h2.
Proof. induction c as [|n c IH]; intros w [|y1 h1] [|y2 h2] L1 L2; cbn in *; try discriminate; auto. rewrite (IH (w*g)%S h1 h2) by lia. reflexivity. Qed.

Lemma draw_shape b a a' : shape b a -> ta_draw a = Ok a' -> shape b a' /\ ta_count a' = ta_count a /\ ta_lcount a' = ta_lcount a /\ ta_ens a' = ta_ens a.
Proof. intros (B & L1 & L2 & L3 & L4) H. unfold ta_draw in H.
  destruct (fill_lin_ok (ta_count a) (of_Z (Z.of_nat (ta_ens a)) * b_size (ta_bins a))%S (ta_hist a)) as (h & E1 & K1); [congruence|].
  destruct (fill_ok (ta_lcount a) (b_lsize (ta_bins a)) (b_min (ta_bins a) * of_Z (Z.of_nat (ta_ens a)) * (b_lsize (ta_bins a) - s1))%S (ta_lhist a)) as (lh & E2 & K2); [congruence|].
  rewrite E1 in H. cbn [bind] in H. rewrite E2 in H. cbn [bind] in H. injection H as <-. unfold shape. cbn. repeat split; congruence. Qed.
Lemma draw_ok b a : shape b a -> exists a', ta_draw a = Ok a'.
Proof. intros (B & L1 & L2 & L3 & L4). unfold ta_draw.
  destruct (fill_lin_ok (ta_count a) (of_Z (Z.of_nat (ta_ens a)) * b_size (ta_bins a))%S (ta_hist a)) as (h & E1 & K1); [congruence|].
  destruct (fill_ok (ta_lcount a) (b_lsize (ta_bins a)) (b_min (ta_bins a) * of_Z (Z.of_nat (ta_ens a)) * (b_lsize (ta_bins a) - s1))%S (ta_lhist a)) as (lh & E2 & K2); [congruence|].
  rewrite E1. cbn [bind]. rewrite E2. cbn. eauto. Qed.
Lemma clear_inv a a' : ta_clear a = Ok a' ->
  a' = Tana s0 s0 0 (ta_bins a) (ta_hist a) (ta_lhist a) (repeat 0 (Z.to_nat (b_num (ta_bins a)))) (repeat 0 (Z.to_nat (b_lnum (ta_bins a)))).
Proof. unfold ta_clear. destruct (alloc 0 (b_num _)) eqn:E1; try discriminate. destruct (alloc 0 (b_lnum _)) eqn:E2; try discriminate.
  cbn. intros H. injection H as <-. apply alloc_inv in E1, E2. destruct E1 as [-> _], E2 as [-> _]. reflexivity. Qed.
Lemma apply_shape b a o a' : shape b a -> apply a o = Ok a' -> shape b a'.
Proof. intros Sh. destruct o; cbn; intros H.
  - apply ta_add_inv in H. destruct H as (c & lc & E1 & E2 & ->). apply bump_len in E1, E2. destruct Sh as (B & L1 & L2 & L3 & L4).
    unfold shape. cbn. repeat split; congruence.
  - eapply draw_shape in H; eauto. tauto.
  - apply clear_inv in H. subst a'. destruct Sh as (B & L1 & L2 & L3 & L4). unfold shape. cbn. rewrite !repeat_length, B. auto. Qed.
Lemma history_shape b os : forall a a', shape b a -> history a os = Ok a' -> shape b a'.
Proof. induction os as [|o os IH]; intros a a' Sh H; cbn in H; [injection H as <-; exact Sh|].
  destruct (apply a o) as [a1| | |] eqn:E; try discriminate. cbn in H. eapply IH; [|exact H]. eapply apply_shape; eauto. Qed.
Lemma fresh_shape (mn mx size lsize : S) a : ta_fresh mn mx size lsize = Ok a -> shape (ta_bins a) a.
Proof. intros H. apply ta_fresh_inv in H. destruct H as (b & _ & _ & -> & _ & _). unfold shape. cbn. rewrite !repeat_length. auto. Qed.

(** Replacing stale histogram values. *)
Definition with_hist (h lh : list S) (a : tana S) : tana S := Tana (ta_mean a) (ta_sq a) (ta_ens a) (ta_bins a) h lh (ta_count a) (ta_lcount a).
Lemma add_with_hist h lh a x : ta_add (with_hist h lh a) x = do r <- ta_add a x; Ok (with_hist h lh r).
Proof. unfold ta_add. cbn. destruct (bump (bin_pos _ _) _ _); cbn; auto. destruct (bump (lbin_pos _ _) _ _); reflexivity. Qed.
Lemma adds_with_hist h lh xs : forall a, ta_adds (with_hist h lh a) xs = do r <- ta_adds a xs; Ok (with_hist h lh r).
Proof. induction xs as [|x xs IH]; intros a; cbn [ta_adds]; [reflexivity|]. rewrite add_with_hist.
  destruct (ta_add a x); cbn; auto. Qed.
Lemma draw_with_hist h lh b a : shape b a -> length h = length (ta_hist a) -> length lh = length (ta_lhist a) -> ta_draw (with_hist h lh a) = ta_draw a.
Proof. intros (B & L1 & L2 & L3 & L4) E1 E2. unfold ta_draw. cbn.
  rewrite (fill_lin_irrel (ta_count a) _ h (ta_hist a)) by congruence.
  rewrite (fill_irrel (ta_lcount a) _ _ lh (ta_lhist a)) by congruence. reflexivity. Qed.
Lemma adds_history xs : forall a, ta_adds a xs = history a (map OAdd xs).
Proof. induction xs as [|x xs IH]; intros a; cbn; auto. destruct (ta_add a x); cbn; auto. Qed.

(** C40 *)
Lemma clear_is_fresh (mn mx size lsize : S) a0 os a c xs : ta_fresh mn mx size lsize = Ok a0 -> history a0 os = Ok a -> ta_clear a = Ok c ->
  (do r <- ta_adds c xs; ta_draw r) = (do r <- ta_adds a0 xs; ta_draw r).
Proof. intros H0 Hh Hc. pose proof (fresh_shape _ _ _ _ _ H0) as Sh0. pose proof (history_shape _ _ _ _ Sh0 Hh) as Sh.
  assert (Ec : c = with_hist (ta_hist a) (ta_lhist a) a0).
  { apply clear_inv in Hc. apply ta_fresh_inv in H0. destruct H0 as (b & _ & _ & -> & _ & _). cbn [ta_bins] in *.
    replace (ta_bins a) with b in Hc by (symmetry; apply Sh). exact Hc. }
  subst c. rewrite adds_with_hist. destruct (ta_adds a0 xs) as [r| | |] eqn:E; cbn; auto.
  assert (Shr : shape (ta_bins a0) r) by (rewrite adds_history in E; eapply history_shape; [exact Sh0|exact E]).
  eapply draw_with_hist; [exact Shr| |].
  - destruct Shr as (_ & _ & _ & K & _), Sh as (_ & _ & _ & K' & _). congruence.
  - destruct Shr as (_ & _ & _ & _ & K), Sh as (_ & _ & _ & _ & K'). congruence. Qed.
(** [clear] of a configured analysis never fails. *)
Lemma clear_ok (mn mx size lsize : S) a0 os a : ta_fresh mn mx size lsize = Ok a0 -> history a0 os = Ok a -> exists c, ta_clear a = Ok c.
Proof. intros H0 Hh. pose proof (fresh_shape _ _ _ _ _ H0) as Sh0. pose proof (history_shape _ _ _ _ Sh0 Hh) as Sh.
  apply ta_fresh_inv in H0. destruct H0 as (b & _ & Eb & _ & K1 & K2). unfold ta_clear.
  replace (ta_bins a) with b by (rewrite <- Eb; symmetry; apply Sh). unfold alloc.
  apply Z.leb_le in K1, K2. rewrite K1. cbn [bind]. rewrite K2. cbn. eauto. Qed.
End Gen.
