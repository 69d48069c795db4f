(** Process analyses, grouping of data files, choice of the output directory; any number type. *)
From Coq Require Import ZArith List Bool Lia Permutation.
From Verif Require Import Base Scalar Model_Analysis Spec_Analysis Proof_Analysis.
Import ListNotations.

Section Proc.
Context {S : scalar}.
Implicit Types (b : bins S) (a : pana S).

Lemma bump_nth_gen {A} p (f : A -> A) l l' i d : bump p f l = Ok l' -> nth i l' d = if hit i p then f (nth i l d) else nth i l d.
Proof. destruct p as [z|]; cbn; [unfold updz; destruct (_ <? _)%Z; [|discriminate]; intros H; exact (upd_nth _ _ _ _ i d H)|].
  intros H. injection H as <-. reflexivity. Qed.

Lemma pa_pair_inv a t v a' : pa_pair a t v = Ok a' ->
  exists c m q lc lm lq, bump (bin_pos (pa_bins a) t) Datatypes.S (pa_count a) = Ok c /\ bump (bin_pos (pa_bins a) t) (fun y => y + v)%S (pa_bmean a) = Ok m /\
    bump (bin_pos (pa_bins a) t) (fun y => y + v * v)%S (pa_bsq a) = Ok q /\ bump (lbin_pos (pa_bins a) t) Datatypes.S (pa_lcount a) = Ok lc /\
    bump (lbin_pos (pa_bins a) t) (fun y => y + v)%S (pa_lmean a) = Ok lm /\ bump (lbin_pos (pa_bins a) t) (fun y => y + v * v)%S (pa_lsq a) = Ok lq /\
    a' = Pana (pa_mean a + v)%S (pa_sq a + v * v)%S (Datatypes.S (pa_points a)) (pa_ens a) (pa_bins a) m q c lm lq lc.
Proof. unfold pa_pair. intros H.
  destruct (bump (bin_pos _ _) Datatypes.S (pa_count a)) as [c| | |] eqn:E1; try discriminate; cbn [bind] in H.
  destruct (bump (bin_pos _ _) _ (pa_bmean a)) as [m| | |] eqn:E2; try discriminate; cbn [bind] in H.
  destruct (bump (bin_pos _ _) _ (pa_bsq a)) as [q| | |] eqn:E3; try discriminate; cbn [bind] in H.
  destruct (bump (lbin_pos _ _) Datatypes.S (pa_lcount a)) as [lc| | |] eqn:E4; try discriminate; cbn [bind] in H.
  destruct (bump (lbin_pos _ _) _ (pa_lmean a)) as [lm| | |] eqn:E5; try discriminate; cbn [bind] in H.
  destruct (bump (lbin_pos _ _) _ (pa_lsq a)) as [lq| | |] eqn:E6; try discriminate; cbn [bind] in H.
  injection H as <-. exists c, m, q, lc, lm, lq. auto 10. Qed.

Definition vals (i : nat) (pos : S -> option Z) (ps : list (S * S)) : list S := map snd (filter (fun tv => hit i (pos (fst tv))) ps).
Lemma pa_pairs_inv ps : forall a a', pa_pairs a ps = Ok a' ->
  pa_bins a' = pa_bins a /\ pa_ens a' = pa_ens a /\ pa_points a' = pa_points a + length ps /\
  length (pa_count a') = length (pa_count a) /\ length (pa_lcount a') = length (pa_lcount a) /\
  length (pa_bmean a') = length (pa_bmean a) /\ length (pa_lmean a') = length (pa_lmean a) /\
  length (pa_bsq a') = length (pa_bsq a) /\ length (pa_lsq a') = length (pa_lsq a) /\
  pa_mean a' = fold_left add (map snd ps) (pa_mean a) /\ pa_sq a' = fold_left (fun s x => s + x * x)%S (map snd ps) (pa_sq a) /\
  (forall i, nth i (pa_count a') 0 = nth i (pa_count a) 0 + length (vals i (bin_pos (pa_bins a)) ps)) /\
  (forall i, nth i (pa_lcount a') 0 = nth i (pa_lcount a) 0 + length (vals i (lbin_pos (pa_bins a)) ps)) /\
  (forall i d, nth i (pa_bmean a') d = fold_left add (vals i (bin_pos (pa_bins a)) ps) (nth i (pa_bmean a) d)) /\
  (forall i d, nth i (pa_lmean a') d = fold_left add (vals i (lbin_pos (pa_bins a)) ps) (nth i (pa_lmean a) d)) /\
  (forall i d, nth i (pa_bsq a') d = fold_left (fun s x => s + x * x)%S (vals i (bin_pos (pa_bins a)) ps) (nth i (pa_bsq a) d)) /\
  (forall i d, nth i (pa_lsq a') d = fold_left (fun s x => s + x * x)%S (vals i (lbin_pos (pa_bins a)) ps) (nth i (pa_lsq a) d)) /\
  list_sum (pa_count a') = list_sum (pa_count a) + number_of (fun tv => between (b_min (pa_bins a)) (b_max (pa_bins a)) (fst tv)) ps /\
  list_sum (pa_lcount a') = list_sum (pa_lcount a) + number_of (fun tv => between (b_min (pa_bins a)) (b_max (pa_bins a)) (fst tv)) ps.
Proof. induction ps as [|[t v] ps IH]; intros a a' H.
  - cbn in H. injection H as <-. unfold number_of, vals. cbn. repeat split; intros; lia.
  - cbn [pa_pairs] in H. destruct (pa_pair a t v) as [a1| | |] eqn:E; cbn [bind] in H; try discriminate.
    apply pa_pair_inv in E. destruct E as (c & m & q & lc & lm & lq & E1 & E2 & E3 & E4 & E5 & E6 & ->).
    destruct (IH _ _ H) as (B & En & Pt & L1 & L2 & L3 & L4 & L5 & L6 & M & Q & N1 & N2 & N3 & N4 & N5 & N6 & S1 & S2).
    cbn [pa_bins pa_ens pa_points pa_count pa_lcount pa_bmean pa_lmean pa_bsq pa_lsq pa_mean pa_sq] in *.
    unfold number_of, vals in *. cbn [filter map fst snd length].
    pose proof (bump_len _ _ _ _ E1). pose proof (bump_len _ _ _ _ E2). pose proof (bump_len _ _ _ _ E3).
    pose proof (bump_len _ _ _ _ E4). pose proof (bump_len _ _ _ _ E5). pose proof (bump_len _ _ _ _ E6).
    pose proof (bump_sum _ _ _ E1) as T1. pose proof (bump_sum _ _ _ E4) as T2. rewrite hitany_between in T1. rewrite hitany_between_l in T2.
    repeat split; try congruence; try lia; intros.
    + exact M. + exact Q.
    + rewrite N1, (bump_nth _ _ _ i E1). destruct (hit i (bin_pos _ _)); cbn [length map]; lia.
    + rewrite N2, (bump_nth _ _ _ i E4). destruct (hit i (lbin_pos _ _)); cbn [length map]; lia.
    + rewrite N3, (bump_nth_gen _ _ _ _ i d E2). destruct (hit i (bin_pos _ _)); reflexivity.
    + rewrite N4, (bump_nth_gen _ _ _ _ i d E5). destruct (hit i (lbin_pos _ _)); reflexivity.
    + rewrite N5, (bump_nth_gen _ _ _ _ i d E3). destruct (hit i (bin_pos _ _)); reflexivity.
    + rewrite N6, (bump_nth_gen _ _ _ _ i d E6). destruct (hit i (lbin_pos _ _)); reflexivity.
    + rewrite S1, T1. destruct (between _ _ _); cbn [length]; lia.
    + rewrite S2, T2. destruct (between _ _ _); cbn [length]; lia. Qed.

Lemma pa_fresh_inv (mn mx size lsize : S) a : pa_fresh mn mx size lsize = Ok a ->
  exists b, from_bin_size mn mx size lsize = Ok b /\
  let n := Z.to_nat (b_num b) in let ln := Z.to_nat (b_lnum b) in
  a = Pana s0 s0 0 0 b (repeat s0 n) (repeat s0 n) (repeat 0 n) (repeat s0 ln) (repeat s0 ln) (repeat 0 ln) /\
  (8 * b_num b <= 2 ^ 63 - 1)%Z /\ (8 * b_lnum b <= 2 ^ 63 - 1)%Z.
Proof. unfold pa_fresh. destruct (from_bin_size _ _ _ _) as [b| | |]; try discriminate. cbn [bind]. unfold pa_allocate. cbn. intros H.
  destruct (alloc (@s0 S) (b_num b)) as [h| | |] eqn:E1; try discriminate. cbn in H.
  destruct (alloc 0 (b_num b)) as [c| | |] eqn:E2; try discriminate. cbn in H.
  destruct (alloc (@s0 S) (b_lnum b)) as [lh| | |] eqn:E3; try discriminate. cbn in H.
  destruct (alloc 0 (b_lnum b)) as [lc| | |] eqn:E4; try discriminate. cbn in H. injection H as <-.
  apply alloc_inv in E1, E2, E3, E4. destruct E1 as [-> ?], E2 as [-> ?], E3 as [-> ?], E4 as [-> ?]. exists b. auto. Qed.

(** Lines of a data file. *)
Lemma pa_lines_inv ls : forall a a', add_lines pa_line a ls = Ok a' ->
  exists a1, pa_pairs a (concat ls) = Ok a1 /\ a' = Pana (pa_mean a1) (pa_sq a1) (pa_points a1) (pa_ens a + length ls) (pa_bins a1) (pa_bmean a1) (pa_bsq a1) (pa_count a1) (pa_lmean a1) (pa_lsq a1) (pa_lcount a1).
Proof. assert (App : forall p1 p2 a, pa_pairs a (p1 ++ p2) = do a' <- pa_pairs a p1; pa_pairs a' p2).
  { induction p1 as [|[t v] p1 IH]; intros p2 a; cbn; [reflexivity|]. destruct (pa_pair a t v); cbn; auto. }
  assert (Ens : forall ps n a, pa_pairs (Pana (pa_mean a) (pa_sq a) (pa_points a) n (pa_bins a) (pa_bmean a) (pa_bsq a) (pa_count a) (pa_lmean a) (pa_lsq a) (pa_lcount a)) ps =
    do r <- pa_pairs a ps; Ok (Pana (pa_mean r) (pa_sq r) (pa_points r) n (pa_bins r) (pa_bmean r) (pa_bsq r) (pa_count r) (pa_lmean r) (pa_lsq r) (pa_lcount r))).
  { induction ps as [|[t v] ps IH]; intros n a; [reflexivity|]. cbn [pa_pairs]. unfold pa_pair. cbn [pa_bins pa_count pa_bmean pa_bsq pa_lcount pa_lmean pa_lsq pa_mean pa_sq pa_points pa_ens].
    destruct (bump (bin_pos _ _) Datatypes.S (pa_count a)); cbn [bind]; auto. destruct (bump (bin_pos _ _) _ (pa_bmean a)); cbn [bind]; auto.
    destruct (bump (bin_pos _ _) _ (pa_bsq a)); cbn [bind]; auto. destruct (bump (lbin_pos _ _) _ (pa_lcount a)); cbn [bind]; auto.
    destruct (bump (lbin_pos _ _) _ (pa_lmean a)); cbn [bind]; auto. destruct (bump (lbin_pos _ _) _ (pa_lsq a)); cbn [bind]; auto.
    match goal with |- pa_pairs ?X ps = bind (pa_pairs ?Y ps) _ => exact (IH n Y) end. }
  induction ls as [|l ls IH]; intros a a' H; cbn [add_lines concat] in *.
  - injection H as <-. exists a. split; [reflexivity|]. rewrite Nat.add_0_r. destruct a; reflexivity.
  - unfold pa_line at 1 in H. destruct (pa_pairs a l) as [a1| | |] eqn:E; try discriminate. cbn [bind] in H.
    destruct (IH _ _ H) as (a2 & E2 & ->). rewrite App, E. cbn [bind]. unfold pa_add in E2.
    rewrite (Ens (concat ls) (Datatypes.S (pa_ens a1)) a1) in E2. destruct (pa_pairs a1 (concat ls)) as [r| | |] eqn:E3; try discriminate. cbn [bind] in E2.
    injection E2 as <-. exists r. split; [reflexivity|]. cbn [pa_ens pa_add pa_mean pa_sq pa_points pa_bins pa_bmean pa_bsq pa_count pa_lmean pa_lsq pa_lcount length].
    apply pa_pairs_inv in E. destruct E as (_ & -> & _). f_equal. lia. Qed.

Lemma pa_bookkeeping (mn mx size lsize : S) a0 ls a : pa_fresh mn mx size lsize = Ok a0 -> add_lines pa_line a0 ls = Ok a ->
  pa_ens a = length ls /\ pa_points a = length (concat ls) /\
  list_sum (pa_count a) = number_of (fun tv => between (clip_min mn) mx (fst tv)) (concat ls) /\
  list_sum (pa_lcount a) = number_of (fun tv => between (clip_min mn) mx (fst tv)) (concat ls).
Proof. intros H0 H. apply pa_fresh_inv in H0. destruct H0 as (b & Hb & -> & _). apply pa_lines_inv in H. destruct H as (a1 & H & ->).
  apply pa_pairs_inv in H. cbn [pa_bins pa_ens pa_points pa_count pa_lcount] in *.
  destruct H as (_ & _ & Pt & _ & _ & _ & _ & _ & _ & _ & _ & _ & _ & _ & _ & _ & _ & S1 & S2).
  apply from_bin_size_inv in Hb. destruct Hb as (Em & EM & _). rewrite list_sum_repeat0 in S1, S2. rewrite <- Em, <- EM. auto. Qed.
End Proc.

(** ** Grouping *)
Section Group.
Context {S : scalar} {A L : Type}.
Variables (sip : list Z -> Z) (fresh : outcome A) (add_line : A -> L -> outcome A) (draw : A -> outcome A) (empty : A -> bool).
Notation same := (same_dataset (S := S) sip).

Lemma same_iff v w : same v w = true <-> sip (keys v) = sip (keys w). Proof. unfold same_dataset. apply Z.eqb_eq. Qed.
Lemma same_refl v : same v v = true. Proof. now apply same_iff. Qed.
Lemma same_sym v w : same v w = same w v. Proof. unfold same_dataset. apply Z.eqb_sym. Qed.
Lemma same_ext v w u : same v w = true -> same v u = same w u.
Proof. intros H. apply same_iff in H. unfold same_dataset. now rewrite H. Qed.

Lemma add_lines_app l1 : forall l2 a, add_lines add_line a (l1 ++ l2) = do a' <- add_lines add_line a l1; add_lines add_line a' l2.
Proof. induction l1 as [|l l1 IH]; intros l2 a; cbn; [reflexivity|]. destruct (add_line a l); cbn; auto. Qed.

Definition ok_entry (files : list (option (list S * list L))) (d : list S) (a : A) : Prop :=
  exists f, fresh = Ok f /\ add_lines add_line f (lines_of (same d) files) = Ok a.
(** The map after reading [files]. *)
Definition grouped (files : list (option (list S * list L))) (m : list (list S * A)) : Prop :=
  Forall (fun e => ok_entry files (fst e) (snd e)) m /\
  (forall ds xs, In (Some (ds, xs)) files -> exists d a, In (d, a) m /\ same d ds = true) /\
  (forall d a, In (d, a) m -> exists xs, In (Some (d, xs)) files) /\
  ForallOrdPairs (fun e e' => same (fst e) (fst e') = false) m.

Lemma lines_app s f1 f2 : lines_of (S := S) (L := L) s (f1 ++ f2) = lines_of s f1 ++ lines_of s f2.
Proof. unfold lines_of. now rewrite flat_map_app. Qed.
Lemma lines_ext s s' f : (forall d, s d = s' d) -> lines_of (S := S) (L := L) s f = lines_of s' f.
Proof. intros H. unfold lines_of. induction f as [|[[d xs]|] f IH]; cbn; [reflexivity| |exact IH]. rewrite IH, H. reflexivity. Qed.
Lemma lines_none s f : (forall ds xs, In (Some (ds, xs)) f -> s ds = false) -> lines_of (S := S) (L := L) s f = [].
Proof. intros H. unfold lines_of. induction f as [|[[d xs]|] f IH]; cbn; [reflexivity| |].
  - rewrite (H d xs) by now left. cbn. apply IH. intros ds ys Hd. apply (H ds ys). now right.
  - apply IH. intros ds ys Hd. apply (H ds ys). now right. Qed.

Lemma insert_inv ds xs m : forall m', insert_file sip fresh add_line ds xs m = Ok m' ->
  (exists m1 d a m2 a', m = m1 ++ (d, a) :: m2 /\ Forall (fun e => same (fst e) ds = false) m1 /\ same d ds = true /\ add_lines add_line a xs = Ok a' /\ m' = m1 ++ (d, a') :: m2) \/
  (Forall (fun e => same (fst e) ds = false) m /\ exists f a', fresh = Ok f /\ add_lines add_line f xs = Ok a' /\ m' = m ++ [(ds, a')]).
Proof. induction m as [|[d a] m IH]; intros m' H; cbn in H.
  - right. destruct fresh as [f| | |]; try discriminate. cbn in H. destruct (add_lines add_line f xs) as [a'| | |] eqn:E; try discriminate.
    cbn in H. injection H as <-. split; [constructor|]. exists f, a'. auto.
  - destruct (same d ds) eqn:Sd.
    + destruct (add_lines add_line a xs) as [a'| | |] eqn:E; try discriminate. cbn in H. injection H as <-.
      left. exists [], d, a, m, a'. auto.
    + destruct (insert_file _ _ _ _ _ m) as [m1| | |] eqn:E; try discriminate. cbn in H. injection H as <-.
      destruct (IH _ eq_refl) as [(p1 & d1 & a1 & p2 & a1' & -> & F & Sd1 & Ad & ->)|(F & f & a' & Ef & Ad & ->)].
      * left. exists ((d, a) :: p1), d1, a1, p2, a1'. repeat split; auto.
      * right. split; [constructor; auto|]. exists f, a'. auto. Qed.

Lemma FOP_app (R : list S * A -> list S * A -> Prop) m1 m2 : ForallOrdPairs R m1 -> ForallOrdPairs R m2 -> (forall x y, In x m1 -> In y m2 -> R x y) -> ForallOrdPairs R (m1 ++ m2).
Proof. induction 1 as [|x m1 F H IH]; intros H2 C; cbn; [exact H2|]. constructor.
  - apply Forall_app. split; [exact F|]. apply Forall_forall. intros y Hy. apply C; [now left|exact Hy].
  - apply IH; auto. intros x' y Hx Hy. apply C; [now right|exact Hy]. Qed.
Lemma FOP_fst (m m' : list (list S * A)) : map fst m = map fst m' -> ForallOrdPairs (fun e e' => same (fst e) (fst e') = false) m -> ForallOrdPairs (fun e e' => same (fst e) (fst e') = false) m'.
Proof. intros E H. revert m' E. induction H as [|x m F H IH]; intros [|y m'] E; try discriminate; [constructor|].
  cbn in E. injection E as E1 E2. constructor; [|now apply IH].
  apply Forall_forall. intros z Hz. assert (Hf : In (fst z) (map fst m)) by (rewrite E2; now apply in_map). apply in_map_iff in Hf.
  destruct Hf as (w & Ew & Hw). rewrite <- E1, <- Ew. rewrite Forall_forall in F. now apply F. Qed.
Lemma FOP_mid (R : list S * A -> list S * A -> Prop) m1 x m2 : ForallOrdPairs R (m1 ++ x :: m2) -> (forall y, In y m1 -> R y x) /\ (forall y, In y m2 -> R x y).
Proof. induction m1 as [|z m1 IH]; cbn; intros H; inversion H as [|? ? F H']; subst.
  - split; [intros ? []|]. intros y Hy. rewrite Forall_forall in F. now apply F.
  - destruct (IH H') as [I1 I2]. split; [|exact I2]. intros y [<-|Hy]; auto. rewrite Forall_forall in F. apply F. apply in_or_app. right. now left. Qed.

Lemma insert_grouped files ds xs m m' : grouped files m -> insert_file sip fresh add_line ds xs m = Ok m' -> grouped (files ++ [Some (ds, xs)]) m'.
Proof. intros (G1 & G2 & G3 & G4) H. apply insert_inv in H.
  assert (New : forall d, lines_of (same d) (files ++ [Some (ds, xs)]) = lines_of (same d) files ++ if same d ds then xs else []).
  { intros d. rewrite lines_app. cbn. now rewrite app_nil_r. }
  assert (Keep : forall d a, same d ds = false -> ok_entry files d a -> ok_entry (files ++ [Some (ds, xs)]) d a).
  { intros d a Hd (f & Hf & Ha). exists f. split; [exact Hf|]. rewrite New, Hd, app_nil_r. exact Ha. }
  rewrite Forall_forall in G1.
  destruct H as [(m1 & d & a & m2 & a' & -> & F & Sd & Ad & ->)|(F & f & a' & Ef & Ad & ->)].
  - destruct (FOP_mid _ _ _ _ G4) as [M1 M2].
    assert (Out : forall e, In e m1 \/ In e m2 -> same (fst e) ds = false).
    { intros e [He|He]; [rewrite Forall_forall in F; auto|]. specialize (M2 e He). cbn in M2. rewrite (same_ext d ds (fst e) Sd) in M2. rewrite same_sym. exact M2. }
    split; [|split; [|split]].
    + apply Forall_forall. intros e He. apply in_app_iff in He. destruct He as [He|[<-|He]].
      * apply Keep; [apply Out; auto|]. apply G1. apply in_app_iff; auto.
      * cbn [fst snd]. destruct (G1 (d, a)) as (f & Hf & Ha); [apply in_app_iff; right; now left|]. exists f. split; [exact Hf|]. cbn in Ha.
        rewrite New, Sd, add_lines_app, Ha. exact Ad.
      * apply Keep; [apply Out; auto|]. apply G1. apply in_app_iff. right. now right.
    + intros es ys He. apply in_app_iff in He. destruct He as [He|[He|[]]].
      * destruct (G2 es ys He) as (d0 & a0 & Hi & Hs). apply in_app_iff in Hi. destruct Hi as [Hi|[Hi|Hi]].
        -- exists d0, a0. split; [apply in_app_iff; auto|exact Hs].
        -- injection Hi as <- <-. exists d, a'. split; [apply in_app_iff; right; now left|exact Hs].
        -- exists d0, a0. split; [apply in_app_iff; right; now right|exact Hs].
      * injection He as <- <-. exists d, a'. split; [apply in_app_iff; right; now left|exact Sd].
    + intros d0 a0 Hi. assert (Hi' : exists a1, In (d0, a1) (m1 ++ (d, a) :: m2)).
      { apply in_app_iff in Hi. destruct Hi as [Hi|[Hi|Hi]]; [exists a0; apply in_app_iff; auto| |exists a0; apply in_app_iff; right; now right].
        injection Hi as <- <-. exists a. apply in_app_iff. right. now left. }
      destruct Hi' as [a1 Hi']. destruct (G3 d0 a1 Hi') as [ys Hy]. exists ys. apply in_app_iff. now left.
    + eapply FOP_fst; [|exact G4]. rewrite !map_app. reflexivity.
  - rewrite Forall_forall in F. split; [|split; [|split]].
    + apply Forall_forall. intros e He. apply in_app_iff in He. destruct He as [He|[<-|[]]].
      * apply Keep; [now apply F|]. now apply G1.
      * cbn [fst snd]. exists f. split; [exact Ef|]. rewrite New, same_refl, lines_none; [exact Ad|].
        intros es ys He. destruct (G2 es ys He) as (d0 & a0 & Hi & Hs). rewrite same_sym, <- (same_ext _ _ ds Hs). exact (F _ Hi).
    + intros es ys He. apply in_app_iff in He. destruct He as [He|[He|[]]].
      * destruct (G2 es ys He) as (d0 & a0 & Hi & Hs). exists d0, a0. split; [apply in_app_iff; auto|exact Hs].
      * injection He as <- <-. exists ds, a'. split; [apply in_app_iff; right; now left|apply same_refl].
    + intros d0 a0 Hi. apply in_app_iff in Hi. destruct Hi as [Hi|[Hi|[]]].
      * destruct (G3 d0 a0 Hi) as [ys Hy]. exists ys. apply in_app_iff. now left.
      * injection Hi as <- <-. exists xs. apply in_app_iff. right. now left.
    + apply FOP_app; [exact G4|repeat constructor|]. intros x y Hx [<-|[]]. exact (F x Hx). Qed.

Lemma read_grouped files : forall pre m m', grouped pre m -> read_files sip fresh add_line files m = Ok m' -> grouped (pre ++ files) m'.
Proof. induction files as [|[[ds xs]|] files IH]; intros pre m m' G H; cbn in H.
  - injection H as <-. rewrite app_nil_r. exact G.
  - destruct (insert_file _ _ _ _ _ _) as [m1| | |] eqn:E; try discriminate. cbn in H.
    replace (pre ++ Some (ds, xs) :: files) with ((pre ++ [Some (ds, xs)]) ++ files) by (rewrite <- app_assoc; reflexivity).
    eapply IH; [|exact H]. eapply insert_grouped; eauto.
  - replace (pre ++ None :: files) with ((pre ++ [None]) ++ files) by (rewrite <- app_assoc; reflexivity).
    eapply IH; [|exact H]. destruct G as (G1 & G2 & G3 & G4).
    assert (Q : forall d, lines_of (S := S) (L := L) (same d) (pre ++ [None]) = lines_of (same d) pre) by (intros d; rewrite lines_app; cbn; apply app_nil_r).
    split; [|split; [|split]]; auto.
    + eapply Forall_impl; [|exact G1]. intros e (f & Hf & Ha). exists f. rewrite Q. auto.
    + intros es ys He. apply in_app_iff in He. destruct He as [He|[He|[]]]; [eauto|discriminate].
    + intros d a Hd. destruct (G3 d a Hd) as [ys Hy]. exists ys. apply in_app_iff. now left. Qed.

Lemma draw_all_inv m : forall r, draw_all (S := S) draw empty m = Ok r ->
  (forall d a', In (d, a') r -> exists a, In (d, a) m /\ empty a = false /\ draw a = Ok a') /\
  (forall d a, In (d, a) m -> empty a = false -> exists a', In (d, a') r /\ draw a = Ok a') /\
  (forall P : list S -> list S -> Prop, ForallOrdPairs (fun e e' => P (fst e) (fst e')) m -> ForallOrdPairs (fun e e' => P (fst e) (fst e')) r).
Proof. induction m as [|[d a] m IH]; intros r H; cbn in H.
  - injection H as <-. split; [intros ? ? []|]. split; [intros ? ? []|]. auto.
  - destruct (empty a) eqn:Ea.
    + destruct (IH _ H) as (I1 & I2 & I3). split; [|split].
      * intros d0 a0 Hi. destruct (I1 d0 a0 Hi) as (a1 & Hi' & X). exists a1. split; [now right|exact X].
      * intros d0 a0 [Hi|Hi] He; [injection Hi as <- <-; congruence|eauto].
      * intros P HP. inversion HP. auto.
    + destruct (draw a) as [a'| | |] eqn:Ed; try discriminate. cbn in H. destruct (draw_all draw empty m) as [r'| | |] eqn:Er; try discriminate.
      cbn in H. injection H as <-. destruct (IH _ eq_refl) as (I1 & I2 & I3). split; [|split].
      * intros d0 a0 [Hi|Hi]; [injection Hi as <- <-; exists a; split; [now left|auto]|].
        destruct (I1 d0 a0 Hi) as (a1 & Hi' & X). exists a1. split; [now right|exact X].
      * intros d0 a0 [Hi|Hi] He; [injection Hi as <- <-; exists a'; split; [now left|auto]|].
        destruct (I2 d0 a0 Hi He) as (a1 & Hi' & X). exists a1. split; [now right|exact X].
      * intros P HP. inversion HP as [|? ? F HP']; subst. constructor; [|now apply I3].
        apply Forall_forall. intros [d0 a0] Hi. destruct (I1 d0 a0 Hi) as (a1 & Hi' & _). rewrite Forall_forall in F. exact (F _ Hi'). Qed.

(** C41: one result per class of parameters, made of the lines of exactly the files of that class. *)
Lemma analyze_groups files r : analyze sip fresh add_line draw empty files = Ok r ->
  (forall d a', In (d, a') r -> (exists xs, In (Some (d, xs)) files) /\
     exists f a, fresh = Ok f /\ add_lines add_line f (lines_of (same d) files) = Ok a /\ empty a = false /\ draw a = Ok a') /\
  (forall ds xs, In (Some (ds, xs)) files ->
     (exists d a', In (d, a') r /\ same d ds = true) \/
     (exists f a, fresh = Ok f /\ add_lines add_line f (lines_of (same ds) files) = Ok a /\ empty a = true)) /\
  ForallOrdPairs (fun e e' => same (fst e) (fst e') = false) r.
Proof. unfold analyze. intros H. destruct (read_files _ _ _ _ _) as [m| | |] eqn:E; try discriminate. cbn in H.
  assert (G : grouped files m).
  { apply (read_grouped files [] [] m); [|exact E]. split; [constructor|]. split; [intros ? ? []|]. split; [intros ? ? []|constructor]. }
  destruct G as (G1 & G2 & G3 & G4). rewrite Forall_forall in G1. destruct (draw_all_inv _ _ H) as (D1 & D2 & D3). split; [|split].
  - intros d a' Hi. destruct (D1 d a' Hi) as (a & Hm & Ea & Ed). split; [eapply G3; eauto|].
    destruct (G1 _ Hm) as (f & Hf & Ha). exists f, a. auto.
  - intros ds xs Hi. destruct (G2 ds xs Hi) as (d & a & Hm & Hs). destruct (empty a) eqn:Ea.
    + right. destruct (G1 _ Hm) as (f & Hf & Ha). exists f, a. split; [exact Hf|]. split; [|exact Ea]. cbn in Ha.
      rewrite <- (lines_ext (same d) (same ds)); [exact Ha|]. intros u. now apply same_ext.
    + left. destruct (D2 d a Hm Ea) as (a' & Hr & _). eauto.
  - apply (D3 (fun d d' => same d d' = false)). exact G4. Qed.

Lemma lines_perm s f f' : Permutation f f' -> Permutation (lines_of (S := S) (L := L) s f) (lines_of s f').
Proof. intros P. unfold lines_of. now apply Permutation_flat_map. Qed.
End Group.

(** Equal parameters are always merged; with a collision-free digest, merging means equal keys. *)
Lemma merge_equal {S : scalar} sip (v w : list S) : v = w -> same_dataset sip v w = true.
Proof. intros ->. apply same_refl. Qed.
Lemma merge_keys {S : scalar} sip (v w : list S) : (forall k k', sip k = sip k' -> k = k') -> same_dataset sip v w = true <-> map field_key v = map field_key w.
Proof. intros H. rewrite same_iff. split; [apply H|]. unfold keys. congruence. Qed.

(** The order in which the directory lists its files does not change any count. *)
Lemma order_of_files {S : scalar} sip (mn mx size lsize : S) files files' r r' : @usize_ok S -> Permutation files files' ->
  ta_analyze sip mn mx size lsize files = Ok r -> ta_analyze sip mn mx size lsize files' = Ok r' ->
  forall d a, In (d, a) r -> exists d' a', In (d', a') r' /\ same_dataset sip d d' = true /\
    ta_ens a = ta_ens a' /\ ta_count a = ta_count a' /\ ta_lcount a = ta_lcount a' /\ ta_hist a = ta_hist a' /\ ta_lhist a = ta_lhist a'.
Proof. intros U P H H' d a Hi. apply analyze_groups in H, H'. destruct H as (D & _ & _). destruct H' as (D' & F' & _).
  destruct (D d a Hi) as ((xs & Hx) & f & a1 & Hf & Ha & _ & Hd).
  assert (Hx' : In (Some (d, xs)) files') by (eapply Permutation_in; eauto).
  destruct (F' d xs Hx') as [(d' & a' & Hi' & Hs)|(? & ? & ? & ? & ?)]; [|discriminate].
  destruct (D' d' a' Hi') as (_ & f' & a1' & Hf' & Ha' & _ & Hd'). rewrite Hf in Hf'. injection Hf' as <-.
  exists d', a'. split; [exact Hi'|]. split; [rewrite same_sym; exact Hs|].
  assert (Eq : forall xs (g : tana S), add_lines ta_add g xs = ta_adds g xs).
  { clear. induction xs as [|x xs IH]; intros g; cbn; [reflexivity|]. destruct (ta_add g x); cbn; auto. }
  rewrite Eq in Ha, Ha'.
  assert (PL : Permutation (lines_of (same_dataset sip d) files) (lines_of (same_dataset sip d') files')).
  { rewrite (lines_ext (same_dataset sip d') (same_dataset sip d)); [now apply lines_perm|]. intros u. now apply same_ext. }
  pose proof (tally_perm _ _ f U PL) as T. rewrite Ha, Ha' in T. cbn in T. injection T as T1 T2 T3 T4.
  assert (S1 : shape (ta_bins f) a1) by (rewrite adds_history in Ha; eapply history_shape; [|exact Ha]; eapply fresh_shape; eauto).
  assert (S2 : shape (ta_bins f) a1') by (rewrite adds_history in Ha'; eapply history_shape; [|exact Ha']; eapply fresh_shape; eauto).
  apply ta_adds_inv in Ha, Ha'. destruct Ha as (_ & Hh & Hl & _), Ha' as (_ & Hh' & Hl' & _).
  destruct (draw_shape _ _ _ S1 Hd) as (_ & K1 & K2 & K3), (draw_shape _ _ _ S2 Hd') as (_ & K1' & K2' & K3').
  split; [congruence|]. split; [congruence|]. split; [congruence|].
  unfold ta_draw in Hd, Hd'. rewrite T1, T2, T3, T4, Hh, Hl in Hd. rewrite Hh', Hl' in Hd'.
  destruct (fill_lin _ _ _); try discriminate. cbn [bind] in Hd, Hd'. destruct (fill _ _ _ _); try discriminate. cbn [bind] in Hd, Hd'.
  injection Hd as <-. injection Hd' as <-. auto. Qed.

(** C44 *)
Lemma free_suffix_spec ex fuel : forall i r, free_suffix fuel ex i = Ok r -> i <= r /\ ex (Some r) = false /\ forall j, i <= j < r -> ex (Some j) = true.
Proof. induction fuel as [|k IH]; intros i r H; cbn in H; [discriminate|]. destruct (ex (Some i)) eqn:E.
  - destruct (IH _ _ H) as (H1 & H2 & H3). split; [lia|]. split; [exact H2|]. intros j Hj. destruct (Nat.eq_dec j i) as [->|]; [exact E|]. apply H3. lia.
  - injection H as <-. split; [lia|]. split; [exact E|]. intros j Hj. lia. Qed.
Lemma summary_dir_spec ex fuel r : summary_dir fuel ex = Ok r -> ex r = false /\
  match r with None => True | Some i => 2 <= i /\ ex None = true /\ forall j, 2 <= j < i -> ex (Some j) = true end.
Proof. unfold summary_dir. destruct (ex None) eqn:E.
  - destruct (free_suffix fuel ex 2) as [i| | |] eqn:F; try discriminate. cbn. intros H. injection H as <-.
    apply free_suffix_spec in F. destruct F as (F1 & F2 & F3). auto.
  - intros H. injection H as <-. auto. Qed.
Lemma free_suffix_ends ex j fuel : forall i, i <= j -> ex (Some j) = false -> j - i < fuel -> exists r, free_suffix fuel ex i = Ok r.
Proof. induction fuel as [|k IH]; intros i H1 H2 H3; [lia|]. cbn. destruct (ex (Some i)) eqn:E; [|eauto].
  destruct (Nat.eq_dec i j) as [->|]; [congruence|]. apply IH; auto; lia. Qed.
Lemma summary_dir_ends ex j : 2 <= j -> ex (Some j) = false -> exists fuel r, summary_dir fuel ex = Ok r.
Proof. intros H1 H2. unfold summary_dir. destruct (ex None); [|exists 0; eauto].
  destruct (free_suffix_ends ex j (S j) 2 H1 H2) as [r Hr]; [lia|]. exists (S j). rewrite Hr. cbn. eauto. Qed.
