(** Counts of the three analyses on doubles, against the exact intervals. *)
From Coq Require Import Reals ZArith List Lra Lia Bool.
From Flocq Require Import Core.
From Flocq.IEEE754 Require Import BinarySingleNaN.
From Verif Require Import Base Scalar Float64 Model_Position Spec_Position Proof_Position Proof_Norm64 Proof_Sum64 Proof_Rel64
  Proof_Time Model_Analysis Spec_Analysis Proof_Analysis Proof_Analysis2 Proof_Analysis3 Proof_Analysis4 Proof_Analysis5 Proof_Analysis7 Proof_Analysis9 Proof_Analysis8 Proof_System4 Spec_Accuracy Proof_Accuracy Spec_Hist64 Proof_Hist64.
Import ListNotations.
Open Scope R_scope.

Lemma number_mono {A} (f g : A -> bool) l : (forall x, In x l -> f x = true -> g x = true) -> (number_of f l <= number_of g l)%nat.
Proof.
  unfold number_of. induction l as [|x l IH]; intros H; [apply Nat.le_refl|]. cbn [filter]. specialize (IH (fun y Hy => H y (or_intror Hy))).
  destruct (f x) eqn:E; [rewrite (H x (or_introl eq_refl) E); cbn [length]; lia|]. destruct (g x); cbn [length]; lia.
Qed.
Lemma tiny64 lm : fin (tiny (S := F64 lm) : b64) = true /\ 0 < B2 (tiny (S := F64 lm) : b64).
Proof.
  assert (E : fin (tiny (S := F64 lm) : b64) = true) by (vm_compute; reflexivity). split; [exact E|].
  apply (ltb64 (b64_of_Z 0) (tiny (S := F64 lm))) in E as X; [|reflexivity]. destruct X as (X & _). change (B2 (b64_of_Z 0)) with 0 in X. apply X. vm_compute. reflexivity.
Qed.
Lemma raised_pos lm (mn : b64) : fin (raised (S := F64 lm) mn : b64) = true -> 0 < B2 (raised (S := F64 lm) mn : b64).
Proof.
  destruct (tiny64 lm) as (Ft & Pt). unfold raised. change (lit (s := F64 lm) 1 (10 ^ 15)) with (tiny (S := F64 lm)). change (@ltb (F64 lm)) with (@Bltb 53 1024).
  destruct (Bltb mn (tiny (S := F64 lm))) eqn:E; [intros _; exact Pt|]. intros F. apply (ltb64 mn (tiny (S := F64 lm)) F Ft) in E. lra.
Qed.

Section Bin.
Variables (lm : libm) (b : bins (F64 lm)).
Notation m := (b_min b : b64). Notation mx := (b_max b : b64). Notation w := (b_size b : b64). Notation l := (b_lsize b : b64).
Hypotheses (Fm : fin m = true) (Fmx : fin mx = true) (Pm : 0 < B2 m).

Lemma between64 (x : b64) : fin x = true -> between (S := F64 lm) m mx x = between (S := RR) (B2 m) (B2 mx) (B2 x).
Proof.
  intros F. unfold between. change (@ltb (F64 lm)) with (@Bltb 53 1024). f_equal; f_equal.
  - destruct (ltb64 x m F Fm) as (A & B). destruct (Bltb x m); symmetry; [apply Rltb_spec, A|apply Rltb_false, B]; reflexivity.
  - destruct (ltb64 mx x Fmx F) as (A & B). destruct (Bltb mx x); symmetry; [apply Rltb_spec, A|apply Rltb_false, B]; reflexivity.
Qed.
Lemma pos_lin (x : b64) : bin_pos b x = if between (S := F64 lm) m mx x then Some (b64_as_usize (Bdiv mode_NE (Bminus mode_NE x m) w)) else None.
Proof. exact (proj1 (bin_pos_cases (S := F64 lm) b x)). Qed.
Lemma pos_log (x : b64) : lbin_pos b x = if between (S := F64 lm) m mx x then Some (b64_as_usize (Bdiv mode_NE (m_log2 lm (Bdiv mode_NE x m)) (m_log2 lm l))) else None.
Proof. exact (proj2 (bin_pos_cases (S := F64 lm) b x)). Qed.

Notation lin_lo d i := (bin_lo (B2 m) (B2 w) d i). Notation lin_hi d i := (bin_hi (B2 m) (B2 w) d i).
Notation log_lo d v i := (lbin_lo (B2 m) (B2 l) d v i). Notation log_hi d v i := (lbin_hi (B2 m) (B2 l) d v i).

Lemma lin_hit_out (x : b64) i : fin w = true -> 0 < B2 w -> fin x = true -> (Z.of_nat i < usize_max)%Z ->
  hit i (bin_pos b x) = true -> (between (S := RR) (B2 m) (B2 mx) (B2 x) && cell (lin_lo (- slack) i) (lin_hi (- slack) i) (B2 x))%bool = true.
Proof.
  intros Fw Pw Fx Hi H. rewrite pos_lin, (between64 x Fx) in H. destruct (between (S := RR) (B2 m) (B2 mx) (B2 x)) eqn:Bt; [|discriminate]. cbn [hit] in H.
  apply between_R in Bt. apply Nat.eqb_eq in H. set (k := b64_as_usize (Bdiv mode_NE (Bminus mode_NE x m) w)) in *.
  pose proof (usize_range (Bdiv mode_NE (Bminus mode_NE x m) w)) as UR. fold k in UR. assert (Ek : k = Z.of_nat i) by lia.
  pose proof (lin_out x m w k Fx Fm Fw ltac:(lra) Pw ltac:(lia) eq_refl) as (A & B). cbn [andb]. apply cell_R. unfold bin_lo, bin_hi. rewrite INR_IZR_INZ, <- Ek.
  split; [|apply Rlt_le_trans with (1 := B)]; [apply Rle_trans with (2 := A)|]; apply Req_le; ring.
Qed.
Lemma lin_hit_in (x : b64) i : fin w = true -> 0 < B2 w -> fin x = true -> (Z.of_nat i < usize_max)%Z ->
  (between (S := RR) (B2 m) (B2 mx) (B2 x) && cell (lin_lo slack i) (lin_hi slack i) (B2 x))%bool = true -> hit i (bin_pos b x) = true.
Proof.
  intros Fw Pw Fx Hi H. rewrite pos_lin, (between64 x Fx). destruct (between (S := RR) (B2 m) (B2 mx) (B2 x)) eqn:Bt; [|discriminate]. cbn [andb] in H.
  apply between_R in Bt. apply cell_R in H. unfold bin_lo, bin_hi in H. rewrite INR_IZR_INZ in H. cbn [hit].
  rewrite (lin_in x m w (Z.of_nat i)); auto; [|lra|lia]. rewrite Nat2Z.id. apply Nat.eqb_refl.
Qed.

Section L.
Variable e : R.
Hypotheses (ACC : accurate_log2 lm e) (E0 : 0 <= e <= 1 / 8).
Lemma log_hit_out (x : b64) i : fin l = true -> 1 < B2 l -> fin (Bdiv mode_NE mx m) = true -> fin x = true -> (Z.of_nat i < usize_max)%Z ->
  hit i (lbin_pos b x) = true -> (between (S := RR) (B2 m) (B2 mx) (B2 x) && cell (log_lo (- lslack e) (- (2 * u64)) i) (log_hi (- lslack e) (- (2 * u64)) i) (B2 x))%bool = true.
Proof.
  intros Fl Pl Fq Fx Hi H. rewrite pos_log, (between64 x Fx) in H. destruct (between (S := RR) (B2 m) (B2 mx) (B2 x)) eqn:Bt; [|discriminate]. cbn [hit] in H.
  apply between_R in Bt. destruct (div_mono x mx m) as (FQ & _); auto; [lra|].
  apply Nat.eqb_eq in H. set (k := b64_as_usize (Bdiv mode_NE (m_log2 lm (Bdiv mode_NE x m)) (m_log2 lm l))) in *.
  pose proof (usize_range (Bdiv mode_NE (m_log2 lm (Bdiv mode_NE x m)) (m_log2 lm l))) as UR. fold k in UR. assert (Ek : k = Z.of_nat i) by lia.
  pose proof (log_out lm e ACC E0 x m l k Fx Fm Fl ltac:(lra) Pl FQ ltac:(lia) eq_refl) as (A & B). cbn [andb]. apply cell_R. unfold lbin_lo, lbin_hi. rewrite INR_IZR_INZ, <- Ek.
  replace (1 + - lslack e) with (1 - lslack e) by ring. replace (1 - - lslack e) with (1 + lslack e) by ring.
  split; [|apply Rlt_le_trans with (1 := B)]; [apply Rle_trans with (2 := A)|]; apply Req_le; ring.
Qed.
Lemma log_hit_in (x : b64) i : fin l = true -> 1 < B2 l -> fin (Bdiv mode_NE mx m) = true -> fin x = true -> (Z.of_nat i < usize_max)%Z ->
  (between (S := RR) (B2 m) (B2 mx) (B2 x) && cell (log_lo (lslack e) (2 * u64) i) (log_hi (lslack e) (2 * u64) i) (B2 x))%bool = true -> hit i (lbin_pos b x) = true.
Proof.
  intros Fl Pl Fq Fx Hi H. rewrite pos_log, (between64 x Fx). destruct (between (S := RR) (B2 m) (B2 mx) (B2 x)) eqn:Bt; [|discriminate]. cbn [andb] in H.
  apply between_R in Bt. destruct (div_mono x mx m) as (FQ & _); auto; [lra|].
  apply cell_R in H. unfold lbin_lo, lbin_hi in H. rewrite INR_IZR_INZ in H. cbn [hit].
  rewrite (log_in lm e ACC E0 x m l (Z.of_nat i)); auto; [|lra|lia]. rewrite Nat2Z.id. apply Nat.eqb_refl.
Qed.
Lemma log_counted i (xs : list b64) : fin l = true -> 1 < B2 l -> fin (Bdiv mode_NE mx m) = true -> Forall (fun x => fin x = true) xs -> (Z.of_nat i < usize_max)%Z ->
  log_count e (B2 m) (B2 mx) (B2 l) i xs (number_of (fun x : b64 => hit i (lbin_pos b x)) xs).
Proof.
  intros Fl Pl Fq Fx Hi. rewrite Forall_forall in Fx. unfold log_count, counted. fold (lslack e). cbv zeta. split; apply number_mono; intros x Ix H.
  - apply log_hit_in; auto.
  - apply log_hit_out; auto.
Qed.
End L.
Lemma lin_counted i (xs : list b64) : fin w = true -> 0 < B2 w -> Forall (fun x => fin x = true) xs -> (Z.of_nat i < usize_max)%Z ->
  lin_count (B2 m) (B2 mx) (B2 w) i xs (number_of (fun x : b64 => hit i (bin_pos b x)) xs).
Proof.
  intros Fw Pw Fx Hi. rewrite Forall_forall in Fx. unfold lin_count, counted. fold slack. split; apply number_mono; intros x Ix H.
  - apply lin_hit_in; auto.
  - apply lin_hit_out; auto.
Qed.
End Bin.

(** ** The three analyses *)
Section Three.
Variables (lm : libm) (mn mx size lsize : b64).
Notation m := (raised (S := F64 lm) mn : b64).
Hypotheses (Fm : fin m = true) (Fmx : fin mx = true).
Notation lin_ok := (fin size = true /\ 0 < B2 size).
Notation log_ok e := (accurate_log2 lm e /\ 0 <= e <= 1 / 8 /\ fin lsize = true /\ 1 < B2 lsize /\ fin (Bdiv mode_NE mx m) = true).

Lemma fresh_counted (b : bins (F64 lm)) i xs : from_bin_size (S := F64 lm) mn mx size lsize = Ok b -> Forall (fun x => fin x = true) xs -> (Z.of_nat i < usize_max)%Z ->
  (lin_ok -> lin_count (B2 m) (B2 mx) (B2 size) i xs (number_of (fun x : b64 => hit i (bin_pos b x)) xs)) /\
  (forall e, log_ok e -> log_count e (B2 m) (B2 mx) (B2 lsize) i xs (number_of (fun x : b64 => hit i (lbin_pos b x)) xs)).
Proof.
  intros Hb Fx Hi. apply from_bin_size_inv in Hb. destruct Hb as (E1 & E2 & E3 & E4 & _). change (clip_min (S := F64 lm) mn) with (raised (S := F64 lm) mn) in E1.
  pose proof (raised_pos lm mn Fm) as Pm. rewrite <- E1, <- E2, <- E3, <- E4 in *. split.
  - intros (Fw & Pw). apply lin_counted; auto.
  - intros e (A & B & C & D & F). apply log_counted; auto.
Qed.

Lemma time_counts (a0 a : tana (F64 lm)) (xs : list b64) : ta_fresh (S := F64 lm) mn mx size lsize = Ok a0 -> ta_adds a0 xs = Ok a -> Forall (fun x => fin x = true) xs ->
  (lin_ok -> forall i, (i < length (ta_count a))%nat -> lin_count (B2 m) (B2 mx) (B2 size) i xs (nth i (ta_count a) 0%nat)) /\
  (forall e, log_ok e -> forall i, (i < length (ta_lcount a))%nat -> log_count e (B2 m) (B2 mx) (B2 lsize) i xs (nth i (ta_lcount a) 0%nat)).
Proof.
  intros H0 Ha Fx. destruct (bookkeeping (S := F64 lm) _ _ _ _ _ _ _ H0 Ha) as (_ & _ & _ & N1 & N2).
  destruct (ta_fresh_inv (S := F64 lm) _ _ _ _ _ H0) as (b & Hb & Eb & E0 & K1 & K2). destruct (ta_adds_inv (S := F64 lm) _ _ _ Ha) as (_ & _ & _ & _ & L1 & L2 & _).
  rewrite Eb in *. rewrite E0 in L1, L2. cbn [ta_count ta_lcount] in L1, L2. rewrite repeat_length in L1, L2. split.
  - intros Ok1 i Hi. rewrite N1. apply fresh_counted; auto. rewrite L1 in Hi. change usize_max with (2 ^ 64 - 1)%Z. lia.
  - intros e Ok1 i Hi. rewrite N2. apply fresh_counted; auto. rewrite L2 in Hi. change usize_max with (2 ^ 64 - 1)%Z. lia.
Qed.
Lemma vector_counts n (a0 a : tvec (F64 lm)) (rows : list (list b64)) : n <> 0%nat -> tv_fresh (S := F64 lm) mn mx size lsize n = Ok a0 -> tv_adds a0 rows = Ok a ->
  Forall (Forall (fun x => fin x = true)) rows -> forall k, (k < n)%nat -> let xs := map (fun row => nth k row (b64_of_Z 0)) rows in
  exists c lc, nth_error (tv_count a) k = Some c /\ nth_error (tv_lcount a) k = Some lc /\
  (lin_ok -> forall i, (i < length c)%nat -> lin_count (B2 m) (B2 mx) (B2 size) i xs (nth i c 0%nat)) /\
  (forall e, log_ok e -> forall i, (i < length lc)%nat -> log_count e (B2 m) (B2 mx) (B2 lsize) i xs (nth i lc 0%nat)).
Proof.
  intros N H0 Ha Fx k Hk xs. pose proof Ha as Hh. rewrite tv_adds_vhistory in Hh.
  destruct (columns_refine (S := F64 lm) _ _ _ _ _ _ _ _ N H0 Hh) as (L & C). destruct (C k Hk) as (t0 & t & T0 & T & Ct).
  rewrite op_col_adds in T. apply column_inv in Ct. destruct Ct as (_ & _ & _ & _ & C1 & C2 & _). exists (ta_count t), (ta_lcount t). split; [exact C1|]. split; [exact C2|].
  apply (time_counts t0 t xs T0 T). unfold xs. rewrite Forall_map. apply Forall_forall. intros row Hr. rewrite Forall_forall in Fx. specialize (Fx row Hr).
  rewrite Forall_forall in Fx. destruct (nth_in_or_default k row (b64_of_Z 0)) as [I|E]; [now apply Fx|]. rewrite E. reflexivity.
Qed.
Lemma number_map {A B} (g : A -> B) (f : B -> bool) ls : number_of f (map g ls) = number_of (fun x => f (g x)) ls.
Proof. unfold number_of. induction ls as [|x ls IH]; [reflexivity|]. cbn [map filter]. destruct (f (g x)); cbn [length]; lia. Qed.
Lemma process_counts (a0 a : pana (F64 lm)) (ls : list (list (b64 * b64))) : pa_fresh (S := F64 lm) mn mx size lsize = Ok a0 -> add_lines (pa_line (S := F64 lm)) a0 ls = Ok a ->
  let xs := map fst (concat ls) in Forall (fun x => fin x = true) xs ->
  (lin_ok -> forall i, (i < length (pa_count a))%nat -> lin_count (B2 m) (B2 mx) (B2 size) i xs (nth i (pa_count a) 0%nat)) /\
  (forall e, log_ok e -> forall i, (i < length (pa_lcount a))%nat -> log_count e (B2 m) (B2 mx) (B2 lsize) i xs (nth i (pa_lcount a) 0%nat)).
Proof.
  intros H0 Ha xs Fx. destruct (pa_fresh_inv (S := F64 lm) _ _ _ _ _ H0) as (b & Hb & E0 & K1 & K2).
  apply (pa_lines_inv (S := F64 lm)) in Ha. destruct Ha as (a1 & H & ->). apply (pa_pairs_inv (S := F64 lm)) in H. subst a0.
  cbn [pa_bins pa_ens pa_points pa_count pa_lcount] in *. destruct H as (_ & _ & _ & L1 & L2 & _ & _ & _ & _ & _ & _ & N1 & N2 & _).
  rewrite repeat_length in L1, L2. unfold vals in N1, N2.
  assert (X : forall (f : b64 -> option Z) i, length (map snd (filter (fun tv : b64 * b64 => hit i (f (fst tv))) (concat ls))) = number_of (fun x => hit i (f x)) xs).
  { intros f i. rewrite map_length. unfold xs. rewrite number_map. reflexivity. }
  split.
  - intros Ok1 i Hi. specialize (N1 i). rewrite nth_repeat0, Nat.add_0_l in N1. specialize (X (fun x => bin_pos b x) i). cbn beta in X.
    assert (Y : nth i (pa_count a1) 0%nat = number_of (fun x : b64 => hit i (bin_pos b x)) xs) by (exact (eq_trans N1 X)). rewrite Y.
    apply fresh_counted; auto. rewrite L1 in Hi. change usize_max with (2 ^ 64 - 1)%Z. lia.
  - intros e Ok1 i Hi. specialize (N2 i). rewrite nth_repeat0, Nat.add_0_l in N2. specialize (X (fun x => lbin_pos b x) i). cbn beta in X.
    assert (Y : nth i (pa_lcount a1) 0%nat = number_of (fun x : b64 => hit i (lbin_pos b x)) xs) by (exact (eq_trans N2 X)). rewrite Y.
    apply fresh_counted; auto. rewrite L2 in Hi. change usize_max with (2 ^ 64 - 1)%Z. lia.
Qed.
End Three.
