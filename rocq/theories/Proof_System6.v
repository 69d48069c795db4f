From Coq Require Import Reals ZArith List Lra Lia.
From Flocq Require Import Core.
From Flocq.IEEE754 Require Import BinarySingleNaN.
From Verif Require Import Base Scalar Float64 Model_Position Spec_Position Proof_Position Proof_Norm64
  Model_System Spec_System Proof_System Proof_System2 Proof_System3 Proof_System4.
Local Open Scope R_scope.

(** ** Binary64: random positions, outside positions, special values, targets *)
Section F.
Variable lm : libm.
Local Notation F := (F64 lm).

Lemma rnd_abs_le r (l : b64) : Rabs r <= B2 l -> Rabs (rnd r) <= B2 l.
Proof.
  intros H. apply Rabs_le_inv in H. apply Rabs_le. split.
  - apply Rle_trans with (rnd (- B2 l)); [rewrite rnd_opp, rnd_B2; lra|apply rnd_le; lra].
  - apply Rle_trans with (rnd (B2 l)); [apply rnd_le; lra|rewrite rnd_B2; lra].
Qed.
Lemma res_bounded (z l : b64) r : nan z = false -> val z = rnd r -> Rabs r <= B2 l -> bounded64 l z.
Proof.
  intros N V H. apply rnd_abs_le in H. pose proof (B2_bound l). assert (Fz : fin z = true).
  { apply val_lt_fin; auto. rewrite V. apply Rabs_le_inv in H. lra. }
  split; auto. rewrite <- val_fin by auto. now rewrite V.
Qed.

Lemma half64 : fin (@half F : b64) = true /\ B2 (@half F : b64) = / 2.
Proof.
  destruct (of_Z_exact 1 ltac:(simpl; lia)) as (F1 & E1). destruct two64 as (F2 & E2).
  destruct (div_val _ _ F1 F2 ltac:(rewrite E2; lra)) as (N & V). rewrite E1, E2 in V.
  assert (Q : rnd (1 / 2) = / 2).
  { assert (E : rnd64 (1 / 2) = / 2).
    { replace (1 / 2) with (bpow radix2 (-1)) by (simpl; lra). replace (/ 2) with (bpow radix2 (-1)) by (simpl; lra).
      apply round_generic; auto with typeclass_instances. apply generic_format_bpow. unfold fexp64, SpecFloat.fexp, SpecFloat.emin. lia. }
    rewrite rnd_small, E; auto. rewrite E. rewrite Rabs_pos_eq by lra. apply Rlt_trans with 1; [lra|]. change 1 with (bpow radix2 0). apply bpow_lt. lia. }
  rewrite Q in V. assert (Fh : fin (@half F : b64) = true).
  { apply val_lt_fin; auto. unfold half, lit. change (@div F) with (Bdiv (prec := 53) (emax := 1024) mode_NE). change (@of_Z F) with b64_of_Z. rewrite V.
    assert (1 < top) by (change 1 with (bpow radix2 0); apply bpow_lt; lia). lra. }
  split; [exact Fh|]. rewrite <- val_fin by exact Fh. exact V.
Qed.

(** A uniform sample moved to [-1/2,1/2], then scaled by [2*l]. *)
Lemma shift1 (u l : b64) : fin u = true -> 0 <= B2 u <= 1 -> fit l ->
  bounded64 l (Bmult mode_NE (Bplus mode_NE u (Bopp (@half F : b64))) (Bmult mode_NE (b64_of_Z 2) l)).
Proof.
  intros Fu Bu Ft. destruct half64 as (Fh & Eh). destruct (dbl l Ft) as (F2 & E2). pose proof Ft as (Fl & Bl).
  assert (Fo : fin (Bopp (@half F : b64)) = true) by (now rewrite is_finite_Bopp).
  destruct (plus_val u _ Fu Fo) as (N & V). rewrite B2R_Bopp, Eh in V.
  assert (Bd : bounded64 (@half F : b64) (Bplus mode_NE u (Bopp (@half F : b64)))).
  { eapply res_bounded; [exact N|exact V|]. rewrite Eh. apply Rabs_le. lra. }
  destruct Bd as (Fx & Bx). rewrite Eh in Bx. destruct (mult_val _ _ Fx F2) as (N2 & V2). rewrite E2 in V2.
  eapply res_bounded; [exact N2|exact V2|]. rewrite Rabs_mult, (Rabs_pos_eq (2 * B2 l)) by lra.
  apply Rle_trans with (/ 2 * (2 * B2 l)); [|lra]. apply Rmult_le_compat_r; lra.
Qed.
(** [0 + r*(l - -l) + -l]. *)
Lemma spread1 (u l : b64) : fin u = true -> 0 <= B2 u <= 1 -> fit l ->
  bounded64 l (Bplus mode_NE (Bplus mode_NE (b64_of_Z 0) (Bmult mode_NE u (Bminus mode_NE l (Bopp l)))) (Bopp l)).
Proof.
  intros Fu Bu Ft. pose proof Ft as (Fl & Bl). destruct zero64 as (F0 & E0). pose proof pow1023_top as T.
  assert (Fo : fin (Bopp l) = true) by (now rewrite is_finite_Bopp).
  destruct (minus_val l (Bopp l) Fl Fo) as (N1 & V1). rewrite B2R_Bopp in V1. replace (B2 l - - B2 l) with (2 * B2 l) in V1 by ring.
  rewrite (proj1 (rnd_double l Ft)) in V1.
  assert (F1 : fin (Bminus mode_NE l (Bopp l)) = true) by (apply val_lt_fin; auto; rewrite V1; lra).
  rewrite val_fin in V1 by auto. destruct (mult_val u _ Fu F1) as (N2 & V2).
  set (w := Bminus mode_NE l (Bopp l)) in *.
  assert (B2' : 0 <= rnd (B2 u * B2 w) <= B2 w).
  { split; [apply rnd_pos; nra|]. apply Rle_trans with (rnd (B2 w)); [apply rnd_le; nra|rewrite rnd_B2; lra]. }
  assert (F2 : fin (Bmult mode_NE u w) = true) by (apply val_lt_fin; auto; rewrite V2; lra).
  rewrite val_fin in V2 by auto. destruct (plus_val _ _ F0 F2) as (N3 & V3). rewrite E0, Rplus_0_l, rnd_B2 in V3.
  assert (F3 : fin (Bplus mode_NE (b64_of_Z 0) (Bmult mode_NE u w)) = true) by (apply val_lt_fin; auto; rewrite V3; pose proof (B2_bound (Bmult mode_NE u w)); lra).
  rewrite val_fin in V3 by auto. destruct (plus_val _ _ F3 Fo) as (N4 & V4). rewrite B2R_Bopp in V4.
  eapply res_bounded; [exact N4|exact V4|]. apply Rabs_le. lra.
Qed.

Context {G : rng F}.
Notation gen := (rstate G).

Lemma uniforms_64 n (g : gen) : unif_64 G -> Forall (fun x : b64 => fin x = true /\ 0 <= B2 x <= 1) (fst (draws (unif G) n g)).
Proof. intros U. exact (draws_forall (S := F) (fun x : b64 => fin x = true /\ 0 <= B2 x <= 1) U n g). Qed.

Lemma shifted_64 (l : b64) (u : list b64) : fit l -> Forall (fun x : b64 => fin x = true /\ 0 <= B2 x <= 1) u ->
  Forall (bounded64 l) (shifted (S := F) (mul (s := F) s2 l) u).
Proof. intros Ft. apply Forall_map_imp. intros x (Fx & Bx). now apply shift1. Qed.
Lemma spread_64 (l : b64) (u : list b64) : fit l -> Forall (fun x : b64 => fin x = true /\ 0 <= B2 x <= 1) u ->
  Forall (bounded64 l) (spread (S := F) l u).
Proof. intros Ft. apply Forall_map_imp. intros x (Fx & Bx). now apply spread1. Qed.

Lemma draws_len64 (n : nat) (g : gen) : @length b64 (fst (draws (unif G) n g)) = n.
Proof. exact (draws_length (unif G) n g). Qed.

Lemma cubic_random_64 fuel (s : cubic F) (g : gen) : fit (cu_size s) -> unif_64 G ->
  exists q g', cubic_random_pos fuel s g = Ok (q, g') /\ length q = cu_dim s /\ Forall (bounded64 (cu_size s)) q /\
    cubic_inclusion s q = Ok true.
Proof.
  intros Ft U. rewrite cubic_random_eq. do 2 eexists. split; [reflexivity|].
  match goal with |- length ?c = _ /\ _ => set (q := c) end.
  assert (L : @length b64 q = cu_dim s) by (unfold q, shifted; rewrite map_length; apply draws_len64).
  assert (B : Forall (bounded64 (cu_size s)) q) by (apply shifted_64; auto; apply uniforms_64; auto).
  split; [exact L|split; [exact B|]]. rewrite (cubic_inclusion_eq s q L). f_equal. apply bounded_within; auto. apply Ft.
Qed.
Lemma cubic_random_to_64 fuel (s : cubic F) (g : gen) (v : list b64) : fit (cu_size s) -> unif_64 G -> length v = cu_dim s ->
  exists q g', cubic_random_to fuel s g v = (q, g', Ok tt) /\ length q = cu_dim s /\ Forall (bounded64 (cu_size s)) q /\
    cubic_inclusion s q = Ok true.
Proof.
  intros Ft U Lv. rewrite (proj2 (cubic_random_to_eq fuel s g v) Lv). do 2 eexists. split; [reflexivity|].
  match goal with |- length ?c = _ /\ _ => set (q := c) end.
  assert (L : @length b64 q = cu_dim s) by (unfold q, spread; rewrite map_length; apply draws_len64).
  assert (B : Forall (bounded64 (cu_size s)) q) by (apply spread_64; auto; apply uniforms_64; auto).
  split; [exact L|split; [exact B|]]. rewrite (cubic_inclusion_eq s q L). f_equal. apply bounded_within; auto. apply Ft.
Qed.

Lemma circ_random_64 fuel (s : circ F) (g : gen) : fit (ci_size s) -> unif_64 G ->
  (exists q g', circ_random_pos fuel s g = Ok (q, g') /\ length q = ci_dim s /\ Forall (bounded64 (ci_size s)) q /\ circ_inclusion s q = Ok true) \/
  circ_random_pos fuel s g = Fuel.
Proof.
  intros Ft U. destruct (circ_random_result fuel s g) as [[E _]|(k & K & E & N)]; [now right|left].
  cbv zeta in E, N. do 2 eexists. split; [exact E|].
  match goal with |- length ?c = _ /\ _ => set (q := c) in * end.
  assert (L : @length b64 q = ci_dim s) by (unfold q, shifted; rewrite map_length; apply draws_len64).
  split; [exact L|split].
  - apply shifted_64; auto; apply uniforms_64; auto.
  - rewrite (circ_inclusion_eq s q L). rewrite N. reflexivity.
Qed.
Lemma circ_random_to_64 fuel (s : circ F) (g : gen) (v : list b64) : fit (ci_size s) -> unif_64 G -> length v = ci_dim s ->
  (exists q g', circ_random_to fuel s g v = (q, g', Ok tt) /\ length q = ci_dim s /\ Forall (bounded64 (ci_size s)) q /\ circ_inclusion s q = Ok true) \/
  snd (circ_random_to fuel s g v) = Fuel.
Proof.
  intros Ft U Lv. rewrite (proj2 (circ_random_to_dim fuel s g v) Lv).
  destruct (circ_random_to_result fuel s g v Lv) as [[E _]|(k & K & E & N)]; [now right|left].
  cbv zeta in E, N. do 2 eexists. split; [exact E|].
  match goal with |- length ?c = _ /\ _ => set (q := c) in * end.
  assert (L : @length b64 q = ci_dim s) by (unfold q, spread; rewrite map_length; apply draws_len64).
  split; [exact L|split].
  - apply spread_64; auto; apply uniforms_64; auto.
  - rewrite (circ_inclusion_eq s q L). rewrite N. reflexivity.
Qed.

Lemma bounded_fin l p : Forall (bounded64 l) p -> finite_pos p.
Proof. apply Forall_impl. intros x H. apply H. Qed.

Lemma cyl_random_64 fuel (s : cyl F) d (g : gen) : cy_type s = ContinuousCylindrical d -> (d <= cy_dim s)%nat ->
  fit (cy_radius s) -> fit (cy_length s) -> unif_64 G ->
  (exists q g', cyl_random_pos fuel s g = Ok (q, g') /\ length q = cy_dim s /\ finite_pos q /\ cyl_inclusion s q = Ok true) \/
  cyl_random_pos fuel s g = Fuel.
Proof.
  intros T D Fr Fl U. unfold cyl_random_pos. rewrite T. destruct (cyl_random_result fuel s d g D) as [[E _]|(k & K & E & N)]; [now right|left].
  cbv zeta in E, N. do 2 eexists. split; [exact E|]. clear E.
  match goal with |- context [cyl_cand s d ?c] => set (u := c) in * end.
  assert (Lu : @length b64 u = cy_dim s) by apply draws_len64.
  assert (Fu : Forall (fun x : b64 => fin x = true /\ 0 <= B2 x <= 1) u) by (apply uniforms_64; auto). clearbody u.
  set (q := cyl_cand s d u) in *.
  assert (L : @length b64 q = cy_dim s).
  { unfold q, cyl_cand. etransitivity; [exact (cyl_scale_length s d _)|]. rewrite map_length. exact Lu. }
  assert (Sp : Forall (bounded64 (cy_radius s)) (firstn d q) /\ Forall (bounded64 (cy_length s)) (skipn d q)).
  { unfold q, cyl_cand, cyl_scale. rewrite firstn_map, skipn_map, !map_map.
    match goal with |- context [firstn d (?a ++ ?b)] => assert (La : @length b64 a = d) by (rewrite map_length, firstn_length; change (car F) with b64; lia);
      destruct (split_app a b d La) as (Qf & Qs) end.
    apply (Forall_firstn_skipn _ d) in Fu. destruct Fu as (Fu1 & Fu2). split.
    - refine (eq_ind_r (fun z => Forall _ z) _ Qf). exact (shifted_64 (cy_radius s) (firstn d u) Fr Fu1).
    - refine (eq_ind_r (fun z => Forall _ z) _ Qs). exact (shifted_64 (cy_length s) (skipn d u) Fl Fu2). }
  destruct Sp as (S1 & S2). split; [exact L|split].
  - apply (Forall_firstn_skipn _ d). split; eapply bounded_fin; eauto.
  - rewrite (cyl_inclusion_eq s d q T D L). change (@ltb F) with (@Bltb 53 1024) in *.
    destruct (ltb_nan _ _ N) as (Na & Nb). destruct (Bltb (cy_radius s) _) eqn:E2.
    + exfalso. apply ltb_val in N; auto. apply ltb_val in E2; auto. lra.
    + f_equal. apply bounded_within; auto. apply Fl.
Qed.

(** Positions that [position_out_of_system] produces. *)
Lemma dbl_above (l : b64) : fin l = true -> 0 < B2 l ->
  nan (Bmult mode_NE (b64_of_Z 2) l) = false /\ val l < val (Bmult mode_NE (b64_of_Z 2) l).
Proof.
  intros Fl P. destruct two64 as (F2 & E2). destruct (mult_val _ _ F2 Fl) as (N & V). split; auto. rewrite V, E2, (val_fin l Fl).
  destruct (Rle_or_lt (B2 l) (2 ^ 1022)) as [H|H].
  - rewrite (proj1 (rnd_double l (conj Fl (conj (Rlt_le _ _ P) H)))). lra.
  - pose proof (B2_bound l) as Bd. destruct (Rle_or_lt top (rnd64 (2 * B2 l))) as [K|K].
    + unfold rnd, clamp. destruct Rle_dec; lra.
    + assert (E : rnd64 (2 * B2 l) = 2 * B2 l).
      { apply round_generic; auto with typeclass_instances. apply double_format. apply (generic_format_B2R 53 1024). }
      rewrite E in K. rewrite rnd_small, E; [lra|]. rewrite E. apply Rabs_def1; lra.
Qed.

Lemma not_within_above (l x : b64) p : fin l = true -> nan x = false -> val l < val x -> 0 <= val x -> In x p -> within (S := F) l p = false.
Proof.
  intros Fl Nx Lt P I. induction p as [|y p IH]; [easy|]. cbn [within]. change (@ltb F) with (@Bltb 53 1024). change (@fabs F) with (@Babs 53 1024).
  destruct I as [->|I].
  - assert (E : Bltb l (Babs x) = true).
    { apply ltb_val; [destruct l; easy|destruct x; easy|]. rewrite abs_val, Rabs_pos_eq; auto. }
    rewrite E. reflexivity.
  - destruct (Bltb l (Babs y)); auto.
Qed.

Lemma pos_of_leb (l : b64) : fin l = true -> @leb F l s0 = false -> 0 < B2 l.
Proof.
  intros Fl H. change (Bleb l (b64_of_Z 0) = false) in H. destruct zero64 as (F0 & E0). apply nleb_ltb in H; [|destruct l; easy|destruct (b64_of_Z 0); easy].
  apply (ltb64 _ _ F0 Fl) in H. lra.
Qed.

Lemma cubic_out_64 (s : cubic F) : built_cubic s -> fin (cu_size s : b64) = true ->
  length (cubic_out s) = cu_dim s /\ cubic_inclusion s (cubic_out s) = Ok false.
Proof.
  intros B Fl. apply built_cubic_inv in B as (P & D & _). apply pos_of_leb in P; auto. destruct (dbl_above _ Fl P) as (N & V).
  assert (L : length (cubic_out s) = cu_dim s) by (unfold cubic_out; apply repeat_length). split; [exact L|].
  rewrite (cubic_inclusion_eq s _ L). f_equal. apply not_within_above with (Bmult mode_NE (b64_of_Z 2) (cu_size s)); auto.
  - rewrite (val_fin _ Fl) in V. lra.
  - unfold cubic_out. destruct (cu_dim s); [lia|]. now left.
Qed.

Lemma cyl_out_64 (s : cyl F) d : built_cyl s -> cy_type s = ContinuousCylindrical d -> (d < cy_dim s)%nat -> fin (cy_length s : b64) = true ->
  length (cyl_out s) = cy_dim s /\ cyl_inclusion s (cyl_out s) = Ok false.
Proof.
  intros B T D Fl. apply built_cyl_inv in B as (_ & _ & _ & _ & _ & P & _). apply pos_of_leb in P; auto. destruct (dbl_above _ Fl P) as (N & V).
  assert (L : length (cyl_out s) = cy_dim s) by (unfold cyl_out; apply repeat_length). split; [exact L|].
  rewrite (cyl_inclusion_eq s d _ T (Nat.lt_le_incl _ _ D) L). destruct (ltb _ _); auto. f_equal.
  apply not_within_above with (Bmult mode_NE (b64_of_Z 2) (cy_length s)); auto.
  - rewrite (val_fin _ Fl) in V. lra.
  - unfold cyl_out. replace (cy_dim s) with (d + (cy_dim s - d))%nat by lia. rewrite repeat_app, skipn_app, skipn_all2, repeat_length by (rewrite repeat_length; lia).
    rewrite Nat.sub_diag. simpl. destruct (cy_dim s - d)%nat eqn:E; [lia|]. now left.
Qed.

(** The computed norm is at least the square root of the first square. *)
Lemma square_sign (x : b64) : nan x = false -> (fin (Bmult mode_NE x x) = true /\ 0 <= B2 (Bmult mode_NE x x)) \/ Bmult mode_NE x x = B754_infinity false.
Proof.
  intros Nx. destruct (fin x) eqn:Fx; [|right; destruct x as [|[|]| |]; easy].
  destruct (mult_val x x Fx Fx) as (N & V). destruct (fin (Bmult mode_NE x x)) eqn:Fm.
  - left. split; auto. now apply square_bounds.
  - right. assert (0 <= val (Bmult mode_NE x x)) by (rewrite V; apply rnd_pos; nra). pose proof top_pos.
    destruct (Bmult mode_NE x x) as [|[|]| |]; simpl in *; try discriminate; auto; lra.
Qed.
Definition posinf (a : b64) : Prop := (fin a = true /\ 0 <= B2 a) \/ a = B754_infinity false.
Lemma posinf_plus a b : posinf a -> posinf b -> posinf (Bplus mode_NE a b) /\ val a <= val (Bplus mode_NE a b).
Proof.
  intros [[Fa Pa]| ->] [[Fb Pb]| ->].
  - destruct (plus_val a b Fa Fb) as (N & V). assert (Ge : val a <= val (Bplus mode_NE a b)).
    { rewrite V, (val_fin a Fa), <- (rnd_B2 a) at 1. apply rnd_le. lra. }
    split; auto. destruct (fin (Bplus mode_NE a b)) eqn:Fp.
    + left. split; auto. rewrite !val_fin in Ge by auto. lra.
    + right. rewrite (val_fin a Fa) in Ge. pose proof top_pos. destruct (Bplus mode_NE a b) as [|[|]| |]; simpl in *; try discriminate; auto; lra.
  - assert (E : Bplus mode_NE a (B754_infinity false) = B754_infinity false) by (destruct a as [|[|]| |]; easy).
    rewrite E. split; [now right|]. apply val_bound.
  - assert (E : Bplus mode_NE (B754_infinity false) b = B754_infinity false) by (destruct b as [|[|]| |]; easy).
    rewrite E. split; [now right|]. lra.
  - change (Bplus mode_NE (B754_infinity false) (B754_infinity false) : b64) with (B754_infinity false : b64). split; [now right|]. lra.
Qed.
Lemma ss_posinf d : forall a, Forall (fun x => nan x = false) d -> posinf a -> posinf (ss a d) /\ val a <= val (ss a d).
Proof.
  induction d as [|x d IH]; intros a Nd H; [split; auto; cbn; lra|]. inversion Nd as [|? ? Nx Nd']; subst.
  destruct (posinf_plus a (Bmult mode_NE x x) H (square_sign x Nx)) as (A & B).
  destruct (IH _ Nd' A) as (C & D). split; auto. change (ss a (x :: d)) with (ss (Bplus mode_NE a (Bmult mode_NE x x)) d). lra.
Qed.
Lemma posinf_zero : posinf (b64_of_Z 0).
Proof. left. destruct zero64 as (F0 & E0). split; auto. lra. Qed.
Lemma n64_cases_nan d : Forall (fun x => nan x = false) d -> fin (n64 d) = true \/ n64 d = B754_infinity false.
Proof.
  intros Nd. destruct (ss_posinf d (b64_of_Z 0) Nd posinf_zero) as ([[A B]|A] & _); [left; now apply sqrt_val|right]. unfold n64. rewrite A. reflexivity.
Qed.

(** No infinity is ever inside: for NaN-free positions inclusion implies finite coordinates. *)
Lemma circ_inclusion_finite (s : circ F) (p : list b64) : fin (ci_size s : b64) = true -> Forall (fun x => nan x = false) p ->
  circ_inclusion s p = Ok true -> finite_pos p.
Proof.
  intros Fr Np H. pose proof (circ_inc_dim _ s p _ H) as L. rewrite (circ_inclusion_eq s p L), norm64 in H. change (@ltb F) with (@Bltb 53 1024) in H.
  destruct (n64_cases_nan p Np) as [Fn|Fn]; [now apply n64_finite|].
  rewrite Fn, ltb_inf_false in H by auto. discriminate.
Qed.

(** Rounding at least halves nothing above the smallest double. *)
Lemma rnd64_half r : bpow radix2 (-1074) <= r -> r / 2 <= rnd64 r.
Proof.
  intros H. pose proof u64_pos. pose proof u64_lt1. pose proof (bpow_gt_0 radix2 (-1074)) as P.
  destruct (Rle_or_lt (bpow radix2 (-1022)) r) as [K|K].
  - assert (E : Rabs (rnd64 r - r) <= u64 * Rabs r) by (apply rnd64_rel; rewrite Rabs_pos_eq; lra).
    rewrite (Rabs_pos_eq r) in E by lra. apply Rabs_le_inv in E. nra.
  - assert (E : Rabs (rnd64 r - r) <= eta64) by (apply rnd64_abs; rewrite Rabs_pos_eq; lra).
    rewrite eta64_bpow in E. apply Rabs_le_inv in E.
    assert (E2 : bpow radix2 (-1074) = 2 * bpow radix2 (-1075)) by (change (-1074)%Z with (-1075 + 1)%Z; rewrite bpow_plus_1; reflexivity).
    lra.
Qed.

Lemma circ_out_64 (s : circ F) : built_circ s -> fin (ci_size s : b64) = true -> / 2 ^ 538 <= B2 (ci_size s) ->
  length (circ_out s) = ci_dim s /\ circ_inclusion s (circ_out s) = Ok false.
Proof.
  intros B Fr Lo. apply built_circ_inv in B as (P & D). apply pos_of_leb in P; auto.
  assert (L : length (circ_out s) = ci_dim s) by (unfold circ_out; apply repeat_length). split; [exact L|].
  rewrite (circ_inclusion_eq s _ L), norm64. change (@ltb F) with (@Bltb 53 1024). set (r := ci_size s : b64) in *.
  assert (Q : Bltb r (n64 (circ_out s)) = true); [|now rewrite Q].
  unfold circ_out. change (mul s2 (ci_size s)) with (Bmult mode_NE (b64_of_Z 2) r). set (x := Bmult mode_NE (b64_of_Z 2) r).
  destruct (dbl_above r Fr P) as (Nx & Vx). fold x in Nx, Vx.
  destruct (ci_dim s) as [|n]; [lia|]. cbn [repeat]. change (Bltb r (n64 (x :: repeat x n)) = true).
  assert (Na : Forall (fun y => nan y = false) (x :: repeat x n)).
  { constructor; auto. apply Forall_forall. intros y I. apply repeat_spec in I. now subst. }
  destruct (n64_cases_nan _ Na) as [Fn|Fn]; [|rewrite Fn; now apply ltb_inf_false].
  pose proof (n64_finite _ Fn) as FV. assert (Fx : fin x = true) by (inversion FV; auto).
  apply (ltb64 r _ Fr Fn).
  assert (Bx : B2 x = 2 * B2 r).
  { destruct two64 as (F2 & E2). unfold x. rewrite fin_mult_eq by auto. rewrite E2. apply round_generic; auto with typeclass_instances.
    apply double_format. apply (generic_format_B2R 53 1024). }
  assert (Fs : fin (ss (b64_of_Z 0) (x :: repeat x n)) = true) by (apply sqrt_fin_inv; exact Fn).
  inversion Na as [|? ? _ Nr]; subst.
  destruct (posinf_plus (b64_of_Z 0) (Bmult mode_NE x x) posinf_zero (square_sign x Nx)) as (A & _).
  destruct (ss_posinf (repeat x n) _ Nr A) as (_ & Ge).
  change (ss (Bplus mode_NE (b64_of_Z 0) (Bmult mode_NE x x)) (repeat x n)) with (ss (b64_of_Z 0) (x :: repeat x n)) in Ge.
  destruct (ss_fin (repeat x n) _ Fs) as (Fp & _). pose proof Fp as Fp'. apply plus_fin_inv in Fp' as (_ & Fm).
  rewrite !val_fin in Ge by auto. rewrite fin_plus_eq in Ge by auto. destruct zero64 as (_ & E0). rewrite E0, Rplus_0_l in Ge.
  rewrite (round_generic radix2 fexp64 (round_mode mode_NE) (B2 (Bmult mode_NE x x))) in Ge by apply (generic_format_B2R 53 1024).
  rewrite fin_mult_eq in Ge by auto.
  assert (Sq : bpow radix2 (-1074) <= B2 x * B2 x).
  { rewrite Bx. assert (E : bpow radix2 (-1074) = (2 * / 2 ^ 538) * (2 * / 2 ^ 538)).
    { rewrite <- (bpow_inv_pow 538). change (- Z.of_nat 538)%Z with (-538)%Z.
      replace (2 * bpow radix2 (-538)) with (bpow radix2 (-537)) by (change (-537)%Z with (-538 + 1)%Z; rewrite bpow_plus_1; reflexivity).
      rewrite <- bpow_plus. reflexivity. }
    rewrite E. assert (0 < / 2 ^ 538) by (apply Rinv_0_lt_compat, pow_lt; lra). apply Rmult_le_compat; lra. }
  apply rnd64_half in Sq. set (S := B2 (ss (b64_of_Z 0) (x :: repeat x n))) in *.
  assert (Sr : 2 * B2 r ^ 2 <= S) by (apply Rle_trans with (B2 x * B2 x / 2); [rewrite Bx; nra|lra]).
  assert (Pos : 0 <= S) by (pose proof (pow2_ge_0 (B2 r)); lra).
  destruct (sqrt_val (ss (b64_of_Z 0) (x :: repeat x n)) Fs Pos) as (_ & Es).
  change (B2 r < B2 (Bsqrt mode_NE (ss (b64_of_Z 0) (x :: repeat x n)))). rewrite Es. fold S.
  pose proof (rnd64_sqrt (ss (b64_of_Z 0) (x :: repeat x n)) Pos) as Er. fold S in Er. apply Rabs_le_inv in Er.
  assert (St : B2 r * (1.4) <= sqrt S).
  { rewrite <- (sqrt_pow2 (B2 r * 1.4)) by lra. apply sqrt_le_1_alt. nra. }
  pose proof u64_lt1. assert (u64 <= / 4).
  { unfold u64. apply Rinv_le_contravar; [lra|]. simpl. lra. }
  pose proof u64_pos. nra.
Qed.
End F.
