(** Seeds of runs that differ only in their index (C56). *)
From Coq Require Import Reals NArith ZArith List Lra Lia.
From Flocq Require Import Core.
From Flocq.IEEE754 Require Import BinarySingleNaN.
From Verif Require Import Base Scalar Float64 Proof_Time4 Proof_Norm64 Proof_Analysis8 Model_Position Model_System Model_Agent Model_Text Spec_Text Model_Args Spec_Args Model_Run Model_Program Spec_Program Proof_Program Proof_Program2.
Local Open Scope R_scope.

(** ** exact reals *)
Lemma floor_plus x z : Zfloor (x + IZR z) = (Zfloor x + z)%Z.
Proof. apply Zfloor_imp. rewrite !plus_IZR. pose proof (Zfloor_lb x). pose proof (Zfloor_ub x). lra. Qed.
Lemma u128_of (x : R) : 0 <= x < IZR (2 ^ 128) -> Z.of_N (R_as_u128 x) = Zfloor x.
Proof.
  intros [H1 H2]. assert (B : (0 <= Zfloor x < 2 ^ 128)%Z).
  { split; [apply Zfloor_lub; simpl; lra|]. apply lt_IZR. pose proof (Zfloor_lb x). lra. }
  unfold R_as_u128. rewrite Z2N.id by lia. lia.
Qed.
Lemma hash_index (size ts st g : RR) dim n i : seed_hash (S := RR) size dim ts n st g i = seed_hash (S := RR) size dim ts n st g 0 + 570914867 * INR i :> R.
Proof. unfold seed_hash. change (@add RR) with Rplus. change (@mul RR) with Rmult. change (@of_Z RR) with IZR. rewrite INR_IZR_INZ. simpl (IZR (Z.of_nat 0)). lra. Qed.
Lemma seed_inv {S : scalar} (as_u128 : S -> N) seed h s : run_seed as_u128 seed h = Ok s -> s = (seed + as_u128 h)%N.
Proof. unfold run_seed. destruct (_ <=? _)%N; intros E; [now injection E|discriminate]. Qed.
Lemma real_seeds (size ts st g : RR) dim n i j seed s t :
  let h k : R := seed_hash (S := RR) size dim ts n st g k in
  0 <= h i < IZR (2 ^ 128) -> 0 <= h j < IZR (2 ^ 128) ->
  run_seed (S := RR) R_as_u128 seed (h i) = Ok s -> run_seed (S := RR) R_as_u128 seed (h j) = Ok t ->
  (Z.of_N s - Z.of_N t = 570914867 * (Z.of_nat i - Z.of_nat j))%Z.
Proof.
  intros h Hi Hj Es Et. apply seed_inv in Es. apply seed_inv in Et. subst s t. rewrite !N2Z.inj_add. rewrite (u128_of _ Hi), (u128_of _ Hj).
  unfold h. rewrite (hash_index size ts st g dim n i), (hash_index size ts st g dim n j). set (b := (seed_hash (S := RR) size dim ts n st g 0) : R).
  rewrite !INR_IZR_INZ, <- !mult_IZR. rewrite !floor_plus. lia.
Qed.

(** ** doubles *)
Lemma rnd_int z : (Z.abs z <= 2 ^ 53)%Z -> rnd (IZR z) = IZR z.
Proof. intros H. destruct (of_Z_exact z H) as [F E]. destruct (of_Z_val z) as [_ V]. rewrite <- V, val_fin by auto. exact E. Qed.
Lemma p53_top : IZR (2 ^ 53) < top.
Proof. change (IZR (2 ^ 53)) with (bpow radix2 53). apply bpow_lt. lia. Qed.
Definition step64 : b64 := b64_of_Z 570914867.
Lemma term_exact (i : nat) : (570914867 * Z.of_nat i <= 2 ^ 53)%Z -> fin (Bmult mode_NE step64 (b64_of_Z (Z.of_nat i))) = true /\ B2 (Bmult mode_NE step64 (b64_of_Z (Z.of_nat i))) = IZR (570914867 * Z.of_nat i).
Proof.
  intros H. destruct (of_Z_exact 570914867 ltac:(lia)) as [F1 E1]. destruct (of_Z_exact (Z.of_nat i) ltac:(lia)) as [F2 E2].
  fold step64 in F1, E1. destruct (mult_val _ _ F1 F2) as [N V]. rewrite E1, E2, <- mult_IZR in V. rewrite rnd_int in V by lia. pose proof p53_top.
  assert (Q : fin (Bmult mode_NE step64 (b64_of_Z (Z.of_nat i))) = true).
  { apply val_lt_fin; auto; rewrite V. split.
    - assert (0 <= IZR (570914867 * Z.of_nat i)) by (apply IZR_le; lia). pose proof top_pos. lra.
    - apply IZR_le in H. lra. }
  split; auto. now rewrite <- val_fin.
Qed.
Lemma sum_between (A : b64) (i : nat) : fin A = true -> 0 <= B2 A -> B2 A + IZR (570914867 * Z.of_nat i) <= IZR (2 ^ 53) ->
  let h := Bplus mode_NE A (Bmult mode_NE step64 (b64_of_Z (Z.of_nat i))) in
  fin h = true /\ IZR (Zfloor (B2 A) + 570914867 * Z.of_nat i) <= B2 h <= IZR (Zceil (B2 A) + 570914867 * Z.of_nat i).
Proof.
  intros FA PA H. assert (Hi : (570914867 * Z.of_nat i <= 2 ^ 53)%Z) by (apply le_IZR; lra).
  destruct (term_exact i Hi) as [F1 E1]. cbv zeta. set (T := Bmult mode_NE step64 _) in *. destruct (plus_val A T FA F1) as [N V]. rewrite E1 in V. pose proof p53_top.
  pose proof (Zfloor_lb (B2 A)) as L. pose proof (Zceil_ub (B2 A)) as U. set (m := (570914867 * Z.of_nat i)%Z) in *.
  assert (Mp : (0 <= m)%Z) by lia.
  assert (C : (Zceil (B2 A) + m <= 2 ^ 53)%Z).
  { assert (Zceil (B2 A) <= 2 ^ 53 - m)%Z; [|lia]. apply Zceil_glb. rewrite minus_IZR. lra. }
  assert (D : (0 <= Zfloor (B2 A))%Z) by (apply Zfloor_lub; simpl; lra).
  assert (CD : (Zfloor (B2 A) <= Zceil (B2 A))%Z) by (apply le_IZR; lra).
  assert (V1 : IZR (Zfloor (B2 A) + m) <= val (Bplus mode_NE A T)).
  { rewrite V, <- (rnd_int (Zfloor (B2 A) + m)) by lia. apply rnd_le. rewrite plus_IZR. lra. }
  assert (V2 : val (Bplus mode_NE A T) <= IZR (Zceil (B2 A) + m)).
  { rewrite V, <- (rnd_int (Zceil (B2 A) + m)) by lia. apply rnd_le. rewrite plus_IZR. lra. }
  assert (Q : fin (Bplus mode_NE A T) = true).
  { apply val_lt_fin; auto. split.
    - assert (0 <= IZR (Zfloor (B2 A) + m)) by (apply IZR_le; lia). pose proof top_pos. lra.
    - apply IZR_le in C. lra. }
  split; auto. rewrite <- (val_fin _ Q). auto.
Qed.
Lemma u128_fin (x : b64) : fin x = true -> 0 <= B2 x <= IZR (2 ^ 53) -> Z.of_N (b64_as_u128 x) = Zfloor (B2 x).
Proof.
  intros F [H1 H2]. assert (B : (0 <= Zfloor (B2 x) <= 2 ^ 53)%Z).
  { split; [apply Zfloor_lub; simpl; lra|]. apply le_IZR. pose proof (Zfloor_lb (B2 x)). lra. }
  assert (T : Btrunc x = Zfloor (B2 x)) by (rewrite trunc_val; now apply Ztrunc_floor).
  assert (E : b64_as_u128 x = Z.to_N (Z.max 0 (Z.min (Btrunc x) (2 ^ 128 - 1)))) by (destruct x as [|[|]| |]; try discriminate F; reflexivity).
  rewrite E, T, Z2N.id by lia. lia.
Qed.
Lemma seeds_lt64 (A : b64) i j seed (s t : N) : let h k := Bplus mode_NE A (Bmult mode_NE step64 (b64_of_Z (Z.of_nat k))) in
  fin (h 0%nat) = true -> 0 <= B2 (h 0%nat) -> B2 (h 0%nat) + 570914867 * INR j <= IZR (2 ^ 53) -> (i < j)%nat ->
  s = (seed + b64_as_u128 (h i))%N -> t = (seed + b64_as_u128 (h j))%N -> (s < t)%N.
Proof.
  intros h F0 P0 B0 L -> ->. unfold h in *.
  destruct (term_exact 0 ltac:(lia)) as [FT ET]. change (Z.of_nat 0) with 0%Z in FT, ET. change (IZR (570914867 * 0)) with 0 in ET.
  destruct (plus_fin_inv _ _ F0) as [FA _]. pose proof (fin_plus_eq _ _ F0) as EA. change (Z.of_nat 0) with 0%Z in EA. rewrite ET, Rplus_0_r in EA.
  assert (EA' : rnd64 (B2 A) = B2 A) by (apply round_generic; auto with typeclass_instances; apply (generic_format_B2R 53 1024)). rewrite EA' in EA. change (Z.of_nat 0) with 0%Z in *.
  rewrite EA in P0, B0. rewrite INR_IZR_INZ, <- mult_IZR in B0.
  assert (Bi : B2 A + IZR (570914867 * Z.of_nat i) <= IZR (2 ^ 53)). { assert (IZR (570914867 * Z.of_nat i) <= IZR (570914867 * Z.of_nat j)) by (apply IZR_le; lia). lra. }
  destruct (sum_between A i FA P0 Bi) as (F1 & L1 & U1). destruct (sum_between A j FA P0 B0) as (F2 & L2 & U2).
  set (hi := Bplus mode_NE A (Bmult mode_NE step64 (b64_of_Z (Z.of_nat i)))) in *. set (hj := Bplus mode_NE A (Bmult mode_NE step64 (b64_of_Z (Z.of_nat j)))) in *.
  assert (D : (0 <= Zfloor (B2 A))%Z) by (apply Zfloor_lub; simpl; lra).
  assert (CF : (Zceil (B2 A) <= Zfloor (B2 A) + 1)%Z).
  { apply Zceil_glb. rewrite plus_IZR. pose proof (Zfloor_ub (B2 A)). lra. }
  assert (Cj : (Zceil (B2 A) + 570914867 * Z.of_nat j <= 2 ^ 53)%Z).
  { assert (Zceil (B2 A) <= 2 ^ 53 - 570914867 * Z.of_nat j)%Z; [|lia]. apply Zceil_glb. rewrite minus_IZR. lra. }
  assert (R1 : 0 <= B2 hi <= IZR (2 ^ 53)).
  { split; [eapply Rle_trans; [|exact L1]; apply IZR_le; lia|]. eapply Rle_trans; [exact U1|]. apply IZR_le. lia. }
  assert (R2 : 0 <= B2 hj <= IZR (2 ^ 53)).
  { split; [eapply Rle_trans; [|exact L2]; apply IZR_le; lia|]. eapply Rle_trans; [exact U2|]. apply IZR_le. lia. }
  pose proof (u128_fin hi F1 R1) as X1. pose proof (u128_fin hj F2 R2) as X2.
  assert (Y1 : (Zfloor (B2 hi) <= Zceil (B2 A) + 570914867 * Z.of_nat i)%Z) by (apply le_IZR; pose proof (Zfloor_lb (B2 hi)); lra).
  assert (Y2 : (Zfloor (B2 A) + 570914867 * Z.of_nat j <= Zfloor (B2 hj))%Z) by (apply Zfloor_lub; exact L2).
  lia.
Qed.
Lemma hash_split {S : scalar} (size ts st g : S) dim n : exists A : S, forall k, seed_hash size dim ts n st g k = add A (mul (of_Z 570914867) (of_Z (Z.of_nat k))).
Proof. eexists. intros k. unfold seed_hash. reflexivity. Qed.
Section F.
Variable lm : libm.
Local Notation F := (F64 lm).
Lemma f64_seeds_lt (size ts st g : F) dim n i j seed s t :
  let h k : b64 := seed_hash (S := F) size dim ts n st g k in
  fin (h 0%nat) = true -> 0 <= B2 (h 0%nat) -> B2 (h 0%nat) + 570914867 * INR j <= IZR (2 ^ 53) -> (i < j)%nat ->
  run_seed (S := F) b64_as_u128 seed (h i) = Ok s -> run_seed (S := F) b64_as_u128 seed (h j) = Ok t ->
  (s < t)%N.
Proof.
  intros h F0 P0 B0 L Es Et. apply seed_inv in Es. apply seed_inv in Et.
  destruct (hash_split (S := F) size ts st g dim n) as (A & HA).
  assert (E : forall k, h k = Bplus mode_NE (A : b64) (Bmult mode_NE step64 (b64_of_Z (Z.of_nat k)))) by exact HA.
  clearbody h. clear HA. rewrite (E 0%nat) in F0, P0, B0. rewrite (E i) in Es. rewrite (E j) in Et. exact (seeds_lt64 A i j seed s t F0 P0 B0 L Es Et).
Qed.
(** Large or negative parameters: the index has no influence. *)
Lemma large_size : let h k : b64 := seed_hash (S := F) (b64_of_Z (10 ^ 20)) 2 (b64_of_Z 1) 10 (b64_of_Z 1) (b64_of_Z 1) k in
  run_seed (S := F) b64_as_u128 7 (h 1%nat) = run_seed (S := F) b64_as_u128 7 (h 2%nat) /\ exists s, run_seed (S := F) b64_as_u128 7 (h 1%nat) = Ok s.
Proof. cbv zeta. split; [vm_compute; reflexivity|]. eexists. vm_compute. reflexivity. Qed.
Lemma negative_strength : let h k : b64 := seed_hash (S := F) (b64_of_Z 10) 2 (b64_of_Z 1) 3 (b64_of_Z (- 20)) (b64_of_Z 1) k in
  forall seed, (seed <= u128_maxN)%N -> run_seed (S := F) b64_as_u128 seed (h 1%nat) = Ok seed /\ run_seed (S := F) b64_as_u128 seed (h 2%nat) = Ok seed.
Proof.
  cbv zeta. intros seed H. unfold run_seed. apply N.leb_le in H.
  assert (E1 : b64_as_u128 (seed_hash (S := F) (b64_of_Z 10) 2 (b64_of_Z 1) 3 (b64_of_Z (- 20)) (b64_of_Z 1) 1) = 0%N) by (vm_compute; reflexivity).
  assert (E2 : b64_as_u128 (seed_hash (S := F) (b64_of_Z 10) 2 (b64_of_Z 1) 3 (b64_of_Z (- 20)) (b64_of_Z 1) 2) = 0%N) by (vm_compute; reflexivity).
  split; [rewrite E1|rewrite E2]; rewrite N.add_0_r, H; reflexivity.
Qed.
End F.

(** ** equal seeds, equal data *)
Section Same.
Context {S : scalar} {G : rng S} (nt : numtext S) (as_u128 : S -> N) (rng_seed : N -> rstate G).
Lemma same_seed_data (p : settings S) idx seed dir inner pf fuel sd : faithful nt -> writable p -> writable (with_index p idx seed dir) -> accepted p ->
  run_seed as_u128 (p_seed p) (run_hash p) = Ok sd -> run_seed as_u128 seed (run_hash (with_index p idx seed dir)) = Ok sd ->
  exists head1 head2 ts o, let q := with_index p idx seed dir in
    exp_program nt as_u128 rng_seed inner pf fuel (data_part nt p) (sim_part p) = RunResult (Some (run_path nt p, append head1 (lines_text (map (n_sci nt) ts)))) o /\
    exp_program nt as_u128 rng_seed inner pf fuel (data_part nt q) (sim_part q) = RunResult (Some (run_path nt q, append head2 (lines_text (map (n_sci nt) ts)))) o /\
    file_header (exp_structs nt ++ [varsim_spec]) exp_width (join_args (exp_structs nt) (data_part nt p) (sim_part p)) = Ok head1 /\
    file_header (exp_structs nt ++ [varsim_spec]) exp_width (join_args (exp_structs nt) (data_part nt q) (sim_part q)) = Ok head2.
Proof.
  intros Fa W W' A E1 E2. set (q := with_index p idx seed dir) in *. assert (A' : accepted q) by (destruct A; constructor; assumption).
  destruct (header_is nt p Fa W) as (h1 & H1). destruct (header_is nt q Fa W') as (h2 & H2).
  destruct (Model_Run.mfpt_exp (Model_Time.diff_next Model_Time.es_next Model_Time.es_dt) inner pf fuel (p_num p) (Model_System.circ_core (the_system p)) (p_dim p) (the_target p) (the_args p)
    (exp_limit (p_tsize p) (p_gamma p)) (run_clock p) (rng_seed sd)) as [[ts g] o] eqn:Em.
  exists h1, h2, ts, o. rewrite <- !data_lines. split; [|split; [|auto]].
  - exact (program_eq nt as_u128 rng_seed p inner pf fuel h1 sd ts g o A H1 E1 Em).
  - exact (program_eq nt as_u128 rng_seed q inner pf fuel h2 sd ts g o A' H2 E2 Em).
Qed.
End Same.
