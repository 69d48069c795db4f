(** Property C80: the repelling agents of examples/mfpt_exp.rs in double precision.  Statements use [Model_Run] (the loops of the program) and the vocabulary of [Spec_Run2],
    [Spec_Run64] and [Spec_Rep64] ([tame], [ready_team], [spread], [short_move], [team_off], [team_on]). *)
From Coq Require Import Reals ZArith List Lra Lia.
From Flocq Require Import Core IEEE754.BinarySingleNaN.
From Verif Require Import Base Scalar Float64 Model_Position Spec_Position Model_LinkedList Spec_LinkedList Refine_LinkedList Model_System Spec_System Model_Agent Spec_Agent Model_Time Spec_Time
  Model_Run Spec_Run Spec_Run2 Spec_Wall64 Proof_Wall64b Spec_Run64 Spec_Rep64 Properties_Run Properties_Search Properties_Run64 Proof_Norm64 Proof_Analysis9 Proof_Default64 Proof_Force64c Proof_Run4 Proof_Run5 Proof_Run64 Proof_Run64d
  Proof_Rep64 Proof_Rep64b Proof_Rep64c Proof_Rep64d Proof_Rep64e Proof_Run7 Proof_Run10.
Import ListNotations.
Local Open Scope R_scope.

(** The limit on a move: the planned move or that times one factor; no longer than the limit up to [slack], whatever the planned move, so long as its coordinates are finite; and a plan that is short
    enough is carried out as it is. *)
Theorem C80_move_is_limited : forall (lm : libm) (limit : F64 lm) (v : list b64), modest limit -> INR (length v) <= 2 ^ 40 -> finite_pos v ->
  let w : list b64 := limit_move (S := F64 lm) limit v in
  length w = length v /\ finite_pos w /\ euclid_norm (reals w) <= B2 limit * (1 + 2 * slack (length v)) /\
  (w = v \/ exists t : b64, w = map (fun x : b64 => Bmult mode_NE x t) v) /\
  (euclid_norm (reals v) <= B2 limit * (1 - 2 * slack (length v)) -> w = v).
Proof.
  intros lm limit v Ml Fk Fv. cbv zeta. destruct (limit_64 limit v Ml Fk Fv) as (A & B & C). split; [exact A|]. split; [exact B|]. split; [exact C|].
  split; [exact (limit_factor limit v)|exact (limit_kept limit v Ml Fk Fv)].
Qed.
Print Assumptions C80_move_is_limited.

(** One step of up to 2^20 repelling agents, no two at (nearly) the same place: afterwards everybody has moved by no more than the limit, is inside and off the target; or somebody has moved by no
    more than the limit and is inside and on the target.  The crew keeps its size, the list of moves its shape. *)
Theorem C80_step : forall (lm : libm) (G : rng (F64 lm)) (sy : anysys (F64 lm)) (tg : target (F64 lm)) (limit : F64 lm), decaying lm -> scene sy tg -> calm G -> modest limit ->
  forall N (dt : F64 lm) (l : llist (expag (F64 lm))) (disp : pos (F64 lm)) (mv : llist (pos (F64 lm))) (g : rstate G) l' disp' mv' g' r, INR N <= 2 ^ 20 -> mild dt ->
  ready_team (sysdim sy) N l -> spread (contents l) -> move_list (sysdim sy) N mv -> length disp = sysdim sy ->
  exp_step (core (G := G) sy) tg limit dt l disp mv g = (l', disp', mv', g', r) ->
  exp_crew (sysdim sy) N l' /\ move_list (sysdim sy) N mv' /\ length disp' = sysdim sy /\
  (r = Ok false -> ready_team (sysdim sy) N l' /\ forall i, (i < N)%nat -> exists a b, nth_error (contents l) i = Some a /\ nth_error (contents l') i = Some b /\
     short_move (G := G) sy limit a b /\ inside_upto sy (ex_pos b) /\ off_upto tg (ex_pos b)) /\
  (r = Ok true -> exists i a b, (i < N)%nat /\ nth_error (contents l) i = Some a /\ nth_error (contents l') i = Some b /\
     short_move (G := G) sy limit a b /\ inside_upto sy (ex_pos b) /\ on_upto tg (ex_pos b)).
Proof. exact @exp_step_64. Qed.
Print Assumptions C80_step.

(** Any number of steps, of any lengths. *)
Theorem C80_run : forall (lm : libm) (G : rng (F64 lm)) (sy : anysys (F64 lm)) (tg : target (F64 lm)) (limit : F64 lm), decaying lm -> scene sy tg -> calm G -> modest limit ->
  forall N, INR N <= 2 ^ 20 -> forall (dts : list (F64 lm)) (l : llist (expag (F64 lm))) (disp : pos (F64 lm)) (mv : llist (pos (F64 lm))) (g : rstate G) l' disp' mv' g',
  Forall (fun dt : F64 lm => mild dt) dts -> ready_team (sysdim sy) N l -> move_list (sysdim sy) N mv -> length disp = sysdim sy ->
  exp_after (core (G := G) sy) tg limit dts l disp mv g = Some (l', disp', mv', g') -> kept_apart (G := G) sy tg limit dts l disp mv g ->
  ready_team (sysdim sy) N l' /\ move_list (sysdim sy) N mv' /\ length disp' = sysdim sy /\ (dts <> [] -> team_off sy tg l').
Proof. exact @exp_after_64. Qed.
Print Assumptions C80_run.

(** One sample of the program, on a list that was used before: everybody is put off the target; then either somebody inside is on the target after the step that ends at the reported time and
    everybody was inside and off it after each step before, or the clock ended, 0 is reported, and nobody ever was on it. *)
Theorem C80_sample : forall (lm : libm) (G : rng (F64 lm)) (sy : anysys (F64 lm)) (tg : target (F64 lm)) (limit : F64 lm) inner pf, decaying lm -> scene sy tg -> calm G -> unif_64 G -> modest limit ->
  forall N fuel (clock : expstep (F64 lm)) (a b : b64) len (l : llist (expag (F64 lm))) (disp : pos (F64 lm)) (mv : llist (pos (F64 lm))) (g : rstate G) l' d' mv' g' t,
  es_titype clock = Model_Time.Exponential (a : F64 lm) (b : F64 lm) len -> ready (fun i : F64 lm => nan (i : b64) = false) (a : F64 lm) (b : F64 lm) len clock -> mild a -> mild b ->
  INR N <= 2 ^ 20 -> reachable l -> length (contents l) = N -> Forall (exp_recruit (sysdim sy)) (contents l) -> Forall tamable (contents l) -> move_list (sysdim sy) N mv -> length disp = sysdim sy ->
  let next := diff_next es_next es_dt in
  exp_sample next inner pf (core (G := G) sy) tg limit fuel clock l disp mv g = (l', d', mv', g', Ok t) ->
  exists l0 g0, ready_team (sysdim sy) N l0 /\ (forall i b, nth_error (contents l0) i = Some b -> off_upto tg (ex_pos b)) /\
   ((exists first vs dt s1 l1 d1 m1 g1, collect next (Datatypes.S (Datatypes.S (length vs))) clock = Ok (first :: vs ++ [(t, dt)], s1) /\
      exp_after (core (G := G) sy) tg limit (map snd vs) l0 disp mv g0 = Some (l1, d1, m1, g1) /\ exp_step (core (G := G) sy) tg limit dt l1 d1 m1 g1 = (l', d', mv', g', Ok true) /\
      (kept_apart (G := G) sy tg limit (map snd vs ++ [dt]) l0 disp mv g0 ->
        (forall us ws lj dj mj gj, map snd vs = us ++ ws -> us <> [] -> exp_after (core (G := G) sy) tg limit us l0 disp mv g0 = Some (lj, dj, mj, gj) -> team_off sy tg lj) /\ team_on sy tg l')) \/
    (t = s0 (s := F64 lm) /\ exists vs, yields_all next clock vs /\ exp_after (core (G := G) sy) tg limit (map snd (tl vs)) l0 disp mv g0 = Some (l', d', mv', g') /\
      (kept_apart (G := G) sy tg limit (map snd (tl vs)) l0 disp mv g0 -> (2 <= length vs)%nat -> team_off sy tg l'))).
Proof.
  intros lm G sy tg limit inner pf D Sc Cg Ug Ml N fuel clock a b len l disp mv g l' d' mv' g' t Tc Rd Ma Mb HN HR HL HF HT HM Ld next E.
  exact (exp_sample_64 sy tg limit inner pf D Sc Cg Ug Ml next _ N fuel clock l disp mv g l' d' mv' g' t es_next_total (fun k vs s Cl => ready_steps a b len clock Ma Mb Rd k vs s Cl)
    (ex_intro _ (a : F64 lm) (ex_intro _ (b : F64 lm) (ex_intro _ len Tc))) HN HR HL HF HT HM Ld E).
Qed.
Print Assumptions C80_sample.


(** A stand-in for the exponential. *)
Definition fade : libm := Libm (fun x => if Bltb x (b64_of_Z 0) then lit (s := F64 toy) 1 2 else b64_of_Z 1) (fun x => x) (fun x _ => x).
Lemma half_B2 : B2 (lit (s := F64 toy) 1 2) = / 2 /\ fin (lit (s := F64 toy) 1 2 : b64) = true.
Proof. split; [|vm_compute; reflexivity]. apply half_value. Qed.
Example fade_decays : decaying fade.
Proof.
  intros x F H. destruct half_B2 as (Hv & Hf). destruct (whole_value 1 ltac:(lia)) as (C & D). change (fexp (s := F64 fade) x) with (if Bltb x (b64_of_Z 0) then lit (s := F64 toy) 1 2 else b64_of_Z 1). cbv zeta.
  destruct (Bltb x (b64_of_Z 0)).
  - split; [exact Hf|]. change (0 <= B2 (lit (s := F64 toy) 1 2) <= 1). rewrite Hv. lra.
  - split; [exact C|]. rewrite D. lra.
Qed.
(** So does a correctly rounded exponential. *)
Example round_lm_decays : decaying round_lm.
Proof.
  intros x F H. change (fexp (s := F64 round_lm) x) with (round_b64 (exp (B2 x))). cbv zeta.
  pose proof (exp_mono _ _ H) as Hi. rewrite exp_0 in Hi. pose proof (exp_pos (B2 x)) as P.
  assert (Z0 : rnd64 0 = 0) by (apply round_0; auto with typeclass_instances).
  assert (Z1 : rnd64 1 = 1).
  { apply round_generic; auto with typeclass_instances. apply (generic_format_bpow radix2 fexp64 0). unfold fexp64, SpecFloat.fexp, SpecFloat.emin; lia. }
  assert (Lo : 0 <= rnd64 (exp (B2 x))) by (rewrite <- Z0; apply round_le; auto with typeclass_instances; lra).
  assert (Up : rnd64 (exp (B2 x)) <= 1) by (rewrite <- Z1; apply round_le; auto with typeclass_instances).
  destruct (round_b64_val (exp (B2 x))) as (A & B).
  { rewrite Rabs_pos_eq by exact Lo. apply Rle_lt_trans with 1; [exact Up|]. apply (bpow_lt radix2 0). lia. }
  split; [exact A|]. rewrite B. split; assumption.
Qed.
Example modest_whole : forall z, (1 <= z <= 2 ^ 53)%Z -> modest (b64_of_Z z).
Proof.
  intros z H. destruct (whole_value z ltac:(lia)) as (A & B). split; [exact A|]. rewrite B. destruct H as (H1 & H2). apply IZR_le in H1, H2. change (2 ^ 53)%Z with 9007199254740992%Z in H2. lra.
Qed.
(** Agents of range 1 and strength 2 with the diffusion coefficient 1 at whole coordinates are tame and tamable. *)
Definition mover_at (lm : libm) (zs : list Z) : expag (F64 lm) := plain_exp (S := F64 lm) (of_Z 1) (of_Z 1) (of_Z 2) (map (of_Z (s := F64 lm)) zs).
Example mover_tame : forall lm zs, Forall (fun z => (Z.abs z <= 2 ^ 53)%Z) zs -> tame (mover_at lm zs) /\ tamable (mover_at lm zs).
Proof.
  intros lm zs H. assert (Q : coefficient (div (s := F64 lm) (of_Z 2) (of_Z 1))).
  { assert (E : (div (s := F64 lm) (of_Z 2) (of_Z 1) : b64) = b64_of_Z 2) by (apply B2SF_inj; vm_compute; reflexivity). destruct (whole_value 2 ltac:(lia)) as (A & B).
    split; [exact (eq_trans (f_equal _ E) A)|]. change (Rabs (B2 (div (s := F64 lm) (of_Z 2) (of_Z 1) : b64)) <= 2 ^ 100). rewrite E, B, Rabs_pos_eq by lra. lra. }
  assert (M : exists c : F64 lm, Brownian (of_Z (s := F64 lm) 1) = Brownian c /\ mild c) by (exists (of_Z (s := F64 lm) 1); split; [reflexivity|apply mild_whole; lia]).
  assert (G : roomy (of_Z (s := F64 lm) 1)) by (apply roomy_whole; lia).
  split.
  - split; [exact M|]. split; [exact G|]. split; [exact (proj1 Q)|]. split; [exact (proj2 Q)|].
    unfold on_scale, mover_at, plain_exp. cbn [ex_pos]. apply Forall_map. eapply Forall_impl; [|exact H]. intros z Hz. destruct (whole_value z Hz) as (A & B). split; [exact A|].
    change (Rabs (B2 (b64_of_Z z)) <= 2 ^ 302). rewrite B, <- abs_IZR. apply IZR_le in Hz. change (2 ^ 53)%Z with 9007199254740992%Z in Hz. lra.
  - split; [exact M|]. split; [exact G|]. split; [exact Q|exact Q].
Qed.
Lemma far_apart lm : / 2 ^ 390 <= euclid (reals (map (of_Z (s := F64 lm)) [4; 4]%Z)) (reals (map (of_Z (s := F64 lm)) [2; 2]%Z)).
Proof.
  destruct (whole_value 4 ltac:(lia)) as (_ & B4). destruct (whole_value 2 ltac:(lia)) as (_ & B2').
  change (/ 2 ^ 390 <= euclid [B2 (b64_of_Z 4); B2 (b64_of_Z 4)] [B2 (b64_of_Z 2); B2 (b64_of_Z 2)]). rewrite B4, B2'. unfold euclid. cbn. apply Rle_trans with 1; [|rewrite <- sqrt_1 at 1; apply sqrt_le_1_alt; lra].
  apply Rle_trans with (/ 1); [|lra]. apply Rinv_le_contravar; [lra|]. lra.
Qed.
Example demo_team : forall lm, exists (l : llist (expag (F64 lm))) (mv : llist (pos (F64 lm))),
  ll_from [mover_at lm [4; 4]%Z; mover_at lm [2; 2]%Z] = Ok l /\ ready_team 2 2 l /\ spread (contents l) /\ ll_from (repeat (repeat (s0 (s := F64 lm)) 2) 2) = Ok mv /\ move_list 2 2 mv.
Proof.
  intros lm. destruct (fresh_repelling (F64 lm) 2 (of_Z 1) (of_Z 1) (of_Z 2) (map (map (of_Z (s := F64 lm))) [[4; 4]; [2; 2]]%Z) ltac:(repeat constructor)) as (l & mv & E & C & E2 & M & _).
  exists l, mv. change (ll_from [mover_at lm [4; 4]%Z; mover_at lm [2; 2]%Z] = Ok l) in E. destruct (from_fresh [mover_at lm [4; 4]%Z; mover_at lm [2; 2]%Z]) as (l' & E' & _ & Cl & _).
  rewrite E in E'. injection E' as <-. split; [exact E|]. split; [|split; [|split; [exact E2|exact M]]].
  - split; [exact C|]. rewrite Cl. constructor; [apply mover_tame; repeat constructor; discriminate|constructor; [apply mover_tame; repeat constructor; discriminate|constructor]].
  - rewrite Cl. intros i j a b H A B. destruct i as [|[|i]], j as [|[|j]]; try lia; cbn [nth_error] in A, B; try (destruct j; discriminate); try (destruct i; discriminate).
    assert (Ea : mover_at lm [4; 4]%Z = a) by congruence. assert (Eb : mover_at lm [2; 2]%Z = b) by congruence. rewrite <- Ea, <- Eb. exact (far_apart lm).
Qed.
(** A computed run: two agents at (4, 4) and (2, 2), steps of 1/2, the limit 2 on a move, the target of radius 1 in the middle: the sample reports 3/2, the time of the third step. *)
Definition two_rng64 : rng (F64 fade) :=
  Rng (S := F64 fade) Z (fun z => (if (z mod 4 <? 2)%Z then lit (s := F64 fade) 7 10 else lit (s := F64 fade) 6 10, (z + 1)%Z)) (fun z => (opp (s := F64 fade) (lit 1 4), (z + 1)%Z)).
Definition rep_sample : option (SpecFloat.spec_float * Z) :=
  match es_new (S := F64 fade) (lit 1 2) (lit 1 2) 10, ll_from [mover_at fade [4; 4]%Z; mover_at fade [2; 2]%Z], ll_from (repeat (repeat (s0 (s := F64 fade)) 2) 2) with
  | Ok clock, Ok l, Ok mv => match exp_sample (diff_next es_next es_dt) 3 3 (core (G := two_rng64) (ACirc (demo_disc fade))) (demo_target fade) (of_Z 2) 40 clock l (repeat s0 2) mv 0%Z with
                             | (_, _, _, g, Ok t) => Some (B2SF (t : b64), g) | _ => None end
  | _, _, _ => None
  end.
Example demo_rep_sample : rep_sample = Some (B2SF (lit (s := F64 fade) 3 2), 16%Z).
Proof. vm_compute. reflexivity. Qed.
Example demo_rep_rng : calm two_rng64 /\ unif_64 two_rng64.
Proof.
  split; intros z; cbn [gauss unif two_rng64 fst].
  - destruct (sf_value (lit (s := F64 fade) 1 4) 4503599627370496 (-54) ltac:(vm_compute; reflexivity)) as (A & B). split; [exact (eq_trans (is_finite_Bopp _ _ _) A)|].
    change (Rabs (B2 (Bopp (lit (s := F64 fade) 1 4 : b64))) <= 2 ^ 100). rewrite B2R_Bopp, Rabs_Ropp, B, Rabs_pos_eq.
    + change (bpow radix2 (-54)) with (/ IZR (2 ^ 54)). change (2 ^ 54)%Z with 18014398509481984%Z. lra.
    + change (bpow radix2 (-54)) with (/ IZR (2 ^ 54)). change (2 ^ 54)%Z with 18014398509481984%Z. lra.
  - destruct (z mod 4 <? 2)%Z; [exact (seven_tenths fade)|].
    destruct (sf_value (lit (s := F64 fade) 6 10) 5404319552844595 (-53) ltac:(vm_compute; reflexivity)) as (A & B). split; [exact A|].
    change (0 <= B2 (lit (s := F64 fade) 6 10) <= 1). rewrite B. change (bpow radix2 (-53)) with (/ IZR (2 ^ 53)). change (2 ^ 53)%Z with 9007199254740992%Z. lra.
Qed.

(** Limit of C80: two agents at the same place repel each other by NaN.  Both positions become NaN in the first step and stay so, every step is accepted, and the target is never found. *)
Definition twins : llist (expag (F64 fade)) := match ll_from [mover_at fade [5; 5]%Z; mover_at fade [5; 5]%Z] with Ok l => l | _ => mkLL [] [] None None None None None end.
Definition still_moves : llist (pos (F64 fade)) := match ll_from (repeat (repeat (s0 (s := F64 fade)) 2) 2) with Ok l => l | _ => mkLL [] [] None None None None None end.
Definition still_core : syscore (F64 fade) (still_rng fade) := core (G := still_rng fade) (ACirc (demo_disc fade)).
Local Notation twin_step := (exp_step (S := F64 fade) (G := still_rng fade) still_core (demo_target fade) (of_Z (s := F64 fade) 1) (lit (s := F64 fade) 1 2)).
(** What is left of the twins: both positions, the scratch vector and the planned moves are NaN, everything else is as it was. *)
Definition nowhere : pos (F64 fade) := [B754_nan; B754_nan].
Definition two_nodes : list node := [{| next := Some 1%nat; prev := None; alive := true |}; {| next := None; prev := Some 0%nat; alive := true |}].
Definition twins_l : llist (expag (F64 fade)) := mkLL two_nodes [exp_put (mover_at fade [5; 5]%Z) nowhere; exp_put (mover_at fade [5; 5]%Z) nowhere] (Some 0%nat) (Some 1%nat) None None None.
Definition twins_d : pos (F64 fade) := nowhere.
Definition twins_m : llist (pos (F64 fade)) := mkLL two_nodes [nowhere; nowhere] (Some 0%nat) (Some 1%nat) None None None.
(* The states are compared through the numbers they hold. *)
Definition face (a : expag (F64 fade)) := (map (fun x : b64 => B2SF x) (ex_pos a), exp_put a []).
Definition face_pos (p : pos (F64 fade)) := map (fun x : b64 => B2SF x) p.
Definition faces (s : llist (expag (F64 fade)) * pos (F64 fade) * llist (pos (F64 fade)) * unit * outcome bool) :=
  let '(l, d, m, g, r) := s in
  ((links l, map face (contents l), (head l, tail l, cur0 l, cur1 l, cur2 l)), face_pos d, (links m, map face_pos (contents m), (head m, tail m, cur0 m, cur1 m, cur2 m)), g, r).
Definition lost_face := ([SpecFloat.S754_nan; SpecFloat.S754_nan], exp_put (mover_at fade [5; 5]%Z) []).
Definition lost_pos := [SpecFloat.S754_nan; SpecFloat.S754_nan].
Definition lost_faces :=
  ((two_nodes, [lost_face; lost_face], (Some 0%nat, Some 1%nat, @None nat, @None nat, @None nat)), lost_pos,
   (two_nodes, [lost_pos; lost_pos], (Some 0%nat, Some 1%nat, @None nat, @None nat, @None nat)), tt, Ok false).
Lemma map_inj {A B} (f : A -> B) : (forall x y, f x = f y -> x = y) -> forall l l', map f l = map f l' -> l = l'.
Proof. intros I l. induction l as [|x l IH]; intros [|y l'] E; try discriminate E; [reflexivity|]. cbn [map] in E. injection E as E1 E2. rewrite (I _ _ E1), (IH _ E2). reflexivity. Qed.
Lemma face_pos_inj p q : face_pos p = face_pos q -> p = q.
Proof. apply (map_inj (fun x : b64 => B2SF x)). intros x y. apply B2SF_inj. Qed.
Lemma face_inj a b : face a = face b -> a = b.
Proof.
  intros E. assert (E1 : face_pos (ex_pos a) = face_pos (ex_pos b)) by exact (f_equal fst E). assert (E2 : exp_put a [] = exp_put b []) by exact (f_equal snd E).
  apply face_pos_inj in E1. transitivity (exp_put (exp_put a []) (ex_pos a)); [destruct a; reflexivity|]. rewrite E2, E1. destruct b; reflexivity.
Qed.
Lemma faces_inj s s' : faces s = faces s' -> s = s'.
Proof.
  destruct s as ((((l, d), m), []), r). destruct s' as ((((l', d'), m'), []), r'). unfold faces. intros E. injection E as E1 E2 E3 E4 E5 E6 E7 E8 E9 E10 E11 E12 E13 E14 E15 E16.
  apply (map_inj face face_inj) in E2. apply face_pos_inj in E8. apply (map_inj face_pos face_pos_inj) in E10.
  destruct l as [k1 c1 h1 t1 a1 b1 e1], l' as [k2 c2 h2 t2 a2 b2 e2], m as [k3 c3 h3 t3 a3 b3 e3], m' as [k4 c4 h4 t4 a4 b4 e4].
  change (k1 = k2) in E1. change (c1 = c2) in E2. change (h1 = h2) in E3. change (t1 = t2) in E4. change (a1 = a2) in E5. change (b1 = b2) in E6. change (e1 = e2) in E7.
  change (k3 = k4) in E9. change (c3 = c4) in E10. change (h3 = h4) in E11. change (t3 = t4) in E12. change (a3 = a4) in E13. change (b3 = b4) in E14. change (e3 = e4) in E15.
  rewrite E1, E2, E3, E4, E5, E6, E7, E8, E9, E10, E11, E12, E13, E14, E15, E16. reflexivity.
Qed.
Lemma lost_faces_are : lost_faces = faces (twins_l, twins_d, twins_m, tt, Ok false).
Proof. reflexivity. Qed.
Lemma twins_begin : twin_step twins (repeat s0 2) still_moves tt = (twins_l, twins_d, twins_m, tt, Ok false).
Proof. apply faces_inj. rewrite <- lost_faces_are. exact (eq_refl lost_faces). Qed.
Lemma twins_fixed : twin_step twins_l twins_d twins_m tt = (twins_l, twins_d, twins_m, tt, Ok false).
Proof. apply faces_inj. rewrite <- lost_faces_are. exact (eq_refl lost_faces). Qed.
Lemma twins_nowhere : forallb (fun a : expag (F64 fade) => forallb (fun x : b64 => nan x) (ex_pos a : list b64)) (contents twins_l) = true.
Proof. reflexivity. Qed.
Lemma exp_after_fixed {S : scalar} {G : rng S} (c : syscore S G) (tg : target S) (limit dt : S) l d m (g : rstate G) l0 d0 m0 (g0 : rstate G) :
  exp_step c tg limit dt l d m g = (l0, d0, m0, g0, Ok false) -> exp_step c tg limit dt l0 d0 m0 g0 = (l0, d0, m0, g0, Ok false) ->
  forall k, exp_after c tg limit (repeat dt (Datatypes.S k)) l d m g = Some (l0, d0, m0, g0).
Proof.
  intros B Fx. assert (K : forall j, exp_after c tg limit (repeat dt j) l0 d0 m0 g0 = Some (l0, d0, m0, g0)).
  { induction j as [|j IH]; [reflexivity|]. cbn [repeat exp_after]. rewrite Fx. exact IH. }
  intros k. cbn [repeat exp_after]. rewrite B. apply K.
Qed.
#[local] Opaque exp_step twins_l twins_d twins_m twins still_moves.
Lemma twins_forever k : exp_after (S := F64 fade) (G := still_rng fade) still_core (demo_target fade) (of_Z (s := F64 fade) 1) (repeat (lit (s := F64 fade) 1 2) (Datatypes.S k)) twins (repeat s0 2) still_moves tt
  = Some (twins_l, twins_d, twins_m, tt).
Proof. exact (exp_after_fixed (S := F64 fade) (G := still_rng fade) still_core (demo_target fade) (of_Z (s := F64 fade) 1) (lit (s := F64 fade) 1 2) twins (repeat s0 2) still_moves tt twins_l twins_d twins_m tt twins_begin twins_fixed k). Qed.
#[local] Transparent exp_step twins_l twins_d twins_m twins still_moves.
Theorem C80_coincident_agents_counterexample :
  ll_from [mover_at fade [5; 5]%Z; mover_at fade [5; 5]%Z] = Ok twins /\ ll_from (repeat (repeat (s0 (s := F64 fade)) 2) 2) = Ok still_moves /\
  forall k, exists l' d' m', exp_after (S := F64 fade) (G := still_rng fade) still_core (demo_target fade) (of_Z (s := F64 fade) 1) (repeat (lit (s := F64 fade) 1 2) (Datatypes.S k)) twins (repeat s0 2) still_moves tt
      = Some (l', d', m', tt) /\
    Forall (fun a : expag (F64 fade) => Forall (fun x : b64 => nan x = true) (ex_pos a : list b64)) (contents l').
Proof.
  split; [exact (eq_refl (Ok twins))|].
  split; [exact (eq_refl (Ok still_moves))|].
  intros k. exists twins_l, twins_d, twins_m. split; [apply twins_forever|].
  pose proof twins_nowhere as A. generalize dependent twins_l. intros l0 A. apply Forall_forall. intros a Ha. rewrite forallb_forall in A. specialize (A a Ha).
  apply Forall_forall. intros x Hx. rewrite forallb_forall in A. exact (A x Hx).
Qed.
Print Assumptions C80_coincident_agents_counterexample.
(** The agents of [demo_team] are kept apart during one step; after it, by [C80_run], they still are ordinary agents inside the disc. *)
Example demo_kept_apart : forall (lm : libm) (G : rng (F64 lm)) sy tg limit dt l disp mv (g : rstate G), spread (contents l) -> kept_apart (G := G) sy tg limit [dt] l disp mv g.
Proof.
  intros lm G sy tg limit dt l disp mv g Sp us ws lj dj mj gj E W A. destruct us as [|u us].
  - cbn [exp_after] in A. injection A as <- _ _ _. exact Sp.
  - destruct us; destruct ws; try discriminate E; contradiction.
Qed.
