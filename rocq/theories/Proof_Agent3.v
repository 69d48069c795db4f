(** Agents: [new_uniform] and [renew_uniform], forces, pair displacement in doubles, random moves, growth (C31-C35). *)
From Coq Require Import Reals ZArith List Lra Lia Psatz.
From Flocq Require Import Core.
From Flocq.IEEE754 Require Import BinarySingleNaN.
From Verif Require Import Base Scalar Float64 Model_Position Spec_Position Proof_Position Proof_Time Proof_Norm64 Model_System Spec_System
  Proof_System Proof_System2 Proof_System3 Proof_System4 Proof_System5 Proof_System6 Proof_System7 Proof_System8 Model_Agent Spec_Agent Proof_Agent Proof_Agent2.
Import ListNotations.
Local Open Scope nat_scope.

Section Gen.
Context {S : scalar} {G : rng S}.

Lemma new_form (sy : anysys S) (t : target S) inner fuel (g : rstate G) (rc : recipe S) q g1 r :
  place inner fuel (core sy) t g (sc_out (core (G := G) sy)) = (q, g1, r) ->
  (recipe_ok (sysdim sy) rc ->
    match r with
    | Ok _ => exists b, a_new_uniform inner fuel (core sy) t g rc = (g1, Ok b) /\ made_as rc b /\ a_pos b = q /\
                        (length q = sysdim sy -> coherent b /\ a_dim b = sysdim sy) /\ coefficients_set b
    | Err e => a_new_uniform inner fuel (core sy) t g rc = (g1, Err e)
    | Panic => a_new_uniform inner fuel (core sy) t g rc = (g1, Panic)
    | Fuel => a_new_uniform inner fuel (core sy) t g rc = (g1, Fuel)
    end) /\
  (~ recipe_ok (sysdim sy) rc -> a_new_uniform inner fuel (core sy) t g rc = (g, Err InvalidArgumentInput)).
Proof.
  intros E. pose proof (out_length (G := G) sy) as OL. split.
  - intros H. destruct rc as [m|m rad al|it m st|it m st].
    + cbn [a_new_uniform]. unfold indep_new_uniform. rewrite E. destruct r as [[]|e| |]; cbn; try reflexivity.
      eexists. split; [reflexivity|]. cbn. unfold coherent, dim. cbn. repeat split; auto.
    + cbn [a_new_uniform]. unfold merger_new_uniform. rewrite E. destruct r as [[]|e| |]; cbn; try reflexivity.
      eexists. split; [reflexivity|]. cbn. unfold coherent, dim. cbn. repeat split; auto.
    + destruct H as (gamma & ->). cbn [a_new_uniform]. unfold expag_new_uniform, exp_coeff. unfold dim. rewrite !OL, !Nat.eqb_refl. cbn [negb].
      rewrite E. destruct r as [[]|e| |]; cbn; try reflexivity.
      eexists. split; [reflexivity|]. cbn. unfold coherent, dim. cbn. repeat split; eauto.
    + destruct H as (a & ->). cbn [a_new_uniform]. unfold ljag_new_uniform, lj_coeff. rewrite E.
      destruct r as [[]|e| |]; cbn; try reflexivity.
      eexists. split; [reflexivity|]. cbn. unfold coherent, dim. cbn. rewrite OL. repeat split; auto.
  - intros H. destruct rc as [m|m rad al|it m st|it m st]; cbn in H; try tauto.
    + cbn [a_new_uniform]. unfold expag_new_uniform. destruct it as [d gamma| | |]; try reflexivity. unfold dim. rewrite OL.
      destruct (Nat.eqb_spec d (sysdim sy)) as [->|N]; [exfalso; eauto|reflexivity].
    + cbn [a_new_uniform]. unfold ljag_new_uniform. destruct it as [d gamma| | |a]; try reflexivity. exfalso. eauto.
Qed.
End Gen.

(** [renew_uniform] as rejection sampling (exact reals, ball or cube). *)
Lemma renew_R {G : rng RR} (sy : anysys RR) (t : target RR) inner fuel (g : rstate G) (a : anyagent RR) :
  built sy -> ~ is_cyl sy -> unif_R G -> length (tg_pos t) = sysdim sy ->
  exists b g' r, a_renew inner fuel (core sy) t g a = (b, g', r) /\ same_kind a b /\ same_parameters a b /\
   ((first_acceptable sy t g (a_pos b) g' /\
      (r = Ok tt \/ (r = Err FeatureNotProvided /\ a_mtype a = Levy /\ exists m, a = AMerger m)) /\
      (coherent a -> coherent b /\ a_dim b = sysdim sy)) \/
    (r = Fuel /\ forall j, j < Nat.min inner fuel -> ~ acceptable sy t (candidate sy g j))).
Proof.
  intros B NC U LT.
  destruct (place inner fuel (core sy) t g (sc_out (core (G := G) sy))) as ((q, g1), r) eqn:E.
  destruct (renew_form sy t inner fuel g a q g1 r E) as (b & r' & E' & K & P & Q & D & R & _).
  exists b, g1, r'. split; [exact E'|]. split; [exact K|]. split; [exact P|].
  destruct (place_R sy t inner fuel g (sc_out (core (G := G) sy)) B NC U LT (out_length (S := RR) sy)) as [(k & A1 & A2 & A3)|(A1 & q' & g' & A2)].
  - rewrite E in A3. injection A3 as E1 E2 E3. left. split.
    + exists k. rewrite Q. split; [exact A1|split; [exact A2|split; [exact E1|exact E2]]].
    + split.
      * destruct R as [R|(_ & R1 & R2 & R3)]; [left; congruence|right; auto].
      * intros Ca. unfold coherent in *. rewrite D, Q. assert (L : length q = sysdim sy) by (rewrite E1; apply cand_length).
        destruct (Nat.eqb_spec (length (a_pos a)) (sysdim sy)) as [H|H]; split; try reflexivity.
        -- exact (eq_trans Ca (eq_trans H (eq_sym L))).
        -- exact (eq_trans Ca H).
        -- exact (eq_sym L).
  - rewrite E in A2. injection A2 as _ _ E3. right. split; [|exact A1].
    destruct R as [R|(R & _)]; [exact (eq_trans R E3)|]. rewrite E3 in R. discriminate.
Qed.

Lemma new_R {G : rng RR} (sy : anysys RR) (t : target RR) inner fuel (g : rstate G) (rc : recipe RR) :
  built sy -> ~ is_cyl sy -> unif_R G -> length (tg_pos t) = sysdim sy -> recipe_ok (sysdim sy) rc ->
  (exists b g', a_new_uniform inner fuel (core sy) t g rc = (g', Ok b) /\ made_as rc b /\ coherent b /\ a_dim b = sysdim sy /\
     first_acceptable sy t g (a_pos b) g') \/
  ((exists g', a_new_uniform inner fuel (core sy) t g rc = (g', Fuel)) /\
   forall j, j < Nat.min inner fuel -> ~ acceptable sy t (candidate sy g j)).
Proof.
  intros B NC U LT RO.
  destruct (place inner fuel (core sy) t g (sc_out (core (G := G) sy))) as ((q, g1), r) eqn:E.
  destruct (new_form sy t inner fuel g rc q g1 r E) as (F & _). specialize (F RO).
  destruct (place_R sy t inner fuel g (sc_out (core (G := G) sy)) B NC U LT (out_length (S := RR) sy)) as [(k & A1 & A2 & A3)|(A1 & q' & g' & A2)].
  - rewrite E in A3. injection A3 as E1 E2 E3. subst r. destruct F as (b & F1 & F2 & F3 & F4 & _). left. exists b, g1.
    split; [exact F1|split; [exact F2|]]. destruct F4 as (F4 & F5); [rewrite E1; apply cand_length|]. split; [exact F4|split; [exact F5|]].
    exists k. rewrite F3. split; [exact A1|split; [exact A2|split; [exact E1|exact E2]]].
  - rewrite E in A2. injection A2 as _ _ E3. subst r. right. split; [exists g1; exact F|exact A1].
Qed.

(** Doubles. *)
Lemma renew_64 {lm} {G : rng (F64 lm)} (sy : anysys (F64 lm)) (t : target (F64 lm)) inner fuel (g : rstate G) (a b : anyagent (F64 lm)) g' :
  fits sy -> ~ is_cyl sy -> unif_64 G -> a_renew inner fuel (core sy) t g a = (b, g', Ok tt) ->
  inside64 sy (a_pos b) /\ check_find t (a_pos b) = Ok false /\ same_kind a b /\ same_parameters a b.
Proof.
  intros Fi NC U E'. destruct (place inner fuel (core sy) t g (sc_out (core (G := G) sy))) as ((q, g1), r) eqn:E.
  destruct (renew_form sy t inner fuel g a q g1 r E) as (b' & r' & E'' & K & P & Q & D & R & _).
  rewrite E' in E''. injection E'' as <- <- <-.
  destruct R as [R|(_ & _ & R & _)]; [|discriminate]. subst r.
  destruct (place_64 sy t inner fuel g _ q g' Fi NC U (out_length (S := F64 lm) sy) E) as (I1 & I2).
  rewrite Q. auto.
Qed.

Lemma new_64 {lm} {G : rng (F64 lm)} (sy : anysys (F64 lm)) (t : target (F64 lm)) inner fuel (g : rstate G) rc (b : anyagent (F64 lm)) g' :
  fits sy -> ~ is_cyl sy -> unif_64 G -> a_new_uniform inner fuel (core sy) t g rc = (g', Ok b) ->
  inside64 sy (a_pos b) /\ check_find t (a_pos b) = Ok false /\ made_as rc b /\ coherent b /\ recipe_ok (sysdim sy) rc.
Proof.
  intros Fi NC U E'. destruct (place inner fuel (core sy) t g (sc_out (core (G := G) sy))) as ((q, g1), r) eqn:E.
  destruct (new_form sy t inner fuel g rc q g1 r E) as (F1 & F2).
  assert (RO : recipe_ok (sysdim sy) rc).
  { destruct rc as [m|m rad al|it m st|it m st]; cbn; auto.
    - cbn [a_new_uniform] in E'. unfold expag_new_uniform in E'. destruct it as [d gamma| | |]; try discriminate E'.
      unfold dim in E'. rewrite out_length in E'. destruct (Nat.eqb_spec d (sysdim sy)) as [->|N]; [eauto|discriminate E'].
    - cbn [a_new_uniform] in E'. unfold ljag_new_uniform in E'. destruct it; try discriminate E'. eauto. }
  specialize (F1 RO). destruct r as [[]|e| |]; try (rewrite F1 in E'; discriminate).
  destruct F1 as (b' & G1 & G2 & G3 & G4 & _). rewrite E' in G1. injection G1 as <- <-.
  destruct (place_64 sy t inner fuel g _ q g' Fi NC U (out_length (S := F64 lm) sy) E) as (I1 & I2). rewrite G3.
  split; [exact I1|split; [exact I2|split; [exact G2|split; [|exact RO]]]].
  apply G4. destruct sy; cbn in I1; try tauto; exact (proj1 I1).
Qed.

(** Cylinders, exact reals: renewed and new agents. *)
Lemma renew_cyl {G : rng RR} (s : cyl RR) d (t : target RR) inner fuel (g : rstate G) (a b : anyagent RR) g' :
  built_cyl s -> cy_type s = ContinuousCylindrical d -> unif_R G -> a_renew inner fuel (core (ACyl s)) t g a = (b, g', Ok tt) ->
  in_cylinder (cy_dim s) d (cy_radius s) (2 * (cy_length s : R))%R (a_pos b) /\ check_find t (a_pos b) = Ok false /\ same_kind a b /\ same_parameters a b.
Proof.
  intros B T U E'. destruct (place inner fuel (core (ACyl s)) t g (sc_out (core (G := G) (ACyl s)))) as ((q, g1), r) eqn:E.
  destruct (renew_form (ACyl s) t inner fuel g a q g1 r E) as (b' & r' & E'' & K & P & Q & D & R0 & _).
  rewrite E' in E''. injection E'' as <- <- <-.
  destruct R0 as [R0|(_ & _ & R0 & _)]; [|discriminate]. subst r.
  destruct (place_cyl_R s d t inner fuel g _ q g' B T U (out_length (S := RR) (ACyl s)) E) as (I1 & I2).
  rewrite Q. auto.
Qed.
Lemma new_cyl {G : rng RR} (s : cyl RR) d (t : target RR) inner fuel (g : rstate G) rc (b : anyagent RR) g' :
  built_cyl s -> cy_type s = ContinuousCylindrical d -> unif_R G -> a_new_uniform inner fuel (core (ACyl s)) t g rc = (g', Ok b) ->
  in_cylinder (cy_dim s) d (cy_radius s) (2 * (cy_length s : R))%R (a_pos b) /\ check_find t (a_pos b) = Ok false /\ made_as rc b /\ coherent b.
Proof.
  intros B T U E'. destruct (place inner fuel (core (ACyl s)) t g (sc_out (core (G := G) (ACyl s)))) as ((q, g1), r) eqn:E.
  destruct (new_form (ACyl s) t inner fuel g rc q g1 r E) as (F1 & F2).
  assert (RO : recipe_ok (sysdim (ACyl s)) rc).
  { destruct rc as [m|m rad al|it m st|it m st]; cbn; auto.
    - cbn [a_new_uniform] in E'. unfold expag_new_uniform in E'. destruct it as [d' gamma| | |]; try discriminate E'.
      unfold dim in E'. rewrite out_length in E'. destruct (Nat.eqb_spec d' (sysdim (ACyl s))) as [->|N]; [eauto|discriminate E'].
    - cbn [a_new_uniform] in E'. unfold ljag_new_uniform in E'. destruct it; try discriminate E'. eauto. }
  specialize (F1 RO). destruct r as [[]|e| |]; try (rewrite F1 in E'; discriminate).
  destruct F1 as (b' & G1 & G2 & G3 & G4 & _). rewrite E' in G1. injection G1 as <- <-.
  destruct (place_cyl_R s d t inner fuel g _ q g' B T U (out_length (S := RR) (ACyl s)) E) as (I1 & I2). rewrite G3.
  split; [exact I1|split; [exact I2|split; [exact G2|]]]. apply G4. exact (proj1 I1).
Qed.

(** A target of another dimension is never a success. *)
Lemma renew_wrong_target {S : scalar} {G : rng S} (sy : anysys S) (t : target S) inner fuel (g : rstate G) (a : anyagent S) :
  (match sy with ACyl s => exists d, cy_type s = ContinuousCylindrical d /\ d <= cy_dim s | _ => True end) ->
  length (tg_pos t) <> sysdim sy -> snd (a_renew inner fuel (core sy) t g a) <> Ok tt.
Proof.
  intros W LT E. destruct (place inner fuel (core sy) t g (sc_out (core (G := G) sy))) as ((q, g1), r) eqn:P.
  destruct (renew_form sy t inner fuel g a q g1 r P) as (b & r' & E' & _ & _ & _ & _ & R & _).
  rewrite E' in E. cbn in E. subst r'. destruct R as [R|(_ & _ & R & _)]; [|discriminate]. subst r.
  refine (place_wrong_target (sysdim sy) (core sy) t inner fuel g _ _ LT q g1 P).
  intros q' g' F. assert (SM : exists acc cand, sampler (sysdim sy) acc cand (sc_random_to (core (G := G) sy)) /\ forall u, length u = sysdim sy -> length (cand u) = sysdim sy).
  { destruct sy as [s|s|s].
    - do 2 eexists. split; [exact (circ_sampler s)|]. intros u L. now rewrite spread_length.
    - do 2 eexists. split; [exact (cubic_sampler s)|]. intros u L. now rewrite spread_length.
    - destruct W as (d & T & D). do 2 eexists. split; [exact (cyl_sampler s d T D)|]. intros u L. unfold cyl_cand_to. 
      rewrite cyl_scale_length, map_length. exact L. }
  destruct SM as (acc & cand & SM & LC).
  destruct (SM inner g (sc_out (core (G := G) sy)) (out_length sy)) as [(k & _ & _ & F')|(_ & q'' & g'' & F')]; rewrite F in F'.
  - injection F' as -> _. apply LC. apply nth_block_len.
  - discriminate.
Qed.
