(** Proofs about the minimum over several searchers and the mean over an ensemble. *)
From Coq Require Import List Lia Arith ZArith Reals Lra.
From Flocq Require Import Core IEEE754.BinarySingleNaN.
From Verif Require Import Base Scalar Float64 Model_Position Spec_Position Model_System Spec_System Model_Agent Spec_Agent
  Model_Run Spec_Run Model_Search Spec_Search Proof_Time Proof_Run13 Proof_Search Proof_Search2.
Import ListNotations.
Local Open Scope nat_scope.

Lemma min_any {S : scalar} {G : rng S} (trans : forall x y z : S, ltb x y = true -> ltb y z = true -> ltb x z = true) (irr : forall x : S, ltb x x = false)
  inner pf fuel (sys : syscore S G) tg mt (dt : S) n (g : rstate G) :
  let sample := one_search inner pf fuel sys tg mt dt in
  (exists ts g' m, sampled sample g ts g' /\ length ts = n /\ n_searcher_fpt inner pf fuel sys tg mt dt n g = (g', Ok m) /\
     (forall t, In t ts -> ltb t m = false) /\
     ((In m ts /\ ltb m fmax = true) \/ (m = fmax /\ forall t, In t ts -> ltb t fmax = false))) \/
  (exists k g' o, k < n /\ fails_after sample g k g' o /\ n_searcher_fpt inner pf fuel sys tg mt dt n g = (g', o)).
Proof.
  intros sample. destruct (min_cases sample n fmax g) as [(ts & g' & H & L & E)|(k & g' & o & Hk & F & E)].
  - left. exists ts, g'. eexists. split; [exact H|]. split; [exact L|]. split; [exact E|].
    destruct (min_fold trans irr ts fmax) as (A & B & C). cbv zeta in A, B, C. split; [exact B|].
    destruct C as [C|C]; [right; split; [exact C|intros t Ht; specialize (B t Ht); rewrite C in B; exact B]|].
    left. split; [|exact C]. destruct A as [A|A]; [|exact A]. exfalso. rewrite A in C at 1. rewrite irr in C. discriminate.
  - right. exists k, g', o. auto.
Qed.
Lemma Rltb_trans (x y z : RR) : ltb x y = true -> ltb y z = true -> ltb x z = true.
Proof. intros A B. apply Rltb_spec in A, B. apply Rltb_spec. exact (Rlt_trans _ _ _ A B). Qed.
Lemma Rltb_irr (x : RR) : ltb x x = false.
Proof. apply Rltb_false. exact (Rle_refl x). Qed.
Lemma Bltb_irr (x : b64) : Bltb x x = false.
Proof. destruct (Bltb x x) eqn:E; [|reflexivity]. destruct (ltb_nan _ _ E). apply ltb_val in E; auto. lra. Qed.
Lemma Bltb_trans (x y z : b64) : Bltb x y = true -> Bltb y z = true -> Bltb x z = true.
Proof. intros A B. destruct (ltb_nan _ _ A), (ltb_nan _ _ B). apply ltb_val in A, B; auto. apply ltb_val; auto. lra. Qed.
Lemma min_F lm (G : rng (F64 lm)) inner pf fuel (sys : syscore (F64 lm) G) tg mt (dt : F64 lm) n (g : rstate G) :
  let sample := one_search inner pf fuel sys tg mt dt in
  (exists ts g' m, sampled sample g ts g' /\ length ts = n /\ n_searcher_fpt inner pf fuel sys tg mt dt n g = (g', Ok m) /\
     (forall t, In t ts -> ltb t m = false) /\
     ((In m ts /\ ltb m fmax = true) \/ (m = fmax /\ forall t, In t ts -> ltb t fmax = false))) \/
  (exists k g' o, k < n /\ fails_after sample g k g' o /\ n_searcher_fpt inner pf fuel sys tg mt dt n g = (g', o)).
Proof. exact (min_any (S := F64 lm) Bltb_trans Bltb_irr inner pf fuel sys tg mt dt n g). Qed.

(** The samples of a run of [n] searchers are first visits. *)
Lemma sampled_in {S : scalar} {G : rng S} {X} (sample : rstate G -> rstate G * outcome X) g ts g' : sampled sample g ts g' ->
  forall t, In t ts -> exists g1 g2, sample g1 = (g2, Ok t).
Proof. induction 1 as [|g g1 g2 t ts E H IH]; intros u Hu; [destruct Hu|]. destruct Hu as [<-|Hu]; [eauto|auto]. Qed.

(** Exact reals: the minimum is the time step times the smallest number of steps. *)
Lemma min_R (G : rng RR) inner pf fuel (sy : anysys RR) (tg : target RR) (c dt : R) n (g : rstate G) :
  built sy -> length (tg_pos tg) = sysdim sy -> (0 < dt)%R -> 1 <= n ->
  (forall k, k < fuel -> (INR k * dt < fmax (s := RR))%R) ->
  let sample := one_search inner pf fuel (core sy) tg (Brownian (c : RR)) (dt : RR) in
  forall g' (m : R), n_searcher_fpt inner pf fuel (core sy) tg (Brownian (c : RR)) (dt : RR) n g = (g', Ok m) ->
  exists ks, sampled sample g (map (fun k => INR k * dt)%R ks) g' /\ length ks = n /\ Forall (fun k => 1 <= k) ks /\
    exists k, In k ks /\ (forall j, In j ks -> k <= j) /\ m = (INR k * dt)%R.
Proof.
  intros B T Hdt Hn Hmax sample g' m E.
  destruct (min_any Rltb_trans Rltb_irr inner pf fuel (core sy) tg (Brownian (c : RR)) (dt : RR) n g) as [(ts & g1 & m1 & H & L & E1 & Lo & M)|(k & g1 & o & _ & (ts & g2 & _ & _ & _ & N) & E1)].
  2: { rewrite E1 in E. injection E as _ ->. destruct (N m eq_refl). }
  rewrite E1 in E. injection E as -> ->.
  assert (K : exists ks, ts = map (fun k => INR k * dt)%R ks /\ Forall (fun k => 1 <= k < fuel) ks).
  { clear - H B T. induction H as [|g g1 g2 t ts E H IH]; [exists []; split; [reflexivity|constructor]|].
    destruct IH as (ks & -> & F).
    destruct (one_search_cases inner pf fuel sy tg (c : RR) (dt : RR) g B T) as [(a & g0 & _ & _ & _ & [(k & q & Hk & _ & X)|[(k & p & q & _ & _ & _ & _ & X)|(_ & X)]])|(g0 & _ & X)]; rewrite X in E; try discriminate E.
    injection E as _ <-. exists (k :: ks). split; [cbn; f_equal; exact (ticks_R dt k)|]. constructor; [exact Hk|exact F]. }
  destruct K as (ks & -> & F). exists ks. split; [exact H|]. rewrite map_length in L. split; [exact L|].
  split; [eapply Forall_impl; [|exact F]; intros k; cbn; lia|].
  assert (In (m : R) (map (fun k => INR k * dt)%R ks)) as Im.
  { destruct M as [(I & _)|(-> & Q)]; [exact I|]. exfalso. destruct ks as [|k ks]; [cbn in L; lia|].
    specialize (Q (INR k * dt)%R (or_introl eq_refl)). apply Forall_inv in F. specialize (Hmax k ltac:(lia)).
    apply Rltb_false in Q. apply (Rlt_not_le _ _ Hmax). exact Q. }
  apply in_map_iff in Im. destruct Im as (k & <- & Ik).
  exists k. split; [exact Ik|]. split; [|reflexivity].
  intros j Hj. specialize (Lo (INR j * dt)%R (in_map (fun k => INR k * dt)%R _ _ Hj)). apply Rltb_false in Lo. apply INR_le. apply Rmult_le_reg_r with dt; [exact Hdt|exact Lo].
Qed.

(** ** The mean *)
Lemma mean_any {S : scalar} {G : rng S} (sample : rstate G -> rstate G * outcome S) num g :
  (exists ts g', sampled sample g ts g' /\ length ts = num /\
     ensemble_mean sample num g = (g', Ok (div (fold_left add ts s0) (of_Z (Z.of_nat num))))) \/
  (exists k g' o, k < num /\ fails_after sample g k g' o /\ ensemble_mean sample num g = (g', o)).
Proof.
  unfold ensemble_mean. destruct (sum_cases sample num s0 g) as [(ts & g' & H & L & ->)|(k & g' & o & Hk & F & ->)].
  - left. exists ts, g'. auto.
  - right. exists k, g', o. split; [exact Hk|]. split; [exact F|]. destruct F as (us & g1 & _ & _ & _ & N). destruct o as [x|e| |]; try reflexivity. destruct (N x eq_refl).
Qed.
Lemma fold_add_sum (ts : list R) : forall d : R, fold_left Rplus ts d = (d + fold_right Rplus 0 ts)%R.
Proof. induction ts as [|t ts IH]; intros d; cbn; [lra|]. rewrite IH. lra. Qed.
Lemma sum_bounds (ts : list R) (lo hi : R) : Forall (fun t => lo <= t <= hi)%R ts -> (INR (length ts) * lo <= fold_right Rplus 0 ts <= INR (length ts) * hi)%R.
Proof. induction 1 as [|t ts [A B] F IH]; [cbn; lra|]. cbn [length fold_right]. rewrite S_INR. lra. Qed.
Lemma mean_R {G : rng RR} (sample : rstate G -> rstate G * outcome RR) num g g' (m : R) : 1 <= num -> ensemble_mean sample num g = (g', Ok m) ->
  exists ts : list R, sampled sample g ts g' /\ length ts = num /\ (INR num * m = fold_right Rplus 0 ts)%R /\
    forall lo hi, Forall (fun t => lo <= t <= hi)%R ts -> (lo <= m <= hi)%R.
Proof.
  intros Hn E. destruct (mean_any sample num g) as [(ts & g1 & H & L & E1)|(k & g1 & o & _ & (ts & g2 & _ & _ & _ & N) & E1)].
  2: { rewrite E1 in E. injection E as _ ->. destruct (N m eq_refl). }
  rewrite E1 in E. injection E as <- Em. exists ts. split; [exact H|]. split; [exact L|].
  assert (P : (0 < INR num)%R) by (apply lt_0_INR; lia).
  assert (Q : (INR num * m = fold_right Rplus 0 ts)%R).
  { rewrite <- Em. change (INR num * (fold_left Rplus ts 0 / IZR (Z.of_nat num)) = fold_right Rplus 0 ts)%R. rewrite fold_add_sum, <- INR_IZR_INZ. field. lra. }
  split; [exact Q|]. intros lo hi F. apply sum_bounds in F. change (@length R ts) with (@length (car RR) ts) in F. rewrite L in F. rewrite <- Q in F.
  destruct F as (F1 & F2). split; eapply Rmult_le_reg_l; eauto.
Qed.
Lemma mean_none lm (G : rng (F64 lm)) (sample : rstate G -> rstate G * outcome (F64 lm)) g :
  exists m : b64, ensemble_mean sample 0 g = (g, Ok m) /\ nan m = true.
Proof. eexists. split; [reflexivity|]. vm_compute. reflexivity. Qed.
