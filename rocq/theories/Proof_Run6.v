(** The pair pass of examples/mfpt_exp.rs as a fold over all pairs. *)
From Coq Require Import Sorted List Lia Arith ZArith Reals.
From Verif Require Import Base Scalar Model_Position Spec_Position Proof_Position Model_System Model_Agent Spec_Agent Proof_Agent2
  Model_LinkedList Spec_LinkedList Refine_LinkedList Proof_LinkedList Proof_LinkedList2 Proof_LinkedList3
  Proof_LinkedList4 Proof_LinkedList5 Proof_LinkedList6 Proof_Run Model_Run Spec_Run Proof_Run2 Spec_Run2.
Import ListNotations.
Local Open Scope nat_scope.

(** A sweep that deletes nothing. *)
Lemma scan_keep {St} (f : St -> nat -> nat -> St) x r : forall st,
  scan (fun st i j => (f st i j, false)) x r st = (r, fold_left (fun st ij => f st (fst ij) (snd ij)) (map (pair x) r) st).
Proof. induction r as [|j r IH]; intros st; [reflexivity|]. cbn [scan map fold_left fst snd]. rewrite IH. reflexivity. Qed.
Lemma sweep_keep {St} (f : St -> nat -> nat -> St) n : forall l st, length l <= n ->
  sweep n (fun st i j => (f st i j, false)) l st = (pairs l, l, fold_left (fun st ij => f st (fst ij) (snd ij)) (pairs l) st).
Proof.
  induction n as [|n IH]; intros l st Hl; [destruct l; [reflexivity|cbn in Hl; lia]|].
  destruct l as [|x r]; [reflexivity|]. cbn [sweep pairs]. rewrite scan_keep, IH by (cbn in Hl; lia). rewrite fold_left_app. reflexivity.
Qed.

Section F.
Context {S : scalar}.
Implicit Types (l : llist (expag S)) (cs : list (expag S)) (ms : list (pos S)).

(** What a pair plans. *)
Definition kick (dt : S) (a b : expag S) : pos S :=
  let e := dvec (ex_pos a) (ex_pos b) in
  map (fun x => mul (mul x (div s1 (norm e))) (mul (expag_force a (norm e)) dt)) e.
Definition vzip (op : S -> S -> S) (p q : pos S) : pos S := map (fun xy => op (fst xy) (snd xy)) (combine p q).
Definition bump (op : S -> S -> S) (d : pos S) (i : nat) (ms : list (pos S)) : list (pos S) :=
  match nth_error ms i with Some v => replace_nth i (vzip op v d) ms | None => ms end.
Definition push (dt : S) cs (st : pos S * list (pos S)) (i j : nat) : pos S * list (pos S) :=
  match nth_error cs i, nth_error cs j with
  | Some a, Some b => (kick dt a b, bump add (kick dt a b) j (bump sub (kick dt a b) i (snd st)))
  | _, _ => st
  end.

Variable n : nat.
Notation good st N := (length (fst st) = n /\ length (snd st) = N /\ Forall (fun v => length v = n) (snd st)).

Lemma kick_length dt a b : exp_in n a -> exp_in n b -> length (kick dt a b) = n.
Proof. intros (_ & La & _) (_ & Lb & _). unfold kick. rewrite map_length, dvec_length; congruence. Qed.
Lemma vzip_length op p q : length p = n -> length q = n -> length (vzip op p q) = n.
Proof. intros. unfold vzip. rewrite map_length, combine_length. lia. Qed.

Lemma replace_dims ms i (v : pos S) : Forall (fun v => length v = n) ms -> length v = n -> Forall (fun v => length v = n) (replace_nth i v ms).
Proof.
  intros H L. apply Forall_forall. intros x Hx. apply In_nth_error in Hx as (k & Hk). rewrite nth_replace in Hk.
  destruct (andb _ _); [|apply (proj1 (Forall_forall _ _) H x (nth_error_In _ _ Hk))].
  assert (E : v = x) by congruence. now rewrite <- E.
Qed.
Lemma nth_dims ms i (v : pos S) : Forall (fun v => length v = n) ms -> nth_error ms i = Some v -> length v = n.
Proof. intros H E. apply (proj1 (Forall_forall _ _) H v (nth_error_In _ _ E)). Qed.
Lemma crew_nth cs i a : Forall (exp_in n) cs -> nth_error cs i = Some a -> exp_in n a.
Proof. intros H E. apply (proj1 (Forall_forall _ _) H a (nth_error_In _ _ E)). Qed.

Lemma bump_good op d i ms N : length d = n -> length ms = N /\ Forall (fun v => length v = n) ms ->
  length (bump op d i ms) = N /\ Forall (fun v => length v = n) (bump op d i ms).
Proof.
  intros Ld (L & F). unfold bump. destruct (nth_error ms i) as [v|] eqn:Ev; [|auto]. split; [now rewrite replace_length|].
  apply replace_dims; [exact F|]. apply vzip_length; [exact (nth_dims _ _ _ F Ev)|exact Ld].
Qed.
Lemma push_good dt cs st i j N : Forall (exp_in n) cs -> good st N -> good (push dt cs st i j) N.
Proof.
  intros F (L1 & L2 & L3). unfold push. destruct (nth_error cs i) as [a|] eqn:Ea; [|auto]. destruct (nth_error cs j) as [b|] eqn:Eb; [|auto].
  pose proof (kick_length dt a b (crew_nth _ _ _ F Ea) (crew_nth _ _ _ F Eb)) as Lk. cbn [fst snd]. split; [exact Lk|].
  apply bump_good; [exact Lk|]. apply bump_good; [exact Lk|]. auto.
Qed.

Lemma bump_run op ms i (d : pos S) {B} (k : list (pos S) -> outcome B) : i < length ms -> length d = n -> Forall (fun v => length v = n) ms ->
  (do v <- idx ms i; do v' <- mut_zip op v d; k (replace_nth i v' ms)) = k (bump op d i ms).
Proof.
  intros Hi Ld HF. unfold idx, bump. destruct (nth_error ms i) as [v|] eqn:Ev; [|apply nth_error_None in Ev; lia].
  cbn [bind]. rewrite mut_zip_same by (rewrite Ld; exact (nth_dims _ _ _ HF Ev)). reflexivity.
Qed.
Lemma push_run ms i j (d : pos S) (mv : llist (pos S)) : i < length ms -> j < length ms -> length d = n -> Forall (fun v => length v = n) ms ->
  (do mi <- idx ms i; do mi' <- mut_sub mi d; let cs := replace_nth i mi' ms in do mj <- idx cs j; do mj' <- mut_add mj d; Ok (with_contents mv (replace_nth j mj' cs)))
  = Ok (with_contents mv (bump add d j (bump sub d i ms))).
Proof.
  intros Hi Hj Ld HF. refine (eq_trans (bump_run sub ms i d (fun ns : list (pos S) => do mj <- idx ns j; do mj' <- mut_add mj d; Ok (with_contents mv (replace_nth j mj' ns))) Hi Ld HF) _).
  cbv beta. destruct (bump_good sub d i ms (length ms) Ld (conj eq_refl HF)) as (L1 & F1).
  refine (bump_run add (bump sub d i ms) j d (fun ns : list (pos S) => Ok (with_contents mv ns)) _ Ld F1). rewrite L1. exact Hj.
Qed.

Lemma force_loop_step dt fuel l l1 i a j b disp d1 d2 dist (mv mv' : llist (pos S)) :
  enumerate_double l = Ok (l1, Some (i, a, j, b)) -> expag_mutual_displacement_to_vec a b disp = (d1, Ok dist) ->
  mut_scalar_mul d1 (mul (expag_force a dist) dt) = d2 ->
  (do mi <- idx (contents mv) i; do mi' <- mut_sub mi d2;
   let cs := replace_nth i mi' (contents mv) in
   do mj <- idx cs j; do mj' <- mut_add mj d2; Ok (with_contents mv (replace_nth j mj' cs))) = Ok mv' ->
  force_loop dt (Datatypes.S fuel) l disp mv = force_loop dt fuel l1 d2 mv'.
Proof. intros E1 E2 <- E3. cbn [force_loop]. rewrite E1, E2. cbv zeta in E3 |- *. rewrite E3. reflexivity. Qed.

Lemma force_loop_drun dt fuel : forall l st ps l' st' (mv : llist (pos S)), reachable l -> Forall (exp_in n) (contents l) -> good st (length (contents l)) ->
  drun (fun st i j => (push dt (contents l) st i j, false)) fuel l st = Ok (ps, l', st') ->
  force_loop dt fuel l (fst st) (with_contents mv (snd st)) = (l', fst st', with_contents mv (snd st'), Ok tt) /\ reachable l' /\ contents l' = contents l.
Proof.
  induction fuel as [|fuel IH]; intros l st ps l' st' mv HR HF HG E; [discriminate|]. cbn [drun] in E.
  destruct (indicies_double l) as [(l1, q)| | |] eqn:Ei; try discriminate. cbn [bind fst snd] in E.
  destruct (reachable_rep l HR) as (s & R). pose proof (indicies_double_ref l s R) as ID.
  assert (HR1 : reachable l1) by (apply (reachable_indicies_double l l1 _ HR Ei)).
  destruct q as [(i, j)|].
  2:{ injection E as _ <- <-. split; [cbn [force_loop]; unfold enumerate_double; rewrite Ei; reflexivity|]. split; [exact HR1|].
      destruct (c0 s); [destruct (c1 s)|]; [destruct ID as (lx & Ei' & _ & Hc); rewrite Ei in Ei'; discriminate Ei'|rewrite Ei in ID; injection ID as <-; reflexivity..]. }
  destruct (c0 s) as [i0|] eqn:C0; [|rewrite Ei in ID; discriminate]. destruct (c1 s) as [j0|] eqn:C1; [|rewrite Ei in ID; discriminate].
  destruct ID as (l1' & Ei' & R1 & Hc1). rewrite Ei in Ei'. injection Ei' as <- <- <-.
  assert (Hi : i < length (contents l)) by (rewrite (rp_items _ _ R); apply (rp_range _ _ R), (rp_l0 _ _ R _ C0)).
  assert (Hj : j < length (contents l)) by (rewrite (rp_items _ _ R); apply (rp_range _ _ R), (rp_l1 _ _ R _ C1)).
  pose proof (push_good dt (contents l) st i j _ HF HG) as HG1. destruct HG as (G1 & G2 & G3).
  destruct (nth_error (contents l) i) as [a|] eqn:Ea; [|apply nth_error_None in Ea; lia].
  destruct (nth_error (contents l) j) as [b|] eqn:Eb; [|apply nth_error_None in Eb; lia].
  assert (Ed : enumerate_double l = Ok (l1, Some (i, a, j, b))).
  { unfold enumerate_double. rewrite Ei. cbn [bind fst snd]. unfold idx. rewrite Hc1, Ea, Eb. reflexivity. }
  pose proof (crew_nth _ _ _ HF Ea) as Pa. pose proof (crew_nth _ _ _ HF Eb) as Pb.
  assert (Ek : expag_mutual_displacement_to_vec a b (fst st) =
    (map (fun x => mul x (div s1 (norm (dvec (ex_pos a) (ex_pos b))))) (dvec (ex_pos a) (ex_pos b)), Ok (norm (dvec (ex_pos a) (ex_pos b))))).
  { destruct Pa as (A1 & A2 & _). destruct Pb as (B1 & B2 & _). unfold expag_mutual_displacement_to_vec.
    apply (proj2 (mdv_eq (ex_dim a) (ex_dim b) (ex_pos a) (ex_pos b) (fst st) ltac:(congruence) ltac:(congruence))); [congruence|congruence|].
    apply (proj2 (md_eq (ex_dim a) (ex_dim b) (ex_pos a) (ex_pos b) ltac:(congruence) ltac:(congruence))). congruence. }
  assert (Kk : mut_scalar_mul (map (fun x => mul x (div s1 (norm (dvec (ex_pos a) (ex_pos b))))) (dvec (ex_pos a) (ex_pos b)))
     (mul (expag_force a (norm (dvec (ex_pos a) (ex_pos b)))) dt) = kick dt a b) by (unfold mut_scalar_mul, kick; now rewrite map_map).
  pose proof (kick_length dt a b Pa Pb) as Lk.
  pose proof (push_run (snd st) i j (kick dt a b) (with_contents mv (snd st)) (eq_ind_r (fun N => i < N) Hi G2) (eq_ind_r (fun N => j < N) Hj G2) Lk G3) as Ep.
  pose proof (force_loop_step dt fuel l l1 i a j b (fst st) _ _ _ (with_contents mv (snd st)) _ Ed Ek Kk Ep) as Es. rewrite Es.
  assert (P1 : push dt (contents l) st i j = (kick dt a b, bump add (kick dt a b) j (bump sub (kick dt a b) i (snd st)))) by (unfold push; now rewrite Ea, Eb).
  rewrite P1 in HG1, E. destruct (drun _ fuel l1 _) as [((ps', l''), st'')| | |] eqn:Er; try discriminate. cbn in E. injection E as _ <- <-.
  rewrite <- Hc1 in HF, HG1, Er. destruct (IH l1 _ ps' l'' st'' mv HR1 HF HG1 Er) as (F1 & F2 & F3). split; [exact F1|]. split; [exact F2|congruence].
Qed.

(** The pass: every pair of live agents once, in order. *)
Lemma force_pass dt l disp (mv : llist (pos S)) : reachable l -> Forall (exp_in n) (contents l) -> length disp = n ->
  length (contents mv) = length (contents l) -> Forall (fun v => length v = n) (contents mv) ->
  exists l0 l' d', into_double_iter l = Ok l0 /\
    force_loop dt (Datatypes.S (length (contents l) * length (contents l))) l0 disp mv =
      (l', d', with_contents mv (snd (fold_left (fun st ij => push dt (contents l) st (fst ij) (snd ij)) (pairs (live_of l)) (disp, contents mv))), Ok tt) /\
    reachable l' /\ contents l' = contents l /\ live_of l' = live_of l /\ length d' = n.
Proof.
  intros HR HF Ld Lm HM. destruct (chains l HR) as (CS & CR & _).
  pose proof (sweep_keep (push dt (contents l)) (length (live_of l)) (live_of l) (disp, contents mv) (le_n _)) as Ew.
  assert (Lp : length (pairs (live_of l)) < Datatypes.S (length (contents l) * length (contents l))).
  { pose proof (pairs_length_sq (live_of l)) as L2.
    assert (L3 : length (live_of l) <= length (contents l)).
    { rewrite <- (seq_length (length (contents l)) 0). apply NoDup_incl_length; [apply sorted_NoDup, CS|]. intros i Hi. apply in_seq. specialize (CR i Hi). lia. }
    nia. }
  destruct (drun_sweep (fun st i j => (push dt (contents l) st i j, false)) l (disp, contents mv) _ _ _ _ HR Ew Lp) as (l0 & l1 & E0 & E1 & E2 & E3).
  assert (C0 : contents l0 = contents l). { unfold into_double_iter in E0. destruct (next_of l (head l)); [|discriminate..]. injection E0 as <-. reflexivity. }
  pose proof (reachable_into_double l l0 HR E0) as R0. rewrite <- C0 in E1, HF, Lm |- *.
  assert (GD : good (disp, contents mv) (length (contents l0))) by auto.
  destruct (force_loop_drun dt _ l0 (disp, contents mv) _ _ _ mv R0 HF GD E1) as (F1 & F2 & F3). cbn [fst snd] in F1. rewrite with_contents_id in F1.
  exists l0, l1. eexists. split; [exact E0|]. split; [exact F1|]. split; [exact F2|]. split; [exact F3|]. split; [exact E2|].
  assert (I : forall ps st, good st (length (contents l0)) -> good (fold_left (fun st ij => push dt (contents l0) st (fst ij) (snd ij)) ps st) (length (contents l0))).
  { induction ps as [|p ps IH]; intros st Hst; [exact Hst|]. cbn [fold_left]. apply IH. now apply push_good. }
  exact (proj1 (I _ _ GD)).
Qed.

(** Dimensions and number of the planned moves are kept. *)
Lemma fold_good dt cs N ps : Forall (exp_in n) cs -> forall st, good st N -> good (fold_left (fun st ij => push dt cs st (fst ij) (snd ij)) ps st) N.
Proof. intros HF. induction ps as [|p ps IH]; intros st Hst; [exact Hst|]. cbn [fold_left]. apply IH. now apply push_good. Qed.
End F.
