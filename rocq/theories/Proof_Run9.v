(** The run of examples/mfpt_exp.rs; the exact reals. *)
From Coq Require Import Sorted List Lia Arith ZArith Reals Lra.
From Verif Require Import Base Scalar Model_Position Spec_Position Proof_Position Model_System Spec_System Proof_System Proof_System2 Proof_System5 Proof_System8 Model_Agent Spec_Agent
  Proof_Agent Proof_Agent2 Proof_Agent4 Model_LinkedList Spec_LinkedList Refine_LinkedList Proof_LinkedList Proof_LinkedList2 Proof_LinkedList3
  Proof_LinkedList4 Proof_LinkedList5 Proof_LinkedList6 Model_Time Spec_Time Proof_Time Proof_Run Model_Run Spec_Run Proof_Run2 Spec_Run2 Proof_Run6 Proof_Run7 Proof_Run8.
Import ListNotations.
Local Open Scope nat_scope.

Section Cases.
Context {S : scalar} {G : rng S}.
Notation gen := (rstate G).
Lemma exp_run_cases {St : Type} (next : St -> outcome (St * option (S * S))) (sys : syscore S G) tg limit (Inv : St -> Prop) :
  (forall s, Inv s -> exists s' o, next s = Ok (s', o) /\ Inv s') ->
  forall fuel s (l : llist (expag S)) disp mv (g : gen), Inv s ->
  (exists vs t dt s1 l1 d1 m1 g1 l2 d2 m2 g2 q, length vs < fuel /\ collect next (Datatypes.S (length vs)) s = Ok (vs ++ [(t, dt)], s1) /\
     exp_after sys tg limit (map snd vs) l disp mv g = Some (l1, d1, m1, g1) /\ exp_step sys tg limit dt l1 d1 m1 g1 = (l2, d2, m2, g2, q) /\ q <> Ok false /\
     exp_run next sys tg limit fuel s l disp mv g = (l2, d2, m2, g2, match q with Ok _ => Ok t | Err e => Err e | Panic => Panic | Fuel => Fuel end)) \/
  (exists vs l1 d1 m1 g1, length vs < fuel /\ yields_all next s vs /\ exp_after sys tg limit (map snd vs) l disp mv g = Some (l1, d1, m1, g1) /\
     exp_run next sys tg limit fuel s l disp mv g = (l1, d1, m1, g1, Ok s0)) \/
  (exists vs s1 l1 d1 m1 g1, length vs = fuel /\ collect next fuel s = Ok (vs, s1) /\ exp_after sys tg limit (map snd vs) l disp mv g = Some (l1, d1, m1, g1) /\
     exp_run next sys tg limit fuel s l disp mv g = (l1, d1, m1, g1, Fuel)).
Proof.
  intros HI. induction fuel as [|fuel IH]; intros s l disp mv g Is; [right; right; exists [], s, l, disp, mv, g; auto|].
  destruct (HI s Is) as (s1 & [(t, dt)|] & En & Is1); cbn [exp_run]; rewrite En.
  2:{ right; left. exists [], l, disp, mv, g. cbn [length map exp_after]. split; [lia|]. split; [exists s, s1; auto|auto]. }
  destruct (exp_step sys tg limit dt l disp mv g) as ((((l1, d1), m1), g1), q) eqn:Es. destruct q as [[]|e| |].
  2:{ destruct (IH s1 l1 d1 m1 g1 Is1) as [(vs & t' & dt' & s2 & l2 & d2 & m2 & g2 & l3 & d3 & m3 & g3 & q & H1 & H2 & H3 & H4 & H5 & H6)|
         [(vs & l2 & d2 & m2 & g2 & H1 & (sa & sb & H2 & H2') & H3 & H4)|(vs & s2 & l2 & d2 & m2 & g2 & H1 & H2 & H3 & H4)]].
      - left. exists ((t, dt) :: vs), t', dt', s2, l2, d2, m2, g2, l3, d3, m3, g3, q. cbn [length app map snd exp_after]. split; [lia|]. split.
        { set (n := Datatypes.S (length vs)) in *. cbn [collect]. rewrite En. cbn [bind]. rewrite H2. reflexivity. }
        rewrite Es. auto.
      - right; left. exists ((t, dt) :: vs), l2, d2, m2, g2. cbn [length map snd exp_after]. split; [lia|]. split.
        { exists sa, sb. split; [|exact H2']. cbn [length collect]. rewrite En. cbn [bind]. rewrite H2. reflexivity. }
        rewrite Es. auto.
      - right; right. exists ((t, dt) :: vs), s2, l2, d2, m2, g2. cbn [length map snd exp_after]. split; [lia|]. split.
        { cbn [collect]. rewrite En. cbn [bind]. rewrite H2. reflexivity. }
        rewrite Es. auto. }
  all: left; exists [], t, dt, s1, l, disp, mv, g, l1, d1, m1, g1; eexists; cbn [length map exp_after app]; split; [lia|]; split; [cbn [collect]; rewrite En; reflexivity|];
    split; [reflexivity|]; split; [exact Es|]; split; [discriminate|]; reflexivity.
Qed.

Lemma exp_after_inv (sys : syscore S G) tg limit (Inv : llist (expag S) -> pos S -> llist (pos S) -> Prop) :
  (forall dt l d m g l1 d1 m1 g1, Inv l d m -> exp_step sys tg limit dt l d m g = (l1, d1, m1, g1, Ok false) -> Inv l1 d1 m1) ->
  forall dts l d m (g : gen) l' d' m' g', Inv l d m -> exp_after sys tg limit dts l d m g = Some (l', d', m', g') -> Inv l' d' m'.
Proof.
  intros H. induction dts as [|dt dts IH]; intros l d m g l' d' m' g' I E; cbn in E; [injection E as <- <- <- <-; exact I|].
  destruct (exp_step sys tg limit dt l d m g) as ((((l1, d1), m1), g1), [[]| | |]) eqn:Es; try discriminate. eauto.
Qed.
Lemma exp_after_last (sys : syscore S G) tg limit dt : forall dts l d m (g : gen) l' d' m' g',
  exp_after sys tg limit (dts ++ [dt]) l d m g = Some (l', d', m', g') ->
  exists l1 d1 m1 g1, exp_after sys tg limit dts l d m g = Some (l1, d1, m1, g1) /\ exp_step sys tg limit dt l1 d1 m1 g1 = (l', d', m', g', Ok false).
Proof.
  induction dts as [|d0 dts IH]; intros l d m g l' d' m' g' E; cbn [app exp_after] in E.
  - destruct (exp_step sys tg limit dt l d m g) as ((((l1, d1), m1), g1), [[]| | |]) eqn:Es; try discriminate. injection E as <- <- <- <-. exists l, d, m, g. auto.
  - destruct (exp_step sys tg limit d0 l d m g) as ((((l1, d1), m1), g1), [[]| | |]) eqn:Es; try discriminate.
    destruct (IH _ _ _ _ _ _ _ _ E) as (l2 & d2 & m2 & g2 & A & B). exists l2, d2, m2, g2. cbn [exp_after]. rewrite Es. auto.
Qed.
End Cases.

(** ** Limiting a move (reals) *)
Lemma limit_R (limit : R) (v : list R) : (0 < limit)%R ->
  exists w, limit_move (limit : RR) (v : pos RR) = w /\ (euclid_norm w <= limit)%R /\
    ((euclid_norm v <= limit)%R -> w = v) /\ ((euclid_norm v > limit)%R -> w = map (fun x => (x * (limit / euclid_norm v))%R) v /\ euclid_norm w = limit).
Proof.
  intros Hl. exists (limit_move (limit : RR) (v : pos RR)). split; [reflexivity|].
  assert (E : limit_move (limit : RR) (v : pos RR) = if Rltb 1 (euclid_norm v / limit) then map (fun x => (x * (1 / (euclid_norm v / limit)))%R) v else v).
  { unfold limit_move. rewrite (rr_norm_euclid v). reflexivity. }
  rewrite E. pose proof (euclid_norm_nonneg v) as Hn. destruct (Rltb 1 (euclid_norm v / limit)) eqn:B.
  - apply Rltb_spec in B. assert (Hb : (limit < euclid_norm v)%R).
    { apply Rmult_lt_reg_r with (/ limit)%R; [now apply Rinv_0_lt_compat|]. rewrite Rinv_r by lra. exact B. }
    assert (Hc : (1 / (euclid_norm v / limit) = limit / euclid_norm v)%R) by (field; lra).
    rewrite Hc. assert (0 <= limit / euclid_norm v)%R by (apply Rle_mult_inv_pos; lra).
    assert (N : euclid_norm (map (fun x => (x * (limit / euclid_norm v))%R) v) = limit) by (rewrite euclid_norm_scale, Rabs_pos_eq by assumption; field; lra).
    rewrite N. split; [lra|]. split; [lra|auto].
  - apply Rltb_false in B. assert (Hb : (euclid_norm v <= limit)%R).
    { apply Rmult_le_reg_r with (/ limit)%R; [now apply Rinv_0_lt_compat|]. rewrite Rinv_r by lra. exact B. }
    split; [exact Hb|]. split; [auto|lra].
Qed.

(** A move of at most one diameter inside a ball never fails. *)
Lemma ball_step (s : circ RR) (p v : list R) : built_circ s -> in_ball (ci_dim s) (ci_size s) p -> length v = ci_dim s -> (euclid_norm v <= 2 * (ci_size s : R))%R ->
  exists q, circ_check_bc s p v = (q, Ok tt) /\ in_ball (ci_dim s) (ci_size s) q.
Proof.
  intros B (Lp & Hp) Lv Hv.
  assert (exists q, circ_check_bc s p v = (q, Ok tt)) as (q & E).
  { assert (M : (euclid_norm (vsum (S := RR) p v) <= euclid_norm p + euclid_norm v)%R).
    { pose proof (minkowski p v ltac:(congruence)) as M. exact M. }
    destruct (Rle_lt_dec (euclid_norm (vsum (S := RR) p v)) (ci_size s)) as [Hin|Hout].
    - exists (vsum (S := RR) p v). apply circ_interior; [exact (eq_trans Lp (eq_sym Lv))|].
      destruct (circ_inclusion_R s (vsum (S := RR) p v)) as [[E _]|[_ E]]; [exact (vsum_len2 (S := RR) p v _ Lp Lv)|exact E|lra].
    - destruct (circ_bc_R s p v B Lp Lv Hout) as (q & _ & _ & Hq & _). exists q. apply Hq. lra. }
  exists q. split; [exact E|]. exact (circ_ok_R s p v q E).
Qed.

(** ** Coordinates of the pair pass *)
Lemma bump_eq {S : scalar} op (d : pos S) i ms v : nth_error ms i = Some v -> bump op d i ms = replace_nth i (vzip op v d) ms.
Proof. intros E. unfold bump. now rewrite E. Qed.
Section Coord.
Variable n : nat.
Notation V := (list R).

Lemma coord_nth (ms : list V) k c v : nth_error ms k = Some v -> coord ms k c = nth c v 0%R.
Proof. intros E. unfold coord. now rewrite (nth_error_nth ms k [] E). Qed.
Lemma nth_vzip (op : RR -> RR -> RR) (p q : V) c : length p = n -> length q = n -> c < n -> nth c (vzip op p q : V) 0%R = op (nth c p 0%R) (nth c q 0%R).
Proof.
  intros Lp Lq Hc. unfold vzip.
  assert (Lc : c < length (combine p q)) by (rewrite combine_length, Lp, Lq; lia).
  rewrite (nth_indep _ 0%R (op 0%R 0%R)) by (rewrite map_length; exact Lc).
  refine (eq_trans (map_nth (fun xy : R * R => op (fst xy) (snd xy)) (combine p q) (0%R, 0%R) c) _).
  rewrite combine_nth by congruence. reflexivity.
Qed.
Lemma coord_bump op (d : V) i (ms : list V) k c : length d = n -> Forall (fun v => length v = n) ms -> i < length ms -> c < n ->
  coord (bump (S := RR) op d i ms) k c = if k =? i then op (coord ms k c) (nth c d 0%R) else coord ms k c.
Proof.
  intros Ld HF Hi Hc. destruct (nth_error ms i) as [v|] eqn:Ev.
  2:{ apply nth_error_None in Ev. exfalso. apply (Nat.lt_irrefl i). eapply Nat.lt_le_trans; [exact Hi|exact Ev]. }
  pose proof (proj1 (Forall_forall _ _) HF v (nth_error_In _ _ Ev)) as Lv. cbv beta in Lv. rewrite (bump_eq (S := RR) op d i ms v Ev).
  destruct (Nat.eqb_spec k i) as [->|N].
  - rewrite (coord_nth _ i c (vzip op v d)); [rewrite nth_vzip by assumption; now rewrite (coord_nth ms i c v Ev)|].
    refine (eq_trans (nth_replace _ _ _ _) _). rewrite Nat.eqb_refl. apply Nat.ltb_lt in Hi.
    change (@length (pos RR) ms) with (@length V ms). rewrite Hi. reflexivity.
  - unfold coord. f_equal.
    assert (X : forall m, nth_error (replace_nth i (vzip op v d) ms) m = if (m =? i) && (m <? length ms) then Some (vzip op v d) else nth_error ms m) by (intros; apply nth_replace).
    specialize (X k). destruct (Nat.eqb_spec k i); [contradiction|]. cbn [andb] in X.
    destruct (nth_error ms k) as [w|] eqn:Ek.
    + rewrite (nth_error_nth _ _ _ X). symmetry. now apply nth_error_nth.
    + rewrite (nth_overflow _ _ (proj1 (nth_error_None _ _) X)). symmetry. apply nth_overflow. now apply nth_error_None.
Qed.

(** What a pair adds to coordinate [c] of move [k]. *)
Definition share (dt : R) (cs : list (expag RR)) (k c : nat) (ij : nat * nat) : R :=
  match nth_error cs (fst ij), nth_error cs (snd ij) with
  | Some a, Some b => ((if k =? snd ij then nth c (kick (S := RR) dt a b : V) 0 else 0) - (if k =? fst ij then nth c (kick (S := RR) dt a b : V) 0 else 0))%R
  | _, _ => 0%R
  end.
Lemma coord_push dt (cs : list (expag RR)) (st : V * list V) i j k c : Forall (exp_in n) cs -> Forall (fun v => length v = n) (snd st) -> length (snd st) = length cs ->
  i < length cs -> j < length cs -> c < n ->
  coord (snd (push (S := RR) dt cs st i j)) k c = (coord (snd st) k c + share dt cs k c (i, j))%R.
Proof.
  intros HF HV HL Hi Hj Hc. unfold push, share. cbn [fst snd]. destruct (nth_error cs i) as [a|] eqn:Ea; [|apply nth_error_None in Ea; lia].
  destruct (nth_error cs j) as [b|] eqn:Eb; [|apply nth_error_None in Eb; lia]. cbn [fst snd].
  pose proof (kick_length n (dt : RR) a b (crew_nth n _ _ _ HF Ea) (crew_nth n _ _ _ HF Eb)) as Lk.
  destruct (bump_good n sub (kick (S := RR) dt a b) i (snd st) (length cs) Lk (conj HL HV)) as (L1 & F1).
  rewrite (coord_bump add (kick (S := RR) dt a b)); [|exact Lk|exact F1|exact (eq_ind_r (fun N => j < N) Hj L1)|exact Hc].
  rewrite (coord_bump sub (kick (S := RR) dt a b)); [|exact Lk|exact HV|exact (eq_ind_r (fun N => i < N) Hi HL)|exact Hc].
  set (x := coord (snd st) k c). set (y := nth c (kick (S := RR) dt a b : V) 0%R).
  change ((if k =? j then ((if k =? i then x - y else x) + y)%R else (if k =? i then x - y else x)%R) = (x + ((if k =? j then y else 0) - (if k =? i then y else 0)))%R).
  destruct (k =? j), (k =? i); ring.
Qed.
Lemma coord_fold dt (cs : list (expag RR)) k c ps : Forall (exp_in n) cs -> c < n -> (forall ij, In ij ps -> fst ij < length cs /\ snd ij < length cs) ->
  forall st : V * list V, Forall (fun v => length v = n) (snd st) -> length (snd st) = length cs -> length (fst st) = n ->
  coord (snd (fold_left (fun st ij => push (S := RR) dt cs st (fst ij) (snd ij)) ps st)) k c = (coord (snd st) k c + rsum (map (share dt cs k c) ps))%R.
Proof.
  intros HF Hc. induction ps as [|(i, j) ps IH]; intros Hp st HV HL H1; cbn [fold_left map]; [symmetry; apply Rplus_0_r|].
  destruct (Hp (i, j) (or_introl eq_refl)) as (Hi & Hj). cbn [fst snd] in Hi, Hj |- *.
  destruct (push_good n (dt : RR) cs st i j (length cs) HF (conj H1 (conj HL HV))) as (K1 & K2 & K3).
  rewrite IH; [|intros ij Hin; apply Hp; now right|exact K3|exact K2|exact K1].
  rewrite coord_push by assumption. unfold rsum. cbn [fold_right]. ring.
Qed.
End Coord.

(** ** The whole pass *)
Lemma rsum_zero {X} (f : X -> R) L : (forall x, In x L -> f x = 0%R) -> rsum (map f L) = 0%R.
Proof. induction L as [|x L IH]; intros H; [reflexivity|]. unfold rsum in *. cbn [map fold_right]. rewrite IH by (intros; apply H; now right). rewrite H by now left. ring. Qed.
Lemma rsum_plus {X} (f g : X -> R) L : rsum (map (fun x => (f x + g x)%R) L) = (rsum (map f L) + rsum (map g L))%R.
Proof. induction L as [|x L IH]; unfold rsum in *; cbn [map fold_right]; [ring|]. rewrite IH. ring. Qed.
Lemma rsum_swap {X Y} (f : X -> Y -> R) L M : rsum (map (fun x => rsum (map (f x) M)) L) = rsum (map (fun y => rsum (map (fun x => f x y) L)) M).
Proof.
  induction L as [|x L IH]; cbn [map].
  - symmetry. apply rsum_zero. reflexivity.
  - change (rsum (?a :: ?r)) with (a + rsum r)%R. rewrite IH. rewrite <- rsum_plus. reflexivity.
Qed.
Lemma rsum_pick N i (x : R) : i < N -> rsum (map (fun k => if k =? i then x else 0%R) (seq 0 N)) = x.
Proof.
  intros Hi. assert (G : forall L, NoDup L -> rsum (map (fun k => if k =? i then x else 0%R) L) = if in_dec Nat.eq_dec i L then x else 0%R).
  { induction L as [|k L IH]; intros ND; [reflexivity|]. apply NoDup_cons_iff in ND as (Nk & ND). cbn [map]. change (rsum (?a :: ?r)) with (a + rsum r)%R. rewrite IH by assumption.
    destruct (Nat.eqb_spec k i) as [->|Nki].
    - destruct (in_dec Nat.eq_dec i L); [contradiction|]. destruct (in_dec Nat.eq_dec i (i :: L)) as [_|K]; [ring|exfalso; apply K; now left].
    - destruct (in_dec Nat.eq_dec i L) as [I|I]; destruct (in_dec Nat.eq_dec i (k :: L)) as [J|J]; try ring.
      + exfalso; apply J; now right.
      + destruct J as [J|J]; [congruence|contradiction]. }
  rewrite G by apply seq_NoDup. destruct (in_dec Nat.eq_dec i (seq 0 N)) as [_|K]; [reflexivity|exfalso; apply K, in_seq; lia].
Qed.
Lemma share_total dt (cs : list (expag RR)) c ij : fst ij < length cs -> snd ij < length cs -> rsum (map (fun k => share dt cs k c ij) (seq 0 (length cs))) = 0%R.
Proof.
  intros Hi Hj. unfold share. destruct (nth_error cs (fst ij)) as [a|]; [|now apply rsum_zero]. destruct (nth_error cs (snd ij)) as [b|]; [|now apply rsum_zero].
  set (x := nth c _ 0%R).
  rewrite (map_ext _ (fun k => ((if k =? snd ij then x else 0) + (if k =? fst ij then - x else 0))%R)).
  - rewrite rsum_plus, !rsum_pick by assumption. ring.
  - intros k. destruct (k =? snd ij), (k =? fst ij); ring.
Qed.
Lemma pairs_in L i j : In (i, j) (pairs L) -> In i L /\ In j L.
Proof.
  induction L as [|x r IH]; [intros []|]. cbn [pairs]. rewrite in_app_iff, in_map_iff. intros [(y & [= <- <-] & Hy)|H]; [split; [now left|now right]|].
  destruct (IH H). split; now right.
Qed.
Lemma pair_sum (h : nat -> nat -> R) k L : NoDup L ->
  rsum (map (fun ij => ((if k =? fst ij then h (fst ij) (snd ij) else 0) + (if k =? snd ij then h (snd ij) (fst ij) else 0))%R) (pairs L)) =
  if in_dec Nat.eq_dec k L then rsum (map (fun m => if m =? k then 0%R else h k m) L) else 0%R.
Proof.
  induction L as [|x r IH]; intros ND; [reflexivity|]. apply NoDup_cons_iff in ND as (Nx & ND). cbn [pairs]. rewrite map_app, rsum_app, IH by assumption.
  rewrite map_map. cbn [fst snd]. rewrite rsum_plus.
  assert (E1 : rsum (map (fun j => if k =? x then h x j else 0%R) r) = if k =? x then rsum (map (h x) r) else 0%R).
  { destruct (k =? x); [reflexivity|]. now apply rsum_zero. }
  rewrite E1. clear E1 IH.
  assert (E2 : rsum (map (fun j => if k =? j then h j x else 0%R) r) = if in_dec Nat.eq_dec k r then h k x else 0%R).
  { clear Nx. induction r as [|y r IH]; [reflexivity|]. apply NoDup_cons_iff in ND as (Ny & ND). cbn [map]. change (rsum (?a :: ?r)) with (a + rsum r)%R. rewrite IH by assumption.
    destruct (Nat.eqb_spec k y) as [->|N].
    - destruct (in_dec Nat.eq_dec y r); [contradiction|]. destruct (in_dec Nat.eq_dec y (y :: r)) as [_|K]; [ring|exfalso; apply K; now left].
    - destruct (in_dec Nat.eq_dec k r) as [I|I]; destruct (in_dec Nat.eq_dec k (y :: r)) as [J|J]; try ring.
      + exfalso; apply J; now right.
      + destruct J as [J|J]; [congruence|contradiction]. }
  rewrite E2. clear E2. cbn [map]. change (rsum (?a :: ?r)) with (a + rsum r)%R. destruct (Nat.eqb_spec k x) as [->|N].
  - rewrite Nat.eqb_refl. destruct (in_dec Nat.eq_dec x r); [contradiction|]. destruct (in_dec Nat.eq_dec x (x :: r)) as [_|K]; [|exfalso; apply K; now left].
    assert (E : map (fun m => if m =? x then 0%R else h x m) r = map (h x) r).
    { apply map_ext_in. intros m Hm. destruct (Nat.eqb_spec m x) as [->|_]; [contradiction|reflexivity]. }
    rewrite E. ring.
  - destruct (Nat.eqb_spec x k) as [->|_]; [contradiction|].
    destruct (in_dec Nat.eq_dec k r) as [I|I]; destruct (in_dec Nat.eq_dec k (x :: r)) as [J|J]; try ring.
    + exfalso; apply J; now right.
    + destruct J as [J|J]; [congruence|contradiction].
Qed.

Lemma coord_zeros n N k c : coord (repeat (repeat 0%R n) N) k c = 0%R.
Proof.
  unfold coord. destruct (nth_in_or_default k (repeat (repeat 0%R n) N) []) as [H|H]; [apply repeat_spec in H|]; rewrite H; [|destruct c; reflexivity].
  destruct (nth_in_or_default c (repeat 0%R n) 0%R) as [I|I]; [now apply repeat_spec in I|exact I].
Qed.
Lemma plans_coord n dt (cs : list (expag RR)) (disp : list R) k c : Forall (exp_in n) cs -> length disp = n -> c < n ->
  coord (plans (S := RR) n dt cs disp) k c = rsum (map (share dt cs k c) (pairs (seq 0 (length cs)))).
Proof.
  intros HF Ld Hc. unfold plans. etransitivity; [apply (coord_fold n dt cs k c (pairs (seq 0 (length cs))) HF Hc)|].
  - intros (i, j) H. apply pairs_in in H as (H1 & H2). apply in_seq in H1, H2. cbn. lia.
  - cbn [snd]. apply Forall_forall. intros v Hv. apply repeat_spec in Hv. subst. apply repeat_length.
  - cbn [snd]. apply repeat_length.
  - exact Ld.
  - cbn [snd]. etransitivity; [apply (f_equal (fun z => (z + _)%R)), coord_zeros|apply Rplus_0_l].
Qed.
Lemma plans_total n dt (cs : list (expag RR)) (disp : list R) c : Forall (exp_in n) cs -> length disp = n -> c < n ->
  rsum (map (fun k => coord (plans (S := RR) n dt cs disp) k c) (seq 0 (length cs))) = 0%R.
Proof.
  intros HF Ld Hc. rewrite (map_ext _ (fun k => rsum (map (share dt cs k c) (pairs (seq 0 (length cs)))))) by (intros k; now apply plans_coord).
  rewrite rsum_swap. apply rsum_zero. intros (i, j) H. apply pairs_in in H as (H1 & H2). apply in_seq in H1, H2. apply share_total; cbn; lia.
Qed.

Lemma kick_coord n dt (a b : expag RR) c : exp_in n a -> exp_in n b -> c < n ->
  nth c (kick (S := RR) dt a b : list R) 0%R = (- repulsion dt a b c)%R.
Proof.
  intros (_ & La & _) (_ & Lb & _) Hc. unfold kick, repulsion. cbv zeta. rewrite (norm_dvec_R (ex_pos a) (ex_pos b)) by exact (eq_trans La (eq_sym Lb)).
  set (D := euclid (ex_pos a) (ex_pos b)). set (f := expag_force (S := RR) a D).
  assert (E : forall p q : list R, length p = n -> length q = n ->
     nth c (map (fun x : R => (x * (1 / D) * (f * dt))%R) (map (fun xy : R * R => (fst xy - snd xy)%R) (combine q p))) 0%R = (- (f * dt * ((nth c p 0 - nth c q 0) / D)))%R).
  { intros p q Lp Lq. rewrite map_map. rewrite (nth_indep _ 0%R ((0 - 0) * (1 / D) * (f * dt))%R) by (rewrite map_length, combine_length; lia).
    refine (eq_trans (map_nth (fun x : R * R => ((fst x - snd x) * (1 / D) * (f * dt))%R) (combine q p) (0%R, 0%R) c) _). rewrite combine_nth by congruence. cbn [fst snd]. unfold Rdiv. ring. }
  exact (E (ex_pos a) (ex_pos b) La Lb).
Qed.
Lemma repulsion_sym dt (a b : expag RR) c : length (ex_pos a) = length (ex_pos b) -> (forall r, expag_force a r = expag_force b r) ->
  repulsion dt b a c = (- repulsion dt a b c)%R.
Proof.
  intros L H. unfold repulsion. assert (E : euclid (ex_pos b) (ex_pos a) = euclid (ex_pos a) (ex_pos b)).
  { rewrite !euclid_sq by (try exact L; exact (eq_sym L)). now rewrite sq_vsub_sym. }
  rewrite E, <- H. unfold Rdiv. ring.
Qed.
Lemma plans_net n dt (cs : list (expag RR)) (disp : list R) k c : Forall (exp_in n) cs -> length disp = n -> c < n -> k < length cs -> same_law cs ->
  coord (plans (S := RR) n dt cs disp) k c = net_repulsion dt cs k c.
Proof.
  intros HF Ld Hc Hk Law. rewrite plans_coord by assumption. unfold net_repulsion. destruct (nth_error cs k) as [a|] eqn:Ek; [|apply nth_error_None in Ek; lia].
  set (h := fun i m => match nth_error cs i, nth_error cs m with Some a, Some b => repulsion dt a b c | _, _ => 0%R end).
  rewrite (map_ext_in _ (fun ij => ((if k =? fst ij then h (fst ij) (snd ij) else 0) + (if k =? snd ij then h (snd ij) (fst ij) else 0))%R)).
  - rewrite pair_sum by apply seq_NoDup. destruct (in_dec Nat.eq_dec k (seq 0 (length cs))) as [_|K]; [|exfalso; apply K, in_seq; lia].
    f_equal. apply map_ext. intros m. destruct (m =? k); [reflexivity|]. unfold h. now rewrite Ek.
  - intros (i, j) H. apply pairs_in in H as (H1 & H2). apply in_seq in H1, H2. unfold share, h. cbn [fst snd].
    destruct (nth_error cs i) as [x|] eqn:Ex; [|apply nth_error_None in Ex; lia]. destruct (nth_error cs j) as [y|] eqn:Ey; [|apply nth_error_None in Ey; lia].
    pose proof (crew_nth n _ _ _ HF Ex) as Px. pose proof (crew_nth n _ _ _ HF Ey) as Py.
    rewrite (kick_coord n) by assumption.
    rewrite (repulsion_sym dt x y c); [|destruct Px as (_ & -> & _), Py as (_ & -> & _); reflexivity|apply Law; eapply nth_error_In; eassumption].
    destruct (k =? j), (k =? i); ring.
Qed.
