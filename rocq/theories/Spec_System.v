(** Specification vocabulary for systems: where a point is, and what a wall does to it. *)
From Coq Require Import Reals ZArith List.
From Verif Require Import Base Scalar Float64 Model_Position Spec_Position Model_System.
Import ListNotations.

(** Systems that the public constructors produce. *)
Definition built_circ {S : scalar} (s : circ S) : Prop :=
  (exists r n, circ_new r n = Ok s) \/ (exists a, circ_convert_from a = Ok s).
Definition built_cubic {S : scalar} (s : cubic S) : Prop :=
  (exists b l n, cubic_new b l n = Ok s) \/ (exists a, cubic_convert_from a = Ok s).
Definition built_cyl {S : scalar} (s : cyl S) : Prop :=
  (exists c r l n, cyl_new c r l n = Ok s) \/ (exists a, cyl_convert_from a = Ok s).

(** The coordinatewise sum of two positions. *)
Definition vsum {S : scalar} (p q : list S) : list S := map (fun xy => add (fst xy) (snd xy)) (combine p q).

(** How a boundary step treats dimensions: a displacement shorter than the position panics; a position of the wrong
    dimension is moved and [Err InvalidDimension] returned; otherwise the step succeeds or reports a too large step. *)
Definition bc_shape {S : scalar} (n : nat) (bc : pos S -> pos S -> pos S * outcome unit) : Prop :=
  forall p dp : pos S,
    ((length dp < length p)%nat -> bc p dp = (p, Panic)) /\
    ((length p <= length dp)%nat -> length p <> n -> bc p dp = (vsum p dp, Err InvalidDimension)) /\
    ((length p <= length dp)%nat -> length p = n ->
       exists q, length q = n /\ (bc p dp = (q, Ok tt) \/ bc p dp = (q, Err TooLargeTimeStep))).

(** Regions of n-dimensional space (real coordinates). *)
Definition in_ball (n : nat) (r : R) (q : list R) : Prop := length q = n /\ (euclid_norm q <= r)%R.
Definition in_cube (n : nat) (l : R) (q : list R) : Prop := length q = n /\ Forall (fun x => - l <= x <= l)%R q.
Definition in_cylinder (n d : nat) (r l : R) (q : list R) : Prop :=
  length q = n /\ (euclid_norm (firstn d q) <= r)%R /\ Forall (fun x => - l <= x <= l)%R (skipn d q).

(** One coordinate meets the walls at [-l] and [l]: mirrored at the wall it crossed, or moved by the period [2*l]. *)
Definition mirrored (l x y : R) : Prop :=
  ((- l <= x <= l /\ y = x) \/ (x > l /\ y = l - (x - l)) \/ (x < - l /\ y = - l + (- l - x)))%R.
Definition translated (l x y : R) : Prop :=
  ((- l <= x <= l /\ y = x) \/ (x > l /\ y = x - 2 * l) \/ (x < - l /\ y = x + 2 * l))%R.

(** What each kind of wall does to a whole position. *)
Definition walls (b : bcond) (l : R) (p q : list R) : Prop :=
  match b with
  | Reflection => Forall2 (mirrored l) p q
  | Periodic => Forall2 (translated l) p q
  | Mixed d => Forall2 (mirrored l) (firstn d p) (firstn d q) /\ Forall2 (translated l) (skipn d p) (skipn d q)
  end.

(** [q] is [p] scaled by [t]. *)
Definition scaled (t : R) (p q : list R) : Prop := Forall2 (fun x y => y = t * x)%R p q.

(** A size that can be doubled without overflow. *)
Definition fit (l : b64) : Prop := fin l = true /\ (0 <= B2 l <= 2 ^ 1022)%R.
(** Doubles: a coordinate is an ordinary number between [-l] and [l]. *)
Definition bounded64 (l x : b64) : Prop := fin x = true /\ (Rabs (B2 x) <= B2 l)%R.

(** The double [y] is the correctly rounded image of [x] under an exact wall rule, and lies between the walls. *)
Definition wall_64 (exact : R -> R -> R -> Prop) (l x y : b64) : Prop :=
  exists e, exact (B2 l) (B2 x) e /\ B2 y = rnd64 e /\ bounded64 l y.
Definition walls_64 (b : bcond) (l : b64) (p q : list b64) : Prop :=
  match b with
  | Reflection => Forall2 (wall_64 mirrored l) p q
  | Periodic => Forall2 (wall_64 translated l) p q
  | Mixed d => Forall2 (wall_64 mirrored l) (firstn d p) (firstn d q) /\ Forall2 (wall_64 translated l) (skipn d p) (skipn d q)
  end.

(** A generator whose uniform samples are reals strictly between 0 and 1 (exact arithmetic). *)
Definition unif_R (G : rng RR) : Prop := forall g, (0 < (fst (unif G g) : R) < 1)%R.
(** rand 0.7's [Open01] for f64 delivers (2k+1)/2^53 with 0 <= k < 2^52; only the range is used. *)
Definition unif_64 {lm} (G : rng (F64 lm)) : Prop :=
  forall g, fin (fst (unif G g) : b64) = true /\ (0 <= B2 (fst (unif G g) : b64) <= 1)%R.

(** One block of uniform samples, mapped affinely from (0,1) to (-1,1), falls into the unit ball. *)
Definition in_unit_ball (u : list R) : Prop := (euclid_norm (map (fun x => 2 * x - 1) u) <= 1)%R.
(** The same for the first [d] samples, strictly. *)
Definition radially_inside (d : nat) (u : list R) : Prop := (euclid_norm (map (fun x => 2 * x - 1) (firstn d u)) < 1)%R.

(** ** Exact reflection at a sphere (C49) *)
(** The dot product; the point [p + t * d] of a line. *)
Definition dot (p q : list R) : R := rsum (map (fun xy => fst xy * snd xy)%R (combine p q)).
Definition along (p d : list R) (t : R) : list R := map (fun xy => fst xy + t * snd xy)%R (combine p d).
(** The segment from [p] to [p + d] leaves the ball of radius [r] exactly at parameter [t]. *)
Definition leaves_at (r : R) (p d : list R) (t : R) : Prop :=
  (0 <= t <= 1 /\ euclid_norm (along p d t) = r /\
   (forall s, 0 <= s <= t -> euclid_norm (along p d s) <= r) /\
   (forall s, t < s <= 1 -> r < euclid_norm (along p d s)))%R.
(** [q] is the mirror image of [m] in the plane through [h] perpendicular to [h]: going from [m] parallel to [h] reaches the
    plane after [c * h] and [q] after twice that. *)
Definition mirror_image (h m q : list R) : Prop :=
  exists c, dot h (along m h (- c)) = dot h h /\ q = along m h (- (2 * c)).

(** Rejection sampling over successive blocks of [n] uniform samples: block [k] is the first, among the first [fuel], that is
    accepted; or none of them is. *)
Definition first_block {G : rng RR} (accept : list R -> Prop) (n fuel : nat) (g : rstate G) (k : nat) : Prop :=
  (k < fuel)%nat /\ accept (nth_block (unif G) n k g) /\ forall j : nat, (j < k)%nat -> ~ accept (nth_block (unif G) n j g).
Definition no_block {G : rng RR} (accept : list R -> Prop) (n fuel : nat) (g : rstate G) : Prop :=
  forall j : nat, (j < fuel)%nat -> ~ accept (nth_block (unif G) n j g).
(** The affine image of a sample of (0,1)^n in a box: the first [d] coordinates in [-a,a], the others in [-b,b]. *)
Definition to_box (d : nat) (a b : R) (u : list R) : list R :=
  map (fun x => (2 * x - 1) * a)%R (firstn d u) ++ map (fun x => (2 * x - 1) * b)%R (skipn d u).
(** The two kinds of sampler: the result is made by [c] from the first accepted block and exactly the blocks up to it are consumed;
    with no accepted block the sampler goes on ([Fuel]). *)
Definition rej_ok {G : rng RR} n (accept : list R -> Prop) fuel (g : rstate G) (r : outcome (list R * rstate G)) (c : list R -> list R) : Prop :=
  (exists k, first_block accept n fuel g k /\ r = Ok (c (nth_block (unif G) n k g), after_blocks (unif G) n (Datatypes.S k) g)) \/
  (no_block accept n fuel g /\ r = Fuel).
Definition rej_to {G : rng RR} n (accept : list R -> Prop) fuel (g : rstate G) (r : list R * rstate G * outcome unit) (c : list R -> list R) : Prop :=
  (exists k, first_block accept n fuel g k /\ r = (c (nth_block (unif G) n k g), after_blocks (unif G) n (Datatypes.S k) g, Ok tt)) \/
  (no_block accept n fuel g /\ snd r = Fuel).
(** A step reported as too large: the unfolded move and the position left behind are both outside by the system's own test, so a
    position that was inside has been lost. *)
Definition loses_place {S : scalar} (incl : pos S -> outcome bool) (bc : pos S -> pos S -> pos S * outcome unit) : Prop :=
  forall p dp q, bc p dp = (q, Err TooLargeTimeStep) ->
    incl (vsum p dp) = Ok false /\ incl q = Ok false /\ (incl p = Ok true -> q <> p).
