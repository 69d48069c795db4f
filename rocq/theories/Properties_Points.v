(** C75: the files and the bins of the sampling tests. *)
From Coq Require Import Reals ZArith List String Ascii Lia Lra.
From Flocq Require Import Core IEEE754.BinarySingleNaN.
From Verif Require Import Base Scalar Float64 Model_Position Spec_Position Model_System Spec_System Model_Text Spec_Text Proof_Text4 Model_Args Model_Points Spec_Points Proof_Points Proof_Mirror Properties_Args.
Import ListNotations.
Local Notation length := List.length.
Local Open Scope string_scope.

(** Uniform and normal vectors: the file has one point per line, the successive pairs of samples in order; the version with one reused position writes the same file and
    leaves the generator in the same state. *)
Theorem C75_vector_files : forall (S : scalar) (G : rng S) (nt : numtext S) n (g : rstate G),
  (exists t, point_file (n_show nt) (map (fun k => nth_block (unif G) 2 k g) (seq 0 n)) t /\
     uniform_file nt n g = (t, Ok (after_blocks (unif G) 2 n g)) /\ uniform_to_file nt n g = (t, Ok (after_blocks (unif G) 2 n g))) /\
  (exists t, point_file (n_show nt) (map (fun k => nth_block (gauss G) 2 k g) (seq 0 n)) t /\
     gaussian_file nt n g = (t, Ok (after_blocks (gauss G) 2 n g)) /\ gaussian_to_file nt n g = (t, Ok (after_blocks (gauss G) 2 n g))).
Proof. intros. apply vec_files. Qed.
Print Assumptions C75_vector_files.

(** Random positions of a disc: every point of the file passes the disc's own test; there are [n] of them, or the rejection of some point never ends. *)
Theorem C75_disc_files : forall (S : scalar) (G : rng S) (nt : numtext S) fuel (sys : circ S) n (g : rstate G) (file : string * outcome (rstate G)), ci_dim sys = 2%nat ->
  file = disc_file nt fuel sys n g \/ file = disc_to_file nt fuel sys n g ->
  exists ps, point_file (n_show nt) ps (fst file) /\ Forall (fun p => circ_inclusion sys p = Ok true) ps /\
    ((length ps = n /\ exists g', snd file = Ok g') \/ ((length ps < n)%nat /\ snd file = Fuel)).
Proof. exact @disc_files. Qed.
Print Assumptions C75_disc_files.

(** Exact arithmetic: the two versions write the same file. *)
Theorem C75_disc_files_same : forall (G : rng RR) (nt : numtext RR) fuel (sys : circ RR) n (g : rstate G), built_circ sys -> ci_dim sys = 2%nat ->
  disc_to_file nt fuel sys n g = disc_file nt fuel sys n g.
Proof. intros. now apply disc_same. Qed.
Print Assumptions C75_disc_files_same.

(** Doubles: false; the two versions round differently.  With samples 0.4 on the disc of radius 3 the first line differs. *)
Definition still_rng (lm : libm) : rng (F64 lm) := Rng (S := F64 lm) unit (fun g => (lit (s := F64 lm) 2 5, g)) (fun g => (lit (s := F64 lm) 2 5, g)).
Theorem C75_disc_files_differ_counterexample : forall lm : libm, exists sys t u, built_circ sys /\ ci_dim sys = 2%nat /\
  disc_file (G := still_rng lm) (case_text lm) 1 sys 1 tt = (t, Ok tt) /\ disc_to_file (G := still_rng lm) (case_text lm) 1 sys 1 tt = (u, Ok tt) /\ t <> u.
Proof.
  intros lm. set (sys := Circ (S := F64 lm) ContinuousCircular Reflection (b64_of_Z 3) 2).
  exists sys, (fst (disc_file (G := still_rng lm) (case_text lm) 1 sys 1 tt)), (fst (disc_to_file (G := still_rng lm) (case_text lm) 1 sys 1 tt)).
  split. { left. exists (b64_of_Z 3 : F64 lm), 2%nat. assert (E2 : Scalar.leb (b64_of_Z 3 : F64 lm) s0 = false) by (vm_compute; reflexivity). unfold circ_new. rewrite E2. reflexivity. }
  split; [reflexivity|]. split; [vm_compute; reflexivity|]. split; [vm_compute; reflexivity|]. vm_compute. intros X. discriminate X.
Qed.
Print Assumptions C75_disc_files_differ_counterexample.

(** Such a file reads back: cut at the tabs, the lines are the points. *)
Theorem C75_points_read_back : forall (S : scalar) (nt : numtext S) (ps : list (pos S)) t, faithful nt -> point_file (n_show nt) ps t ->
  map (fun l => map (n_parse nt) (split_on (is_char (ascii_of_nat 9)) l)) (text_lines t) = map (map Some) ps.
Proof. intros. now apply read_points. Qed.
Print Assumptions C75_points_read_back.

(** The bounds cut the range in equal bins (exact arithmetic), so every value of the range has a bin. *)
Theorem C75_bin_bounds : forall (a b : R) n, (0 < n)%nat -> cuts a b n (bin_bounds (S := RR) a b n) /\
  forall x, (a <= x <= b)%R -> exists k, (k < n)%nat /\ (nth k (bin_bounds (S := RR) a b n) 0 <= x <= nth (Datatypes.S k) (bin_bounds (S := RR) a b n) 0)%R.
Proof. intros a b n N. split; [now apply bounds_cut|]. intros x X. apply (some_bin a b x n); [exact N|now apply bounds_cut|exact X]. Qed.
Print Assumptions C75_bin_bounds.

(** The data binned: the samples in order, one each; a normal sample outside the range is recorded in the first or the last bin (when the range is wider than 1/2). *)
Theorem C75_binned_data : forall (S : scalar) (G : rng S) (mn mx : S) n m (g : rstate G),
  uniform_data m g = draws (unif G) m g /\ gaussian_data mn mx n m g = (map (clamped mn mx n) (fst (draws (gauss G) m g)), snd (draws (gauss G) m g)).
Proof. intros. split; [apply uniform_all|apply gaussian_all]. Qed.
Print Assumptions C75_binned_data.
Theorem C75_outliers : forall (a b x : R) n, (0 < n)%nat -> (1 / 2 < b - a)%R -> let y := clamped (S := RR) a b n x in let w := ((b - a) / INR n)%R in
  ((a <= x <= b)%R -> y = x) /\ ((x < a)%R -> (a <= y < a + w)%R) /\ ((b < x)%R -> (b - w < y <= b)%R).
Proof. exact clamped_R. Qed.
Print Assumptions C75_outliers.

(** The hypotheses are met: the disc of radius 3 in the tests, and the range from -4 to 4 in 100 bins. *)
Example disc_demo : exists sys : circ RR, built_circ sys /\ ci_dim sys = 2%nat /\ (ci_size sys : R) = 3%R.
Proof. exists (Circ ContinuousCircular Reflection (3%R : RR) 2). split; [apply built_ball; [lra|lia]|]. split; reflexivity. Qed.
Example bins_demo : (0 < 100)%nat /\ (1 / 2 < 4 - -4)%R /\ faithful b64_text.
Proof. split; [lia|]. split; [lra|exact b64_faithful]. Qed.
