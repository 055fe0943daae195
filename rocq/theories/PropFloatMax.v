(** C125, C126: dispersions of a MAX-AND layer in double precision. *)
From Verif Require Import Base BaseR SpecR SpecMax MaxMachine SpecMaxRun SpecFloat FloatMax FloatMaxProofs FloatMaxProofs2.
Local Open Scope R_scope.

(** For data of fewer than 94906264 cells (the square root of 2^53, less 2) rounding changes neither the order in which dimensions are picked nor any comparison of
    dispersions: the result is the exact one, each entry replaced by the nearest double. *)
Theorem C125_dispersions : forall A B X parm N D L, has_shape2 A N L -> has_shape2 B D L -> has_shape2 X N D -> (0 < N)%nat -> (Z.of_nat (N * D) + 2 <= 94906265)%Z ->
  List.length parm = S L -> Forall is_double parm ->
  exists new, greedy_dispersions A B X N D L new /\ List.length (double_lbda_MAX_AND A B X parm) = S L /\
    (forall l, (l <= L)%nat -> let x := nth l (double_lbda_MAX_AND A B X parm) 0 in
       is_double x /\ 0 < x < 1 /\ forall y, is_double y -> Rabs (x - nth l new 0) <= Rabs (y - nth l new 0)) /\
    (forall a b, (a <= L)%nat -> (b <= L)%nat ->
       (nth a (double_lbda_MAX_AND A B X parm) 0 < nth b (double_lbda_MAX_AND A B X parm) 0 <-> nth a new 0 < nth b new 0)).
Proof. exact C125_lemma. Qed.
Example C125_example :
  let A := [[1]; [-1]]%Z in let B := [[1]]%Z in let X := [[1]; [-1]]%Z in
  has_shape2 A 2 1 /\ has_shape2 B 1 1 /\ has_shape2 X 2 1 /\ Forall is_double [1 / 2; 1 / 4] /\
  precision A B X 2 1 [] 0 = 2 / 3 /\ laplace (unexplained A B X 2 1 (seq 0 1) 1) (unexplained A B X 2 1 (seq 0 1) (-1)) = 1 / 3 /\
  double_lbda_MAX_AND A B X [1 / 2; 1 / 4] = [6004799503160661 / 9007199254740992; 6004799503160661 / 18014398509481984].
Proof. exact C125_example_lemma. Qed.
(** A bound is needed: a dimension explaining 2^27 ones and a better one explaining 2^27 + 1 ones (no mistakes) get the same rate in
    double precision, and the first of them is picked instead of the better one. *)
Theorem C125_bound_needed : laplace (Z.to_nat (2 ^ 27)) 0 < laplace (Z.to_nat (2 ^ 27 + 1)) 0 /\
  argmax [pp_rate (2 ^ 27) 0; pp_rate (2 ^ 27 + 1) 0] = 1%nat /\
  double_pp_rate (2 ^ 27) 0 = double_pp_rate (2 ^ 27 + 1) 0 /\ argmax [double_pp_rate (2 ^ 27) 0; double_pp_rate (2 ^ 27 + 1) 0] = 0%nat.
Proof. exact C125_ties_lemma. Qed.

(** C126. Full statement: for data of any size every dispersion in double precision is within a few roundings of the exact greedy one.
    False from 2^27 + 1 cells on, here in a single column of ones: the tie makes the code pick the dimension that misses one cell, and
    this dimension gets a dispersion near 1 where the exact one is 1/2 (nothing is left for it to explain). True below 94906264 cells: C125_dispersions. *)
Theorem C126_refuted : exists A B X N, N = Z.to_nat (2 ^ 27 + 1) /\ has_shape2 A N 2 /\ has_shape2 B 1 2 /\ has_shape2 X N 1 /\
  (exists new, greedy_dispersions A B X N 1 2 new) /\ (forall new, greedy_dispersions A B X N 1 2 new -> nth 0 new 0 = 1 / 2) /\
  (forall parm, List.length parm = 3%nat -> 99 / 100 < nth 0 (double_lbda_MAX_AND A B X parm) 0).
Proof. exact C126_lemma. Qed.
(** Up to that bound the error is at most one rounding of 1. *)
Theorem C126_partial : forall A B X parm N D L, has_shape2 A N L -> has_shape2 B D L -> has_shape2 X N D -> (0 < N)%nat -> (Z.of_nat (N * D) + 2 <= 94906265)%Z ->
  List.length parm = S L -> Forall is_double parm ->
  exists new, greedy_dispersions A B X N D L new /\ forall l, (l <= L)%nat -> Rabs (nth l (double_lbda_MAX_AND A B X parm) 0 - nth l new 0) <= roundoff.
Proof. exact C126_close_lemma. Qed.
