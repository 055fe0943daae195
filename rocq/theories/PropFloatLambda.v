(** C118: the dispersion update in double precision. *)
From Coq Require Import String.
From Verif Require Import Base BaseR Spec SpecR SpecQL SpecFloat FloatFuzzy Extended SpecFloatRun FloatLambda FloatLambdaProofs.
Local Open Scope R_scope.

(** Two factors: a finite value, non-negative, close to the optimum ([d]: error of the logarithm). *)
Theorem C118_update_2d : forall lg o i, In (o, i) implemented -> forall out, is_output o i out -> forall A B X N D L a b d, okmat N L A -> okmat D L B -> has_shape2 X N D -> 1 <= a -> 0 < b ->
  let P := correct2 out X N D L A B in let ND := observed2 X N D in good_log lg d (2 * (INR ND + a + b)) -> 16 * (INR ND + a + b) * roundoff <= INR ND - INR P + b ->
  exists x, double_lbda_update_2d lg (model_name o i) A B X a b = Ok x /\ near_best P ND a b (d + 8 * roundoff * (INR ND + a + b) / (INR ND - INR P + b)) x.
Proof. exact C118_2_lemma. Qed.
Print Assumptions C118_update_2d.
(** Three factors. *)
Theorem C118_update_3d : forall lg o i, In (o, i) implemented -> forall out, is_output o i out -> forall A B C X N D M L a b d, okmat N L A -> okmat D L B -> okmat M L C -> has_shape3 X N D M -> 1 <= a -> 0 < b ->
  let P := correct3 out X N D M L A B C in let ND := observed3 X N D M in good_log lg d (2 * (INR ND + a + b)) -> 16 * (INR ND + a + b) * roundoff <= INR ND - INR P + b ->
  exists x, double_lbda_update_3d lg (model_name o i) A B C X a b = Ok x /\ near_best P ND a b (d + 8 * roundoff * (INR ND + a + b) / (INR ND - INR P + b)) x.
Proof. exact C118_3_lemma. Qed.
Print Assumptions C118_update_3d.
(** The qL-AND machine. *)
Theorem C118_update_qL : forall lg out A B X q N D L a b d, is_qout out -> has_shape2 A N L -> has_shape2 B D L -> has_shape2 X N D -> (forall d, (d < D)%nat -> 1 <= at2 q 0 d)%Z -> 1 <= a -> 0 < b ->
  let P := List.length (filter (fun '(n, d) => at2 X n d =? out (at2 q 0 d) (row A n) (row B d) L)%Z (cells N D)) in let ND := observed2 X N D in good_log lg d (2 * (INR ND + a + b)) -> 16 * (INR ND + a + b) * roundoff <= INR ND - INR P + b ->
  near_best P ND a b (d + 8 * roundoff * (INR ND + a + b) / (INR ND - INR P + b)) (double_lbda_update_qL lg A B X q a b).
Proof. exact C118_qL_lemma. Qed.
Print Assumptions C118_update_qL.
(** The default prior, any counts below 2^48. *)
Theorem C118_default : forall lg P ND d, (P <= ND)%nat -> (Z.of_nat ND < 2 ^ 48)%Z -> good_log lg d (IZR (2 ^ 50)) ->
  near_best P ND 1 1 (d + 8 * roundoff * (INR ND + 2)) (double_lbda lg (Z.of_nat ND) (Z.of_nat P) 1 1).
Proof. exact C118_default_lemma. Qed.
Print Assumptions C118_default.
(** Any positive prior: never NaN. *)
Theorem C118_never_nan : forall lg P ND a b, (P <= ND)%nat -> is_double a -> 0 < a -> 0 < b -> double_lbda lg (Z.of_nat ND) (Z.of_nat P) a b <> NaN /\ double_lbda lg (Z.of_nat ND) (Z.of_nat P) a b <> NInf.
Proof. exact C118_nan_lemma. Qed.
Print Assumptions C118_never_nan.
(** A weak prior is rounded away: all points predicted, infinite dispersion, though the optimum is finite. *)
Theorem C118_refuted : let b := / IZR (2 ^ 60) in is_double b /\ 0 < b /\ (exists lam, best_dispersion 1 1 1 b lam) /\ forall lg, double_lbda lg 1 1 1 b = PInf.
Proof. exact C118_refuted_lemma. Qed.
Print Assumptions C118_refuted.
(** An instance of the hypotheses. *)
Example C118_example : okmat 1 1 [[1]]%Z /\ has_shape2 [[1]]%Z 1 1 /\ good_log ln 0 (2 * (INR 1 + 1 + 1)) /\ 16 * (INR 1 + 1 + 1) * roundoff <= INR 1 - INR 1 + 1 /\
  double_lbda ln 1 1 1 1 = Fin (ln 2).
Proof. exact C118_example_lemma. Qed.
