(** The dispersion update in double precision: lom/_numba/lambda_updates_numba.py:241-251 and 265-272.
    The formula of Lambda.v once more, with every operation rounded. [lg] is numpy's logarithm, whatever it is, for positive
    arguments; the logarithm of 0 is minus infinity, that of a negative number is NaN. Whole numbers (the counts, and the
    prior (1, 1) of machine.py:183) are exact in Python and in double precision up to 2^53. No overflow. *)
From Coq Require Import String.
From Verif Require Import Base BaseR Outputs Lambda FloatFuzzy Extended.
Local Open Scope R_scope.

(** lambda_updates_numba.py:251, 272: [((ND + alpha + beta) / (float(P) + alpha)) - 1] *)
Definition double_log_argument (ND P : Z) (alpha beta : R) : R :=
  rnd (rnd (rnd (rnd (IZR ND + alpha) + beta) / rnd (IZR P + alpha)) - 1).
(** [np.max([-np.log(...), 0])]; [np.max] hands on NaN. *)
Definition double_lbda (lg : R -> R) (ND P : Z) (alpha beta : R) : xf :=
  let w := double_log_argument ND P alpha beta in
  if Rltb 0 w then Fin (Rmax (- lg w) 0) else if Rleb 0 w then PInf else NaN.
(** lambda_updates_numba.py:262-274 *)
Definition double_lbda_update_2d (lg : R -> R) (model : string) (A B X : mat) (alpha beta : R) : res xf :=
  bind (make_correct_predictions_counter_2d model) (fun counter => Ok (double_lbda lg (no_of_points_2d X) (counter A B X) alpha beta)).
Definition double_lbda_update_3d (lg : R -> R) (model : string) (A B C : mat) (X : ten) (alpha beta : R) : res xf :=
  bind (make_correct_predictions_counter_3d model) (fun counter => Ok (double_lbda lg (no_of_points_3d X) (counter A B C X) alpha beta)).
(** lambda_updates_numba.py:238-256 *)
Definition double_lbda_update_qL (lg : R -> R) (A B X q : mat) (alpha beta : R) : xf :=
  double_lbda lg (no_of_points_2d X) (counter_qL A B X (row q 0)) alpha beta.
