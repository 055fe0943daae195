(** Model of the dispersion update: lom/_numba/lambda_updates_numba.py:165-274, and of the link functions
    lom/auxiliary_functions.py:19-55.
    Simplifications: int64 counters unbounded; floats exact reals; the prange reductions are sums. *)
From Coq Require Import String.
From Verif Require Import Base BaseR Outputs.
Local Open Scope R_scope.

(** lambda_updates_numba.py:198-205: the loop of the two-factor counter, for a given output function. *)
Definition counter_2d (f : vec -> vec -> Z) (Z_ U X : mat) : Z :=
  fold_left (fun c n => fold_left (fun c d =>
      if (f (row Z_ n) (row U d) =? at2 X n d)%Z then (c + 1)%Z else c) (seq 0 (ncols X)) c)
    (seq 0 (nrows X)) 0%Z.

(** lambda_updates_numba.py:213-221 *)
Definition counter_3d (f : vec -> vec -> vec -> Z) (Z_ U V : mat) (X : ten) : Z :=
  fold_left (fun c n => fold_left (fun c d => fold_left (fun c m =>
      if (f (row Z_ n) (row U d) (row V m) =? at3 X n d m)%Z then (c + 1)%Z else c)
      (seq 0 (List.length (hd [] (hd [] X)))) c) (seq 0 (List.length (hd [] X))) c)
    (seq 0 (List.length X)) 0%Z.

(** lambda_updates_numba.py:181-188: counter for qL-AND, with the per-feature thresholds q. *)
Definition counter_qL (Z_ U X : mat) (q : vec) : Z :=
  fold_left (fun c n => fold_left (fun c d =>
      if (qL_AND_product (row Z_ n) (row U d) (at1 q d) =? at2 X n d)%Z then (c + 1)%Z else c) (seq 0 (ncols X)) c)
    (seq 0 (nrows X)) 0%Z.

(** lambda_updates_numba.py:171-172: the IBP model is counted as OR-AND. *)
Definition counted_model (model : string) : string :=
  if String.eqb model "OR-AND-IBP" then "OR-AND"%string else model.

(** lambda_updates_numba.py:192-227. An unknown name makes the output function None, which numba refuses
    to compile when the counter is made (TypeError here). *)
Definition make_correct_predictions_counter_2d (model : string) : res (mat -> mat -> mat -> Z) :=
  bind (of_option (get_scalar_output_function_2d (counted_model model)) TypeError) (fun f => Ok (counter_2d f)).
Definition make_correct_predictions_counter_3d (model : string) : res (mat -> mat -> mat -> ten -> Z) :=
  bind (of_option (get_scalar_output_function_3d (counted_model model)) TypeError) (fun f => Ok (counter_3d f)).

(** [np.prod(child().shape) - np.count_nonzero(child() == 0)], lambda_updates_numba.py:250 and 271. *)
Definition no_of_points_2d (X : mat) : Z :=
  (Z.of_nat (nrows X * ncols X) - Z.of_nat (List.length (filter (Z.eqb 0) (concat X))))%Z.
Definition no_of_points_3d (X : ten) : Z :=
  (Z.of_nat (List.length X * List.length (hd [] X) * List.length (hd [] (hd [] X)))
   - Z.of_nat (List.length (filter (Z.eqb 0) (concat (concat X)))))%Z.

(** [np.max([-np.log(((ND + alpha + beta) / (float(P) + alpha)) - 1), 0])], lambda_updates_numba.py:251, 272. *)
Definition lbda_log_argument (ND P : Z) (alpha beta : R) : R := (IZR ND + alpha + beta) / (IZR P + alpha) - 1.
Definition lbda_val (ND P : Z) (alpha beta : R) : R := Rmax (- ln (lbda_log_argument ND P alpha beta)) 0.

(** lambda_updates_numba.py:262-274: the update for the standard models, as the new value of [parm.val]. *)
Definition lbda_update_2d (model : string) (A B X : mat) (alpha beta : R) : res R :=
  bind (make_correct_predictions_counter_2d model) (fun counter =>
  Ok (lbda_val (no_of_points_2d X) (counter A B X) alpha beta)).
Definition lbda_update_3d (model : string) (A B C : mat) (X : ten) (alpha beta : R) : res R :=
  bind (make_correct_predictions_counter_3d model) (fun counter =>
  Ok (lbda_val (no_of_points_3d X) (counter A B C X) alpha beta)).
(** lambda_updates_numba.py:238-256: qL-AND; [q] is the (1 x D) threshold matrix. *)
Definition lbda_update_qL (A B X q : mat) (alpha beta : R) : R :=
  lbda_val (no_of_points_2d X) (counter_qL A B X (row q 0)) alpha beta.

(** auxiliary_functions.py:28 (fallback; scipy's expit is the same real function) *)
Definition expit (x : R) : R := 1 / (1 + exp (- x)).
(** auxiliary_functions.py:40 *)
Definition logit_aux (x : R) : R := ln (x / (1 - x)).
(** auxiliary_functions.py:52-55, for a non-empty list. *)
Definition logsumexp (a : list R) : R :=
  let a_max := fold_right Rmax (hd 0 a) a in
  ln (Rsum (fun x => exp (x - a_max)) a) + a_max.
(** machine.py:440-442: [out * expit(lbda.mean()) + (1 - out) * expit(-lbda.mean())]. *)
Definition noisy_emission (out lbda_mean : R) : R := out * expit lbda_mean + (1 - out) * expit (- lbda_mean).
