(** Updates of qL-AND factors in double precision: lom/_numba/matrix_updates_numba.py:627-659 with the flip of lines 18-35, called from
    lom/matrix_update_wrappers.py:74-94. The functions of QL.v once more; [ex] as in FloatSampling.v. The log-odds are integers of type
    int16 converted to float, which is exact. *)
From Verif Require Import Base BaseR Sampling QL FloatFuzzy FloatSampling.
Local Open Scope R_scope.

Section Double.
Context (ex : R -> R).
(** matrix_updates_numba.py:627-641; lbda is an argument but not used. *)
Definition double_qL_factors_Z (Z_ U X q : mat) (lbda : R) (rand : nat -> nat -> R) : mat :=
  let L := ncols Z_ in
  fold_left (fun Zn n => fold_left (fun Zl l =>
    set2 Zl n l (double_flip ex (IZR (posterior_score_fct_qL_Z (row Zl n) U (row X n) l q)) (at2 Zl n l) (rand n l)))
    (seq 0 L) Zn) (seq 0 (nrows Z_)) Z_.
(** matrix_updates_numba.py:644-659 *)
Definition double_qL_factors_U (U Z_ X q : mat) (lbda : R) (rand : nat -> nat -> R) : mat :=
  let L := ncols U in
  fold_left (fun Un d => fold_left (fun Ul l =>
    set2 Ul d l (double_flip ex (IZR (posterior_score_fct_qL_U (row Ul d) Z_ (row X d) l (at2 q 0 d))) (at2 Ul d l) (rand d l)))
    (seq 0 L) Un) (seq 0 (nrows U)) U.
(** matrix_update_wrappers.py:74-94 *)
Definition double_qL_sampler (child_axis : nat) (A B fixed X q : mat) (lbda bernoulli_prior : R) (rand : nat -> nat -> R) : mat :=
  match child_axis with
  | 0%nat => double_qL_factors_Z A B X q lbda rand
  | _ => double_qL_factors_U B A (transpose X) q lbda rand
  end.
End Double.
