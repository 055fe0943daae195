(** Updates of factors in double precision: lom/_numba/matrix_updates_numba.py:18-35 and 157-381 with the arguments of
    lom/matrix_update_wrappers.py:140-226. The functions of Sampling.v once more, with every operation rounded.
    [ex] is the exponential function of the C library ([math.exp], matrix_updates_numba.py:32), whatever it is; [lp] is the value of
    [scipy.special.logit] (matrix_update_wrappers.py:142), computed before the loop. Scores are integers and exact; [-z * logit_p]
    changes the sign and is exact. Simplifications as in Sampling.v and FloatFuzzy.v; no overflow. *)
From Coq Require Import String.
From Verif Require Import Base BaseR Outputs Scores Sampling FloatFuzzy.
Local Open Scope R_scope.

Section Double.
Context (ex : R -> R).
(** matrix_updates_numba.py:18-35 *)
Definition double_flip (logit_p : R) (z : Z) (rand : R) : Z :=
  if (z =? 1)%Z && Rleb logit_p 0 then (-1)%Z
  else if (z =? -1)%Z && Rleb 0 logit_p then 1%Z
  else if Rltb rand (ex (IZR (- z) * logit_p)) then (- z)%Z else z.
(** The loop over the cells (e.g. matrix_updates_numba.py:166-174). *)
Definition double_cell (logit : mat -> nat -> nat -> R) (Z_fixed : mat) (rand : nat -> nat -> R) (Z_ : mat) (n l : nat) : mat :=
  if (at2 Z_fixed n l =? 1)%Z then Z_ else set2 Z_ n l (double_flip (logit Z_ n l) (at2 Z_ n l) (rand n l)).
Definition double_loop (logit : mat -> nat -> nat -> R) (Z_ Z_fixed : mat) (rand : nat -> nat -> R) : mat :=
  fold_left (fun Zn n => fold_left (fun Zl l => double_cell logit Z_fixed rand Zl n l) (seq 0 (ncols Z_)) Zn) (seq 0 (nrows Z_)) Z_.
(** matrix_updates_numba.py:171-174 *)
Definition double_logit_2d (score : vec -> mat -> vec -> nat -> Z) (U X : mat) (lbda lp : R) (Z_ : mat) (n l : nat) : R :=
  rnd (rnd (lbda * IZR (score (row Z_ n) U (row X n) l)) + lp).
(** matrix_updates_numba.py:186-189 *)
Definition double_logit_3d (score : vec -> mat -> mat -> mat -> nat -> Z) (U V : mat) (X : ten) (lbda lp : R) (Z_ : mat) (n l : nat) : R :=
  rnd (rnd (lbda * IZR (score (row Z_ n) U V (slab X n) l)) + lp).
(** matrix_updates_numba.py:209-215 *)
Definition double_logit_1c1p (score : vec -> mat -> vec -> nat -> Z) (pscore : vec -> vec -> Z) (U X : mat) (lbda : R) (pa1 pa2 : mat) (lbda_pa lp : R) (Z_ : mat) (n l : nat) : R :=
  rnd (rnd (rnd (lbda * IZR (score (row Z_ n) U (row X n) l)) + rnd (lbda_pa * IZR (pscore (row pa1 n) (row pa2 l)))) + lp).
(** matrix_updates_numba.py:255-259 *)
Definition double_logit_0c1p (pscore : vec -> vec -> Z) (pa1 pa2 : mat) (lbda_pa lp : R) (Z_ : mat) (n l : nat) : R :=
  rnd (rnd (lbda_pa * IZR (pscore (row pa1 n) (row pa2 l))) + lp).

(** matrix_updates_numba.py:298-306 and 361-372: two parents. *)
Definition double_logit_0c2p (pscore : vec -> vec -> Z) (pa1_1 pa1_2 : mat) (lbda_pa1 : R) (pa2_1 pa2_2 : mat) (lbda_pa2 lp : R) (Z_ : mat) (n l : nat) : R :=
  rnd (rnd (rnd (lbda_pa1 * IZR (pscore (row pa1_1 n) (row pa1_2 l))) + rnd (lbda_pa2 * IZR (pscore (row pa2_1 n) (row pa2_2 l)))) + lp).
Definition double_logit_1c2p (score : vec -> mat -> vec -> nat -> Z) (pscore : vec -> vec -> Z) (U X : mat) (lbda : R) (pa1_1 pa1_2 : mat) (lbda_pa1 : R) (pa2_1 pa2_2 : mat) (lbda_pa2 lp : R) (Z_ : mat) (n l : nat) : R :=
  rnd (rnd (rnd (rnd (lbda * IZR (score (row Z_ n) U (row X n) l)) + rnd (lbda_pa1 * IZR (pscore (row pa1_1 n) (row pa1_2 l)))) + rnd (lbda_pa2 * IZR (pscore (row pa2_1 n) (row pa2_2 l)))) + lp).

(** matrix_update_wrappers.py:145-158, two and three factors; 160-226, with one or two parents. *)
Definition double_sampler_2d (model : string) (child_axis : nat) (A B fixed X : mat) (lbda lp : R) (rand : nat -> nat -> R) : res mat :=
  bind (get_posterior_score_fct_2d (model_tag model "2")) (fun score => Ok
  match child_axis with
  | 0 => double_loop (double_logit_2d score B X lbda lp) A fixed rand
  | _ => double_loop (double_logit_2d score A (transpose X) lbda lp) B fixed rand
  end).
Definition double_sampler_3d (model : string) (child_axis : nat) (A B C fixed : mat) (X : ten) (lbda lp : R) (rand : nat -> nat -> R) : res mat :=
  bind (get_posterior_score_fct_3d (model_tag model "3")) (fun score => Ok
  match child_axis with
  | 0 => double_loop (double_logit_3d score B C (transpose3 0 1 2 X) lbda lp) A fixed rand
  | 1 => double_loop (double_logit_3d score A C (transpose3 1 0 2 X) lbda lp) B fixed rand
  | _ => double_loop (double_logit_3d score A B (transpose3 2 0 1 X) lbda lp) C fixed rand
  end).
Definition double_sampler_0c1p (pmodel : string) (Z_ fixed pa1 pa2 : mat) (lbda_pa lp : R) (rand : nat -> nat -> R) : res mat :=
  bind (get_parent_score_fct_2d (model_tag pmodel "2")) (fun pscore => Ok (double_loop (double_logit_0c1p pscore pa1 pa2 lbda_pa lp) Z_ fixed rand)).
Definition double_sampler_1c1p (model pmodel : string) (child_axis : nat) (A B fixed X : mat) (lbda : R) (pa1 pa2 : mat) (lbda_pa lp : R) (rand : nat -> nat -> R) : res mat :=
  bind (get_posterior_score_fct_2d (model_tag model "2")) (fun score =>
  bind (get_parent_score_fct_2d (model_tag pmodel "2")) (fun pscore => Ok
  match child_axis with
  | 0 => double_loop (double_logit_1c1p score pscore B X lbda pa1 pa2 lbda_pa lp) A fixed rand
  | _ => double_loop (double_logit_1c1p score pscore A (transpose X) lbda pa1 pa2 lbda_pa lp) B fixed rand
  end)).
(** The score function of the second parent is used for both (matrix_updates_numba.py:283-284 and 345-346). *)
Definition double_sampler_0c2p (pmodel1 pmodel2 : string) (Z_ fixed pa1_1 pa1_2 : mat) (lbda_pa1 : R) (pa2_1 pa2_2 : mat) (lbda_pa2 lp : R) (rand : nat -> nat -> R) : res mat :=
  bind (get_parent_score_fct_2d (model_tag pmodel1 "2")) (fun _ =>
  bind (get_parent_score_fct_2d (model_tag pmodel2 "2")) (fun pscore =>
  Ok (double_loop (double_logit_0c2p pscore pa1_1 pa1_2 lbda_pa1 pa2_1 pa2_2 lbda_pa2 lp) Z_ fixed rand))).
Definition double_sampler_1c2p (model pmodel1 pmodel2 : string) (child_axis : nat) (A B fixed X : mat) (lbda : R) (pa1_1 pa1_2 : mat) (lbda_pa1 : R) (pa2_1 pa2_2 : mat) (lbda_pa2 lp : R) (rand : nat -> nat -> R) : res mat :=
  bind (get_posterior_score_fct_2d (model_tag model "2")) (fun score =>
  bind (get_parent_score_fct_2d (model_tag pmodel1 "2")) (fun _ =>
  bind (get_parent_score_fct_2d (model_tag pmodel2 "2")) (fun pscore => Ok
  match child_axis with
  | 0 => double_loop (double_logit_1c2p score pscore B X lbda pa1_1 pa1_2 lbda_pa1 pa2_1 pa2_2 lbda_pa2 lp) A fixed rand
  | _ => double_loop (double_logit_1c2p score pscore A (transpose X) lbda pa1_1 pa1_2 lbda_pa1 pa2_1 pa2_2 lbda_pa2 lp) B fixed rand
  end))).
End Double.
