(** The standard samplers over IEEE values with infinities and NaN: the same code as Sampling.v
    (lom/_numba/matrix_updates_numba.py:18-35 and 157-381, lom/matrix_update_wrappers.py:140-226), for
    priors and dispersions Sampling.v leaves out: [bernoulli_prior] is any number (it is a public
    attribute, machine.py:217, checked nowhere) and dispersions may be infinite.
    Simplifications: finite floats are exact reals (no overflow, no rounding, no signed zero); the
    others as in Sampling.v. *)
From Coq Require Import String.
From Verif Require Import Base BaseR Outputs Scores Sampling.
Local Open Scope R_scope.

(** A float64: finite, infinite or not a number. *)
Inductive xf : Type := Fin (x : R) | PInf | NInf | NaN.

(** IEEE addition, as in [logit_score + logit_prior] (matrix_updates_numba.py:174). *)
Definition xadd (a b : xf) : xf :=
  match a, b with
  | NaN, _ | _, NaN => NaN
  | PInf, NInf | NInf, PInf => NaN
  | PInf, _ | _, PInf => PInf
  | NInf, _ | _, NInf => NInf
  | Fin x, Fin y => Fin (x + y)
  end.
(** IEEE product of a float and an integer, as in [lbda * posterior_score_fct(...)] (matrix_updates_numba.py:171-172)
    and [-z * logit_p] (line 32): infinity times zero is not a number. *)
Definition xscale (a : xf) (k : Z) : xf :=
  match a with
  | Fin x => Fin (x * IZR k)
  | PInf => if (0 <? k)%Z then PInf else if (k <? 0)%Z then NInf else NaN
  | NInf => if (0 <? k)%Z then NInf else if (k <? 0)%Z then PInf else NaN
  | NaN => NaN
  end.
(** [a <= 0], [a >= 0] (matrix_updates_numba.py:24, 27); false of NaN. *)
Definition xle0 (a : xf) : bool := match a with Fin x => Rleb x 0 | NInf => true | PInf | NaN => false end.
Definition xge0 (a : xf) : bool := match a with Fin x => Rleb 0 x | PInf => true | NInf | NaN => false end.
(** [math.exp(e) > r] (matrix_updates_numba.py:32) *)
Definition xexp_gt (e : xf) (r : R) : bool :=
  match e with Fin x => Rltb r (exp x) | PInf => true | NInf => Rltb r 0 | NaN => false end.
(** scipy.special.logit (matrix_update_wrappers.py:142) of any real: minus and plus infinity at 0 and 1,
    NaN outside the unit interval. *)
Definition xlogit (p : R) : xf :=
  if Rltb p 0 then NaN else if Rltb 1 p then NaN
  else if Rleb p 0 then NInf else if Rleb 1 p then PInf else Fin (ln (p / (1 - p))).

(** matrix_updates_numba.py:18-35 *)
Definition flip_x (logit_p : xf) (z : Z) (rand : R) : Z :=
  if (z =? 1)%Z && xle0 logit_p then (-1)%Z
  else if (z =? -1)%Z && xge0 logit_p then 1%Z
  else if xexp_gt (xscale logit_p (- z)) rand then (- z)%Z else z.

(** The loop over the cells (matrix_updates_numba.py:166-174). *)
Definition sample_cell_x (logit : mat -> nat -> nat -> xf) (Z_fixed : mat) (rand : nat -> nat -> R)
    (Z_ : mat) (n l : nat) : mat :=
  if (at2 Z_fixed n l =? 1)%Z then Z_
  else set2 Z_ n l (flip_x (logit Z_ n l) (at2 Z_ n l) (rand n l)).
Definition sample_loop_x (logit : mat -> nat -> nat -> xf) (Z_ Z_fixed : mat) (rand : nat -> nat -> R) : mat :=
  let N := nrows Z_ in
  let L := ncols Z_ in
  fold_left (fun Zn n => fold_left (fun Zl l => sample_cell_x logit Z_fixed rand Zl n l) (seq 0 L) Zn)
            (seq 0 N) Z_.

(** The arguments of one call of a sampler, dispersions in [T]; the six wrappers of
    matrix_update_wrappers.py:145-226 and the attributes they read. *)
Inductive call (T : Type) : Type :=
| OneChild2 (model : string) (child_axis : nat) (A B X : mat) (lbda : T)
| OneChild3 (model : string) (child_axis : nat) (A B C : mat) (X : ten) (lbda : T)
| OneChildOneParent (model pmodel : string) (child_axis : nat) (A B X : mat) (lbda : T) (pa1 pa2 : mat) (lbda_pa : T)
| NoChildOneParent (pmodel : string) (Z_ pa1 pa2 : mat) (lbda_pa : T)
| NoChildTwoParents (pmodel1 pmodel2 : string) (Z_ pa1_1 pa1_2 : mat) (lbda_pa1 : T) (pa2_1 pa2_2 : mat) (lbda_pa2 : T)
| OneChildTwoParents (model pmodel1 pmodel2 : string) (child_axis : nat) (A B X : mat) (lbda : T)
    (pa1_1 pa1_2 : mat) (lbda_pa1 : T) (pa2_1 pa2_2 : mat) (lbda_pa2 : T).
Arguments OneChild2 {T}. Arguments OneChild3 {T}. Arguments OneChildOneParent {T}.
Arguments NoChildOneParent {T}. Arguments NoChildTwoParents {T}. Arguments OneChildTwoParents {T}.

(** A call with finite dispersions, handed to the samplers of Sampling.v (matrix_update_wrappers.py:145-226). *)
Definition run_call (c : call R) (fixed : mat) (p : R) (rand : nat -> nat -> R) : res mat :=
  match c with
  | OneChild2 model ax A B X lbda => LOM_sampler_2d model ax A B fixed X lbda p rand
  | OneChild3 model ax A B C X lbda => LOM_sampler_3d model ax A B C fixed X lbda p rand
  | OneChildOneParent model pm ax A B X lbda a1 a2 la => LOM_sampler_1c1p_2d model pm ax A B fixed X lbda a1 a2 la p rand
  | NoChildOneParent pm Z_ a1 a2 la => LOM_sampler_0c1p_2d pm Z_ fixed a1 a2 la p rand
  | NoChildTwoParents pm1 pm2 Z_ a1 a2 la b1 b2 lb => LOM_sampler_0c2p_2d pm1 pm2 Z_ fixed a1 a2 la b1 b2 lb p rand
  | OneChildTwoParents model pm1 pm2 ax A B X lbda a1 a2 la b1 b2 lb =>
      LOM_sampler_1c2p_2d model pm1 pm2 ax A B fixed X lbda a1 a2 la b1 b2 lb p rand
  end.

(** The factor that is updated, its first sibling and the data with its axis first
    (matrix_update_wrappers.py:147-156). *)
Definition own2 (ax : nat) (A B : mat) : mat := match ax with 0 => A | _ => B end.
Definition other2 (ax : nat) (A B : mat) : mat := match ax with 0 => B | _ => A end.
Definition data2 (ax : nat) (X : mat) : mat := match ax with 0 => X | _ => transpose X end.
(** The three-factor case (matrix_update_wrappers.py:147-156): factor, siblings in the order of their axes, data. *)
Definition own3 (ax : nat) (A B C : mat) : mat := match ax with 0 => A | 1 => B | _ => C end.
Definition first3 (ax : nat) (A B C : mat) : mat := match ax with 0 => B | _ => A end.
Definition second3 (ax : nat) (A B C : mat) : mat := match ax with 0 | 1 => C | _ => B end.
Definition data3 (ax : nat) (X : ten) : ten :=
  match ax with 0 => transpose3 0 1 2 X | 1 => transpose3 1 0 2 X | _ => transpose3 2 0 1 X end.

(** The same calls over extended floats; the logits are those of matrix_updates_numba.py:171-174, 186-189,
    209-215, 255-259, 300-308 and 364-376, added from left to right. *)
Definition run_call_x (c : call xf) (fixed : mat) (p : R) (rand : nat -> nat -> R) : res mat :=
  let prior := xlogit p in
  match c with
  | OneChild2 model ax A B X lbda =>
      bind (get_posterior_score_fct_2d (model_tag model "2")) (fun score =>
      Ok (sample_loop_x (fun Z_ n l => xadd (xscale lbda (score (row Z_ n) (other2 ax A B) (row (data2 ax X) n) l)) prior)
            (own2 ax A B) fixed rand))
  | OneChild3 model ax A B C X lbda =>
      bind (get_posterior_score_fct_3d (model_tag model "3")) (fun score =>
      Ok (sample_loop_x (fun Z_ n l => xadd (xscale lbda (score (row Z_ n) (first3 ax A B C) (second3 ax A B C)
                                                            (slab (data3 ax X) n) l)) prior)
            (own3 ax A B C) fixed rand))
  | OneChildOneParent model pm ax A B X lbda a1 a2 la =>
      bind (get_posterior_score_fct_2d (model_tag model "2")) (fun score =>
      bind (get_parent_score_fct_2d (model_tag pm "2")) (fun pscore =>
      Ok (sample_loop_x (fun Z_ n l =>
            xadd (xadd (xscale lbda (score (row Z_ n) (other2 ax A B) (row (data2 ax X) n) l))
                       (xscale la (pscore (row a1 n) (row a2 l)))) prior)
            (own2 ax A B) fixed rand)))
  | NoChildOneParent pm Z_ a1 a2 la =>
      bind (get_parent_score_fct_2d (model_tag pm "2")) (fun pscore =>
      Ok (sample_loop_x (fun _ n l => xadd (xscale la (pscore (row a1 n) (row a2 l))) prior) Z_ fixed rand))
  | NoChildTwoParents pm1 pm2 Z_ a1 a2 la b1 b2 lb =>
      bind (get_parent_score_fct_2d (model_tag pm1 "2")) (fun _ =>
      bind (get_parent_score_fct_2d (model_tag pm2 "2")) (fun pscore =>
      Ok (sample_loop_x (fun _ n l =>
            xadd (xadd (xscale la (pscore (row a1 n) (row a2 l))) (xscale lb (pscore (row b1 n) (row b2 l)))) prior)
            Z_ fixed rand)))
  | OneChildTwoParents model pm1 pm2 ax A B X lbda a1 a2 la b1 b2 lb =>
      bind (get_posterior_score_fct_2d (model_tag model "2")) (fun score =>
      bind (get_parent_score_fct_2d (model_tag pm1 "2")) (fun _ =>
      bind (get_parent_score_fct_2d (model_tag pm2 "2")) (fun pscore =>
      Ok (sample_loop_x (fun Z_ n l =>
            xadd (xadd (xadd (xscale lbda (score (row Z_ n) (other2 ax A B) (row (data2 ax X) n) l))
                             (xscale la (pscore (row a1 n) (row a2 l))))
                       (xscale lb (pscore (row b1 n) (row b2 l)))) prior)
            (own2 ax A B) fixed rand))))
  end.
