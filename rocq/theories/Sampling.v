(** Model of the standard samplers: lom/_numba/matrix_updates_numba.py:18-71 and 157-381, and the
    argument construction in lom/matrix_update_wrappers.py:140-226.
    Simplifications: floats are exact reals; [np.random.rand()] consumed at cell (n,l) is the oracle
    value [rand n l] (a cell whose flip needs no draw ignores it); prange is the sequential loop here
    (Parallel.v treats all interleavings); in-place mutation of the first argument is returned. *)
From Coq Require Import String.
From Verif Require Import Base BaseR Outputs Scores.
Local Open Scope R_scope.

(** What [flip_metropolised_gibbs_numba] (matrix_updates_numba.py:18-35) does before looking at a random number: return at once, or
    evaluate [math.exp(e)] and compare with a draw. *)
Inductive flip_branch : Type :=
| ReturnNow (v : Z)
| CompareExp (e : R).

(** matrix_updates_numba.py:18-35, the branch structure. *)
Definition flip_metropolised_branch (logit_p : R) (z : Z) : flip_branch :=
  if (z =? 1)%Z && Rleb logit_p 0 then ReturnNow (-1)
  else if (z =? -1)%Z && Rleb 0 logit_p then ReturnNow 1
  else CompareExp (IZR (- z) * logit_p).

(** matrix_updates_numba.py:18-35 *)
Definition flip_metropolised_gibbs_numba (logit_p : R) (z : Z) (rand : R) : Z :=
  match flip_metropolised_branch logit_p z with
  | ReturnNow v => v
  | CompareExp e => if Rltb rand (exp e) then (- z)%Z else z
  end.

(** matrix_updates_numba.py:38-47 *)
Definition flip_gibbs_numba (p : R) (rand : R) : Z := if Rltb rand p then 1%Z else (-1)%Z.

(** matrix_updates_numba.py:50-71 *)
Definition flip_metropolised_gibbs_numba_classic (p : R) (z : Z) (rand : R) : Z :=
  if (z =? 1)%Z then
    if Rleb p (1 / 2) then (- z)%Z
    else if Rltb rand ((1 - p) / p) then (- z)%Z else z
  else
    if Rleb (1 / 2) p then (- z)%Z
    else if Rltb rand (p / (1 - p)) then (- z)%Z else z.

(** [for n in prange(N): for l in range(L): if Z_fixed[n,l] == 1: continue; ...;
    Z[n,l] = flip_metropolised_gibbs_numba(logit, Z[n,l])], the body shared by all samplers below
    (e.g. matrix_updates_numba.py:166-174). [logit] may read the current matrix. *)
Definition sample_cell (logit : mat -> nat -> nat -> R) (Z_fixed : mat) (rand : nat -> nat -> R)
    (Z_ : mat) (n l : nat) : mat :=
  if (at2 Z_fixed n l =? 1)%Z then Z_
  else set2 Z_ n l (flip_metropolised_gibbs_numba (logit Z_ n l) (at2 Z_ n l) (rand n l)).
Definition sample_loop (logit : mat -> nat -> nat -> R) (Z_ Z_fixed : mat) (rand : nat -> nat -> R) : mat :=
  let N := nrows Z_ in
  let L := ncols Z_ in
  fold_left (fun Zn n => fold_left (fun Zl l => sample_cell logit Z_fixed rand Zl n l) (seq 0 L) Zn)
            (seq 0 N) Z_.

(** The logits handed to the flip by the different samplers. *)
(** matrix_updates_numba.py:171-174 *)
Definition logit_onechild_2d score (U X : mat) (lbda logit_prior : R) (Z_ : mat) (n l : nat) : R :=
  lbda * IZR (score (row Z_ n) U (row X n) l) + logit_prior.
(** matrix_updates_numba.py:186-189 *)
Definition logit_onechild_3d score (U V : mat) (X : ten) (lbda logit_prior : R) (Z_ : mat) (n l : nat) : R :=
  lbda * IZR (score (row Z_ n) U V (slab X n) l) + logit_prior.
(** matrix_updates_numba.py:209-215 *)
Definition logit_onechild_oneparent_2d score pscore (U X : mat) (lbda : R) (pa1 pa2 : mat) (lbda_pa : R)
    (logit_prior : R) (Z_ : mat) (n l : nat) : R :=
  lbda * IZR (score (row Z_ n) U (row X n) l) + lbda_pa * IZR (pscore (row pa1 n) (row pa2 l)) + logit_prior.
(** matrix_updates_numba.py:255-259 *)
Definition logit_nochild_oneparent_2d pscore (pa1 pa2 : mat) (lbda_pa : R) (logit_prior : R)
    (Z_ : mat) (n l : nat) : R :=
  lbda_pa * IZR (pscore (row pa1 n) (row pa2 l)) + logit_prior.
(** matrix_updates_numba.py:300-308; one [pscore] for both parents *)
Definition logit_nochild_twoparents_2d pscore (pa1_1 pa1_2 : mat) (lbda_pa1 : R)
    (pa2_1 pa2_2 : mat) (lbda_pa2 : R) (logit_prior : R) (Z_ : mat) (n l : nat) : R :=
  lbda_pa1 * IZR (pscore (row pa1_1 n) (row pa1_2 l)) +
  lbda_pa2 * IZR (pscore (row pa2_1 n) (row pa2_2 l)) + logit_prior.
(** matrix_updates_numba.py:364-376; one [pscore] for both parents *)
Definition logit_onechild_twoparents_2d score pscore (U X : mat) (lbda : R)
    (pa1_1 pa1_2 : mat) (lbda_pa1 : R) (pa2_1 pa2_2 : mat) (lbda_pa2 : R) (logit_prior : R)
    (Z_ : mat) (n l : nat) : R :=
  lbda * IZR (score (row Z_ n) U (row X n) l) +
  lbda_pa1 * IZR (pscore (row pa1_1 n) (row pa1_2 l)) +
  lbda_pa2 * IZR (pscore (row pa2_1 n) (row pa2_2 l)) + logit_prior.

(** matrix_updates_numba.py:157-191, applied to its arguments. *)
Definition sampling_fct_onechild_2d (model : string) (Z_ Z_fixed U X : mat) (lbda logit_prior : R)
    (rand : nat -> nat -> R) : res mat :=
  bind (get_posterior_score_fct_2d model) (fun score =>
  Ok (sample_loop (logit_onechild_2d score U X lbda logit_prior) Z_ Z_fixed rand)).
Definition sampling_fct_onechild_3d (model : string) (Z_ Z_fixed U V : mat) (X : ten) (lbda logit_prior : R)
    (rand : nat -> nat -> R) : res mat :=
  bind (get_posterior_score_fct_3d model) (fun score =>
  Ok (sample_loop (logit_onechild_3d score U V X lbda logit_prior) Z_ Z_fixed rand)).
(** matrix_updates_numba.py:194-235, two-factor branch. The three-factor branch calls the flip with
    one argument (misplaced parenthesis, lines 232-233) and is rejected by the compiler. *)
Definition sampling_fct_onechild_oneparent_2d (model parent_model : string) (Z_ Z_fixed U X : mat) (lbda : R)
    (pa1 pa2 : mat) (lbda_pa logit_prior : R) (rand : nat -> nat -> R) : res mat :=
  bind (get_posterior_score_fct_2d model) (fun score =>
  bind (get_parent_score_fct_2d parent_model) (fun pscore =>
  Ok (sample_loop (logit_onechild_oneparent_2d score pscore U X lbda pa1 pa2 lbda_pa logit_prior)
        Z_ Z_fixed rand))).
(** matrix_updates_numba.py:238-278, two-factor branch. (The three-factor branch declares six
    argument types for seven arguments, and get_relatives_models never asks for it.) *)
Definition sampling_fct_nochild_oneparent_2d (parent_model : string) (Z_ Z_fixed : mat)
    (pa1 pa2 : mat) (lbda_pa logit_prior : R) (rand : nat -> nat -> R) : res mat :=
  bind (get_parent_score_fct_2d parent_model) (fun pscore =>
  Ok (sample_loop (logit_nochild_oneparent_2d pscore pa1 pa2 lbda_pa logit_prior) Z_ Z_fixed rand)).
(** matrix_updates_numba.py:281-339: the function selected for the first parent is overwritten by the
    one for the second (lines 283-284). *)
Definition sampling_fct_nochild_twoparents_2d (parent_model_1 parent_model_2 : string) (Z_ Z_fixed : mat)
    (pa1_1 pa1_2 : mat) (lbda_pa1 : R) (pa2_1 pa2_2 : mat) (lbda_pa2 : R) (logit_prior : R)
    (rand : nat -> nat -> R) : res mat :=
  bind (get_parent_score_fct_2d parent_model_1) (fun _ =>
  bind (get_parent_score_fct_2d parent_model_2) (fun pscore =>
  Ok (sample_loop (logit_nochild_twoparents_2d pscore pa1_1 pa1_2 lbda_pa1 pa2_1 pa2_2 lbda_pa2 logit_prior)
        Z_ Z_fixed rand))).
(** matrix_updates_numba.py:342-381; same overwriting at lines 345-346. *)
Definition sampling_fct_onechild_twoparents_2d (model parent_model_1 parent_model_2 : string)
    (Z_ Z_fixed U X : mat) (lbda : R)
    (pa1_1 pa1_2 : mat) (lbda_pa1 : R) (pa2_1 pa2_2 : mat) (lbda_pa2 : R) (logit_prior : R)
    (rand : nat -> nat -> R) : res mat :=
  bind (get_posterior_score_fct_2d model) (fun score =>
  bind (get_parent_score_fct_2d parent_model_1) (fun _ =>
  bind (get_parent_score_fct_2d parent_model_2) (fun pscore =>
  Ok (sample_loop (logit_onechild_twoparents_2d score pscore U X lbda
                     pa1_1 pa1_2 lbda_pa1 pa2_1 pa2_2 lbda_pa2 logit_prior) Z_ Z_fixed rand)))).

(** scipy.special.logit (matrix_update_wrappers.py:142), for arguments strictly between 0 and 1 (theorems assume this). *)
Definition logit (p : R) : R := ln (p / (1 - p)).

(** numpy's [t.transpose((a, b, c))], matrix_update_wrappers.py:154: axis k of the result is axis (a,b,c)[k] of [t]. *)
Definition dim3 (t : ten) (axis : nat) : nat :=
  match axis with
  | 0 => List.length t
  | 1 => List.length (hd [] t)
  | _ => List.length (hd [] (hd [] t))
  end.
Definition transpose3 (a b c : nat) (t : ten) : ten :=
  map (fun i => map (fun j => map (fun k =>
    let idx ax := if Nat.eqb ax a then i else if Nat.eqb ax b then j else k in
    at3 t (idx 0%nat) (idx 1%nat) (idx 2%nat))
    (seq 0 (dim3 t c))) (seq 0 (dim3 t b))) (seq 0 (dim3 t a)).

(** The factor of a layer updated by LOM_sampler (matrix_update_wrappers.py:145-158):
    [sample(mat(), mat.fixed_entries, *[x() for x in mat.siblings],
    mat.layer.child().transpose([mat.child_axis] + sibling axes), lbda, logit_prior)], siblings sorted by
    child_axis (machine.py:267-269). Two factors A (axis 0) and B (axis 1): *)
Definition LOM_sampler_2d (model : string) (child_axis : nat) (A B fixed X : mat) (lbda bernoulli_prior : R)
    (rand : nat -> nat -> R) : res mat :=
  let tag := model_tag model "2" in
  match child_axis with
  | 0 => sampling_fct_onechild_2d tag A fixed B X lbda (logit bernoulli_prior) rand
  | _ => sampling_fct_onechild_2d tag B fixed A (transpose X) lbda (logit bernoulli_prior) rand
  end.
(** matrix_update_wrappers.py:145-158, three factors A, B, C (axes 0, 1, 2): *)
Definition LOM_sampler_3d (model : string) (child_axis : nat) (A B C fixed : mat) (X : ten)
    (lbda bernoulli_prior : R) (rand : nat -> nat -> R) : res mat :=
  let tag := model_tag model "3" in
  match child_axis with
  | 0 => sampling_fct_onechild_3d tag A fixed B C (transpose3 0 1 2 X) lbda (logit bernoulli_prior) rand
  | 1 => sampling_fct_onechild_3d tag B fixed A C (transpose3 1 0 2 X) lbda (logit bernoulli_prior) rand
  | _ => sampling_fct_onechild_3d tag C fixed A B (transpose3 2 0 1 X) lbda (logit bernoulli_prior) rand
  end.
(** matrix_update_wrappers.py:160-176: one child, one parent. *)
Definition LOM_sampler_1c1p_2d (model pmodel : string) (child_axis : nat) (A B fixed X : mat) (lbda : R)
    (pa1 pa2 : mat) (lbda_pa bernoulli_prior : R) (rand : nat -> nat -> R) : res mat :=
  let tag := model_tag model "2" in
  let ptag := model_tag pmodel "2" in
  match child_axis with
  | 0 => sampling_fct_onechild_oneparent_2d tag ptag A fixed B X lbda pa1 pa2 lbda_pa (logit bernoulli_prior) rand
  | _ => sampling_fct_onechild_oneparent_2d tag ptag B fixed A (transpose X) lbda pa1 pa2 lbda_pa
           (logit bernoulli_prior) rand
  end.
(** matrix_update_wrappers.py:178-190: no child, one parent. *)
Definition LOM_sampler_0c1p_2d (pmodel : string) (Z_ fixed pa1 pa2 : mat) (lbda_pa bernoulli_prior : R)
    (rand : nat -> nat -> R) : res mat :=
  sampling_fct_nochild_oneparent_2d (model_tag pmodel "2") Z_ fixed pa1 pa2 lbda_pa (logit bernoulli_prior) rand.
(** matrix_update_wrappers.py:192-206: no child, two parents. *)
Definition LOM_sampler_0c2p_2d (pmodel1 pmodel2 : string) (Z_ fixed pa1_1 pa1_2 : mat) (lbda_pa1 : R)
    (pa2_1 pa2_2 : mat) (lbda_pa2 bernoulli_prior : R) (rand : nat -> nat -> R) : res mat :=
  sampling_fct_nochild_twoparents_2d (model_tag pmodel1 "2") (model_tag pmodel2 "2") Z_ fixed
    pa1_1 pa1_2 lbda_pa1 pa2_1 pa2_2 lbda_pa2 (logit bernoulli_prior) rand.
(** matrix_update_wrappers.py:208-226: one child, two parents. *)
Definition LOM_sampler_1c2p_2d (model pmodel1 pmodel2 : string) (child_axis : nat) (A B fixed X : mat) (lbda : R)
    (pa1_1 pa1_2 : mat) (lbda_pa1 : R) (pa2_1 pa2_2 : mat) (lbda_pa2 bernoulli_prior : R)
    (rand : nat -> nat -> R) : res mat :=
  let tag := model_tag model "2" in
  let ptag1 := model_tag pmodel1 "2" in
  let ptag2 := model_tag pmodel2 "2" in
  match child_axis with
  | 0 => sampling_fct_onechild_twoparents_2d tag ptag1 ptag2 A fixed B X lbda
           pa1_1 pa1_2 lbda_pa1 pa2_1 pa2_2 lbda_pa2 (logit bernoulli_prior) rand
  | _ => sampling_fct_onechild_twoparents_2d tag ptag1 ptag2 B fixed A (transpose X) lbda
           pa1_1 pa1_2 lbda_pa1 pa2_1 pa2_2 lbda_pa2 (logit bernoulli_prior) rand
  end.
