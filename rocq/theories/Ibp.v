(** Model of the Indian-buffet-process update: lom/_numba/matrix_updates_numba.py:384-485 and its closure in
    lom/matrix_update_wrappers.py:98-120.
    Simplifications: floats are exact reals; draws come from oracles indexed by the row n (and the cell);
    np.random.choice with probabilities is the inverse distribution function at a uniform draw; the number
    of columns [L] is carried explicitly (the code reads it off Z.shape once and then maintains it).
    OR_AND_single_n declares a two-dimensional return type for a one-dimensional array (lom_outputs.py:70);
    it is modelled by what its body computes, as under numba's object-mode fallback. *)
From Coq Require Import String.
From Verif Require Import Base BaseR Outputs Scores Sampling Lambda.
Local Open Scope R_scope.

(** matrix_updates_numba.py:405-408 *)
Definition FN_factor (lbda q : R) (L_temp : nat) : R := ln (expit lbda * (1 - 2 * q ^ L_temp) + q ^ L_temp).
Definition TN_factor (lbda q : R) (L_temp : nat) : R := ln (expit (- lbda) * (1 - 2 * q ^ L_temp) + q ^ L_temp).

(** The columns of a matrix listed in [keep] (boolean column indexing, matrix_updates_numba.py:439-440). *)
Definition take_cols (keep : list nat) (m : mat) : mat := map (fun r => map (at1 r) keep) m.
(** matrix_updates_numba.py:413: how many other rows use column l. *)
Definition used_by_others (Z_ : mat) (N n l : nat) : nat :=
  List.length (filter (fun n' => negb (Nat.eqb n' n) && (at2 Z_ n' l =? 1)%Z) (seq 0 N)).

(** matrix_updates_numba.py:416-436: Gibbs update of the existing columns of row n. *)
Definition ibp_existing (Z_ U X : mat) (N n : nat) (lbda : R) (m : nat -> nat) (rz : nat -> R) (L : nat) : mat :=
  fold_left (fun Zl l =>
    if Nat.ltb 0 (m l) then
      set2 Zl n l (flip_gibbs_numba (expit (lbda * IZR (posterior_score_OR_AND_2D (row Zl n) U (row X n) l)
                                            + logit (INR (m l) / INR N))) (rz l))
    else Zl) (seq 0 L) Z_.

(** matrix_updates_numba.py:451-452 *)
Definition tn_count (z : vec) (U : mat) (x : vec) (D : nat) : nat :=
  List.length (filter (fun d => (at1 x d =? -1)%Z && (at1 (OR_AND_single_n z U) d =? -1)%Z) (seq 0 D)).
Definition fn_count (z : vec) (U : mat) (x : vec) (D : nat) : nat :=
  List.length (filter (fun d => (at1 x d =? 1)%Z && (at1 (OR_AND_single_n z U) d =? -1)%Z) (seq 0 D)).
(** matrix_updates_numba.py:457-459; scipy's gammaln(k+1) = ln k!. *)
Definition prior_L_new (alpha : R) (N L L_temp : nat) : R :=
  INR (L_temp + L) * ln (alpha / INR N) - alpha / INR N - ln (INR (fact (L + L_temp))).
(** matrix_updates_numba.py:454-461 *)
Definition log_L_new (lbda q alpha : R) (N L TN FN L_temp : nat) : R :=
  INR TN * TN_factor lbda q L_temp + INR FN * FN_factor lbda q L_temp + prior_L_new alpha N L L_temp.
(** matrix_updates_numba.py:463-465 *)
Definition p_L_new (lg : nat -> R) (k : nat) : R :=
  let mx := Rmax (Rmax (lg 0%nat) (lg 1%nat)) (lg 2%nat) in
  exp (lg k - mx) / (exp (lg 0%nat - mx) + exp (lg 1%nat - mx) + exp (lg 2%nat - mx)).
(** matrix_updates_numba.py:467 *)
Definition choose_L_new (p : nat -> R) (u : R) : nat :=
  if Rltb u (p 0%nat) then 0 else if Rltb u (p 0%nat + p 1%nat) then 1 else 2.

(** matrix_updates_numba.py:477-481: feature bits of the new columns. *)
Definition ibp_new_features (Z_ U X : mat) (lbda : R) (D L L_new : nat) (ru : nat -> nat -> R) : mat :=
  fold_left (fun Ul l => fold_left (fun Ud d =>
    set2 Ud d l (flip_gibbs_numba (expit (lbda * IZR (posterior_score_OR_AND_2D (row Ud d) Z_ (map (fun r => at1 r d) X) l))) (ru l d)))
    (seq 0 D) Ul) (seq L L_new) U.

(** Random numbers of one row: existing columns, number of new columns, features of new columns. *)
Record draws := { dz : nat -> R; dk : R; du : nat -> nat -> R }.

(** matrix_updates_numba.py:410-483, one row. *)
Definition ibp_row (X : mat) (N D : nat) (lbda q alpha : R) (s : nat * mat * mat) (n : nat) (w : draws) : nat * mat * mat :=
  let '(L, Z_, U) := s in
  let m := used_by_others Z_ N n in
  let Z1 := ibp_existing Z_ U X N n lbda m (dz w) L in
  let keep := filter (fun l => Nat.ltb 0 (m l)) (seq 0 L) in
  let Z2 := take_cols keep Z1 in
  let U2 := take_cols keep U in
  let L2 := List.length keep in
  let TN := tn_count (row Z2 n) U2 (row X n) D in
  let FN := fn_count (row Z2 n) U2 (row X n) D in
  let L_new := choose_L_new (p_L_new (log_L_new lbda q alpha N L2 TN FN)) (dk w) in
  if Nat.ltb 0 L_new then
    let Z3 := map (fun r => r ++ repeat (-1)%Z L_new) Z2 in
    let Z4 := upd Z3 n (row Z2 n ++ repeat 1%Z L_new) in
    let U3 := map (fun r => r ++ repeat (-1)%Z L_new) U2 in
    ((L2 + L_new)%nat, Z4, ibp_new_features Z4 U3 X lbda D L2 L_new (du w))
  else (L2, Z2, U2).
(** matrix_updates_numba.py:384-485 *)
Definition sample_2d_IBP (Z_ U X : mat) (lbda q alpha : R) (w : nat -> draws) : mat * mat :=
  let N := nrows Z_ in
  let D := nrows U in
  let '(_, Z', U') := fold_left (fun s n => ibp_row X N D lbda q alpha s n (w n)) (seq 0 N) (ncols Z_, Z_, U) in
  (Z', U').

(** matrix_update_wrappers.py:100-120: update of the factor with child axis 0. [alpha] may be unset; the
    sibling's prior is read; [mat.val] and the sibling's [val] are both replaced. Neither matrix's
    fixed_entries nor [fixed] flag is read; they are arguments so that theorems can say so. *)
Definition IBP_sampler (A B fixedA fixedB X : mat) (sibling_fixed : bool) (lbda sibling_prior : R) (alpha : option R) (w : nat -> draws) : mat * mat :=
  sample_2d_IBP A B X lbda sibling_prior (match alpha with Some a => a | None => 3 end) w.
