(** Model of the qL-AND samplers: lom/_numba/matrix_updates_numba.py:507-659 and the closures built in
    lom/matrix_update_wrappers.py:61-94.
    Simplifications: floats are exact reals; draws come from an oracle; the score accumulators are
    unbounded, the int16 return type is the explicit [wrap16]; thresholds are a 1 x D matrix. *)
From Verif Require Import Base BaseR Outputs Sampling Helpers.
Local Open Scope Z_scope.
Local Open Scope bool_scope.

(** matrix_updates_numba.py:579-590: count active sources, [break] at the threshold. *)
Fixpoint qL_count (c : nat -> bool) (ls : list nat) (q counter : Z) : Z :=
  match ls with
  | [] => counter
  | l :: ls' => let k := if c l then counter + 1 else counter in if k =? q then k else qL_count c ls' q k
  end.
(** matrix_updates_numba.py:566-597; [q] is the whole threshold matrix. *)
Definition posterior_score_fct_qL_Z (Z_n : vec) (U : mat) (X_n : vec) (l : nat) (q : mat) : Z :=
  let L := ncols U in
  wrap16 (fold_left (fun score d =>
    if negb (at2 U d l =? 1) then score
    else let counter := qL_count (fun l' => (at1 Z_n l' =? 1) && (at2 U d l' =? 1) && negb (Nat.eqb l' l)) (seq 0 L) (at2 q 0 d) 0 in
         if counter =? at2 q 0 d - 1 then score + at1 X_n d else score) (seq 0 (nrows U)) 0).
(** matrix_updates_numba.py:600-624 *)
Definition posterior_score_fct_qL_U (U_d : vec) (Z_ : mat) (X_d : vec) (l : nat) (q_d : Z) : Z :=
  let L := ncols Z_ in
  wrap16 (fold_left (fun score n =>
    if negb (at2 Z_ n l =? 1) then score
    else let counter := qL_count (fun l' => (at1 U_d l' =? 1) && (at2 Z_ n l' =? 1) && negb (Nat.eqb l' l)) (seq 0 L) q_d 0 in
         if counter =? q_d - 1 then score + at1 X_d n else score) (seq 0 (nrows Z_)) 0).

(** matrix_updates_numba.py:627-641; lbda is an argument but not used. *)
Definition sample_qL_factors_Z (Z_ U X q : mat) (lbda : R) (rand : nat -> nat -> R) : mat :=
  let L := ncols Z_ in
  fold_left (fun Zn n => fold_left (fun Zl l =>
    set2 Zl n l (flip_metropolised_gibbs_numba (IZR (posterior_score_fct_qL_Z (row Zl n) U (row X n) l q)) (at2 Zl n l) (rand n l)))
    (seq 0 L) Zn) (seq 0 (nrows Z_)) Z_.
(** matrix_updates_numba.py:644-659 *)
Definition sample_qL_factors_U (U Z_ X q : mat) (lbda : R) (rand : nat -> nat -> R) : mat :=
  let L := ncols U in
  fold_left (fun Un d => fold_left (fun Ul l =>
    set2 Ul d l (flip_metropolised_gibbs_numba (IZR (posterior_score_fct_qL_U (row Ul d) Z_ (row X d) l (at2 q 0 d))) (at2 Ul d l) (rand d l)))
    (seq 0 L) Un) (seq 0 (nrows U)) U.
(** matrix_update_wrappers.py:74-94: the update of the factor with the given child axis. The closures read
    neither fixed_entries nor bernoulli_prior; both are arguments here so that the theorems can say so. *)
Definition qL_sampler (child_axis : nat) (A B fixed X q : mat) (lbda bernoulli_prior : R) (rand : nat -> nat -> R) : mat :=
  match child_axis with
  | 0%nat => sample_qL_factors_Z A B X q lbda rand
  | _ => sample_qL_factors_U B A (transpose X) q lbda rand
  end.

(** matrix_updates_numba.py:549: number of rows n with np.dot((Z+1)/2, (U[d,:]+1)/2)[n] >= q_new+1. *)
Definition true_predictions (Z_ U : mat) (d k : nat) : nat :=
  List.length (filter (fun n => Rleb (INR k) (Rsum (fun l => (IZR (at2 Z_ n l) + 1) / 2 * ((IZR (at2 U d l) + 1) / 2))%R (seq 0 (ncols Z_)))) (seq 0 (nrows Z_))).
(** matrix_updates_numba.py:545-551; math.lgamma(k+1) = ln k!. *)
Definition qL_logconditional (Z_ U : mat) (N : nat) (lbda gamma : R) (d q_new : nat) : R :=
  (INR (q_new + 1) * ln gamma - gamma - ln (INR (fact (q_new + 1)))
   + INR (true_predictions Z_ U d (q_new + 1)) * ln (1 + exp lbda)
   + (INR N - INR (true_predictions Z_ U d (q_new + 1))) * ln (1 + exp (- lbda)))%R.
Definition max_list (x : R) (l : list R) : R := fold_left Rmax l x.
(** matrix_updates_numba.py:530-562, one feature: the state is the list of the columns of [logconditional]
    and the row of thresholds. np.max is taken over the whole array. *)
Definition qL_feature (Z_ U : mat) (N : nat) (lbda gamma : R) (rand : nat -> R) (s : list (list R) * vec) (d : nat) : list (list R) * vec :=
  let '(cols, q) := s in
  let col := map (qL_logconditional Z_ U N lbda gamma d) (seq 0 5) in
  let cols := upd cols d col in
  let log_p_max := max_list (hd 0%R (concat cols)) (concat cols) in
  let col := map (fun x => exp (x - log_p_max)) col in
  let total := Rsum (fun x => x) col in
  let col := map (fun x => x / total)%R col in
  (upd cols d col, upd q d (random_choice col (rand d))).
(** matrix_updates_numba.py:530-562, with the shape of X (all that is read of it) and q_max = 6. *)
Definition sample_qL_q (Z_ U X q : mat) (lbda gamma : R) (rand : nat -> R) : mat :=
  let N := nrows X in
  let D := ncols X in
  let '(_, q0) := fold_left (qL_feature Z_ U N lbda gamma rand) (seq 0 D) (repeat (repeat 0%R 5) D, row q 0) in
  upd q 0 q0.
