(** Sequences of random updates of a machine with the draws of a computer (specification side of C119). *)
From Verif Require Import Base BaseR SpecR SpecFloat Invariance Machine Dispatch SpecMachine SpecOrdinary SpecPass SpecFloatRun.
Local Open Scope R_scope.

(** The mean of [h] after the updates of the matrices [order], one after the other, by [step] (an error counts 0). *)
Fixpoint updates_mean (step : world -> nat -> (nat -> nat -> R) -> res world) (order : list nat) (h : world -> R) (w : world) : R :=
  match order with
  | [] => h w
  | i :: order' => mean_of (draws_needed w i) (fun rs =>
      match step w i (draws_of (ncols (matrix_of w i)) rs) with Ok w' => updates_mean step order' h w' | Err _ => 0 end)
  end.
(** The sum of the dispersions of the layers that have matrix i as their child. *)
Definition pull (w : world) (i : nat) : R := Rsum (fun k => match disp w k with LS x => Rabs x | _ => 0 end) (parents (get_mat w i)).
(** How much one update of matrix i may change a probability; [lp]: log-odds of its prior as computed, [d]: their error. *)
Definition update_error (w : world) (lp d : R) (i : nat) : R :=
  INR (draws_needed w i) * ((16 + 5 * (pull w i + Rabs lp)) * roundoff + d).
(** The mean of [f] of the machines after each of the given passes (an error counts 0). *)
Fixpoint passes_mean (step : world -> nat -> (nat -> nat -> R) -> res world) (passes : list (list nat)) (f : list world -> R) (w : world) : R :=
  match passes with
  | [] => f []
  | p :: passes' => updates_mean step p (fun w' => passes_mean step passes' (fun l => f (w' :: l)) w') w
  end.
