(** Specification vocabulary for the reconstruction of tensors. *)
From Verif Require Import Base BaseR Spec Machine SpecMachine SpecOrdinary.

(** (i,j,k) is a position of the three-axis array a; of a two-axis array with k = 0. *)
Definition inside (a : arr) (i j k : nat) : Prop :=
  match shape_of a with
  | [n; d; m] => i < n /\ j < d /\ k < m
  | [n; d] => i < n /\ j < d /\ k = 0
  | _ => False
  end.
(** All entries are 0 or 1. *)
Definition zero_one (a : arr) : Prop := forall i j k, inside a i j k -> entry a i j k = 0%Z \/ entry a i j k = 1%Z.
(** D is X with every 0 replaced by -1. *)
Definition coded (X D : arr) : Prop :=
  shape_of D = shape_of X /\ data_ok D /\ forall i j k, inside X i j k -> (entry X i j k = 1%Z -> entry D i j k = 1%Z) /\ (entry X i j k = 0%Z -> entry D i j k = (-1)%Z).
(** What is factorised for the data X: X itself, or X recoded if its entries are 0 and 1. *)
Definition factorised (X D : arr) : Prop := (zero_one X /\ coded X D) \/ (~ zero_one X /\ D = X).
