(** Real-number helpers: boolean comparisons, finite sums and products. Nothing here models a
    particular function of /repo. Floating point numbers are modelled as exact reals throughout. *)
From Coq Require Export Reals.
From Verif Require Import Base.
Local Open Scope R_scope.

Definition Rleb (a b : R) : bool := if Rle_dec a b then true else false.
Definition Rltb (a b : R) : bool := if Rlt_dec a b then true else false.

Definition Rsum {A : Type} (f : A -> R) (l : list A) : R := fold_right (fun i acc => f i + acc) 0 l.
Definition Rprod {A : Type} (f : A -> R) (l : list A) : R := fold_right (fun i acc => f i * acc) 1 l.
