(** Specification vocabulary for pictures of matrices. *)
From Verif Require Import Base BaseR.
Local Open Scope R_scope.

(** The picture has N x L cells, with the given grey values between 0 and 1. *)
Definition pictures (m : list (list R)) (N L : nat) (p : nat -> nat -> R) : Prop :=
  List.length m = N /\ Forall (fun r => List.length r = L) m /\
  forall n l, (n < N)%nat -> (l < L)%nat -> nth l (nth n m []) 0 = p n l.
