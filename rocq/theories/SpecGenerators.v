(** Specification vocabulary for generated data. *)
From Verif Require Import Base BaseR Spec.
Local Open Scope R_scope.

(** Entry of a Boolean tensor. *)
Definition bit (X : list (list (list bool))) (n d m : nat) : bool := nth m (nth d (nth n X []) []) false.
Definition boxed {A : Type} (X : list (list (list A))) (N D M : nat) : Prop :=
  List.length X = N /\ Forall (fun s => List.length s = D /\ Forall (fun r => List.length r = M) s) X.
(** Share of ones among the entries. *)
Definition share {A : Type} (p : A -> bool) (l : list A) : R := INR (List.length (filter p l)) / INR (List.length l).
Definition density_of (X : list (list (list bool))) : R := share (fun b => b) (concat (concat X)).
(** A number computed from the result of a call (nothing is claimed about calls that raise). *)
Definition reading {A : Type} (h : A -> R) (r : res A) : R := match r with Ok a => h a | Err _ => 0 end.
(** The call that is given the numbers rs by the generator. *)
Definition drawn (rs : list R) : nat -> R := fun k => nth k rs 0.
(** Every column has a one that another column lacks, for every other column. *)
Definition no_column_below (m : mat) (L : nat) : Prop :=
  forall i j, (i < L)%nat -> (j < L)%nat -> i <> j -> exists r, In r m /\ nth i r 0%Z = 1%Z /\ nth j r 0%Z <> 1%Z.
(** m is read off the K*L numbers from position [off] on, row by row: 1 for numbers above one half, -1 for the others. *)
Definition coin_flips (rand : nat -> R) (off K L : nat) (m : mat) : Prop :=
  has_shape2 m K L /\ forall n l, (n < K)%nat -> (l < L)%nat ->
    (1 / 2 < rand (off + (n * L + l))%nat -> at2 m n l = 1%Z) /\ (rand (off + (n * L + l))%nat <= 1 / 2 -> at2 m n l = (-1)%Z).
(** Of the matrices read off one after the other from position [off] on, m is number a and the first one without a column
    below another. *)
Definition first_good (rand : nat -> R) (off K L a : nat) (m : mat) : Prop :=
  coin_flips rand (off + a * (K * L)) K L m /\ no_column_below m L /\
  forall a' m', (a' < a)%nat -> coin_flips rand (off + a' * (K * L)) K L m' -> ~ no_column_below m' L.
