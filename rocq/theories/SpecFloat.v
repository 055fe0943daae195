(** Double precision numbers (IEEE 754 binary64, values in the range of normal and subnormal numbers; no overflow, as all
    quantities in question are far below 2^1024). *)
From Verif Require Import Base BaseR.
From Flocq Require Import Core.
Local Open Scope R_scope.

(** [x] is an integer below 2^53 in size times a power of two that is at least 2^-1074. *)
Definition is_double (x : R) : Prop := exists m e : Z, (Z.abs m < 2 ^ 53)%Z /\ (-1074 <= e)%Z /\ x = IZR m * powerRZ 2 e.
(** Unit roundoff. *)
Definition roundoff : R := / IZR (2 ^ 53).
(** How many of the samples are 1, and how often that is. *)
Definition hits (xs : list Z) : nat := List.length (filter (Z.eqb 1) xs).
Definition share (xs : list Z) : R := INR (hits xs) / INR (List.length xs).
(** Samples of an entry of a factor. *)
Definition samples (xs : list Z) : Prop := Forall (fun x => x = 1 \/ x = -1)%Z xs.
