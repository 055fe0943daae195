(** What the intersection of two labelled tables is. *)
From Coq Require Import Reals.
From Verif Require Import Base Frames.

(** Table f has the entry x at row label r and column label c. *)
Definition holds (f : frame) (r c : Z) (x : R) : Prop :=
  exists i j vs, nth_error (rows f) i = Some (r, vs) /\ nth_error (columns f) j = Some c /\ nth_error vs j = Some x.
(** Every row has one entry per column. *)
Definition full (f : frame) : Prop := forall r, In r (rows f) -> List.length (snd r) = List.length (columns f).
(** Labels in both lists occur in both equally often. *)
Definition balanced (l l' : list Z) : Prop := forall x, In x l -> In x l' -> count_occ Z.eq_dec l x = count_occ Z.eq_dec l' x.
