(** Vocabulary for C105: what an update does when the prior or the dispersion is degenerate. *)
From Coq Require Import String.
From Verif Require Import Base BaseR Spec Extended.
Local Open Scope R_scope.

(** A call over reals as a call over extended floats. *)
Definition fin_call (c : call R) : call xf :=
  match c with
  | OneChild2 model ax A B X lbda => OneChild2 model ax A B X (Fin lbda)
  | OneChild3 model ax A B C X lbda => OneChild3 model ax A B C X (Fin lbda)
  | OneChildOneParent model pm ax A B X lbda a1 a2 la => OneChildOneParent model pm ax A B X (Fin lbda) a1 a2 (Fin la)
  | NoChildOneParent pm Z_ a1 a2 la => NoChildOneParent pm Z_ a1 a2 (Fin la)
  | NoChildTwoParents pm1 pm2 Z_ a1 a2 la b1 b2 lb => NoChildTwoParents pm1 pm2 Z_ a1 a2 (Fin la) b1 b2 (Fin lb)
  | OneChildTwoParents model pm1 pm2 ax A B X lbda a1 a2 la b1 b2 lb =>
      OneChildTwoParents model pm1 pm2 ax A B X (Fin lbda) a1 a2 (Fin la) b1 b2 (Fin lb)
  end.

(** The matrix a call updates. *)
Definition target {T} (c : call T) : mat :=
  match c with
  | OneChild2 _ ax A B _ _ | OneChildOneParent _ _ ax A B _ _ _ _ _
  | OneChildTwoParents _ _ _ ax A B _ _ _ _ _ _ _ _ => if Nat.eqb ax 0 then A else B
  | OneChild3 _ ax A B C _ _ => if Nat.eqb ax 0 then A else if Nat.eqb ax 1 then B else C
  | NoChildOneParent _ Z_ _ _ _ | NoChildTwoParents _ _ Z_ _ _ _ _ _ _ => Z_
  end.

(** The models named in a call are implemented. *)
Definition named (m : string) : Prop := exists o i, In (o, i) implemented /\ m = model_name o i.
Definition known {T} (c : call T) : Prop :=
  match c with
  | OneChild2 m _ _ _ _ _ | OneChild3 m _ _ _ _ _ _ | NoChildOneParent m _ _ _ _ => named m
  | OneChildOneParent m pm _ _ _ _ _ _ _ _ => named m /\ named pm
  | NoChildTwoParents pm1 pm2 _ _ _ _ _ _ _ => named pm1 /\ named pm2
  | OneChildTwoParents m pm1 pm2 _ _ _ _ _ _ _ _ _ _ _ => named m /\ named pm1 /\ named pm2
  end.

(** [Z'] has the shape of [Z_], the fixed entries of [Z_], and [v] everywhere else. *)
Definition pinned (v : Z) (fixed Z_ Z' : mat) (N L : nat) : Prop :=
  has_shape2 Z' N L /\
  forall n l, (n < N)%nat -> (l < L)%nat -> at2 Z' n l = if (at2 fixed n l =? 1)%Z then at2 Z_ n l else v.

(** One pass over the entries, in order, setting each free entry to the sign of [gain] (a relation,
    read at the current matrix) and keeping it where the gain is zero. *)
Inductive greedy (gain : mat -> nat -> nat -> Z -> Prop) (fixed : mat) : list (nat * nat) -> mat -> mat -> Prop :=
| greedy_nil Z_ : greedy gain fixed [] Z_ Z_
| greedy_fixed n l cs Z_ Z' : at2 fixed n l = 1%Z -> greedy gain fixed cs Z_ Z' ->
    greedy gain fixed ((n, l) :: cs) Z_ Z'
| greedy_up n l cs Z_ Z' s : at2 fixed n l <> 1%Z -> gain Z_ n l s -> (0 < s)%Z ->
    greedy gain fixed cs (set2 Z_ n l 1) Z' -> greedy gain fixed ((n, l) :: cs) Z_ Z'
| greedy_down n l cs Z_ Z' s : at2 fixed n l <> 1%Z -> gain Z_ n l s -> (s < 0)%Z ->
    greedy gain fixed cs (set2 Z_ n l (-1)) Z' -> greedy gain fixed ((n, l) :: cs) Z_ Z'
| greedy_tie n l cs Z_ Z' : at2 fixed n l <> 1%Z -> gain Z_ n l 0%Z ->
    greedy gain fixed cs Z_ Z' -> greedy gain fixed ((n, l) :: cs) Z_ Z'.

(** All entries, row by row. *)
Definition row_by_row (N L : nat) : list (nat * nat) := list_prod (seq 0 N) (seq 0 L).

(** Agreement of a layer with its data: matches minus mismatches over the observed points. *)
Definition agreement2 (out : list vec -> nat -> Z) (X : mat) (N D L : nat) (A B : mat) : Z :=
  Zsum (fun n => Zsum (fun d => at2 X n d * out [row A n; row B d] L)%Z (seq 0 D)) (seq 0 N).
Definition agreement3 (out : list vec -> nat -> Z) (X : ten) (N D M L : nat) (A B C : mat) : Z :=
  Zsum (fun n => Zsum (fun d => Zsum (fun m => at3 X n d m * out [row A n; row B d; row C m] L)%Z
    (seq 0 M)) (seq 0 D)) (seq 0 N).
(** Half of what [agr] gains when entry (n,l) goes from -1 to 1. *)
Definition gains (agr : mat -> Z) (Z_ : mat) (n l : nat) (s : Z) : Prop :=
  (2 * s = agr (set2 Z_ n l 1) - agr (set2 Z_ n l (-1)))%Z.
