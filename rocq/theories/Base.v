(** Arrays as lists, indexing, updating, shapes, machine-integer wrap, exceptions.
    Everything here is generic; nothing models a particular function of /repo. *)
From Coq Require Export List Arith ZArith Lia Bool.
From Coq Require Import String.
Export ListNotations.
Local Open Scope Z_scope.

(** numpy integer arrays of 1, 2 and 3 dimensions (C order, nested). *)
Definition vec := list Z.
Definition mat := list vec.
Definition ten := list mat.

(** Reads.  [v[i]], [m[i, :]], [m[i, j]], [t[i, :, :]], [t[i, j, k]].
    Out-of-range reads give a default; theorems carry shape hypotheses that exclude them. *)
Definition at1 (v : vec) (i : nat) : Z := nth i v 0.
Definition row (m : mat) (i : nat) : vec := nth i m [].
Definition at2 (m : mat) (i j : nat) : Z := at1 (row m i) j.
Definition slab (t : ten) (i : nat) : mat := nth i t [].
Definition at3 (t : ten) (i j k : nat) : Z := at2 (slab t i) j k.

(** Writes.  An out-of-range write leaves the list unchanged. *)
Fixpoint upd {A : Type} (l : list A) (i : nat) (x : A) : list A :=
  match l, i with
  | [], _ => []
  | _ :: r, O => x :: r
  | a :: r, S i' => a :: upd r i' x
  end.
Definition set2 (m : mat) (i j : nat) (x : Z) : mat := upd m i (upd (row m i) j x).
Definition set3 (t : ten) (i j k : nat) (x : Z) : ten := upd t i (set2 (slab t i) j k x).

(** Shapes.  The number of columns is read off the first row. *)
Definition nrows {A : Type} (m : list (list A)) : nat := List.length m.
Definition ncols {A : Type} (m : list (list A)) : nat := List.length (hd [] m).

Definition has_shape2 (m : mat) (n l : nat) : Prop :=
  List.length m = n /\ Forall (fun r => List.length r = l) m.
Definition has_shape3 (t : ten) (n d m : nat) : Prop :=
  List.length t = n /\ Forall (fun s => has_shape2 s d m) t.

(** Every row has L entries. *)
Definition has_cols (m : mat) (L : nat) : Prop := Forall (fun r : vec => List.length r = L) m.

(** Entries in {-1, 1} and in {-1, 0, 1}. *)
Definition pm1 (x : Z) : Prop := x = 1 \/ x = -1.
Definition bin1 (v : vec) : Prop := Forall pm1 v.
Definition bin2 (m : mat) : Prop := Forall bin1 m.
Definition bin3 (t : ten) : Prop := Forall bin2 t.
Definition tern (x : Z) : Prop := x = 1 \/ x = -1 \/ x = 0.
Definition tern1 (v : vec) : Prop := Forall tern v.
Definition tern2 (m : mat) : Prop := Forall tern1 m.
Definition tern3 (t : ten) : Prop := Forall tern2 t.

(** numpy's [m.transpose((1, 0))]. *)
Definition transpose (m : mat) : mat :=
  map (fun j => map (fun i => at2 m i j) (seq 0 (nrows m))) (seq 0 (ncols m)).

(** Two's-complement truncation to 8, 16 and 32 bits. *)
Definition wrap (bits : Z) (x : Z) : Z :=
  (x + 2 ^ (bits - 1)) mod 2 ^ bits - 2 ^ (bits - 1).
Definition wrap8 (x : Z) : Z := wrap 8 x.
Definition wrap16 (x : Z) : Z := wrap 16 x.
Definition wrap32 (x : Z) : Z := wrap 32 x.

(** Sum and count over an index list. *)
Definition Zsum (f : nat -> Z) (ls : list nat) : Z :=
  fold_right (fun i acc => f i + acc) 0 ls.
Definition cnt (c : nat -> bool) (ls : list nat) : nat :=
  List.length (filter c ls).

(** Python exceptions as values. *)
Inductive exc : Type :=
| NotImplementedError | ValueError | IndexError | AttributeError
| AssertionError | UnboundLocalError | ZeroDivisionError | TypeError | NameError.
Inductive res (A : Type) : Type :=
| Ok (a : A)
| Err (e : exc).
Arguments Ok {A} _.
Arguments Err {A} _.
Definition bind {A B : Type} (r : res A) (f : A -> res B) : res B :=
  match r with Ok a => f a | Err e => Err e end.
Definition of_option {A : Type} (o : option A) (e : exc) : res A :=
  match o with Some a => Ok a | None => Err e end.
