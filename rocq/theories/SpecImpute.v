(** Vocabulary for C107: redrawing the entries of a data matrix given the layers that explain it. *)
From Verif Require Import Base BaseR Spec SpecR.
Local Open Scope R_scope.

(** Weight of the value [v] of one entry: its prior times the emission probability under every layer,
    given as pairs of a dispersion and that layer's output for the entry. *)
Definition entry_weight (p : R) (layers : list (R * Z)) (v : Z) : R :=
  (if (v =? 1)%Z then p else 1 - p) * Rprod (fun '(y, o) => sigma (y * IZR v * IZR o)) layers.
(** Every observed entry that is not fixed is redrawn from its conditional; fixed and missing (zero)
    entries stay. *)
Definition redrawn (p : R) (layers : nat -> nat -> list (R * Z)) (fixed : mat) (r : nat -> nat -> R) (N D : nat) (X X' : mat) : Prop :=
  has_shape2 X' N D /\ forall n d, (n < N)%nat -> (d < D)%nat ->
    at2 X' n d = if (at2 fixed n d =? 1)%Z then at2 X n d else if (at2 X n d =? 0)%Z then 0%Z
                 else mg_flip (ln (entry_weight p (layers n d) 1 / entry_weight p (layers n d) (-1))) (at2 X n d) (r n d).
(** No missing entry is left, except fixed ones. *)
Definition imputed (fixed X' : mat) (N D : nat) : Prop :=
  forall n d, (n < N)%nat -> (d < D)%nat -> at2 fixed n d <> 1%Z -> at2 X' n d <> 0%Z.
