(** Integration over uniform draws, and the finite state space of a factor (specification side of
    C13, C14). *)
From Coquelicot Require Import RInt Hierarchy.
From Verif Require Import Base BaseR SpecR.
Local Open Scope R_scope.

(** [is_E k f v]: the expectation of [f] over k independent uniform draws exists and is [v] (an iterated
    Riemann integral over [0,1]). *)
Fixpoint is_E (k : nat) (f : list R -> R) (v : R) : Prop :=
  match k with
  | O => f [] = v
  | S k' => exists g, (forall r, 0 < r < 1 -> is_E k' (fun rs => f (r :: rs)) (g r)) /\ is_RInt g 0 1 v
  end.

(** All {-1,1} vectors of length L and all {-1,1} matrices of shape N x L. *)
Fixpoint all_vecs (L : nat) : list vec :=
  match L with
  | O => [[]]
  | S L' => flat_map (fun v => [1%Z :: v; (-1)%Z :: v]) (all_vecs L')
  end.
Fixpoint all_mats (N L : nat) : list mat :=
  match N with
  | O => [[]]
  | S N' => flat_map (fun m => map (fun v => v :: m) (all_vecs L)) (all_mats N' L)
  end.

(** The k-th of a list of draws is the one for cell (k / L, k mod L). *)
Definition draws_of (L : nat) (rs : list R) (n l : nat) : R := nth (n * L + l) rs 0.

(** [A] agrees with [A0] on every fixed cell. *)
Definition agrees (fixed A0 : mat) (N L : nat) (A : mat) : bool :=
  forallb (fun '(n, l) => negb (at2 fixed n l =? 1)%Z || (at2 A n l =? at2 A0 n l)%Z) (cells N L).

(** Expectation functional applied to a sampler's result (an error contributes 0). *)
Definition on_ok (h : mat -> R) (x : res mat) : R := match x with Ok m => h m | Err _ => 0 end.


(** The update [S], run with independent uniform draws, preserves the distribution with weights [w] on
    [states]: whatever is averaged ([h]), its average after one update is its average before. *)
Definition invariant (S : mat -> (nat -> nat -> R) -> res mat) (w : mat -> R) (states : list mat) (N L : nat) : Prop :=
  forall h : mat -> R, exists E : mat -> R,
    (forall m, In m states -> is_E (N * L) (fun rs => on_ok h (S m (draws_of L rs))) (E m)) /\
    Rsum (fun m => w m * E m) states = Rsum (fun m => w m * h m) states.
