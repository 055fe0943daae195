(** Random draws of a computer: multiples of 2^-53 in [0,1), all equally likely (specification side of C116 and C118). *)
From Verif Require Import Base BaseR SpecR SpecFloat Invariance Extended.
Local Open Scope R_scope.

(** The mean of [f] over all lists of [k] multiples of 1/M in [0,1). *)
Fixpoint grid_mean (M k : nat) (f : list R -> R) : R :=
  match k with
  | O => f []
  | S k' => Rsum (fun j => grid_mean M k' (fun rs => f (INR j / INR M :: rs))) (seq 0 M) / INR M
  end.
Definition draw_grid : nat := Z.to_nat (2 ^ 53).
Definition mean_of (k : nat) (f : list R -> R) : R := grid_mean draw_grid k f.
(** An exponential function for non-positive arguments that is off by at most two roundings of 1. *)
Definition good_exp (ex : R -> R) : Prop := forall x, x <= 0 -> Rabs (ex x - exp x) <= 2 * roundoff.

(** Event probabilities after the update [S'] with random draws of a computer are within [b] of those after the update [S] with real
    random draws ([h]: any event, or any quantity between 0 and 1). *)
Definition close_update (S S' : (nat -> nat -> R) -> res mat) (N L : nat) (b : R) : Prop :=
  forall h : mat -> R, (forall m, 0 <= h m <= 1) ->
  exists v, is_E (N * L) (fun rs => on_ok h (S (draws_of L rs))) v /\ Rabs (mean_of (N * L) (fun rs => on_ok h (S' (draws_of L rs))) - v) <= b.
(** The update moves no event probability of the distribution with weights [w] by more than [b]. *)
Definition nearly_invariant (S' : mat -> (nat -> nat -> R) -> res mat) (w : mat -> R) (states : list mat) (N L : nat) (b : R) : Prop :=
  forall h : mat -> R, (forall m, 0 <= h m <= 1) ->
  Rabs (Rsum (fun m => w m * mean_of (N * L) (fun rs => on_ok h (S' m (draws_of L rs)))) states - Rsum (fun m => w m * h m) states) <= b * Rsum w states.
(** The mean of [h] after [T] rounds, each an update [SA] of the first factor and then an update [SB] of the second one. *)
Fixpoint rounds_mean (SA SB : mat -> mat -> (nat -> nat -> R) -> res mat) (N D L T : nat) (h : mat -> mat -> R) (A B : mat) : R :=
  match T with
  | O => h A B
  | S T' => mean_of (N * L) (fun rs => on_ok (fun A' =>
              mean_of (D * L) (fun rs' => on_ok (fun B' => rounds_mean SA SB N D L T' h A' B') (SB A' B (draws_of L rs'))))
              (SA A B (draws_of L rs)))
  end.

(** A logarithm that is off by at most [d] on arguments between 2^-53 and [M] (C118). *)
Definition good_log (lg : R -> R) (d M : R) : Prop := forall x, roundoff <= x <= M -> Rabs (lg x - ln x) <= d.
(** [x] is a finite, non-negative dispersion within [b] of every best one. *)
Definition near_best (P ND : nat) (alpha beta b : R) (x : xf) : Prop :=
  exists v, x = Fin v /\ 0 <= v /\ forall lam, best_dispersion P ND alpha beta lam -> Rabs (v - lam) <= b.
