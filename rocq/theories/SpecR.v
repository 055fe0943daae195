(** Independent specification of the probabilistic model: the posterior of a layer, exact
    conditional log-odds, and the reference Metropolised-Gibbs sweep. *)
From Verif Require Import Base BaseR Spec.
Local Open Scope R_scope.

(** Logistic function. *)
Definition sigma (x : R) : R := / (1 + exp (- x)).

(** [out] is the {-1,1}-valued output of the machine OUTER-INNER. *)
Definition is_output (o i : lop) (out : list vec -> nat -> Z) : Prop :=
  forall rows L, lom_output o i rows L (out rows L).

(** Likelihood of data X under a two-factor layer: every data point agrees with the machine's
    output with probability sigma(lambda); a missing point (0) contributes the constant 1/2. *)
Definition lik2 (out : list vec -> nat -> Z) (lbda : R) (X : mat) (N D L : nat) (A B : mat) : R :=
  Rprod (fun n => Rprod (fun d =>
    sigma (lbda * IZR (at2 X n d) * IZR (out [row A n; row B d] L))) (seq 0 D)) (seq 0 N).

(** The same for three factors. *)
Definition lik3 (out : list vec -> nat -> Z) (lbda : R) (X : ten) (N D M L : nat) (A B C : mat) : R :=
  Rprod (fun n => Rprod (fun d => Rprod (fun m =>
    sigma (lbda * IZR (at3 X n d m) * IZR (out [row A n; row B d; row C m] L)))
    (seq 0 M)) (seq 0 D)) (seq 0 N).

(** Independent Bernoulli(p) prior on the entries of a factor being 1. *)
Definition prior (p : R) (N L : nat) (A : mat) : R :=
  Rprod (fun n => Rprod (fun l => if (at2 A n l =? 1)%Z then p else 1 - p) (seq 0 L)) (seq 0 N).

(** Joint posterior (unnormalised) of the factors of a layer. *)
Definition post2 out lbda X N D L pA pB (A B : mat) : R :=
  lik2 out lbda X N D L A B * prior pA N L A * prior pB D L B.
Definition post3 out lbda X N D M L pA pB pC (A B C : mat) : R :=
  lik3 out lbda X N D M L A B C * prior pA N L A * prior pB D L B * prior pC M L C.

(** log P(entry (n,l) = 1 | rest) - log P(entry (n,l) = -1 | rest) under the weight [w]. *)
Definition log_odds (w : mat -> R) (Z_ : mat) (n l : nat) : R :=
  ln (w (set2 Z_ n l 1)) - ln (w (set2 Z_ n l (-1))).

(** Metropolised Gibbs: propose -z, accept with probability min(1, P(-z)/P(z)). *)
Definition mg_flip (lo : R) (z : Z) (r : R) : Z :=
  if Rltb r (Rmin 1 (exp (- IZR z * lo))) then (- z)%Z else z.

(** The cells of an N x L matrix, row by row. *)
Definition cells (N L : nat) : list (nat * nat) := list_prod (seq 0 N) (seq 0 L).

(** Reference sweep: resample every non-fixed cell in turn from its exact conditional. *)
Definition ref_sweep (w : mat -> R) (fixed : mat) (r : nat -> nat -> R) (N L : nat) (Z_ : mat) : mat :=
  fold_left (fun Zc '(n, l) =>
    if (at2 fixed n l =? 1)%Z then Zc
    else set2 Zc n l (mg_flip (log_odds w Zc n l) (at2 Zc n l) (r n l))) (cells N L) Z_.

(** Uniform draws. *)
Definition is_draw (r : R) : Prop := 0 <= r < 1.

(** A well-formed factor: shape N x L, entries in {-1,1}. *)
Definition okmat (N L : nat) (Z_ : mat) : Prop := has_shape2 Z_ N L /\ bin2 Z_.

(** Every cell's draw is a uniform draw. *)
Definition draws_ok (r : nat -> nat -> R) (N L : nat) : Prop :=
  forall n l, (n < N)%nat -> (l < L)%nat -> is_draw (r n l).

(** A matrix generated by a parent layer (two factors pa1, pa2). *)
Definition parent_lik (out : list vec -> nat -> Z) (lbda : R) (pa1 pa2 : mat) (N L K : nat) (Z_ : mat) : R :=
  Rprod (fun n => Rprod (fun l =>
    sigma (lbda * IZR (at2 Z_ n l) * IZR (out [row pa1 n; row pa2 l] K))) (seq 0 L)) (seq 0 N).

(** [Z'] is a well-formed factor that has the entries of [Z_] wherever [fixed] is 1. *)
Definition kept (fixed Z_ Z' : mat) (N L : nat) : Prop :=
  okmat N L Z' /\ forall n l, at2 fixed n l = 1%Z -> at2 Z' n l = at2 Z_ n l.

(** Number of data points equal to the machine's output, and number of observed (non-zero) points. *)
Definition correct2 (out : list vec -> nat -> Z) (X : mat) (N D L : nat) (A B : mat) : nat :=
  List.length (filter (fun '(n, d) => at2 X n d =? out [row A n; row B d] L)%Z (cells N D)).
Definition observed2 (X : mat) (N D : nat) : nat :=
  List.length (filter (fun '(n, d) => negb (at2 X n d =? 0)%Z) (cells N D)).
Definition cells3 (N D M : nat) : list (nat * (nat * nat)) := list_prod (seq 0 N) (cells D M).
Definition correct3 (out : list vec -> nat -> Z) (X : ten) (N D M L : nat) (A B C : mat) : nat :=
  List.length (filter (fun '(n, (d, m)) => at3 X n d m =? out [row A n; row B d; row C m] L)%Z (cells3 N D M)).
Definition observed3 (X : ten) (N D M : nat) : nat :=
  List.length (filter (fun '(n, (d, m)) => negb (at3 X n d m =? 0)%Z) (cells3 N D M)).

(** [lam] is the dispersion estimate for P correct predictions of ND points under a Beta(alpha, beta) prior:
    non-negative, with sigma(lam) = max(1/2, (P+alpha)/(ND+alpha+beta)), and maximising the regularised
    log-likelihood over the non-negative reals. *)
Definition objective (P ND : nat) (alpha beta x : R) : R :=
  (INR P + alpha) * ln (sigma x) + (INR ND - INR P + beta) * ln (sigma (- x)).
Definition best_dispersion (P ND : nat) (alpha beta lam : R) : Prop :=
  0 <= lam /\
  sigma lam = Rmax (1 / 2) ((INR P + alpha) / (INR ND + alpha + beta)) /\
  forall x, 0 <= x -> objective P ND alpha beta x <= objective P ND alpha beta lam.
