(** Specification vocabulary for the qL-AND model. *)
From Verif Require Import Base BaseR Spec SpecR.
Local Open Scope R_scope.

(** At least q of the L latent dimensions are active in both rows. *)
Definition q_active (q : Z) (z u : vec) (L : nat) : Prop :=
  exists ls, NoDup ls /\ (q <= Z.of_nat (List.length ls))%Z /\ forall l, In l ls -> (l < L)%nat /\ nth l z 0%Z = 1%Z /\ nth l u 0%Z = 1%Z.
(** [x] is its {-1,1} coding. *)
Definition q_output (q : Z) (z u : vec) (L : nat) (x : Z) : Prop :=
  (x = 1%Z /\ q_active q z u L) \/ (x = (-1)%Z /\ ~ q_active q z u L).
Definition is_qout (out : Z -> vec -> vec -> nat -> Z) : Prop := forall q z u L, q_output q z u L (out q z u L).
(** Half the gain in agreement with the data when entry l of row z goes from -1 to 1, feature d of the other
    factor having threshold q d. *)
Definition q_explained (q : nat -> Z) (z : vec) (U : mat) (x : vec) (l D L : nat) (s : Z) : Prop :=
  exists up down : nat -> Z,
    (forall d, (d < D)%nat -> q_output (q d) (upd z l 1%Z) (row U d) L (up d) /\ q_output (q d) (upd z l (-1)%Z) (row U d) L (down d)) /\
    (2 * s = Zsum (fun d => nth d x 0 * (up d - down d)) (seq 0 D))%Z.
(** Likelihood with thresholds q, and posterior weight of both factors with independent Bernoulli priors. *)
Definition q_lik (out : Z -> vec -> vec -> nat -> Z) (q : nat -> Z) (lbda : R) (X : mat) (N D L : nat) (A B : mat) : R :=
  Rprod (fun n => Rprod (fun d => sigma (lbda * IZR (at2 X n d) * IZR (out (q d) (row A n) (row B d) L))) (seq 0 D)) (seq 0 N).
Definition q_post out q lbda X N D L pA pB A B : R := q_lik out q lbda X N D L A B * prior pA N L A * prior pB D L B.

(** Weight of threshold k for feature d: Poisson(gamma) probability times likelihood of the column. *)
Definition q_weight (out : Z -> vec -> vec -> nat -> Z) (lbda gamma : R) (X : mat) (N L d : nat) (A B : mat) (k : nat) : R :=
  exp (- gamma) * gamma ^ k / INR (fact k) *
  Rprod (fun n => sigma (lbda * IZR (at2 X n d) * IZR (out (Z.of_nat k) (row A n) (row B d) L))) (seq 0 N).
(** The draw u selects k among 1..5 with the given weights (inverse distribution function). *)
Definition selects (w : nat -> R) (u : R) (k : nat) : Prop :=
  (1 <= k <= 5)%nat /\ Rsum w (seq 1 (k - 1)) <= u * Rsum w (seq 1 5) < Rsum w (seq 1 k).
