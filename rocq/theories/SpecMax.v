(** Independent specification of the MaxMachine (MAX-AND) and of sorting permutations. *)
From Coq Require Import Permutation.
From Verif Require Import Base BaseR Spec SpecR.
Local Open Scope R_scope.

(** [ord] lists the indices of [v] in non-decreasing order of value (ties in any order), which is
    all that numpy's argsort promises. *)
Definition is_argsort (v : list R) (ord : list nat) : Prop :=
  Permutation ord (seq 0 (List.length v)) /\
  forall a b, (a < b < List.length ord)%nat -> nth (nth a ord 0%nat) v 0 <= nth (nth b ord 0%nat) v 0.

(** Latent dimension l is on in both rows. *)
Definition active (z u : vec) (l : nat) : Prop := nth l z 0%Z = 1%Z /\ nth l u 0%Z = 1%Z.

(** Exactly k latent dimensions are on in both rows. *)
Definition number_active (z u : vec) (L k : nat) : Prop :=
  exists ls, NoDup ls /\ (forall l, In l ls <-> (l < L)%nat /\ active z u l) /\ List.length ls = k.
(** [p] is the largest (smallest) dispersion among the active dimensions. *)
Definition max_active (lam : list R) (z u : vec) (L : nat) (p : R) : Prop :=
  (exists l, (l < L)%nat /\ active z u l /\ nth l lam 0 = p) /\
  (forall l, (l < L)%nat -> active z u l -> nth l lam 0 <= p).
Definition min_active (lam : list R) (z u : vec) (L : nat) (p : R) : Prop :=
  (exists l, (l < L)%nat /\ active z u l /\ nth l lam 0 = p) /\
  (forall l, (l < L)%nat -> active z u l -> p <= nth l lam 0).
Definition none_active (z u : vec) (L : nat) : Prop := forall l, (l < L)%nat -> ~ active z u l.

(** MaxMachine output: the largest active dispersion, the clamped one (index L) if none is active. *)
Definition max_output (lam : list R) (z u : vec) (L : nat) (p : R) : Prop :=
  max_active lam z u L p \/ (none_active z u L /\ p = nth L lam 0).

(** Log-likelihood of an observation given the probability of a one; 0 codes a missing value. *)
Definition obs_loglik (x : Z) (p : R) : R :=
  if (x =? 1)%Z then ln p else if (x =? -1)%Z then ln (1 - p) else 0.
(** [v] is the log-likelihood of data row x given the row z of the factor and the sibling U. *)
Definition max_loglik (lam : list R) (z : vec) (U : mat) (x : vec) (D L : nat) (v : R) : Prop :=
  exists p : nat -> R, (forall d, (d < D)%nat -> max_output lam z (row U d) L (p d)) /\
  Rsum (fun d => obs_loglik (nth d x 0%Z) (p d)) (seq 0 D) = v.
(** [s] is the conditional log-odds of z[l] = 1 (flat prior). *)
Definition max_log_odds (lam : list R) (z : vec) (U : mat) (x : vec) (D L l : nat) (s : R) : Prop :=
  exists v1 v0, max_loglik lam (upd z l 1%Z) U x D L v1 /\ max_loglik lam (upd z l (-1)%Z) U x D L v0 /\
  s = v1 - v0.

(** Number of cells with value [v] that satisfy [P] ([b] decides P). *)
Definition count_cells (N D : nat) (b : nat -> nat -> bool) : nat :=
  List.length (filter (fun c => b (fst c) (snd c)) (cells N D)).

(** Dimension l explains cell (n,d). *)
Definition explains (A B : mat) (n d l : nat) : bool := ((at2 A n l =? 1) && (at2 B d l =? 1))%Z%bool.
(** Data points of value v explained by l and by none of [earlier]. *)
Definition explained_after (A B X : mat) (N D : nat) (earlier : list nat) (l : nat) (v : Z) : nat :=
  count_cells N D (fun n d => (at2 X n d =? v)%Z && explains A B n d l && negb (existsb (explains A B n d) earlier)).
(** Data points of value v explained by none of [dims]. *)
Definition unexplained (A B X : mat) (N D : nat) (dims : list nat) (v : Z) : nat :=
  count_cells N D (fun n d => (at2 X n d =? v)%Z && negb (existsb (explains A B n d) dims)).
(** Laplace's rule of succession. *)
Definition laplace (tp fp : nat) : R := (INR tp + 1) / (INR tp + INR fp + 2).
(** Smoothed precision of dimension l on what [earlier] leaves unexplained. *)
Definition precision (A B X : mat) (N D : nat) (earlier : list nat) (l : nat) : R :=
  laplace (explained_after A B X N D earlier l 1) (explained_after A B X N D earlier l (-1)).

(** The first L dispersions are strictly decreasing. *)
Definition dec_sorted (lam : list R) (L : nat) : Prop := forall a b, (a < b < L)%nat -> nth b lam 0 < nth a lam 0.
