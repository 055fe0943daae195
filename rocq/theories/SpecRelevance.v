(** Specification of the relevance of the dimensions of a MaxMachine: each one of the data is credited, in
    every posterior sample, to the active dimension of largest dispersion. *)
From Verif Require Import Base BaseR Spec SpecR SpecMax.
Local Open Scope R_scope.

(** The ones of the data. *)
Definition ones (x : mat) (N D : nat) : list (nat * nat) := filter (fun c => (at2 x (fst c) (snd c) =? 1)%Z) (cells N D).
(** T posterior samples of dispersions and factors. *)
Definition samples_ok (alphas : list (list R)) (As Bs : list mat) (T N D L : nat) : Prop :=
  List.length alphas = T /\ List.length As = T /\ List.length Bs = T /\
  forall t, (t < T)%nat -> List.length (nth t alphas []) = S L /\ has_shape2 (nth t As []) N L /\ has_shape2 (nth t Bs []) D L.
(** Dimension l is active for (n,d), and no active one has a larger dispersion. *)
Definition strongest (alpha : list R) (A B : mat) (L n d l : nat) : Prop :=
  active (row A n) (row B d) l /\ forall l', (l' < L)%nat -> active (row A n) (row B d) l' -> nth l' alpha 0 <= nth l alpha 0.
(** The mean of [r] over samples and ones. *)
Definition mean_over_ones (x : mat) (T N D : nat) (r : nat -> nat -> nat -> R) : R :=
  Rsum (fun t => Rsum (fun c => r t (fst c) (snd c)) (ones x N D)) (seq 0 T) / (INR T * INR (List.length (ones x N D))).
(** [v] is the expected probability with which a one is emitted by dimension l. *)
Definition is_relevance (alphas : list (list R)) (As Bs : list mat) (x : mat) (T N D L l : nat) (v : R) : Prop :=
  exists r : nat -> nat -> nat -> R,
    (forall t n d, (t < T)%nat -> (n < N)%nat -> (d < D)%nat ->
      (strongest (nth t alphas []) (nth t As []) (nth t Bs []) L n d l -> r t n d = nth l (nth t alphas []) 0) /\
      (~ strongest (nth t alphas []) (nth t As []) (nth t Bs []) L n d l -> r t n d = 0)) /\
    v = mean_over_ones x T N D r.
(** [v] is the expected probability with which a one is emitted by the latent dimensions (not the clamped one). *)
Definition is_latent_total (alphas : list (list R)) (As Bs : list mat) (x : mat) (T N D L : nat) (v : R) : Prop :=
  exists r : nat -> nat -> nat -> R,
    (forall t n d, (t < T)%nat -> (n < N)%nat -> (d < D)%nat ->
      max_active (nth t alphas []) (row (nth t As []) n) (row (nth t Bs []) d) L (r t n d) \/
      (none_active (row (nth t As []) n) (row (nth t Bs []) d) L /\ r t n d = 0)) /\
    v = mean_over_ones x T N D r.
(** [v] is the expected probability of a one, that is, of the output of the MaxMachine at the ones. *)
Definition is_total (alphas : list (list R)) (As Bs : list mat) (x : mat) (T N D L : nat) (v : R) : Prop :=
  exists r : nat -> nat -> nat -> R,
    (forall t n d, (t < T)%nat -> (n < N)%nat -> (d < D)%nat ->
      max_output (nth t alphas []) (row (nth t As []) n) (row (nth t Bs []) d) L (r t n d)) /\
    v = mean_over_ones x T N D r.
(** In no sample do two latent dimensions have the same dispersion. *)
Definition distinct_dispersions (alphas : list (list R)) (T L : nat) : Prop :=
  forall t l l', (t < T)%nat -> (l < L)%nat -> (l' < L)%nat -> nth l (nth t alphas []) 0 = nth l' (nth t alphas []) 0 -> l = l'.
