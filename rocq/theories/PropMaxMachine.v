(** C39, C40, C41: the MAX-AND model. *)
From Coq Require Import Permutation.
From Verif Require Import Base BaseR Spec SpecR SpecMax Outputs Sampling Fuzzy MaxMachine MaxMachineProofs SamplingExamples.
Local Open Scope R_scope.

(** C39 is false: whenever two active dimensions have different dispersions, or none is active, the
    computed output is strictly below the MaxMachine output. *)
Theorem C39_maximum_refuted : forall argsort A B lam N D L,
  (forall v, is_argsort v (argsort v)) -> has_shape2 A N L -> has_shape2 B D L -> List.length lam = S L ->
  (forall l, (l <= L)%nat -> 0 < nth l lam 0) -> forall n d, (n < N)%nat -> (d < D)%nat ->
  (exists l1 l2, (l1 < L)%nat /\ (l2 < L)%nat /\ active (row A n) (row B d) l1 /\ active (row A n) (row B d) l2 /\
     nth l1 lam 0 <> nth l2 lam 0) \/ none_active (row A n) (row B d) L ->
  forall p, max_output lam (row A n) (row B d) L p -> rat2 (MAX_AND_product_2d argsort A B lam) n d < p.
Proof. exact C39_refuted_lemma. Qed.
(** What it computes: the smallest active dispersion, 0 if none is active. *)
Theorem C39_minimum_partial : forall argsort A B lam N D L,
  (forall v, is_argsort v (argsort v)) -> has_shape2 A N L -> has_shape2 B D L -> List.length lam = S L ->
  (forall l, (l < L)%nat -> 0 < nth l lam 0) -> forall n d, (n < N)%nat -> (d < D)%nat ->
  min_active lam (row A n) (row B d) L (rat2 (MAX_AND_product_2d argsort A B lam) n d) \/
  (none_active (row A n) (row B d) L /\ rat2 (MAX_AND_product_2d argsort A B lam) n d = 0).
Proof. exact C39_min_lemma. Qed.
Example C39_example :
  (forall v, is_argsort v (isort v)) /\
  rat2 (MAX_AND_product_2d isort [[1; 1]; [-1; 1]]%Z [[1; 1]; [-1; -1]]%Z [1 / 2; 1 / 4; 1 / 8]) 0 0 = 1 / 4 /\
  rat2 (MAX_AND_product_2d isort [[1; 1]; [-1; 1]]%Z [[1; 1]; [-1; -1]]%Z [1 / 2; 1 / 4; 1 / 8]) 0 1 = 0 /\
  max_output [1 / 2; 1 / 4; 1 / 8] [1; 1]%Z [1; 1]%Z 2 (1 / 2).
Proof. exact C39_example_lemma. Qed.

(** C40. [pi] is the order of assignment. *)
Theorem C40_dispersion_update : forall A B X parm N D L,
  has_shape2 A N L -> has_shape2 B D L -> has_shape2 X N D -> (0 < N)%nat -> List.length parm = S L ->
  exists new pi, lbda_MAX_AND_K 2 A B X parm = Ok new /\ List.length new = S L /\
    Forall (fun p => 0 < p < 1) new /\
    Permutation pi (seq 0 L) /\
    (forall k, (k < L)%nat ->
       nth (nth k pi 0%nat) new 0 = precision A B X N D (firstn k pi) (nth k pi 0%nat) /\
       forall j, (k <= j < L)%nat ->
         precision A B X N D (firstn k pi) (nth j pi 0%nat) <= precision A B X N D (firstn k pi) (nth k pi 0%nat)) /\
    (forall l, (l <= L)%nat -> nth L new 0 <= nth l new 0) /\
    (let rest := laplace (unexplained A B X N D (seq 0 L) 1) (unexplained A B X N D (seq 0 L) (-1)) in
     nth L new 0 <= rest /\ (nth L new 0 = rest \/ exists l, (l < L)%nat /\ nth L new 0 = nth l new 0)).
Proof. exact C40_lemma. Qed.
Theorem C40_ratio_tables : forall L lbda, List.length lbda = S L -> Forall (fun p => 0 < p < 1) lbda ->
  forall i j, (i <= L)%nat -> (j <= L)%nat ->
  let (tp, tm) := compute_lbda_ratios L lbda in
  rat2 tp i j = ln (nth i lbda 0) - ln (nth j lbda 0) /\ rat2 tp i j = - rat2 tp j i /\
  rat2 tm i j = ln (1 - nth i lbda 0) - ln (1 - nth j lbda 0) /\ rat2 tm i j = - rat2 tm j i.
Proof. exact C40_ratios_lemma. Qed.
(** Any other number of factors is rejected. *)
Theorem C40_other_arity : forall K A B X parm, K <> 2%nat -> lbda_MAX_AND_K K A B X parm = Err NotImplementedError.
Proof. intros K A B X parm H. unfold lbda_MAX_AND_K. destruct (Nat.eqb_spec K 2); [contradiction|reflexivity]. Qed.
Example C40_example :
  let A := [[1; -1]; [-1; 1]; [-1; -1]]%Z in let B := [[1; 1]; [1; 1]]%Z in let X := [[1; -1]; [1; 1]; [-1; 0]]%Z in
  has_shape2 A 3 2 /\ has_shape2 B 2 2 /\ has_shape2 X 3 2 /\
  precision A B X 3 2 [] 1 = 3 / 4 /\ precision A B X 3 2 [1%nat] 0 = 1 / 2 /\
  laplace (unexplained A B X 3 2 (seq 0 2) 1) (unexplained A B X 3 2 (seq 0 2) (-1)) = 1 / 3.
Proof. exact C40_example_lemma. Qed.

(** C41. Full statement: for every ordering of the dispersions the log-odds handed to the flip is the
    conditional log-odds. False twice over: the int32 return type truncates it, and for dispersions that
    are not in decreasing order the column tested is not the one whose dispersion is used. *)
Theorem C41_truncation_refuted :
  let lam := [1 / 2; 1 / 3] in
  dec_sorted lam 1 /\ forall argsort, (forall v, is_argsort v (argsort v)) ->
  posterior_score_MAX_AND_2D [1%Z] [[1%Z]] [1%Z] 0 (argsort (map Ropp (butlast lam))) (compute_lbda_ratios 1 lam) = 0%Z /\
  ~ max_log_odds lam [1%Z] [[1%Z]] [1%Z] 1 1 0 0 /\ max_log_odds lam [1%Z] [[1%Z]] [1%Z] 1 1 0 (ln (3 / 2)).
Proof. exact C41_trunc_refuted_lemma. Qed.
Theorem C41_unsorted_refuted :
  let lam := [1 / 4; 1 / 2; 1 / 8] in
  Forall (fun p => 0 < p < 1) lam /\ forall argsort, (forall v, is_argsort v (argsort v)) ->
  score_MAX_AND_float [-1; -1]%Z [[1; -1]]%Z [1%Z] 0 (argsort (map Ropp (butlast lam))) (compute_lbda_ratios 2 lam) = ln 4 /\
  max_log_odds lam [-1; -1]%Z [[1; -1]]%Z [1%Z] 1 2 0 (ln 2) /\
  ~ max_log_odds lam [-1; -1]%Z [[1; -1]]%Z [1%Z] 1 2 0 (ln 4) /\
  posterior_score_MAX_AND_2D [-1; -1]%Z [[1; -1]]%Z [1%Z] 0 (argsort (map Ropp (butlast lam))) (compute_lbda_ratios 2 lam) = 1%Z /\
  trunc (ln 2) = 0%Z.
Proof. exact C41_unsorted_refuted_lemma. Qed.
(** True part: for strictly decreasing dispersions the accumulated score is the exact log-odds, and the
    value used is that score truncated towards zero. *)
Theorem C41_decreasing_partial : forall argsort lam z U x D L l, (forall v, is_argsort v (argsort v)) -> List.length lam = S L ->
  Forall (fun p => 0 < p < 1) lam -> dec_sorted lam L ->
  List.length z = L -> has_shape2 U D L -> (0 < D)%nat -> (l < L)%nat ->
  let used := IZR (posterior_score_MAX_AND_2D z U x l (argsort (map Ropp (butlast lam))) (compute_lbda_ratios L lam)) in
  exists s, max_log_odds lam z U x D L l s /\ Rabs (used - s) < 1 /\ (0 <= s -> 0 <= used <= s) /\ (s <= 0 -> s <= used <= 0).
Proof. exact C41_trunc_lemma. Qed.
Theorem C41_accumulated_score_partial : forall argsort lam z U x D L l, (forall v, is_argsort v (argsort v)) -> List.length lam = S L ->
  Forall (fun p => 0 < p < 1) lam -> dec_sorted lam L ->
  List.length z = L -> has_shape2 U D L -> (0 < D)%nat -> (l < L)%nat ->
  max_log_odds lam z U x D L l
    (score_MAX_AND_float z U x l (argsort (map Ropp (butlast lam))) (compute_lbda_ratios L lam)).
Proof. exact C41_sorted_lemma. Qed.
Example C41_example :
  Forall (fun p => 0 < p < 1) [1 / 2; 1 / 4; 1 / 8] /\ dec_sorted [1 / 2; 1 / 4; 1 / 8] 2 /\
  max_log_odds [1 / 2; 1 / 4; 1 / 8] [-1; 1]%Z [[1; 1]; [1; -1]; [-1; 1]]%Z [1; -1; 1]%Z 3 2 0 (ln 2 + ln (4 / 7)).
Proof. exact C41_example_lemma. Qed.

(** C15 for the MAX-AND sampler: shape, {-1,1} entries and fixed entries are kept. *)
Theorem C15_max_and : forall argsort N L Z_ fixed child_axis B X lam ratios r, okmat N L Z_ ->
  kept fixed Z_ (MAX_AND_2D argsort child_axis Z_ fixed B X lam ratios r) N L.
Proof. intros. apply loop_kept. assumption. Qed.

Print Assumptions C39_maximum_refuted.
Print Assumptions C39_minimum_partial.
Print Assumptions C40_dispersion_update.
Print Assumptions C40_ratio_tables.
Print Assumptions C40_other_arity.
Print Assumptions C41_truncation_refuted.
Print Assumptions C41_unsorted_refuted.
Print Assumptions C41_decreasing_partial.
Print Assumptions C41_accumulated_score_partial.
Print Assumptions C15_max_and.
