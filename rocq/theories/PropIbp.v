(** C36 - C38, C68 - C71: the Indian-buffet-process update. *)
From Coq Require Import Lra String Sorted.
From Verif Require Import Base BaseR Spec SpecR Sampling Ibp SpecIbp IbpProofs IbpProofs2 IbpProofs3 IbpProofs4 IbpProofs5 SamplingExamples.
Local Open Scope R_scope.

(** C36. No condition on data, dispersion, prior, concentration or draws. *)
Theorem C36_well_formed : forall N L D Z_ U X lbda q alpha w, 
  okmat N L Z_ -> okmat D L U -> (0 < N)%nat ->
  exists L', let '(Z', U') := sample_2d_IBP Z_ U X lbda q alpha w in
  okmat N L' Z' /\ okmat D L' U' /\ (L' <= L + 2 * N)%nat /\ forall l, (l < L')%nat -> used Z' N l.
Proof. exact C36_lemma. Qed.
Print Assumptions C36_well_formed.
Example C36_example : okmat 2 2 [[1; -1]; [-1; 1]]%Z /\ okmat 3 2 [[1; 1]; [-1; 1]; [1; -1]]%Z /\ used [[1; -1]; [-1; 1]]%Z 2 0 /\ ~ used_elsewhere [[1; -1]; [-1; 1]]%Z 2 0 0.
Proof.
  unfold okmat, has_shape2, bin2, bin1, pm1. split; [|split; [|split]]; try solve [repeat (apply Forall_nil || apply Forall_cons || split); auto].
  - exists 0%nat. split; [lia|reflexivity].
  - intros (n & H1 & H2 & H3). destruct n as [|[|n]]; try lia. discriminate.
Qed.

(** C37. Full statement: for every q. Missing: q <> 1/2 with k >= 1, where it is false (C37_refuted); what the
    factors are for every q is C37_swapped. Any k, not only 0, 1, 2. *)
Theorem C37_marginal_half_partial : forall lbda q k, 
  q = 1 / 2 \/ k = 0%nat -> FN_factor lbda q k = ln (marginal lbda q k 1) /\ TN_factor lbda q k = ln (marginal lbda q k (-1)).
Proof. exact C37_half_lemma. Qed.
Print Assumptions C37_marginal_half_partial.

(** The factors are the marginal log-likelihoods for the complementary feature prior 1 - q. *)
Theorem C37_swapped : forall lbda q k, 
  FN_factor lbda q k = ln (marginal lbda (1 - q) k 1) /\ TN_factor lbda q k = ln (marginal lbda (1 - q) k (-1)).
Proof. exact C37_swapped_lemma. Qed.
Print Assumptions C37_swapped.

(** C37 is false of the code for every prior other than 1/2. *)
Theorem C37_refuted : forall lbda q k, 
  0 < q < 1 -> q <> 1 / 2 -> lbda <> 0 -> (1 <= k)%nat ->
  FN_factor lbda q k <> ln (marginal lbda q k 1) /\ TN_factor lbda q k <> ln (marginal lbda q k (-1)).
Proof. exact C37_refuted_lemma. Qed.
Print Assumptions C37_refuted.
Example C37_example : FN_factor (ln 3) (1 / 4) 1 = ln (marginal (ln 3) (3 / 4) 1 1) /\ marginal (ln 3) (3 / 4) 1 1 = 5 / 8 /\ marginal (ln 3) (1 / 4) 1 1 = 3 / 8.
Proof.
  split; [rewrite (proj1 (C37_swapped (ln 3) (1 / 4) 1)); do 2 f_equal; lra|].
  assert (E : sigma (ln 3) = 3 / 4) by (unfold sigma; rewrite exp_Ropp, exp_ln by lra; field).
  assert (E' : sigma (- ln 3) = 1 / 4) by (unfold sigma; rewrite Ropp_involutive, exp_ln by lra; field).
  rewrite !marginal_closed, !Rmult_1_r, E, E'. split; field.
Qed.

(** C38. Full statement: for every L the weights are those of Poisson(alpha/N) up to a common constant. Missing: L > 0,
    where it is false (C38_refuted); in general the weight is the Poisson probability of L + k (C38_shifted). *)
Theorem C38_no_column_partial : forall alpha N k, 0 < alpha -> (0 < N)%nat -> prior_L_new alpha N 0 k = ln (poisson (alpha / INR N) k).
Proof. exact (fun alpha N k => C38_shifted_lemma alpha N 0 k). Qed.
Print Assumptions C38_no_column_partial.

(** The weight of k new columns is the log probability of L + k. *)
Theorem C38_shifted : forall alpha N L k, 
  0 < alpha -> (0 < N)%nat -> prior_L_new alpha N L k = ln (poisson (alpha / INR N) (L + k)).
Proof. exact C38_shifted_lemma. Qed.
Print Assumptions C38_shifted.

(** C38 is false of the code as soon as one column is kept. *)
Theorem C38_refuted : forall alpha N L, 
  0 < alpha -> (0 < N)%nat -> (0 < L)%nat ->
  ~ exists c, forall k, (k <= 2)%nat -> prior_L_new alpha N L k = ln (poisson (alpha / INR N) k) + c.
Proof. exact C38_refuted_lemma. Qed.
Print Assumptions C38_refuted.
Example C38_example : poisson (4 / INR 2) 3 = exp (- 2) * 8 / 6 /\ 0 < 4 /\ (0 < 2)%nat /\ (0 < 3)%nat.
Proof. unfold poisson. cbn [fact INR pow Nat.mul Nat.add]. replace (4 / (1 + 1)) with 2 by lra. repeat split; try lia; try lra. replace (exp (- (2))) with (exp (-2)) by (f_equal; lra). lra. Qed.

(** C68. The kept entries of the updated row are those of the Gibbs pass with weights (m/N) * likelihood and
    (1 - m/N) * likelihood. *)
Theorem C68_existing_columns : forall out, 
  is_output OR AND out -> forall X N D L n lbda q alpha Z_ U w L' Z' U',
  okmat N L Z_ -> okmat D L U -> has_shape2 X N D -> tern2 X -> (Z.of_nat D <= 32767)%Z -> (n < N)%nat ->
  ibp_row X N D lbda q alpha (L, Z_, U) n w = (L', Z', U') ->
  exists keep, StronglySorted lt keep /\ (forall l, In l keep <-> (l < L)%nat /\ used_elsewhere Z_ N n l) /\ (List.length keep <= L')%nat /\
    forall i, (i < List.length keep)%nat -> at2 Z' n i = at2 (gibbs_row out lbda X N D L U n (dz w) Z_) n (nth i keep 0%nat).
Proof. exact C68_row_lemma. Qed.
Print Assumptions C68_existing_columns.
(** Two rows sharing column 0: m/N = 1/2. *)
Example C68_example : popularity [[1; -1]; [1; 1]]%Z 2 0 0 = 1%nat /\ popularity [[1; -1]; [1; 1]]%Z 2 1 1 = 0%nat /\ used_elsewhere [[1; -1]; [1; 1]]%Z 2 0 0 /\
  okmat 2 2 [[1; -1]; [1; 1]]%Z.
Proof.
  split; [reflexivity|]. split; [reflexivity|]. split; [exists 1%nat; repeat split; lia|].
  unfold okmat, has_shape2, bin2, bin1, pm1. repeat (apply Forall_nil || apply Forall_cons || split); auto.
Qed.

(** C69, what the code does: the columns used elsewhere are kept in order, the number k of new ones is drawn with
    weights Poisson(alpha/N)(#kept + k) times the likelihood of the uncovered data with feature prior 1 - q. *)
Theorem C69_row : forall X N D L n lbda q alpha Z_ U w L' Z' U', 
  okmat N L Z_ -> okmat D L U -> has_shape2 X N D -> tern2 X -> (n < N)%nat -> 0 < q < 1 -> 0 < alpha -> SpecR.is_draw (dk w) ->
  ibp_row X N D lbda q alpha (L, Z_, U) n w = (L', Z', U') ->
  exists keep zs k lw,
    StronglySorted lt keep /\ (forall l, In l keep <-> (l < L)%nat /\ used_elsewhere Z_ N n l) /\
    L' = (List.length keep + k)%nat /\ okmat N L' Z' /\ okmat D L' U' /\
    (forall n', (n' < N)%nat -> n' <> n -> row Z' n' = regroup keep (row Z_ n') (repeat (-1)%Z k)) /\
    List.length zs = List.length keep /\ row Z' n = zs ++ repeat 1%Z k /\
    (forall d, (d < D)%nat -> exists us, List.length us = k /\ row U' d = regroup keep (row U d) us) /\
    new_columns_lik lbda (1 - q) (row X n) D (covered keep zs U) lw /\
    selects3 (fun j => poisson (alpha / INR N) (List.length keep + j) * lw j) (dk w) k.
Proof. exact C69_row_lemma. Qed.
Print Assumptions C69_row.

(** C69. Full statement: for every state, k is drawn with weights Poisson(alpha/N)(k) times the marginal likelihood of
    the data of the row under feature prior q. Missing: states with a kept column, and q <> 1/2; false there (C69_refuted, C37_refuted). *)
Theorem C69_new_columns_partial : forall X N D L n lbda q alpha Z_ U w L' Z' U', 
  okmat N L Z_ -> okmat D L U -> has_shape2 X N D -> tern2 X -> (n < N)%nat -> q = 1 / 2 -> 0 < alpha -> SpecR.is_draw (dk w) ->
  (forall l, (l < L)%nat -> ~ used_elsewhere Z_ N n l) ->
  ibp_row X N D lbda q alpha (L, Z_, U) n w = (L', Z', U') ->
  exists lw, new_columns_lik lbda q (row X n) D (fun _ => False) lw /\ selects3 (fun j => poisson (alpha / INR N) j * lw j) (dk w) L'.
Proof. exact C69_partial_lemma. Qed.
Print Assumptions C69_new_columns_partial.

(** C69 is false of the code: with one shared column, prior 1/2 and no observed data. *)
Theorem C69_refuted : 
  exists X Z_ U w L' Z' U', okmat 2 1 Z_ /\ okmat 1 1 U /\ has_shape2 X 2 1 /\ tern2 X /\ (forall l, used_elsewhere Z_ 2 0 l <-> l = 0%nat) /\ SpecR.is_draw (dk w) /\
  ibp_row X 2 1 1 (1 / 2) 2 (1%nat, Z_, U) 0 w = (L', Z', U') /\
  (forall lw zs, new_columns_lik 1 (1 / 2) (row X 0) 1 (covered [0%nat] zs U) lw -> ~ selects3 (fun j => poisson (2 / INR 2) j * lw j) (dk w) (L' - 1)).
Proof. exact C69_refuted_lemma. Qed.
Print Assumptions C69_refuted.
(** Hypotheses of C69_new_columns_partial: one object, two columns of its own. *)
Example C69_example : okmat 1 2 [[1; 1]]%Z /\ okmat 2 2 [[1; -1]; [1; 1]]%Z /\ (forall l, (l < 2)%nat -> ~ used_elsewhere [[1; 1]]%Z 1 0 l) /\ SpecR.is_draw (1 / 2).
Proof.
  split; [|split; [|split]].
  - unfold okmat, has_shape2, bin2, bin1, pm1. repeat (apply Forall_nil || apply Forall_cons || split); auto.
  - unfold okmat, has_shape2, bin2, bin1, pm1. repeat (apply Forall_nil || apply Forall_cons || split); auto.
  - intros l _ (n' & H1 & H2 & _). lia.
  - unfold SpecR.is_draw. lra.
Qed.

(** C70. Full statement: for every feature prior q. Missing: q <> 1/2, where the prior is ignored (C70_row, C70_refuted). *)
Theorem C70_new_features_partial : forall out, 
  is_output OR AND out -> forall X N D L n lbda q alpha Z_ U w L' Z' U',
  okmat N L Z_ -> okmat D L U -> has_shape2 X N D -> tern2 X -> (Z.of_nat N <= 32767)%Z -> (n < N)%nat -> q = 1 / 2 ->
  ibp_row X N D lbda q alpha (L, Z_, U) n w = (L', Z', U') ->
  exists keep k, StronglySorted lt keep /\ (forall l, In l keep <-> (l < L)%nat /\ used_elsewhere Z_ N n l) /\ L' = (List.length keep + k)%nat /\
    U' = gibbs_cells (fun U'' => lik2 out lbda X N D L' Z' U'' * prior q D L' U'') (du w) (flat_map (fun l => map (fun d => (d, l)) (seq 0 D)) (seq (List.length keep) k))
           (map (fun r => regroup keep r (repeat (-1)%Z k)) U).
Proof. exact C70_partial_lemma. Qed.
Print Assumptions C70_new_features_partial.

(** What the code does for every q: Gibbs draws under the likelihood alone. *)
Theorem C70_row : forall out, 
  is_output OR AND out -> forall X N D L n lbda q alpha Z_ U w L' Z' U',
  okmat N L Z_ -> okmat D L U -> has_shape2 X N D -> tern2 X -> (Z.of_nat N <= 32767)%Z -> (n < N)%nat ->
  ibp_row X N D lbda q alpha (L, Z_, U) n w = (L', Z', U') ->
  exists keep k, StronglySorted lt keep /\ (forall l, In l keep <-> (l < L)%nat /\ used_elsewhere Z_ N n l) /\ L' = (List.length keep + k)%nat /\
    U' = gibbs_cells (fun U'' => lik2 out lbda X N D L' Z' U'') (du w) (flat_map (fun l => map (fun d => (d, l)) (seq 0 D)) (seq (List.length keep) k))
           (map (fun r => regroup keep r (repeat (-1)%Z k)) U).
Proof. exact C70_row_lemma. Qed.
Print Assumptions C70_row.

(** C70 is false of the code: prior 1/10, one unobserved data point, draw 1/4. *)
Theorem C70_refuted : forall out, 
  is_output OR AND out -> exists X Z_ U w,
  okmat 1 0 Z_ /\ okmat 1 0 U /\ has_shape2 X 1 1 /\ tern2 X /\ SpecR.is_draw (dk w) /\
  ibp_row X 1 1 1 (1 / 10) 1 (0%nat, Z_, U) 0 w = (1%nat, [[1%Z]], [[1%Z]]) /\
  gibbs_cells (fun U'' => lik2 out 1 X 1 1 1 [[1%Z]] U'' * prior (1 / 10) 1 1 U'') (du w) [(0%nat, 0%nat)] [[(-1)%Z]] = [[(-1)%Z]].
Proof. exact C70_refuted_lemma. Qed.
Print Assumptions C70_refuted.
Example C70_example : is_output OR AND (the_output OR AND).
Proof. exact (the_output_ok OR AND). Qed.

(** C71 is false of the code: with one object, whatever is declared fixed, a draw of 0 new columns empties both
    factors. [fA], [fB] are the fixed-entry masks, [sf] the sibling's fixed flag. *)
Theorem C71_refuted : forall X lbda q alpha w fA fB sf, 
  dk (w 0%nat) = 0 -> IBP_sampler [[1%Z]] [[1%Z]] fA fB X sf lbda q alpha w = ([[]], [[]]).
Proof. exact C71_refuted_lemma. Qed.
Print Assumptions C71_refuted.
Example C71_example : IBP_sampler [[1%Z]] [[1%Z]] [[1%Z]] [[1%Z]] [[1%Z]] true 1 (1 / 2) None (fun _ => {| dz := fun _ => 0; dk := 0; du := fun _ _ => 0 |}) = ([[]], [[]]).
Proof. apply C71_refuted. reflexivity. Qed.

