(** C82 and further parts of C17, C23, C39 and C42: outputs of MAX-AND and qL-AND layers. *)
From Coq Require Import String.
From Verif Require Import Base BaseR Spec SpecR SpecF SpecMax SpecMaxF SpecOut SpecQL Lambda MaxMachine LayerOutput MaxFuzzyProofs LayerOutputProofs2.
Local Open Scope R_scope.

(** C82. Full statement: the fuzzy output of a MAX-AND layer is the expected MaxMachine output, for any frequencies
    and dispersions, an unexplained cell having the last dispersion. It is true when the dispersions are different and
    sorting them by [frequency * dispersion], as the code does, is sorting them by size, and if an unexplained cell is
    given the value 0. *)
Theorem C82_expected_output_partial : forall Z_ U lam N D L n d,
  List.length Z_ = N -> Forall (fun r => List.length r = L) Z_ -> List.length U = D -> Forall (fun r => List.length r = L) U ->
  Forall probs Z_ -> Forall probs U -> (n < N)%nat -> (d < D)%nat -> distinct lam L ->
  same_order lam L (fun l => nth l (nth n Z_ []) 0 * nth l (nth d U []) 0) ->
  is_expected_top lam L (fun k l => nth l (nth k [nth n Z_ []; nth d U []] []) 0) 0 (rat2 (MAX_AND_product_fuzzy Z_ U lam) n d).
Proof. exact C82_cell. Qed.
(** For a layer with T samples: frequencies of ones among the samples and the mean dispersion [lam]. *)
Theorem C82_layer_output_partial : forall argsort s L T noisy tr lam, sampled s L T -> l_model s = "MAX-AND"%string -> List.length (l_factors s) = 2%nat ->
  l_lbda_trace s = Some tr -> Forall (is_disp L) tr ->
  List.length lam = S L -> (forall l, (l < S L)%nat -> nth l lam 0 = Rsum (fun v => nth l v 0) tr / INR T) -> distinct lam L ->
  (forall idx, Forall2 lt idx (sizes s) -> same_order lam L (fun l =>
     frequency (nth 0 (l_factors s) {| f_val := []; f_trace := None |}) (nth 0 idx 0%nat) l *
     frequency (nth 1 (l_factors s) {| f_val := []; f_trace := None |}) (nth 1 idx 0%nat) l)) ->
  exists out, snd (output argsort "factor_mean" noisy false true s) = Ok out /\
    all_entries out (sizes s) (fun idx x => is_expected_top lam L
      (fun k l => frequency (nth k (l_factors s) {| f_val := []; f_trace := None |}) (nth k idx 0%nat) l) 0 x).
Proof. exact C82_layer_lemma. Qed.
(** Without the condition on the order, 1/2 is returned for an expectation of 27/50. *)
Theorem C82_order_refuted : rat2 (MAX_AND_product_fuzzy [[1 / 10; 1]] [[1; 1]] [9 / 10; 1 / 2; 1 / 100]) 0 0 = 1 / 2 /\
  distinct [9 / 10; 1 / 2; 1 / 100] 2 /\
  is_expected_top [9 / 10; 1 / 2; 1 / 100] 2 (fun k l => nth l (nth k [[1 / 10; 1]; [1; 1]] []) 0) 0 (27 / 50).
Proof. exact C82_refuted_1. Qed.
(** An unexplained cell is a 1 with the last dispersion, which the fuzzy output drops: 1/4 for an expectation of 3/10. *)
Theorem C82_unexplained_refuted : rat2 (MAX_AND_product_fuzzy [[1]] [[1 / 2]] [1 / 2; 1 / 10]) 0 0 = 1 / 4 /\
  is_expected_top [1 / 2; 1 / 10] 1 (fun k l => nth l (nth k [[1]; [1 / 2]] []) 0) (1 / 10) (3 / 10).
Proof. exact C82_refuted_2. Qed.
Example C82_example : distinct [9 / 10; 1 / 2; 1 / 100] 2 /\ same_order [9 / 10; 1 / 2; 1 / 100] 2 (fun l => nth l [3 / 4; 1 / 2] 0 * nth l [1; 1 / 2] 0) /\
  rat2 (MAX_AND_product_fuzzy [[3 / 4; 1 / 2]] [[1; 1 / 2]] [9 / 10; 1 / 2; 1 / 100]) 0 0 = 113 / 160.
Proof. exact C82_example_lemma. Qed.
Example C82_layer_example : sampled max_ex 2 2 /\ distinct [8 / 10; 3 / 10; 1 / 10] 2 /\
  (forall l, (l < 3)%nat -> nth l [8 / 10; 3 / 10; 1 / 10] 0 = Rsum (fun v => nth l v 0) [[9 / 10; 4 / 10; 1 / 10]; [7 / 10; 2 / 10; 1 / 10]] / INR 2) /\
  (forall idx, Forall2 lt idx (sizes max_ex) -> same_order [8 / 10; 3 / 10; 1 / 10] 2 (fun l =>
     frequency (nth 0 (l_factors max_ex) {| f_val := []; f_trace := None |}) (nth 0 idx 0%nat) l *
     frequency (nth 1 (l_factors max_ex) {| f_val := []; f_trace := None |}) (nth 1 idx 0%nat) l)).
Proof. split; [exact max_ex_sampled|exact max_ex_means]. Qed.

(** C39: the outputs of a MAX-AND layer are smallest active dispersions: of the current state, of the majority signs with
    the current dispersions, and their average over the samples. *)
Theorem C39_layer_outputs_partial : forall argsort s L T noisy tr, (forall v, is_argsort v (argsort v)) -> sampled s L T -> l_model s = "MAX-AND"%string ->
  List.length (l_factors s) = 2%nat -> is_disp L (l_lbda s) -> l_lbda_trace s = Some tr -> Forall (is_disp L) tr ->
  (exists out, snd (output argsort "point_estimate" noisy false true s) = Ok out /\
     all_entries out (sizes s) (fun idx x => least (l_lbda s) (selected (map f_val (l_factors s)) idx) L x)) /\
  (exists out ms, snd (output argsort "factor_map" noisy false true s) = Ok out /\ Forall2 (fun f m => majority_of f m L) (l_factors s) ms /\
     all_entries out (sizes s) (fun idx x => least (l_lbda s) (selected ms idx) L x)) /\
  (exists out, snd (output argsort "mc" noisy false true s) = Ok out /\
     all_entries out (sizes s) (fun idx x => exists y : nat -> R, (forall t, (t < T)%nat -> least (nth t tr []) (selected (sample s t) idx) L (y t)) /\ x = Rsum y (seq 0 T) / INR T)).
Proof. exact C39_layer_lemma. Qed.
Example C39_layer_example : sampled max_ex 2 2 /\ is_disp 2 (l_lbda max_ex) /\ exists tr, l_lbda_trace max_ex = Some tr /\ Forall (is_disp 2) tr.
Proof. split; [exact max_ex_sampled|exact max_ex_disp]. Qed.

(** C42: a qL-AND layer returns the thresholded states, in {-1,1}, whatever the technique. *)
Theorem C42_layer_output : forall argsort technique noisy s z u rest N D L, l_model s = "qL-AND"%string -> l_factors s = z :: u :: rest -> nd_shape (l_child s) = [N; D] ->
  has_shape2 (f_val z) N L -> has_shape2 (f_val u) D L -> (forall d, (d < D)%nat -> 1 <= at2 (l_q s) 0 d)%Z ->
  exists out, snd (output argsort technique noisy false true s) = Ok out /\
    all_entries out [N; D] (fun idx x => exists b, x = IZR b /\
      q_output (at2 (l_q s) 0 (nth 1 idx 0%nat)) (row (f_val z) (nth 0 idx 0%nat)) (row (f_val u) (nth 1 idx 0%nat)) L b).
Proof. exact C42_layer_lemma. Qed.
(** C17 for qL-AND. *)
Theorem C17_optimum_qL : forall out A B X q N D L alpha beta, is_qout out -> has_shape2 A N L -> has_shape2 B D L -> has_shape2 X N D ->
  (forall d, (d < D)%nat -> 1 <= at2 q 0 d)%Z -> 0 < alpha -> 0 < beta ->
  best_dispersion (List.length (filter (fun '(n, d) => at2 X n d =? out (at2 q 0 d) (row A n) (row B d) L)%Z (cells N D)))
    (observed2 X N D) alpha beta (lbda_update_qL A B X q alpha beta).
Proof. exact C17_qL_lemma. Qed.
Example C42_layer_example : nd_shape (l_child max_ex) = [2; 1]%nat /\ has_shape2 (f_val (nth 0 (l_factors max_ex) {| f_val := []; f_trace := None |})) 2 2 /\
  has_shape2 (f_val (nth 1 (l_factors max_ex) {| f_val := []; f_trace := None |})) 1 2 /\ (forall d, (d < 1)%nat -> 1 <= at2 (l_q max_ex) 0 d)%Z.
Proof. exact qL_ex. Qed.

(** C23: the mc technique returns only if the dispersion and every factor have been sampled, as often as the dispersion
    at least; what was fixed has no samples. *)
Theorem C23_mc_needs_samples : forall argsort noisy s, l_model s <> "qL-AND"%string ->
  (forall out, snd (output argsort "mc" noisy false true s) = Ok out -> exists tr, l_lbda_trace s = Some tr /\
     (tr <> [] -> Forall (fun f => exists ms, f_trace f = Some ms /\ (List.length tr <= List.length ms)%nat) (l_factors s))) /\
  (l_lbda_trace s = None -> snd (output argsort "mc" noisy false true s) = Err AttributeError) /\
  (forall tr pre f post, l_lbda_trace s = Some tr -> tr <> [] -> l_factors s = pre ++ f :: post ->
     Forall (fun g => exists ms, f_trace g = Some ms /\ ms <> []) pre -> f_trace f = None -> snd (output argsort "mc" noisy false true s) = Err AttributeError).
Proof. exact C23_mc_lemma. Qed.

Print Assumptions C82_expected_output_partial.
Print Assumptions C82_layer_output_partial.
Print Assumptions C82_order_refuted.
Print Assumptions C82_unexplained_refuted.
Print Assumptions C39_layer_outputs_partial.
Print Assumptions C42_layer_output.
Print Assumptions C17_optimum_qL.
Print Assumptions C23_mc_needs_samples.
