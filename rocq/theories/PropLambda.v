(** Dispersion update, correct-prediction counting, noisy emission, qL-AND output, link functions:
    C17, C18, C24, C42, C62. *)
From Coq Require Import String.
From Verif Require Import Base BaseR Spec SpecR Outputs Lambda Invariance LambdaProofs.
Local Open Scope R_scope.

(** C17. *)
Theorem C17_optimum_2d : forall o i, In (o, i) implemented -> forall out, is_output o i out ->
  forall A B X N D L alpha beta, okmat N L A -> okmat D L B -> has_shape2 X N D -> 0 < alpha -> 0 < beta ->
  exists lam, lbda_update_2d (model_name o i) A B X alpha beta = Ok lam /\
    best_dispersion (correct2 out X N D L A B) (observed2 X N D) alpha beta lam.
Proof. exact C17_2_lemma. Qed.
Theorem C17_optimum_3d : forall o i, In (o, i) implemented -> forall out, is_output o i out ->
  forall A B C X N D M L alpha beta, okmat N L A -> okmat D L B -> okmat M L C -> has_shape3 X N D M -> 0 < alpha -> 0 < beta ->
  exists lam, lbda_update_3d (model_name o i) A B C X alpha beta = Ok lam /\
    best_dispersion (correct3 out X N D M L A B C) (observed3 X N D M) alpha beta lam.
Proof. exact C17_3_lemma. Qed.
(** The value of the formula, and the positivity of the logarithm's argument, for any counts. *)
Theorem C17_formula : forall P ND alpha beta, (P <= ND)%nat -> 0 < alpha -> 0 < beta ->
  0 < lbda_log_argument (Z.of_nat ND) (Z.of_nat P) alpha beta /\
  best_dispersion P ND alpha beta (lbda_val (Z.of_nat ND) (Z.of_nat P) alpha beta).
Proof. exact C17_val_lemma. Qed.
Example C17_example :
  okmat 2 2 lexA /\ okmat 3 2 lexB /\ has_shape2 lexX 2 3 /\ tern2 lexX /\
  lbda_update_2d "OR-AND" lexA lexB lexX 1 1 = Ok (lbda_val 5 3 1 1) /\
  lbda_val 5 3 1 1 = ln (4 / 3) /\ lbda_val 5 0 1 1 = 0 /\
  correct2 (fun rows L => OR_AND_product (nth 0 rows []) (nth 1 rows [])) lexX 2 3 2 lexA lexB = 3%nat /\
  observed2 lexX 2 3 = 5%nat.
Proof. exact C17_example_lemma. Qed.

(** C18. *)
Theorem C18_counter_2d : forall o i, In (o, i) implemented -> forall out, is_output o i out ->
  exists counter, make_correct_predictions_counter_2d (model_name o i) = Ok counter /\
  forall A B X N D L, okmat N L A -> okmat D L B -> has_shape2 X N D ->
    counter A B X = Z.of_nat (correct2 out X N D L A B) /\
    (correct2 out X N D L A B <= observed2 X N D)%nat /\
    (tern2 X -> forall lbda, ln (lik2 out lbda X N D L A B) =
      IZR (counter A B X) * ln (sigma lbda) + IZR (no_of_points_2d X - counter A B X) * ln (sigma (- lbda))
      + (INR (N * D) - INR (observed2 X N D)) * ln (1 / 2)).
Proof. exact C18_2_lemma. Qed.
Theorem C18_counter_3d : forall o i, In (o, i) implemented -> forall out, is_output o i out ->
  exists counter, make_correct_predictions_counter_3d (model_name o i) = Ok counter /\
  forall A B C X N D M L, okmat N L A -> okmat D L B -> okmat M L C -> has_shape3 X N D M ->
    counter A B C X = Z.of_nat (correct3 out X N D M L A B C) /\
    (correct3 out X N D M L A B C <= observed3 X N D M)%nat /\
    (tern3 X -> forall lbda, ln (lik3 out lbda X N D M L A B C) =
      IZR (counter A B C X) * ln (sigma lbda) + IZR (no_of_points_3d X - counter A B C X) * ln (sigma (- lbda))
      + (INR (N * D * M) - INR (observed3 X N D M)) * ln (1 / 2)).
Proof. exact C18_3_lemma. Qed.
(** The infinite (IBP) model is counted as OR-AND. *)
Theorem C18_IBP : make_correct_predictions_counter_2d "OR-AND-IBP" = make_correct_predictions_counter_2d "OR-AND".
Proof. exact C18_IBP_lemma. Qed.

(** C24. A one is observed when the output bit (uniform draw < p) is flipped or not (uniform draw < sigma(-lam)). *)
Theorem C24_noisy_emission :
  (forall p lam, 0 <= p <= 1 ->
     sigma (- Rabs lam) <= noisy_emission p lam <= sigma (Rabs lam) /\
     is_E 2 (fun rs => if xorb (Rltb (nth 0 rs 0) p) (Rltb (nth 1 rs 0) (sigma (- lam))) then 1 else 0) (noisy_emission p lam)) /\
  (forall p q lam, 0 <= lam -> p <= q -> noisy_emission p lam <= noisy_emission q lam) /\
  (forall p q lam, 0 < lam -> p < q -> noisy_emission p lam < noisy_emission q lam).
Proof. exact C24_lemma. Qed.

Example C24_example : noisy_emission 1 (ln 3) = 3 / 4 /\ noisy_emission (1 / 3) (ln 3) = 5 / 12.
Proof. exact C24_example_lemma. Qed.

(** C42. *)
Theorem C42_qL_threshold : forall u z q, (1 <= q)%Z ->
  (qL_AND_product u z q = 1%Z \/ qL_AND_product u z q = (-1)%Z) /\
  (qL_AND_product u z q = 1%Z <->
   exists ls, NoDup ls /\ (q <= Z.of_nat (List.length ls))%Z /\
     forall l, In l ls -> (l < List.length u)%nat /\ nth l u 0%Z = 1%Z /\ nth l z 0%Z = 1%Z).
Proof. exact C42_lemma. Qed.
Theorem C42_qL_counter : forall A B X q N D, has_shape2 X N D ->
  counter_qL A B X q = Z.of_nat (List.length (filter (fun '(n, d) => qL_AND_product (row A n) (row B d) (at1 q d) =? at2 X n d)%Z (cells N D))).
Proof. exact C42_counter_lemma. Qed.
Example C42_example :
  (qL_AND_product [1; 1; -1; 1] [1; -1; 1; 1] 2 = 1 /\ qL_AND_product [1; 1; -1; 1] [1; -1; 1; 1] 3 = -1)%Z.
Proof. exact C42_example_lemma. Qed.

(** C62. *)
Theorem C62_links :
  (forall x, 0 < expit x < 1) /\ (forall x y, x < y -> expit x < expit y) /\
  (forall x, expit (- x) = 1 - expit x) /\
  (forall x, logit_aux (expit x) = x) /\ (forall p, 0 < p < 1 -> expit (logit_aux p) = p) /\
  (forall a, a <> [] -> logsumexp a = ln (Rsum exp a)) /\
  (forall a x, In x a -> exp (x - fold_right Rmax (hd 0 a) a) <= 1).
Proof. exact C62_lemma. Qed.
Example C62_example : logit_aux (3 / 4) = ln 3 /\ expit (ln 3) = 3 / 4 /\ logsumexp [0; ln 2; ln 3] = ln 6.
Proof. exact C62_example_lemma. Qed.

Print Assumptions C17_optimum_2d.
Print Assumptions C17_optimum_3d.
Print Assumptions C17_formula.
Print Assumptions C18_counter_2d.
Print Assumptions C18_counter_3d.
Print Assumptions C18_IBP.
Print Assumptions C24_noisy_emission.
Print Assumptions C42_qL_threshold.
Print Assumptions C42_qL_counter.
Print Assumptions C62_links.
