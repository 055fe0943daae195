(** C124: updates of qL-AND factors in double precision. *)
From Coq Require Import Lra.
From Verif Require Import Base BaseR SpecR Sampling Invariance SpecFloat SpecFloatRun QL SpecQL FloatSampling FloatSampleProofs5 FloatQL FloatQLProofs PropQL.
Local Open Scope R_scope.

(** C124. With the random draws of a computer and any good exponential function, event probabilities after an update in double precision are
    within 3 roundings per entry of those after the exact update, whatever the data, thresholds, dispersion, prior and fixed entries. *)
Theorem C124_update : forall ex, good_exp ex -> forall P L A B fixed X q lbda p ax, okmat P L (match ax with O => A | _ => B end) ->
  close_update (fun r => Ok (qL_sampler ax A B fixed X q lbda p r)) (fun r => Ok (double_qL_sampler ex ax A B fixed X q lbda p r)) P L (INR (P * L) * (3 * roundoff)).
Proof. exact C124_close_lemma. Qed.
Print Assumptions C124_update.
(** Whatever the dispersion, the prior and the fixed entries of the machine are, the update nearly preserves the posterior for dispersion 1,
    a flat prior and no fixed entries (see C44 for what this means for other settings). *)
Theorem C124_posterior : forall ex, good_exp ex -> forall out, is_qout out -> forall N D L A B X q pB,
  okmat N L A -> okmat D L B -> has_shape2 X N D -> tern2 X -> (forall d, (d < D)%nat -> (1 <= at2 q 0 d)%Z) -> 0 < pB < 1 ->
  let Q := fun d => at2 q 0 d in
  (forall fixed lbda p, (Z.of_nat D <= 32767)%Z -> nearly_invariant (fun A' r => Ok (double_qL_sampler ex 0 A' B fixed X q lbda p r)) (fun A' => q_post out Q 1 X N D L (1/2) pB A' B) (all_mats N L) N L (INR (N * L) * (3 * roundoff))) /\
  (forall fixed lbda p, (Z.of_nat N <= 32767)%Z -> nearly_invariant (fun B' r => Ok (double_qL_sampler ex 1 A B' fixed X q lbda p r)) (fun B' => q_post out Q 1 X N D L pB (1/2) A B') (all_mats D L) D L (INR (D * L) * (3 * roundoff))).
Proof. exact C124_posterior_lemma. Qed.
Print Assumptions C124_posterior.
(** Matrices as in C44_example, with the real exponential function. *)
Example C124_example : good_exp exp /\ okmat 2 2 [[1; -1]; [-1; 1]]%Z /\ okmat 3 2 [[1; 1]; [-1; 1]; [1; -1]]%Z /\ has_shape2 [[1; 0; -1]; [1; 1; -1]]%Z 2 3 /\
  tern2 [[1; 0; -1]; [1; 1; -1]]%Z /\ (forall d, (d < 3)%nat -> (1 <= at2 [[1; 2; 1]]%Z 0 d)%Z).
Proof. destruct C44_example as (H1 & H2 & H3 & H4 & H5 & _). split; [apply C116_exp_lemma|]. auto. Qed.
