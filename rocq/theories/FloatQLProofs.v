(** Proof of C124. *)
From Coq Require Import Lra.
From Verif Require Import Base BaseR BaseLemmas BaseRLemmas SpecR Outputs Sampling SamplingProofs SpecFloat Invariance InvarianceProofs QL SpecQL QLProofs FloatFuzzy FloatProofs SpecFloatRun FloatSampling FloatSampleProofs FloatSampleProofs2 FloatSampleProofs3 FloatSampleProofs4 FloatQL.
Local Open Scope R_scope.

Section All.
Context (ex : R -> R) (Hex : good_exp ex).
Lemma double_cell_nil lg rand ls ls' Z_ :
  fold_left (fun Zn n => fold_left (fun Zl l => set2 Zl n l (double_flip ex (lg Zl n l) (at2 Zl n l) (rand n l))) ls' Zn) ls Z_ =
  fold_left (fun Zn n => fold_left (fun Zl l => double_cell ex lg [] rand Zl n l) ls' Zn) ls Z_.
Proof.
  revert Z_. induction ls as [|n ls IH]; intros Z_; [reflexivity|]. cbn [fold_left]. rewrite IH. f_equal. clear IH.
  revert Z_. induction ls' as [|l ls' IH]; intros Z_; [reflexivity|]. cbn [fold_left]. rewrite IH. f_equal. unfold double_cell. rewrite at2_nil. reflexivity.
Qed.
Lemma double_Z_loop Z_ U X q lbda rand : double_qL_factors_Z ex Z_ U X q lbda rand = double_loop ex (fun Zc n l => IZR (posterior_score_fct_qL_Z (row Zc n) U (row X n) l q)) Z_ [] rand.
Proof. apply (double_cell_nil (fun Zc n l => IZR (posterior_score_fct_qL_Z (row Zc n) U (row X n) l q))). Qed.
Lemma double_U_loop U Z_ X q lbda rand : double_qL_factors_U ex U Z_ X q lbda rand = double_loop ex (fun Uc d l => IZR (posterior_score_fct_qL_U (row Uc d) Z_ (row X d) l (at2 q 0 d))) U [] rand.
Proof. apply (double_cell_nil (fun Uc d l => IZR (posterior_score_fct_qL_U (row Uc d) Z_ (row X d) l (at2 q 0 d)))). Qed.
Lemma C124_close_lemma P L A B fixed X q lbda p ax : okmat P L (match ax with O => A | _ => B end) ->
  close_update (fun r => Ok (qL_sampler ax A B fixed X q lbda p r)) (fun r => Ok (double_qL_sampler ex ax A B fixed X q lbda p r)) P L (INR (P * L) * (3 * roundoff)).
Proof.
  intros HZ. destruct ax as [|ax].
  - eapply close_eq with (c := INR (P * L) * (0 + 3 * roundoff)); [intros r; cbn [qL_sampler]; rewrite sample_Z_loop; reflexivity|intros r; cbn [double_qL_sampler]; rewrite double_Z_loop; reflexivity|f_equal; ring|].
    apply (loops_close ex Hex P L A [] (fun Zc n l => IZR (posterior_score_fct_qL_Z (row Zc n) B (row X n) l q)) (fun Zc n l => IZR (posterior_score_fct_qL_Z (row Zc n) B (row X n) l q)) 0 HZ); [lra|]. intros m n l _ _ _. rewrite Rminus_diag_eq, Rabs_R0 by reflexivity. lra.
  - eapply close_eq with (c := INR (P * L) * (0 + 3 * roundoff)); [intros r; cbn [qL_sampler]; rewrite sample_U_loop; reflexivity|intros r; cbn [double_qL_sampler]; rewrite double_U_loop; reflexivity|f_equal; ring|].
    apply (loops_close ex Hex P L B [] (fun Uc d l => IZR (posterior_score_fct_qL_U (row Uc d) A (row (transpose X) d) l (at2 q 0 d))) (fun Uc d l => IZR (posterior_score_fct_qL_U (row Uc d) A (row (transpose X) d) l (at2 q 0 d))) 0 HZ); [lra|]. intros m n l _ _ _. rewrite Rminus_diag_eq, Rabs_R0 by reflexivity. lra.
Qed.
Lemma sweep_invariant (S : mat -> (nat -> nat -> R) -> mat) w fixed N L : (forall m, okmat N L m -> 0 < w m) -> (forall m r, okmat N L m -> draws_ok r N L -> S m r = ref_sweep w fixed r N L m) ->
  invariant (fun m r => Ok (S m r)) w (all_mats N L) N L.
Proof.
  intros Hw HS h. exists (fun m => Edraws (N * L) (fun rs => h (ref_sweep w fixed (draws_of L rs) N L m))). split.
  - intros m Hm. apply in_all_mats in Hm. eapply is_E_ext; [|apply ref_sweep_is_E]. intros rs Hl HF. cbn [on_ok]. rewrite HS by (try assumption; apply draws_of_ok; assumption). reflexivity.
  - apply ref_sweep_invariant, Hw.
Qed.
Lemma q_post_pos out Q lbda X N D L pA pB A B : 0 < pA < 1 -> 0 < pB < 1 -> 0 < q_post out Q lbda X N D L pA pB A B.
Proof. intros. unfold q_post, q_lik. repeat apply Rmult_lt_0_compat; try (apply prior_pos; assumption). apply Rprod_pos. intros n _. apply Rprod_pos. intros d _. apply sigma_pos. Qed.
Lemma C124_posterior_lemma out : is_qout out -> forall N D L A B X q pB,
  okmat N L A -> okmat D L B -> has_shape2 X N D -> tern2 X -> (forall d, (d < D)%nat -> (1 <= at2 q 0 d)%Z) -> 0 < pB < 1 ->
  let Q := fun d => at2 q 0 d in
  (forall fixed lbda p, (Z.of_nat D <= 32767)%Z -> nearly_invariant (fun A' r => Ok (double_qL_sampler ex 0 A' B fixed X q lbda p r)) (fun A' => q_post out Q 1 X N D L (1/2) pB A' B) (all_mats N L) N L (INR (N * L) * (3 * roundoff))) /\
  (forall fixed lbda p, (Z.of_nat N <= 32767)%Z -> nearly_invariant (fun B' r => Ok (double_qL_sampler ex 1 A B' fixed X q lbda p r)) (fun B' => q_post out Q 1 X N D L pB (1/2) A B') (all_mats D L) D L (INR (D * L) * (3 * roundoff))).
Proof.
  intros Ho N D L A B X q pB HA HB HX TX Hq HpB Q. assert (F0 : forall n l, at2 [] n l <> 1%Z) by (intros n l; rewrite at2_nil; discriminate). split; intros fixed lbda p HS.
  - apply (close_invariant (fun A' r => Ok (qL_sampler 0 A' B [] X q 1 (1/2) r))).
    + apply (sweep_invariant _ _ []); [intros; apply q_post_pos; lra|]. intros m r Hm Hr. apply (proj1 (C44_lemma out Ho N D L m B [] X q pB r Hm HB HX TX Hq HpB F0) HS Hr).
    + intros; left; apply q_post_pos; lra.
    + intros m Hm. apply in_all_mats in Hm. apply (C124_close_lemma N L m B [] X q 1 (1/2) 0 Hm).
  - apply (close_invariant (fun B' r => Ok (qL_sampler 1 A B' [] X q 1 (1/2) r))).
    + apply (sweep_invariant _ _ []); [intros; apply q_post_pos; lra|]. intros m r Hm Hr. apply (proj2 (C44_lemma out Ho N D L A m [] X q pB r HA Hm HX TX Hq HpB F0) HS Hr).
    + intros; left; apply q_post_pos; lra.
    + intros m Hm. apply in_all_mats in Hm. apply (C124_close_lemma D L A m [] X q 1 (1/2) 1 Hm).
Qed.
End All.
