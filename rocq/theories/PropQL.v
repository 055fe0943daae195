(** C43, C44, C67: the qL-AND samplers. *)
From Coq Require Import Lra.
From Verif Require Import Base BaseR SpecR Sampling QL SpecQL QLProofs QLProofs2.
Local Open Scope R_scope.

(** C43. Always up to the wrap-around of the int16 return type, exactly for up to 32767 data points in {-1,0,1}. *)
Theorem C43_scores : 
  (forall z U x l D L q, has_shape2 U D L -> List.length z = L -> (l < L)%nat -> (forall d, (d < D)%nat -> (1 <= at2 q 0 d)%Z) ->
     exists s, q_explained (fun d => at2 q 0 d) z U x l D L s /\ posterior_score_fct_qL_Z z U x l q = wrap16 s /\
       (tern1 x -> (Z.of_nat D <= 32767)%Z -> posterior_score_fct_qL_Z z U x l q = s)) /\
  (forall u Z_ x l N L qd, has_shape2 Z_ N L -> List.length u = L -> (l < L)%nat -> (1 <= qd)%Z ->
     exists s, q_explained (fun _ => qd) u Z_ x l N L s /\ posterior_score_fct_qL_U u Z_ x l qd = wrap16 s /\
       (tern1 x -> (Z.of_nat N <= 32767)%Z -> posterior_score_fct_qL_U u Z_ x l qd = s)).
Proof. exact C43_lemma. Qed.
(** Threshold 2 everywhere. Feature 0 has one other active dimension (setting l = 0 matters), feature 1 has two (it
    does not), feature 2 does not use l = 0, feature 3 has none. *)
Example C43_example :
  (  posterior_score_fct_qL_Z [-1; 1; 1; -1] [[1; 1; -1; 1]; [1; 1; 1; -1]; [-1; 1; -1; 1]; [1; -1; -1; 1]] [-1; 1; 1; 1] 0%nat [[2; 2; 2; 2]] = -1 /\
  posterior_score_fct_qL_U [-1; 1; 1; -1] [[1; 1; -1; 1]; [1; 1; 1; -1]; [-1; 1; -1; 1]; [1; -1; -1; 1]] [-1; 1; 1; 1] 0%nat 3 = 1)%Z.
Proof. split; reflexivity. Qed.

(** C44. Full statement: for every lambda and prior pA (pB) of the updated factor in place of 1 and 1/2, and every
    fixed matrix. Missing: the update ignores all three (C44_ignored, C44_refuted). *)
Theorem C44_unit_lambda_partial : forall out, 
  is_qout out -> forall N D L A B fixed X q pB r,
  okmat N L A -> okmat D L B -> has_shape2 X N D -> tern2 X -> (forall d, (d < D)%nat -> (1 <= at2 q 0 d)%Z) -> 0 < pB < 1 ->
  (forall n l, at2 fixed n l <> 1%Z) ->
  let Q := fun d => at2 q 0 d in
  ((Z.of_nat D <= 32767)%Z -> draws_ok r N L ->
    qL_sampler 0 A B fixed X q 1 (1/2) r = ref_sweep (fun A' => q_post out Q 1 X N D L (1/2) pB A' B) fixed r N L A) /\
  ((Z.of_nat N <= 32767)%Z -> draws_ok r D L ->
    qL_sampler 1 A B fixed X q 1 (1/2) r = ref_sweep (fun B' => q_post out Q 1 X N D L pB (1/2) A B') fixed r D L B).
Proof. exact C44_lemma. Qed.
Example C44_example : okmat 2 2 [[1; -1]; [-1; 1]]%Z /\ okmat 3 2 [[1; 1]; [-1; 1]; [1; -1]]%Z /\ has_shape2 [[1; 0; -1]; [1; 1; -1]]%Z 2 3 /\
  tern2 [[1; 0; -1]; [1; 1; -1]]%Z /\ (forall d, (d < 3)%nat -> (1 <= at2 [[1; 2; 1]]%Z 0 d)%Z) /\ (forall n l, at2 [[0; 0]; [0; 0]]%Z n l <> 1%Z).
Proof.
  unfold okmat, has_shape2, bin2, bin1, tern2, tern1, tern, pm1.
  split; [|split; [|split; [|split; [|split]]]]; try solve [repeat (apply Forall_nil || apply Forall_cons || split); auto].
  - intros [|[|[|d]]] Hd; cbn; lia.
  - intros [|[|[|n]]] [|[|[|l]]]; cbn; lia.
Qed.
(** The update does not depend on lambda, the prior or the fixed entries. *)
Theorem C44_ignored : forall axis A B X q r fixed fixed' lbda lbda' p p', 
  qL_sampler axis A B fixed X q lbda p r = qL_sampler axis A B fixed' X q lbda' p' r.
Proof. exact C44_ignored_lemma. Qed.
(** One data point: whenever the log-odds lambda + logit p of the entry is not 1 some draw gives a wrong update;
    and a flagged entry is flipped. *)
Theorem C44_refuted : forall out, 
  is_qout out -> 
  (forall lbda p, 0 < p < 1 -> lbda + ln (p / (1 - p)) <> 1 ->
   exists r, SpecR.is_draw r /\ qL_sampler 0 [[1%Z]] [[1%Z]] [[0%Z]] [[1%Z]] [[1%Z]] lbda p (fun _ _ => r) <>
     ref_sweep (fun A' => q_post out (fun _ => 1%Z) lbda [[1%Z]] 1 1 1 p (1/2) A' [[1%Z]]) [[0%Z]] (fun _ _ => r) 1 1 [[1%Z]]) /\
  (forall lbda p, qL_sampler 0 [[1%Z]] [[1%Z]] [[1%Z]] [[1%Z]] [[1%Z]] lbda p (fun _ _ => 0) = [[(-1)%Z]]).
Proof. exact C44_refuted_lemma. Qed.

(** C67. Full statement: [X] in place of [map (map (fun _ => 1)) X], i.e. the conditional given the data. Missing: the
    code counts predicted ones, not correct predictions, so it is the conditional given data that are all 1. *)
Theorem C67_thresholds_partial : forall out Z_ U X q N D L lbda gamma rand, 
  is_qout out -> okmat N L Z_ -> okmat D L U -> has_shape2 X N D -> (0 < N)%nat -> has_shape2 q 1 D -> 0 < gamma ->
  (forall d, (d < D)%nat -> SpecR.is_draw (rand d)) ->
  has_shape2 (sample_qL_q Z_ U X q lbda gamma rand) 1 D /\
  forall d, (d < D)%nat -> exists k, at2 (sample_qL_q Z_ U X q lbda gamma rand) 0 d = Z.of_nat k /\
    selects (q_weight out lbda gamma (map (map (fun _ => 1%Z)) X) N L d Z_ U) (rand d) k.
Proof. exact C67_lemma. Qed.
(** A single data point equal to -1, for every lambda and gamma. *)
Theorem C67_refuted : forall out, 
  is_qout out -> forall lbda gamma, 0 < lbda -> 0 < gamma ->
  exists u, SpecR.is_draw u /\ forall k, at2 (sample_qL_q [[1%Z]] [[1%Z]] [[(-1)%Z]] [[1%Z]] lbda gamma (fun _ => u)) 0 0 = Z.of_nat k ->
    ~ selects (q_weight out lbda gamma [[(-1)%Z]] 1 1 0 [[1%Z]] [[1%Z]]) u k.
Proof. exact C67_refuted_lemma. Qed.
Example C67_example : selects (fun k => INR k) (1/2) 4 /\ okmat 1 1 [[1]]%Z /\ has_shape2 [[-1]]%Z 1 1.
Proof.
  unfold okmat, has_shape2, bin2, bin1, pm1. split; [|repeat (apply Forall_nil || apply Forall_cons || split); auto].
  split; [lia|]. unfold Rsum. cbn [seq fold_right Nat.sub]. cbn [INR]. lra.
Qed.
Print Assumptions C43_scores.
Print Assumptions C44_unit_lambda_partial.
Print Assumptions C44_ignored.
Print Assumptions C44_refuted.
Print Assumptions C67_thresholds_partial.
Print Assumptions C67_refuted.
