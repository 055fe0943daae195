(** C116, C117: updates of factors in double precision with the random draws of a computer. *)
From Coq Require Import String Lra.
From Verif Require Import Base BaseR Spec SpecR Sampling Invariance SpecFloat FloatFuzzy SpecFloatRun FloatSampling FloatSampleProofs4 FloatSampleProofs5.
Local Open Scope R_scope.

(** Two factors: after an update in double precision no event is more than this much more or less probable than after the exact update.
    [d]: error of the prior log-odds, computed by scipy; any data, any start, any fixed entries. *)
Theorem C116_update_2d : forall ex, good_exp ex -> forall o i, In (o, i) implemented -> forall P L A B fixed X lbda p lp d ax, okmat P L (match ax with O => A | _ => B end) -> Rabs (lp - logit p) <= d ->
  close_update (LOM_sampler_2d (model_name o i) ax A B fixed X lbda p) (double_sampler_2d ex (model_name o i) ax A B fixed X lbda lp) P L (INR (P * L) * ((10 + 3 * Rabs lp) * roundoff + d)).
Proof. exact C116_close2_lemma. Qed.
Print Assumptions C116_update_2d.
(** Three factors. *)
Theorem C116_update_3d : forall ex, good_exp ex -> forall o i, In (o, i) implemented -> forall P L A B C fixed X lbda p lp d ax, okmat P L (match ax with O => A | 1%nat => B | _ => C end) -> Rabs (lp - logit p) <= d ->
  close_update (LOM_sampler_3d (model_name o i) ax A B C fixed X lbda p) (double_sampler_3d ex (model_name o i) ax A B C fixed X lbda lp) P L (INR (P * L) * ((10 + 3 * Rabs lp) * roundoff + d)).
Proof. exact C116_close3_lemma. Qed.
Print Assumptions C116_update_3d.
(** No child, one parent. *)
Theorem C116_update_parent : forall ex, good_exp ex -> forall o i, In (o, i) implemented -> forall P L A fixed a1 a2 la p lp d, okmat P L A -> Rabs (lp - logit p) <= d ->
  close_update (LOM_sampler_0c1p_2d (model_name o i) A fixed a1 a2 la p) (double_sampler_0c1p ex (model_name o i) A fixed a1 a2 la lp) P L (INR (P * L) * ((10 + 3 * Rabs lp) * roundoff + d)).
Proof. exact C116_close0p_lemma. Qed.
Print Assumptions C116_update_parent.
(** One child, one parent. *)
Theorem C116_update_child_parent : forall ex, good_exp ex -> forall o i op ip, In (o, i) implemented -> In (op, ip) implemented -> forall P L K A B fixed X lbda a1 a2 la p lp d ax, okmat P L (match ax with O => A | _ => B end) -> okmat P K a1 -> okmat L K a2 -> Rabs (lp - logit p) <= d ->
  close_update (LOM_sampler_1c1p_2d (model_name o i) (model_name op ip) ax A B fixed X lbda a1 a2 la p) (double_sampler_1c1p ex (model_name o i) (model_name op ip) ax A B fixed X lbda a1 a2 la lp) P L (INR (P * L) * ((13 + 4 * (Rabs la + Rabs lp)) * roundoff + d)).
Proof. exact C116_close1p_lemma. Qed.
Print Assumptions C116_update_child_parent.
(** One child, two parents. *)
Theorem C116_update_child_two_parents : forall ex, good_exp ex -> forall o i op ip oq iq, In (o, i) implemented -> In (op, ip) implemented -> In (oq, iq) implemented -> forall P L K K' A B fixed X lbda a1 a2 la b1 b2 lb p lp d ax, okmat P L (match ax with O => A | _ => B end) -> okmat P K a1 -> okmat L K a2 -> okmat P K' b1 -> okmat L K' b2 -> Rabs (lp - logit p) <= d ->
  close_update (LOM_sampler_1c2p_2d (model_name o i) (model_name op ip) (model_name oq iq) ax A B fixed X lbda a1 a2 la b1 b2 lb p) (double_sampler_1c2p ex (model_name o i) (model_name op ip) (model_name oq iq) ax A B fixed X lbda a1 a2 la b1 b2 lb lp) P L (INR (P * L) * ((16 + 5 * (Rabs la + Rabs lb + Rabs lp)) * roundoff + d)).
Proof. exact C116_close2p_lemma. Qed.
Print Assumptions C116_update_child_two_parents.
(** No child, two parents. *)
Theorem C116_update_two_parents : forall ex, good_exp ex -> forall op ip oq iq, In (op, ip) implemented -> In (oq, iq) implemented -> forall P L K A fixed a1 a2 la b1 b2 lb p lp d, okmat P L A -> okmat P K b1 -> okmat L K b2 -> Rabs (lp - logit p) <= d ->
  close_update (LOM_sampler_0c2p_2d (model_name op ip) (model_name oq iq) A fixed a1 a2 la b1 b2 lb p) (double_sampler_0c2p ex (model_name op ip) (model_name oq iq) A fixed a1 a2 la b1 b2 lb lp) P L (INR (P * L) * ((13 + 4 * (Rabs lb + Rabs lp)) * roundoff + d)).
Proof. exact C116_close02_lemma. Qed.
Print Assumptions C116_update_two_parents.
(** Started from the posterior, an update in double precision moves no event probability by more than this (relative to the total weight). *)
Theorem C116_posterior_2d : forall ex, good_exp ex -> forall o i, In (o, i) implemented -> forall out, is_output o i out -> forall N D L A B fixed X lbda pA pB lp d,
  okmat N L A -> okmat D L B -> has_shape2 X N D -> tern2 X -> 0 < pA < 1 -> 0 < pB < 1 ->
  ((Z.of_nat D <= 32767)%Z -> Rabs (lp - logit pA) <= d ->
     nearly_invariant (fun A' => double_sampler_2d ex (model_name o i) 0 A' B fixed X lbda lp) (fun A' => post2 out lbda X N D L pA pB A' B)
       (filter (agrees fixed A N L) (all_mats N L)) N L (INR (N * L) * ((10 + 3 * Rabs lp) * roundoff + d))) /\
  ((Z.of_nat N <= 32767)%Z -> Rabs (lp - logit pB) <= d ->
     nearly_invariant (fun B' => double_sampler_2d ex (model_name o i) 1 A B' fixed X lbda lp) (fun B' => post2 out lbda X N D L pA pB A B')
       (filter (agrees fixed B D L) (all_mats D L)) D L (INR (D * L) * ((10 + 3 * Rabs lp) * roundoff + d))).
Proof. exact C116_inv2_lemma. Qed.
Print Assumptions C116_posterior_2d.
(** Three factors. *)
Theorem C116_posterior_3d : forall ex, good_exp ex -> forall o i, In (o, i) implemented -> forall out, is_output o i out -> forall N D M L A B C fixed X lbda pA pB pC lp d,
  okmat N L A -> okmat D L B -> okmat M L C -> has_shape3 X N D M -> 0 < pA < 1 -> 0 < pB < 1 -> 0 < pC < 1 ->
  let post := post3 out lbda X N D M L pA pB pC in let b P := INR (P * L) * ((10 + 3 * Rabs lp) * roundoff + d) in
  (Rabs (lp - logit pA) <= d -> nearly_invariant (fun A' => double_sampler_3d ex (model_name o i) 0 A' B C fixed X lbda lp) (fun A' => post A' B C)
     (filter (agrees fixed A N L) (all_mats N L)) N L (b N)) /\
  (Rabs (lp - logit pB) <= d -> nearly_invariant (fun B' => double_sampler_3d ex (model_name o i) 1 A B' C fixed X lbda lp) (fun B' => post A B' C)
     (filter (agrees fixed B D L) (all_mats D L)) D L (b D)) /\
  (Rabs (lp - logit pC) <= d -> nearly_invariant (fun C' => double_sampler_3d ex (model_name o i) 2 A B C' fixed X lbda lp) (fun C' => post A B C')
     (filter (agrees fixed C M L) (all_mats M L)) M L (b M)).
Proof. exact C116_inv3_lemma. Qed.
Print Assumptions C116_posterior_3d.
(** With a parent. *)
Theorem C116_posterior_parent : forall ex, good_exp ex -> forall op ip, In (op, ip) implemented -> forall outp, is_output op ip outp -> forall N L K A fixed p a1 a2 la lp d,
  okmat N L A -> 0 < p < 1 -> okmat N K a1 -> okmat L K a2 -> Rabs (lp - logit p) <= d ->
  nearly_invariant (fun A' => double_sampler_0c1p ex (model_name op ip) A' fixed a1 a2 la lp) (fun A' => prior p N L A' * parent_lik outp la a1 a2 N L K A')
    (filter (agrees fixed A N L) (all_mats N L)) N L (INR (N * L) * ((10 + 3 * Rabs lp) * roundoff + d)) /\
  (forall o i, In (o, i) implemented -> forall out, is_output o i out -> forall D B X lbda pB, okmat D L B -> has_shape2 X N D -> tern2 X -> 0 < pB < 1 -> (Z.of_nat D <= 32767)%Z ->
   nearly_invariant (fun A' => double_sampler_1c1p ex (model_name o i) (model_name op ip) 0 A' B fixed X lbda a1 a2 la lp)
     (fun A' => post2 out lbda X N D L p pB A' B * parent_lik outp la a1 a2 N L K A')
     (filter (agrees fixed A N L) (all_mats N L)) N L (INR (N * L) * ((13 + 4 * (Rabs la + Rabs lp)) * roundoff + d))).
Proof. exact C116_invh_lemma. Qed.
Print Assumptions C116_posterior_parent.
(** T rounds of updates of both factors: the errors at most add up. *)
Theorem C116_rounds : forall ex, good_exp ex -> forall o i, In (o, i) implemented -> forall out, is_output o i out -> forall N D L A0 B0 FA FB X lbda pA pB lpA lpB d T h,
  okmat N L A0 -> okmat D L B0 -> has_shape2 X N D -> tern2 X -> 0 < pA < 1 -> 0 < pB < 1 -> (Z.of_nat D <= 32767)%Z -> (Z.of_nat N <= 32767)%Z ->
  Rabs (lpA - logit pA) <= d -> Rabs (lpB - logit pB) <= d -> (forall A B, 0 <= h A B <= 1) ->
  let states_A := filter (agrees FA A0 N L) (all_mats N L) in let states_B := filter (agrees FB B0 D L) (all_mats D L) in
  let mean f := Rsum (fun A => Rsum (fun B => post2 out lbda X N D L pA pB A B * f A B) states_B) states_A in
  Rabs (mean (rounds_mean (fun A B => double_sampler_2d ex (model_name o i) 0 A B FA X lbda lpA) (fun A B => double_sampler_2d ex (model_name o i) 1 A B FB X lbda lpB) N D L T h) - mean h)
    <= INR T * (INR (N * L) * ((10 + 3 * Rabs lpA) * roundoff + d) + INR (D * L) * ((10 + 3 * Rabs lpB) * roundoff + d)) * mean (fun _ _ => 1).
Proof. exact C116_rounds_lemma. Qed.
Print Assumptions C116_rounds.
(** Whatever the exponential function and the draws: entries stay -1 or 1 and fixed entries stay what they are. *)
Theorem C116_safe_2d : forall ex o i, In (o, i) implemented -> forall P L A B F X lbda lp ax r, let Z_ := match ax with O => A | _ => B end in okmat P L Z_ ->
  exists Z', double_sampler_2d ex (model_name o i) ax A B F X lbda lp r = Ok Z' /\ okmat P L Z' /\ (forall n l, (n < P)%nat -> (l < L)%nat -> at2 F n l = 1%Z -> at2 Z' n l = at2 Z_ n l).
Proof. exact C116_safe2_lemma. Qed.
Print Assumptions C116_safe_2d.
(** Three factors. *)
Theorem C116_safe_3d : forall ex o i, In (o, i) implemented -> forall P L A B C F X lbda lp ax r, let Z_ := match ax with O => A | 1%nat => B | _ => C end in okmat P L Z_ ->
  exists Z', double_sampler_3d ex (model_name o i) ax A B C F X lbda lp r = Ok Z' /\ okmat P L Z' /\ (forall n l, (n < P)%nat -> (l < L)%nat -> at2 F n l = 1%Z -> at2 Z' n l = at2 Z_ n l).
Proof. exact C116_safe3_lemma. Qed.
Print Assumptions C116_safe_3d.
(** C117. Rare changes are not made about as often as they should be: a change of probability exp(-100) is made more than
    10^14 times too often, because the draw 0 has probability 2^-53 and accepts every change. *)
Theorem C117_refuted : let A := [[1]]%Z in let X := [[1]]%Z in let change := fun m => if (at2 m 0 0 =? 1)%Z then 0 else 1 in
  okmat 1 1 A /\ Rabs (0 - logit (1 / 2)) <= 0 /\
  exists v, is_E 1 (fun rs => on_ok change (LOM_sampler_2d "OR-AND" 0 A A [[0]]%Z X 100 (1 / 2) (draws_of 1 rs))) v /\ 0 < v /\
  forall ex, good_exp ex -> (forall x, -700 <= x <= 0 -> 0 < ex x) ->
    10 ^ 14 * v <= mean_of 1 (fun rs => on_ok change (double_sampler_2d ex "OR-AND" 0 A A [[0]]%Z X 100 0 (draws_of 1 rs))).
Proof. exact C117_refuted_lemma. Qed.
Print Assumptions C117_refuted.
(** The exponential functions of these theorems: one correctly rounded, or exact. *)
Example C116_exp_example : good_exp (fun x => rnd (exp x)) /\ good_exp exp.
Proof. exact C116_exp_lemma. Qed.
Example C116_update_example : In (OR, AND) implemented /\ okmat 2 1 [[1]; [-1]]%Z /\ okmat 2 1 [[1]; [1]]%Z /\ okmat 1 1 [[-1]]%Z /\ has_shape2 [[1; 0]; [-1; 1]]%Z 2 2 /\ tern2 [[1; 0]; [-1; 1]]%Z /\
  Rabs (0 - logit (1 / 2)) <= 0 /\ INR (2 * 1) * ((10 + 3 * Rabs 0) * roundoff + 0) = 20 * roundoff.
Proof. exact C116_example_lemma. Qed.
