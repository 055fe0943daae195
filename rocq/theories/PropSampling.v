(** C10 - C16: the samplers. *)
From Coq Require Import String.
From Coquelicot Require Import RInt Hierarchy.
From Verif Require Import Base BaseR Spec Scores SpecR Sampling SamplingProofs
  Invariance InvarianceProofs HierProofs Parallel ParallelProofs SamplingExamples.
Local Open Scope R_scope.

(** C10. An update of factor A (axis 0) or B (axis 1) of a two-factor layer is exactly the reference
    sweep, which resamples every non-fixed entry from its conditional under the joint posterior. *)
Theorem C10_conditional_2d : forall o i, In (o, i) implemented -> forall out, is_output o i out ->
  forall N D L (A B fixed X : mat) lbda pA pB r,
    has_shape2 A N L -> bin2 A -> has_shape2 B D L -> bin2 B -> has_shape2 X N D -> tern2 X ->
    0 < pA < 1 -> 0 < pB < 1 ->
    ((Z.of_nat D <= 32767)%Z -> draws_ok r N L ->
      LOM_sampler_2d (model_name o i) 0 A B fixed X lbda pA r =
      Ok (ref_sweep (fun A' => post2 out lbda X N D L pA pB A' B) fixed r N L A)) /\
    ((Z.of_nat N <= 32767)%Z -> draws_ok r D L ->
      LOM_sampler_2d (model_name o i) 1 A B fixed X lbda pB r =
      Ok (ref_sweep (fun B' => post2 out lbda X N D L pA pB A B') fixed r D L B)).
Proof. exact C10_2_lemma. Qed.
Print Assumptions C10_conditional_2d.

(** C10, three factors; no bound on the sizes, any integer data. *)
Theorem C10_conditional_3d : forall o i, In (o, i) implemented -> forall out, is_output o i out ->
  forall N D M L (A B C fixed : mat) (X : ten) lbda pA pB pC r,
    has_shape2 A N L -> bin2 A -> has_shape2 B D L -> bin2 B -> has_shape2 C M L -> bin2 C ->
    has_shape3 X N D M ->
    0 < pA < 1 -> 0 < pB < 1 -> 0 < pC < 1 ->
    (draws_ok r N L ->
      LOM_sampler_3d (model_name o i) 0 A B C fixed X lbda pA r =
      Ok (ref_sweep (fun A' => post3 out lbda X N D M L pA pB pC A' B C) fixed r N L A)) /\
    (draws_ok r D L ->
      LOM_sampler_3d (model_name o i) 1 A B C fixed X lbda pB r =
      Ok (ref_sweep (fun B' => post3 out lbda X N D M L pA pB pC A B' C) fixed r D L B)) /\
    (draws_ok r M L ->
      LOM_sampler_3d (model_name o i) 2 A B C fixed X lbda pC r =
      Ok (ref_sweep (fun C' => post3 out lbda X N D M L pA pB pC A B C') fixed r M L C)).
Proof. exact C10_3_lemma. Qed.
Print Assumptions C10_conditional_3d.

(** A 2 x 2 data matrix with a missing entry; entry (1,0) has log-odds lambda * 1 + logit(1/4). *)
Example C10_example : forall out, is_output XOR AND out ->
  In (XOR, AND) implemented /\ okmat 2 2 exA /\ okmat 2 2 exB /\ has_shape2 exX 2 2 /\ tern2 exX /\
  log_odds (fun A' => post2 out 2 exX 2 2 2 (1/4) (1/2) A' exB) exA 1 0 = 2 + ln (1 / 3).
Proof. exact C10_example_lemma. Qed.

(** C11. A matrix without child and with one parent layer. *)
Theorem C11_no_child_one_parent :
  forall op ip, In (op, ip) implemented -> forall outp, is_output op ip outp ->
  forall N L K A fixed p r a1 a2 la,
    okmat N L A -> 0 < p < 1 -> draws_ok r N L -> okmat N K a1 -> okmat L K a2 ->
    LOM_sampler_0c1p_2d (model_name op ip) A fixed a1 a2 la p r =
      Ok (ref_sweep (fun A' => prior p N L A' * parent_lik outp la a1 a2 N L K A') fixed r N L A).
Proof. exact nochild_oneparent. Qed.
Print Assumptions C11_no_child_one_parent.

(** C11. Without child, two parents of the same model. *)
Theorem C11_no_child_two_parents :
  forall op ip, In (op, ip) implemented -> forall outp, is_output op ip outp ->
  forall N L K K' A fixed p r a1 a2 la a1' a2' la',
    okmat N L A -> 0 < p < 1 -> draws_ok r N L ->
    okmat N K a1 -> okmat L K a2 -> okmat N K' a1' -> okmat L K' a2' ->
    LOM_sampler_0c2p_2d (model_name op ip) (model_name op ip) A fixed a1 a2 la a1' a2' la' p r =
      Ok (ref_sweep (fun A' => prior p N L A' * parent_lik outp la a1 a2 N L K A'
                               * parent_lik outp la' a1' a2' N L K' A') fixed r N L A).
Proof. exact nochild_twoparents. Qed.
Print Assumptions C11_no_child_two_parents.

(** C11. A factor (axis 0, axis 1) of a layer, generated by one parent layer. *)
Theorem C11_child_one_parent :
  forall o i op ip, In (o, i) implemented -> In (op, ip) implemented ->
  forall out outp, is_output o i out -> is_output op ip outp ->
  forall N D L A B fixed X lbda pA pB r,
    okmat N L A -> okmat D L B -> has_shape2 X N D -> tern2 X -> 0 < pA < 1 -> 0 < pB < 1 ->
    (forall K a1 a2 la, (Z.of_nat D <= 32767)%Z -> draws_ok r N L -> okmat N K a1 -> okmat L K a2 ->
       LOM_sampler_1c1p_2d (model_name o i) (model_name op ip) 0 A B fixed X lbda a1 a2 la pA r =
       Ok (ref_sweep (fun A' => post2 out lbda X N D L pA pB A' B * parent_lik outp la a1 a2 N L K A') fixed r N L A)) /\
    (forall K a1 a2 la, (Z.of_nat N <= 32767)%Z -> draws_ok r D L -> okmat D K a1 -> okmat L K a2 ->
       LOM_sampler_1c1p_2d (model_name o i) (model_name op ip) 1 A B fixed X lbda a1 a2 la pB r =
       Ok (ref_sweep (fun B' => post2 out lbda X N D L pA pB A B' * parent_lik outp la a1 a2 D L K B') fixed r D L B)).
Proof. exact C11_child_one_parent_lemma. Qed.
Print Assumptions C11_child_one_parent.

(** C11. A factor of a layer, generated by two parent layers of the same model. *)
Theorem C11_child_two_parents :
  forall o i op ip, In (o, i) implemented -> In (op, ip) implemented ->
  forall out outp, is_output o i out -> is_output op ip outp ->
  forall N D L A B fixed X lbda pA pB r,
    okmat N L A -> okmat D L B -> has_shape2 X N D -> tern2 X -> 0 < pA < 1 -> 0 < pB < 1 ->
    (forall K K' a1 a2 la a1' a2' la', (Z.of_nat D <= 32767)%Z -> draws_ok r N L ->
       okmat N K a1 -> okmat L K a2 -> okmat N K' a1' -> okmat L K' a2' ->
       LOM_sampler_1c2p_2d (model_name o i) (model_name op ip) (model_name op ip) 0 A B fixed X lbda a1 a2 la a1' a2' la' pA r =
       Ok (ref_sweep (fun A' => post2 out lbda X N D L pA pB A' B * parent_lik outp la a1 a2 N L K A'
                                * parent_lik outp la' a1' a2' N L K' A') fixed r N L A)) /\
    (forall K K' a1 a2 la a1' a2' la', (Z.of_nat N <= 32767)%Z -> draws_ok r D L ->
       okmat D K a1 -> okmat L K a2 -> okmat D K' a1' -> okmat L K' a2' ->
       LOM_sampler_1c2p_2d (model_name o i) (model_name op ip) (model_name op ip) 1 A B fixed X lbda a1 a2 la a1' a2' la' pB r =
       Ok (ref_sweep (fun B' => post2 out lbda X N D L pA pB A B' * parent_lik outp la a1 a2 D L K B'
                                * parent_lik outp la' a1' a2' D L K' B') fixed r D L B)).
Proof. exact C11_child_two_parents_lemma. Qed.
Print Assumptions C11_child_two_parents.

(** The parent's contribution in a concrete state: out(1,-1 ; 1,1) of OR-AND is 1, so it adds 3 * 1. *)
Example C11_example : forall outp, is_output OR AND outp ->
  okmat 2 2 exA /\ okmat 2 2 exB /\ In (OR, AND) implemented /\
  log_odds (fun A' => prior (1/4) 2 2 A' * parent_lik outp 3 exA exB 2 2 2 A') exA 0 0 = 3 + ln (1 / 3) /\
  log_odds (fun A' => prior (1/4) 2 2 A' * parent_lik outp 3 exA exB 2 2 2 A') exA 0 1 = -3 + ln (1 / 3).
Proof. exact C11_example_lemma. Qed.

(** C12 is false of the code: for every pair of different implemented parent models there are a state and
    draws for which the update is not the reference sweep of the joint posterior (the second parent's
    model is used for both parents). *)
Theorem C12_two_parent_models_refuted : forall o1 i1 o2 i2, In (o1, i1) implemented -> In (o2, i2) implemented -> (o1, i1) <> (o2, i2) ->
  forall out1 out2, is_output o1 i1 out1 -> is_output o2 i2 out2 ->
  exists N L K A fixed a1 a2 la a1' a2' la' p r,
    okmat N L A /\ 0 < p < 1 /\ draws_ok r N L /\ okmat N K a1 /\ okmat L K a2 /\ okmat N K a1' /\ okmat L K a2' /\
    0 < la /\ 0 < la' /\
    LOM_sampler_0c2p_2d (model_name o1 i1) (model_name o2 i2) A fixed a1 a2 la a1' a2' la' p r <>
      Ok (ref_sweep (fun A' => prior p N L A' * parent_lik out1 la a1 a2 N L K A'
                               * parent_lik out2 la' a1' a2' N L K A') fixed r N L A).
Proof. exact C12_lemma. Qed.
Print Assumptions C12_two_parent_models_refuted.

(** C13. One flip: which draws flip, their measure, the sign of exponents, the classic variant. *)
Theorem C13_flip : forall lo z, pm1 z ->
  let a := Rmin 1 (exp (- IZR z * lo)) in
  (forall r, is_draw r ->
    (flip_metropolised_gibbs_numba lo z r = (- z)%Z <-> r < a) /\
    (flip_metropolised_gibbs_numba lo z r = z <-> a <= r)) /\
  is_RInt (fun r => if Z.eqb (flip_metropolised_gibbs_numba lo z r) (- z) then 1 else 0) 0 1 a /\
  (forall e, flip_metropolised_branch lo z = CompareExp e -> e <= 0) /\
  (forall r, is_draw r -> flip_metropolised_gibbs_numba_classic (sigma lo) z r = flip_metropolised_gibbs_numba lo z r).
Proof. exact C13_lemma. Qed.
Print Assumptions C13_flip.

(** C13. Detailed balance of these acceptance probabilities with respect to P(z = 1) = sigma(lo). *)
Theorem C13_detailed_balance : forall lo,
  sigma lo * Rmin 1 (exp (- lo)) = (1 - sigma lo) * Rmin 1 (exp lo).
Proof. exact C13_balance_lemma. Qed.
Print Assumptions C13_detailed_balance.

(** C13. The plain Gibbs flip returns 1 with probability p. *)
Theorem C13_gibbs_flip : forall p, 0 <= p <= 1 ->
  (forall r, is_draw r -> (flip_gibbs_numba p r = 1%Z <-> r < p) /\ pm1 (flip_gibbs_numba p r)) /\
  is_RInt (fun r => if Z.eqb (flip_gibbs_numba p r) 1 then 1 else 0) 0 1 p.
Proof. exact C13_gibbs_lemma. Qed.
Print Assumptions C13_gibbs_flip.

Example C13_example :
  flip_metropolised_gibbs_numba 1 1 (1/4) = (-1)%Z /\ flip_metropolised_gibbs_numba 1 1 (1/2) = 1%Z /\
  flip_metropolised_gibbs_numba 1 (-1) (1/2) = 1%Z.
Proof. exact C13_example_lemma. Qed.

(** C14. The update leaves the posterior invariant, on the factors that agree with the current one on the
    fixed cells. *)
Theorem C14_invariance_2d : forall o i, In (o, i) implemented -> forall out, is_output o i out ->
  forall N D L (A B fixed X : mat) lbda pA pB,
    okmat N L A -> okmat D L B -> has_shape2 X N D -> tern2 X ->
    0 < pA < 1 -> 0 < pB < 1 ->
    ((Z.of_nat D <= 32767)%Z ->
      invariant (fun A' r => LOM_sampler_2d (model_name o i) 0 A' B fixed X lbda pA r)
        (fun A' => post2 out lbda X N D L pA pB A' B) (filter (agrees fixed A N L) (all_mats N L)) N L) /\
    ((Z.of_nat N <= 32767)%Z ->
      invariant (fun B' r => LOM_sampler_2d (model_name o i) 1 A B' fixed X lbda pB r)
        (fun B' => post2 out lbda X N D L pA pB A B') (filter (agrees fixed B D L) (all_mats D L)) D L).
Proof. exact C14_2_lemma. Qed.
Print Assumptions C14_invariance_2d.

Theorem C14_invariance_3d : forall o i, In (o, i) implemented -> forall out, is_output o i out ->
  forall N D M L (A B C fixed : mat) (X : ten) lbda pA pB pC,
    okmat N L A -> okmat D L B -> okmat M L C -> has_shape3 X N D M ->
    0 < pA < 1 -> 0 < pB < 1 -> 0 < pC < 1 ->
    let post := post3 out lbda X N D M L pA pB pC in
    invariant (fun A' r => LOM_sampler_3d (model_name o i) 0 A' B C fixed X lbda pA r)
      (fun A' => post A' B C) (filter (agrees fixed A N L) (all_mats N L)) N L /\
    invariant (fun B' r => LOM_sampler_3d (model_name o i) 1 A B' C fixed X lbda pB r)
      (fun B' => post A B' C) (filter (agrees fixed B D L) (all_mats D L)) D L /\
    invariant (fun C' r => LOM_sampler_3d (model_name o i) 2 A B C' fixed X lbda pC r)
      (fun C' => post A B C') (filter (agrees fixed C M L) (all_mats M L)) M L.
Proof. exact C14_3_lemma. Qed.
Print Assumptions C14_invariance_3d.

(** C14 with one parent layer. *)
Theorem C14_invariance_hierarchical : forall op ip, In (op, ip) implemented -> forall outp, is_output op ip outp ->
  forall N L K A fixed p a1 a2 la, okmat N L A -> 0 < p < 1 -> okmat N K a1 -> okmat L K a2 ->
  invariant (fun A' r => LOM_sampler_0c1p_2d (model_name op ip) A' fixed a1 a2 la p r)
    (fun A' => prior p N L A' * parent_lik outp la a1 a2 N L K A')
    (filter (agrees fixed A N L) (all_mats N L)) N L /\
  (forall o i, In (o, i) implemented -> forall out, is_output o i out -> forall D B X lbda pB,
     okmat D L B -> has_shape2 X N D -> tern2 X -> 0 < pB < 1 -> (Z.of_nat D <= 32767)%Z ->
     invariant (fun A' r => LOM_sampler_1c1p_2d (model_name o i) (model_name op ip) 0 A' B fixed X lbda a1 a2 la p r)
       (fun A' => post2 out lbda X N D L p pB A' B * parent_lik outp la a1 a2 N L K A')
       (filter (agrees fixed A N L) (all_mats N L)) N L).
Proof. exact C14_h_lemma. Qed.
Print Assumptions C14_invariance_hierarchical.

(** One fixed cell of four leaves 8 states. *)
Example C14_example :
  okmat 2 2 exA /\ okmat 2 2 exB /\ has_shape2 exX 2 2 /\ tern2 exX /\
  List.length (filter (agrees exF exA 2 2) (all_mats 2 2)) = 8%nat.
Proof. exact C14_example_lemma. Qed.

(** C15. Whatever the model, data, parameters and draws. *)
Theorem C15_shape_entries_fixed : forall N L Z_ fixed r Z', okmat N L Z_ ->
  (forall model B X lbda p, LOM_sampler_2d model 0 Z_ B fixed X lbda p r = Ok Z' -> kept fixed Z_ Z' N L) /\
  (forall model A X lbda p, LOM_sampler_2d model 1 A Z_ fixed X lbda p r = Ok Z' -> kept fixed Z_ Z' N L) /\
  (forall model B C X lbda p, LOM_sampler_3d model 0 Z_ B C fixed X lbda p r = Ok Z' -> kept fixed Z_ Z' N L) /\
  (forall model A C X lbda p, LOM_sampler_3d model 1 A Z_ C fixed X lbda p r = Ok Z' -> kept fixed Z_ Z' N L) /\
  (forall model A B X lbda p, LOM_sampler_3d model 2 A B Z_ fixed X lbda p r = Ok Z' -> kept fixed Z_ Z' N L) /\
  (forall model pm B X lbda a1 a2 la p,
     LOM_sampler_1c1p_2d model pm 0 Z_ B fixed X lbda a1 a2 la p r = Ok Z' -> kept fixed Z_ Z' N L) /\
  (forall model pm A X lbda a1 a2 la p,
     LOM_sampler_1c1p_2d model pm 1 A Z_ fixed X lbda a1 a2 la p r = Ok Z' -> kept fixed Z_ Z' N L) /\
  (forall pm a1 a2 la p, LOM_sampler_0c1p_2d pm Z_ fixed a1 a2 la p r = Ok Z' -> kept fixed Z_ Z' N L) /\
  (forall pm1 pm2 a1 a2 la b1 b2 lb p,
     LOM_sampler_0c2p_2d pm1 pm2 Z_ fixed a1 a2 la b1 b2 lb p r = Ok Z' -> kept fixed Z_ Z' N L) /\
  (forall model pm1 pm2 B X lbda a1 a2 la b1 b2 lb p,
     LOM_sampler_1c2p_2d model pm1 pm2 0 Z_ B fixed X lbda a1 a2 la b1 b2 lb p r = Ok Z' -> kept fixed Z_ Z' N L) /\
  (forall model pm1 pm2 A X lbda a1 a2 la b1 b2 lb p,
     LOM_sampler_1c2p_2d model pm1 pm2 1 A Z_ fixed X lbda a1 a2 la b1 b2 lb p r = Ok Z' -> kept fixed Z_ Z' N L).
Proof. exact C15_lemma. Qed.
Print Assumptions C15_shape_entries_fixed.

(** All draws 0: every non-fixed entry flips, the fixed one stays. *)
Example C15_example :
  LOM_sampler_2d "XOR-AND" 0 exA exB exF exX 2 (1/4) (fun _ _ => 0) = Ok [[-1; -1]; [-1; -1]]%Z.
Proof. exact zero_draws_lemma. Qed.

(** C16. The possible results of the parallel sweep, over all interleavings, are exactly the result of the
    sequential one; and any schedule that gives every row L * (L + 1) steps completes. *)
Theorem C16_schedule_independent : forall logit fixed rand N L Z_,
  sampler_logit logit -> has_shape2 Z_ N L ->
  (forall Z', parallel_result logit fixed rand Z_ Z' <-> Z' = sample_loop logit Z_ fixed rand) /\
  (forall sched, (forall n, (n < N)%nat -> (L * S L <= count_occ Nat.eq_dec sched n)%nat) ->
     finished (ncols Z_) (exec logit fixed rand (ncols Z_) sched (pinit Z_))).
Proof. exact C16_full. Qed.
Print Assumptions C16_schedule_independent.

Example C16_example : forall score la lp rand,
  let lg := logit_onechild_2d score exB exX la lp in
  let sched := [0; 1; 1; 0; 0; 1; 0; 1; 1; 0; 1; 0; 1; 1]%nat in
  sampler_logit lg /\ has_shape2 exA 2 2 /\
  finished 2 (exec lg exF rand 2 sched (pinit exA)) /\
  fst (exec lg exF rand 2 sched (pinit exA)) = sample_loop lg exA exF rand.
Proof. exact C16_example_lemma. Qed.
