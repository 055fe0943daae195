(** C105, C106: updates under degenerate priors and infinite dispersions. *)
From Coq Require Import String Lra.
From Verif Require Import Base BaseLemmas BaseR Spec SpecR Sampling SamplingProofs Extended SpecExtended ExtendedProofs ExtendedExamples.
Local Open Scope R_scope.

(** C105. With a prior strictly inside the unit interval and finite dispersions, the samplers over
    extended floats are those of Sampling.v; the other theorems therefore extend, not replace, C10-C15. *)
Theorem C105_agree : forall c fixed p rand, 0 < p < 1 ->
  run_call_x (fin_call c) fixed p rand = run_call c fixed p rand.
Proof. exact C105_agree_lemma. Qed.
Print Assumptions C105_agree.

Example C105_agree_example :
  run_call_x (OneChild2 "OR-AND" 0 [[-1]] [[1]] [[1]] (Fin 1))%Z [[0]]%Z (1 / 2) (fun _ _ => 0) = Ok [[1]]%Z.
Proof. exact agree_example. Qed.

(** C105. A prior of 1 (of 0) sets every entry that is not fixed to 1 (to -1), whatever the data,
    the dispersions, the other factors and the draws; fixed entries stay. *)
Theorem C105_certain_priors : forall c N L fixed rand, known c -> okmat N L (target c) -> draws_ok rand N L ->
  (exists Z', run_call_x (fin_call c) fixed 1 rand = Ok Z' /\ pinned 1 fixed (target c) Z' N L) /\
  (exists Z', run_call_x (fin_call c) fixed 0 rand = Ok Z' /\ pinned (-1) fixed (target c) Z' N L).
Proof. exact C105_pinned_lemma. Qed.
Print Assumptions C105_certain_priors.

(** The data ask for the opposite of both priors; the second entry is fixed. *)
Example C105_certain_priors_example :
  let c := OneChild2 "OR-AND" 0 [[-1; -1]]%Z [[1; 1]; [1; 1]]%Z [[-1; -1]]%Z 2 in
  known c /\ okmat 1 2 (target c) /\
  run_call_x (fin_call c) [[0; 1]]%Z 1 (fun _ _ => 1 / 2) = Ok [[1; -1]]%Z.
Proof. exact certain_example. Qed.

(** C105. Priors outside the unit interval: every update succeeds and changes nothing. *)
Theorem C105_out_of_range : forall c N L fixed p rand, known c -> okmat N L (target c) -> p < 0 \/ 1 < p ->
  run_call_x c fixed p rand = Ok (target c).
Proof. exact C105_frozen_lemma. Qed.
Print Assumptions C105_out_of_range.

(** C105 in full asks that such priors be rejected. They are not. *)
Theorem C105_rejected_refuted :
  ~ (forall c N L fixed p rand, known c -> okmat N L (target c) -> p < 0 \/ 1 < p ->
       exists e, run_call_x c fixed p rand = Err e).
Proof. exact rejected_refuted. Qed.
Print Assumptions C105_rejected_refuted.

Example C105_out_of_range_example :
  let c := OneChild2 "OR-AND" 0 [[-1]]%Z [[1]]%Z [[1]]%Z (Fin 5) in
  known c /\ okmat 1 1 (target c) /\ run_call_x c [[0]]%Z 2 (fun _ _ => 0) = Ok [[-1]]%Z.
Proof. exact out_of_range_example. Qed.

(** C106. Infinite dispersion, two factors: a greedy pass. Each free entry is set to the value that
    agrees with more of the data given all others, and kept if both agree equally. *)
Theorem C106_greedy_2d : forall o i, In (o, i) implemented -> forall out, is_output o i out ->
  forall N D L (A B fixed X : mat) p r, okmat N L A -> okmat D L B -> has_shape2 X N D -> tern2 X -> 0 < p < 1 ->
  ((Z.of_nat D <= 32767)%Z -> draws_ok r N L -> exists A',
     run_call_x (OneChild2 (model_name o i) 0 A B X PInf) fixed p r = Ok A' /\
     greedy (gains (fun A' => agreement2 out X N D L A' B)) fixed (row_by_row N L) A A') /\
  ((Z.of_nat N <= 32767)%Z -> draws_ok r D L -> exists B',
     run_call_x (OneChild2 (model_name o i) 1 A B X PInf) fixed p r = Ok B' /\
     greedy (gains (fun B' => agreement2 out X N D L A B')) fixed (row_by_row D L) B B').
Proof. exact C106_two_lemma. Qed.
Print Assumptions C106_greedy_2d.

(** C106, three factors. *)
Theorem C106_greedy_3d : forall o i, In (o, i) implemented -> forall out, is_output o i out ->
  forall N D M L (A B C fixed : mat) (X : ten) p r,
  okmat N L A -> okmat D L B -> okmat M L C -> has_shape3 X N D M -> 0 < p < 1 ->
  (draws_ok r N L -> exists A',
     run_call_x (OneChild3 (model_name o i) 0 A B C X PInf) fixed p r = Ok A' /\
     greedy (gains (fun A' => agreement3 out X N D M L A' B C)) fixed (row_by_row N L) A A') /\
  (draws_ok r D L -> exists B',
     run_call_x (OneChild3 (model_name o i) 1 A B C X PInf) fixed p r = Ok B' /\
     greedy (gains (fun B' => agreement3 out X N D M L A B' C)) fixed (row_by_row D L) B B') /\
  (draws_ok r M L -> exists C',
     run_call_x (OneChild3 (model_name o i) 2 A B C X PInf) fixed p r = Ok C' /\
     greedy (gains (fun C' => agreement3 out X N D M L A B C')) fixed (row_by_row M L) C C').
Proof. exact C106_three_lemma. Qed.
Print Assumptions C106_greedy_3d.

(** Three entries: one the data want on, one they want off, one they say nothing about. *)
Example C106_greedy_example :
  run_call_x (OneChild2 "OR-AND" 0 [[-1; 1; -1]] [[1; -1; -1]; [-1; 1; -1]] [[1; -1]] PInf)%Z [[0; 0; 0]]%Z (9 / 10)
    (fun _ _ => 1 / 2) = Ok [[1; -1; -1]]%Z.
Proof. exact greedy_example. Qed.

(** C106. Infinite parent dispersion: with a finite dispersion below (or no child), the matrix
    becomes its parents' output. *)
Theorem C106_noise_free_parent : forall op ip, In (op, ip) implemented -> forall out, is_output op ip out ->
  forall P Q K a1 a2 fixed p r, okmat P K a1 -> okmat Q K a2 -> 0 < p < 1 -> draws_ok r P Q ->
  (forall Z_, okmat P Q Z_ -> exists Z', run_call_x (NoChildOneParent (model_name op ip) Z_ a1 a2 PInf) fixed p r = Ok Z' /\
     has_shape2 Z' P Q /\ forall n l, (n < P)%nat -> (l < Q)%nat ->
       at2 Z' n l = if (at2 fixed n l =? 1)%Z then at2 Z_ n l else out [row a1 n; row a2 l] K) /\
  (forall m ax A B X lbda, named m -> let Z_ := if Nat.eqb ax 0 then A else B in okmat P Q Z_ ->
     exists Z', run_call_x (OneChildOneParent m (model_name op ip) ax A B X (Fin lbda) a1 a2 PInf) fixed p r = Ok Z' /\
     has_shape2 Z' P Q /\ forall n l, (n < P)%nat -> (l < Q)%nat ->
       at2 Z' n l = if (at2 fixed n l =? 1)%Z then at2 Z_ n l else out [row a1 n; row a2 l] K).
Proof. exact C106_parent_lemma. Qed.
Print Assumptions C106_noise_free_parent.

Example C106_noise_free_parent_example :
  okmat 2 1 [[1]; [-1]]%Z /\ okmat 2 1 [[1]; [1]]%Z /\ okmat 2 2 [[-1; -1]; [1; 1]]%Z /\
  run_call_x (NoChildOneParent "OR-AND" [[-1; -1]; [1; 1]] [[1]; [-1]] [[1]; [1]] PInf)%Z [[0; 1]; [0; 0]]%Z (1 / 2)
    (fun _ _ => 1 / 2) = Ok [[1; -1]; [-1; -1]]%Z.
Proof. exact parent_example. Qed.

(** C106. Two infinite parent dispersions: the matrix becomes the parents' output where they agree; where they do not,
    the infinities cancel to NaN and the entry is not updated. *)
Theorem C106_conflict : forall op ip, In (op, ip) implemented -> forall out, is_output op ip out ->
  forall P Q K K' a1 a2 b1 b2 Z_ fixed p r, okmat P K a1 -> okmat Q K a2 -> okmat P K' b1 -> okmat Q K' b2 -> okmat P Q Z_ -> 0 < p < 1 -> draws_ok r P Q ->
  exists Z', run_call_x (NoChildTwoParents (model_name op ip) (model_name op ip) Z_ a1 a2 PInf b1 b2 PInf) fixed p r = Ok Z' /\
  has_shape2 Z' P Q /\ forall n l, (n < P)%nat -> (l < Q)%nat ->
    at2 Z' n l = if (at2 fixed n l =? 1)%Z then at2 Z_ n l
                 else if (out [row a1 n; row a2 l] K =? out [row b1 n; row b2 l] K')%Z then out [row a1 n; row a2 l] K else at2 Z_ n l.
Proof. exact C106_conflict_lemma. Qed.
Print Assumptions C106_conflict.

(** The parents agree on the first entry only. *)
Example C106_conflict_example :
  okmat 1 1 [[1]]%Z /\ okmat 2 1 [[1]; [1]]%Z /\ okmat 2 1 [[1]; [-1]]%Z /\ okmat 1 2 [[-1; 1]]%Z /\
  run_call_x (NoChildTwoParents "OR-AND" "OR-AND" [[-1; 1]] [[1]] [[1]; [1]] PInf [[1]] [[1]; [-1]] PInf)%Z [[0; 0]]%Z (1 / 2)
    (fun _ _ => 1 / 2) = Ok [[1; 1]]%Z.
Proof. exact conflict_example. Qed.

(** C106 in full asks that an infinite dispersion be the limit of large ones: an update with the same
    result for every finite dispersion has it for the infinite one as well. False: an entry the data say
    nothing about follows the prior under every finite dispersion and is never updated under an infinite one. *)
Theorem C106_limit_refuted :
  ~ (forall model ax A B X fixed p rand Z', named model -> 0 < p < 1 ->
       (forall lbda, run_call_x (OneChild2 model ax A B X (Fin lbda)) fixed p rand = Ok Z') ->
       run_call_x (OneChild2 model ax A B X PInf) fixed p rand = Ok Z').
Proof. exact limit_refuted. Qed.
Print Assumptions C106_limit_refuted.
