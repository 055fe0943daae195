(** C114: fuzzy outputs in double precision. C115: means, decisions and probabilities of saved samples in double precision. *)
From Verif Require Import Base BaseR Spec SpecF SpecFloat FloatFuzzy FloatProofs7 FloatProofs8 FloatProofs9.
From Coq Require Import String.
Local Open Scope R_scope.

(** The rounding used in the model gives the nearest double. *)
Theorem C114_rounding : forall x, is_double (rnd x) /\ (forall y, is_double y -> Rabs (rnd x - x) <= Rabs (y - x)) /\ (is_double x -> rnd x = x).
Proof. exact C114_rounding_lemma. Qed.
Example C114_ties_example : rnd (1 + roundoff) = 1 /\ rnd (1 + 3 * roundoff) = 1 + 4 * roundoff.
Proof. exact C114_ties_lemma. Qed.
(** Two factors: outputs in double precision are within a few roundings per dimension of the probability (of their square for XOR). *)
Theorem C114_error_2d : forall o i, In (o, i) implemented -> exists f, a_output_2d double (model_name o i) = Some f /\
  forall z u L p, List.length z = L -> List.length u = L -> probs z -> probs u -> (Z.of_nat L <= 2 ^ 20)%Z ->
  is_prob o i 2 L (fun k l => nth l (nth k [z; u] []) 0) p ->
  Rabs (f z u - p) <= match o with XOR => 29 * INR L * INR L + 11 * INR L | _ => 14 * INR L + 2 end * roundoff.
Proof. exact C114_error_lemma. Qed.
Theorem C114_error_3d : forall o i, In (o, i) implemented -> (o, i) <> (OR, XOR) -> exists f, a_output_3d double (model_name o i) = Some f /\
  forall z u v L p, List.length z = L -> List.length u = L -> List.length v = L -> probs z -> probs u -> probs v -> (Z.of_nat L <= 2 ^ 20)%Z ->
  is_prob o i 3 L (fun k l => nth l (nth k [z; u; v] []) 0) p ->
  Rabs (f z u v - p) <= match o with XOR => 269 * INR L * INR L + 71 * INR L | _ => 36 * INR L + 2 end * roundoff.
Proof. exact C114_error3_lemma. Qed.
(** Two factors: never negative and never above 1; for an outer XOR the upper bound is proved up to 4096 dimensions. *)
Theorem C114_range_2d : forall o i, In (o, i) implemented -> exists f, a_output_2d double (model_name o i) = Some f /\
  forall z u L, List.length z = L -> List.length u = L -> probs z -> probs u -> Forall is_double z -> Forall is_double u ->
  0 <= f z u /\ (o <> XOR \/ (Z.of_nat L <= 4096)%Z -> f z u <= 1).
Proof. exact C114_range_all_lemma. Qed.
(** Three factors. The full statement has [In (o, i) implemented] only; it fails for XOR-XOR and XOR-NXOR (C114_refuted) and for OR-XOR, whose formula is wrong in exact arithmetic already (C20). *)
Theorem C114_range_3d_partial : forall o i, In (o, i) implemented -> In (o, i) [(OR, AND); (OR, NAND); (NAND, XOR); (XOR, AND); (XOR, NAND)] -> exists f, a_output_3d double (model_name o i) = Some f /\
  forall z u v L, List.length z = L -> List.length u = L -> List.length v = L -> probs z -> probs u -> probs v -> Forall is_double z -> Forall is_double u -> Forall is_double v ->
  0 <= f z u v /\ (o <> XOR \/ (Z.of_nat L <= 4096)%Z -> f z u v <= 1).
Proof. exact C114_range3_all_lemma. Qed.
(** Certain factors: no rounding error at all. *)
Theorem C114_certain_2d : forall o i, In (o, i) implemented -> exists f, a_output_2d double (model_name o i) = Some f /\
  forall a b L x, List.length a = L -> List.length b = L -> (Z.of_nat L <= 2 ^ 20)%Z -> lom_output o i [a; b] L x ->
  f (certain a) (certain b) = (1 + IZR x) / 2.
Proof. exact C114_certain_lemma. Qed.
Theorem C114_certain_3d : forall o i, In (o, i) implemented -> (o, i) <> (OR, XOR) -> exists f, a_output_3d double (model_name o i) = Some f /\
  forall a b c L x, List.length a = L -> List.length b = L -> List.length c = L -> (Z.of_nat L <= 2 ^ 20)%Z -> lom_output o i [a; b; c] L x ->
  f (certain a) (certain b) (certain c) = (1 + IZR x) / 2.
Proof. exact C114_certain3_lemma. Qed.
(** Three factors: means of three samples give a negative probability and one above 1. *)
Theorem C114_refuted : let z := [double_prob [1; 1; 1]%Z] in let v := [double_prob [-1; -1; 1]%Z] in
  probs z /\ probs v /\ Forall is_double z /\ Forall is_double v /\
  exists f g, a_output_3d double "XOR-XOR" = Some f /\ a_output_3d double "XOR-NXOR" = Some g /\
  f z z v = - (5 * roundoff) /\ g z z v = 1 + 4 * roundoff /\ f z z v < 0 /\ 1 < g z z v.
Proof. exact C114_refuted_lemma. Qed.
Example C114_example : let z := [1 / 2; 1 / 4] in let u := [1; 3 / 8] in probs z /\ probs u /\ Forall is_double z /\ Forall is_double u /\
  exists p, is_prob XOR AND 2 2 (fun k l => nth l (nth k [z; u] []) 0) p /\ p = 1 / 2.
Proof. exact C114_example_lemma. Qed.
Example C114_certain_example : lom_output XOR AND [[1; -1]%Z; [1; 1]%Z] 2 1 /\ certain [1; -1]%Z = [1; 0].
Proof. exact C114_certain_example_lemma. Qed.

(** Means of saved samples. *)
Theorem C115_mean : forall xs, samples xs -> (1 <= Z.of_nat (List.length xs) <= 2 ^ 53)%Z ->
  Rabs (double_mean xs - (2 * share xs - 1)) <= roundoff /\ -1 <= double_mean xs <= 1 /\
  (double_mean xs = 1 <-> hits xs = List.length xs) /\ (double_mean xs = -1 <-> hits xs = 0%nat).
Proof. exact C115_mean_lemma. Qed.
(** The sign decision is the strict majority: no rounding can turn it. *)
Theorem C115_map : forall xs, samples xs -> (1 <= Z.of_nat (List.length xs) <= 2 ^ 53)%Z ->
  (double_map xs = 1%Z <-> (List.length xs < 2 * hits xs)%nat) /\ (double_map xs = (-1)%Z <-> (2 * hits xs <= List.length xs)%nat).
Proof. exact C115_map_lemma. Qed.
(** Probabilities from means, and Monte Carlo averages of outputs. *)
Theorem C115_prob : forall xs, samples xs -> (1 <= Z.of_nat (List.length xs) <= 2 ^ 53)%Z -> double_mc xs = double_prob xs /\
  0 <= double_prob xs <= 1 /\ is_double (double_prob xs) /\ Rabs (double_prob xs - share xs) <= 5 / 2 * roundoff /\
  (hits xs = List.length xs -> double_prob xs = 1) /\ (hits xs = 0%nat -> double_prob xs = 0).
Proof. exact C115_prob_lemma. Qed.
(** From saved samples to an output of 'factor_mean': distance to the probability for the exact shares. *)
Theorem C115_factor_mean_2d : forall o i, In (o, i) implemented -> exists f, a_output_2d double (model_name o i) = Some f /\
  forall zs us L p, List.length zs = L -> List.length us = L -> (Z.of_nat L <= 2 ^ 20)%Z ->
  Forall (fun xs => samples xs /\ (1 <= Z.of_nat (List.length xs) <= 2 ^ 53)%Z) (zs ++ us) ->
  is_prob o i 2 L (fun k l => nth l (nth k [map share zs; map share us] []) 0) p ->
  (0 <= f (map double_prob zs) (map double_prob us) /\ (o <> XOR \/ (Z.of_nat L <= 4096)%Z -> f (map double_prob zs) (map double_prob us) <= 1)) /\
  Rabs (f (map double_prob zs) (map double_prob us) - p) <= match o with XOR => 29 * INR L * INR L + 16 * INR L | _ => 19 * INR L + 2 end * roundoff.
Proof. exact C115_output_all_lemma. Qed.
Theorem C115_factor_mean_3d : exists f, a_output_3d double (model_name OR AND) = Some f /\
  forall zs us vs L p, List.length zs = L -> List.length us = L -> List.length vs = L -> (Z.of_nat L <= 2 ^ 20)%Z ->
  Forall (fun xs => samples xs /\ (1 <= Z.of_nat (List.length xs) <= 2 ^ 53)%Z) (zs ++ us ++ vs) ->
  is_prob OR AND 3 L (fun k l => nth l (nth k [map share zs; map share us; map share vs] []) 0) p ->
  0 <= f (map double_prob zs) (map double_prob us) (map double_prob vs) <= 1 /\
  Rabs (f (map double_prob zs) (map double_prob us) (map double_prob vs) - p) <= (44 * INR L + 2) * roundoff.
Proof. exact C115_output3_lemma. Qed.
Example C115_example : samples [1; 1; -1]%Z /\ share [1; 1; -1]%Z = 2 / 3 /\ double_map [1; 1; -1]%Z = 1%Z /\ double_map [1; -1]%Z = (-1)%Z /\ double_prob [-1; -1; 1]%Z <> share [-1; -1; 1]%Z.
Proof. exact C115_example_lemma. Qed.
Example C115_factor_mean_example : let zs := [[1; 1; -1]; [-1; 1; 1]]%Z in let us := [[1; 1; 1]; [1; -1; -1]]%Z in
  Forall (fun xs => samples xs /\ (1 <= Z.of_nat (List.length xs) <= 2 ^ 53)%Z) (zs ++ us) /\
  exists p, is_prob OR AND 2 2 (fun k l => nth l (nth k [map share zs; map share us] []) 0) p /\ p = 20 / 27.
Proof. exact C115_output_example_lemma. Qed.

Print Assumptions C114_rounding.
Print Assumptions C114_error_2d.
Print Assumptions C114_error_3d.
Print Assumptions C114_range_2d.
Print Assumptions C114_range_3d_partial.
Print Assumptions C114_certain_2d.
Print Assumptions C114_certain_3d.
Print Assumptions C114_refuted.
Print Assumptions C115_mean.
Print Assumptions C115_map.
Print Assumptions C115_prob.
Print Assumptions C115_factor_mean_2d.
Print Assumptions C115_factor_mean_3d.
