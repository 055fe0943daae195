(** C19, C20, C21: fuzzy outputs are exact probabilities. *)
From Coq Require Import String Lra.
From Verif Require Import Base BaseR Spec SpecF Lops Fuzzy FuzzyProofs FuzzyXorProofs.
Local Open Scope R_scope.

(** C19. The fuzzy output is the probability that the machine is true of independent random bits (a
    finite sum over all Boolean tables), lies in [0,1], and is the crisp output on certain entries. *)
Theorem C19_fuzzy_2d : forall o i, In (o, i) implemented ->
  exists f, get_scalar_output_function_2d_fuzzy (model_name o i) = Some f /\
    (forall z u L, List.length z = L -> List.length u = L ->
       is_prob o i 2 L (fun k l => nth l (nth k [z; u] []) 0) (f z u) /\
       (probs z -> probs u -> 0 <= f z u <= 1)) /\
    (forall a b L x, List.length a = L -> List.length b = L -> lom_output o i [a; b] L x ->
       f (certain a) (certain b) = (1 + IZR x) / 2).
Proof. exact C19_lemma. Qed.
Example C19_example :
  probs [1 / 2; 1 / 4] /\ probs [1; 1 / 3] /\
  exists f, get_scalar_output_function_2d_fuzzy "XOR-AND" = Some f /\ f [1 / 2; 1 / 4] [1; 1 / 3] = 1 / 2.
Proof. exact C19_example_lemma. Qed.

(** C20. Full statement: as below for all eight models. It fails for OR-XOR (C20_OR_XOR_refuted). *)
Theorem C20_fuzzy_3d_partial : forall o i, In (o, i) implemented -> (o, i) <> (OR, XOR) ->
  exists f, get_scalar_output_function_3d_fuzzy (model_name o i) = Some f /\
    (forall z u v L, List.length z = L -> List.length u = L -> List.length v = L ->
       is_prob o i 3 L (fun k l => nth l (nth k [z; u; v] []) 0) (f z u v) /\
       (probs z -> probs u -> probs v -> 0 <= f z u v <= 1)) /\
    (forall a b c L x, List.length a = L -> List.length b = L -> List.length c = L -> lom_output o i [a; b; c] L x ->
       f (certain a) (certain b) (certain c) = (1 + IZR x) / 2).
Proof. exact C20_lemma. Qed.
Theorem C20_OR_XOR_refuted :
  exists f, get_scalar_output_function_3d_fuzzy "OR-XOR" = Some f /\
    probs [0] /\ probs [1] /\ f [0] [1] [0] = -1 /\
    is_prob OR XOR 3 1 (fun k l => nth l (nth k [[0]; [1]; [0]] []) 0) 1 /\
    ~ is_prob OR XOR 3 1 (fun k l => nth l (nth k [[0]; [1]; [0]] []) 0) (f [0] [1] [0]).
Proof. exact C20_refuted_lemma. Qed.
(** What is returned for OR-XOR: never more than the probability; the probability if in no column the one true entry can
    be that of the second or third factor; with one column too little by twice the probability of that. *)
Theorem C20_OR_XOR_partial : exists f, get_scalar_output_function_3d_fuzzy "OR-XOR" = Some f /\
  forall z u v L p, List.length z = L -> List.length u = L -> List.length v = L -> probs z -> probs u -> probs v -> is_prob OR XOR 3 L (fun k l => nth l (nth k [z; u; v] []) 0) p ->
    let second l := nth l u 0 * (1 - nth l z 0) * (1 - nth l v 0) in
    let third l := nth l v 0 * (1 - nth l z 0) * (1 - nth l u 0) in
    f z u v <= p /\ ((forall l, (l < L)%nat -> second l = 0 /\ third l = 0) -> f z u v = p) /\ (L = 1%nat -> p - f z u v = 2 * (second 0%nat + third 0%nat)).
Proof. exact C20_value_lemma. Qed.
Print Assumptions C20_OR_XOR_partial.
Example C20_OR_XOR_example : exists f, get_scalar_output_function_3d_fuzzy "OR-XOR" = Some f /\
  forall p, is_prob OR XOR 3 1 (fun k l => nth l (nth k [[1 / 2]; [1 / 4]; [0]] []) 0) p -> p - f [1 / 2] [1 / 4] [0] = 1 / 4.
Proof.
  destruct C20_OR_XOR_partial as (f & E & H). exists f. split; [exact E|]. intros p HP. destruct (H [1 / 2] [1 / 4] [0] 1%nat p eq_refl eq_refl eq_refl) as (_ & _ & H1); [repeat constructor; lra..|exact HP|]. rewrite H1 by reflexivity. cbn. lra.
Qed.
Example C20_example :
  probs [1 / 2] /\ probs [1 / 4] /\
  exists f, get_scalar_output_function_3d_fuzzy "NAND-XOR" = Some f /\ f [1 / 2] [1 / 4] [0] = 1 / 2.
Proof. exact C20_example_lemma. Qed.

(** C21. Any operators, any number of factors: the entry at an index is the expectation of the {-1,1} output. *)
Theorem C21_generic_fuzzy : forall o i (factors : list (list (list R))) L,
  factors <> [] -> Forall (fun f => f <> [] /\ Forall (fun r => List.length r = L) f) factors ->
  exists out, lom_generate_data_fuzzy factors (model_name o i) = Ok out /\
    ndR_has_shape out (map (fun f => List.length f) factors) /\
    forall index, Forall2 lt index (map (fun f => List.length f) factors) ->
      exists x, ndR_get out index = Some x /\
        is_expect o i (List.length factors) L
          (fun k l => (1 + nth l (nth (nth k index 0%nat) (nth k factors []) []) 0) / 2) 1 (-1) x /\
        (Forall (Forall (Forall (fun m => -1 <= m <= 1))) factors -> -1 <= x <= 1).
Proof. exact C21_lemma. Qed.
(** Error branches: no factors, or a name that is not two operators. *)
Theorem C21_errors : forall model factors,
  (factors = [] -> lom_generate_data_fuzzy factors model = Err IndexError) /\
  (factors <> [] -> (forall o i, split_dash model <> [lop_name o; lop_name i]) -> lom_generate_data_fuzzy factors model = Err ValueError).
Proof. exact C21_errors_lemma. Qed.
Example C21_example :
  exists out, lom_generate_data_fuzzy [[[0; 1]; [1; -1]]; [[1; 0]]] "AND-NOR" = Ok out /\
    ndR_get out [0; 0]%nat = Some (-1) /\ ndR_get out [1; 0]%nat = Some (-1) /\
  exists out', lom_generate_data_fuzzy [[[0; 1]; [1; -1]]; [[1; 0]]] "XOR-AND" = Ok out' /\
    ndR_get out' [0; 0]%nat = Some 0.
Proof. exact C21_example_lemma. Qed.

Print Assumptions C19_fuzzy_2d.
Print Assumptions C20_fuzzy_3d_partial.
Print Assumptions C20_OR_XOR_refuted.
Print Assumptions C21_generic_fuzzy.
Print Assumptions C21_errors.
