(** C107: missing entries of data that are not fixed. *)
From Coq Require Import String Lra.
From Verif Require Import Base BaseR BaseLemmas Spec SpecR Scores Sampling SamplingExamples Lambda Clean Machine Dispatch Inference SpecMachine MachineExamples Extended SpecExtended ExtendedProofs ImputeProofs ImputeExamples SpecImpute.
Local Open Scope R_scope.

(** C107. A zero entry stays zero in every update, for every prior, dispersion (infinite ones and
    NaN included), data and draw, whether or not the entry is fixed. *)
Theorem C107_zero_stays : forall c fixed p rand Z', run_call_x c fixed p rand = Ok Z' ->
  forall n l, at2 (target c) n l = 0%Z -> at2 Z' n l = 0%Z.
Proof. exact C107_zero_lemma. Qed.
Print Assumptions C107_zero_stays.

(** The prior asks for 1 with certainty: the entry -1 follows, the missing one does not. *)
Example C107_zero_stays_example :
  run_call_x (OneChild2 "OR-AND" 0 [[0; -1]] [[1; 1]] [[1]] (Fin 2))%Z [[0; 0]]%Z 1 (fun _ _ => 1 / 2) = Ok [[0; 1]]%Z.
Proof. unfold run_call_x. rewrite ExtendedProofs.xlogit_1. reflexivity. Qed.

(** C107. Updating a data matrix that explains nothing itself and is explained by one layer: every
    observed entry that is not fixed is redrawn from its conditional given that layer, by one
    Metropolised-Gibbs step; fixed and missing entries keep their values, nothing else changes. *)
Theorem C107_one_layer : forall orc op ip, In (op, ip) implemented -> forall out, is_output op ip out ->
  forall w0 w i N D X F k a b K A B y,
  set_up w0 i w -> layer_of (get_mat w i) = None -> (i < List.length (mats w))%nat -> value w i = A2 X -> fixed_entries (get_mat w i) = A2 F ->
  0 < bprior (get_mat w0 i) < 1 -> draws_ok (o_cell orc (clock w)) N D ->
  parents (get_mat w i) = [k] -> model (get_lay w k) = model_name op ip -> layer2 w k a b N D K A B X y ->
  exists X', updates_to orc w i X' /\
    redrawn (bprior (get_mat w0 i)) (fun n d => [(y, out [row A n; row B d] K)]) F (o_cell orc (clock w)) N D X X'.
Proof. exact C107_one_lemma. Qed.
Print Assumptions C107_one_layer.

Example C107_one_layer_example : is_output OR AND (the_output OR AND) /\
  set_up (data_world [0%nat]) 0 (data_ready [0%nat]) /\ layer_of (get_mat (data_ready [0%nat]) 0) = None /\
  value (data_ready [0%nat]) 0 = A2 [[1; 0]; [-1; 1]]%Z /\ fixed_entries (get_mat (data_ready [0%nat]) 0) = A2 [[1; 0]; [0; 0]]%Z /\
  draws_ok (o_cell demo (clock (data_ready [0%nat]))) 2 2 /\ parents (get_mat (data_ready [0%nat]) 0) = [0%nat] /\
  model (get_lay (data_ready [0%nat]) 0) = model_name OR AND /\ layer2 (data_ready [0%nat]) 0 1 2 2 2 2 bitm bitm [[1; 0]; [-1; 1]]%Z 1.
Proof.
  exact (conj (the_output_ok OR AND) (conj (data_ready_set_up _ (or_introl eq_refl)) (conj eq_refl (conj eq_refl (conj eq_refl
    (conj (data_draws _ (or_introl eq_refl)) (conj eq_refl (conj eq_refl (data_layer0 _ (or_introl eq_refl)))))))))).
Qed.

(** C107. The same under two or more layers: the first two, and no other, are used, each with its
    own factors and dispersion. Both must be of the same kind (see C12). *)
Theorem C107_two_layers : forall orc op ip, In (op, ip) implemented -> forall out, is_output op ip out ->
  forall w0 w i N D X F k a b K A B y k' a' b' K' A' B' y' rest,
  set_up w0 i w -> layer_of (get_mat w i) = None -> (i < List.length (mats w))%nat -> value w i = A2 X -> fixed_entries (get_mat w i) = A2 F ->
  0 < bprior (get_mat w0 i) < 1 -> draws_ok (o_cell orc (clock w)) N D ->
  parents (get_mat w i) = k :: k' :: rest -> model (get_lay w k) = model_name op ip -> model (get_lay w k') = model_name op ip ->
  layer2 w k a b N D K A B X y -> layer2 w k' a' b' N D K' A' B' X y' ->
  exists X', updates_to orc w i X' /\
    redrawn (bprior (get_mat w0 i)) (fun n d => [(y, out [row A n; row B d] K); (y', out [row A' n; row B' d] K')]) F
      (o_cell orc (clock w)) N D X X'.
Proof. exact C107_two_lemma. Qed.
Print Assumptions C107_two_layers.

Example C107_two_layers_example :
  set_up (data_world [0; 1]%nat) 0 (data_ready [0; 1]%nat) /\ parents (get_mat (data_ready [0; 1]%nat) 0) = [0; 1]%nat /\
  model (get_lay (data_ready [0; 1]%nat) 0) = model_name OR AND /\ model (get_lay (data_ready [0; 1]%nat) 1) = model_name OR AND /\
  layer2 (data_ready [0; 1]%nat) 0 1 2 2 2 2 bitm bitm [[1; 0]; [-1; 1]]%Z 1 /\
  layer2 (data_ready [0; 1]%nat) 1 3 4 2 2 2 [[-1; -1]; [-1; 1]]%Z [[-1; -1]; [-1; 1]]%Z [[1; 0]; [-1; 1]]%Z 3 /\
  draws_ok (o_cell demo (clock (data_ready [0; 1]%nat))) 2 2.
Proof.
  exact (conj (data_ready_set_up _ (or_intror eq_refl)) (conj eq_refl (conj eq_refl (conj eq_refl
    (conj (data_layer0 _ (or_intror eq_refl)) (conj (data_layer1 _ (or_intror eq_refl)) (data_draws _ (or_intror eq_refl)))))))).
Qed.

(** C107 in full asks that an update draw the missing entries too, leaving none that is not fixed.
    It does not, already for one missing entry under one layer. *)
Theorem C107_imputed_refuted : ~ (forall orc w0 w i N D X F k a b K A B y X', built orc w0 -> set_up w0 i w ->
  layer_of (get_mat w i) = None -> fixed (get_mat w i) = FBool false -> value w i = A2 X -> fixed_entries (get_mat w i) = A2 F ->
  0 < bprior (get_mat w0 i) < 1 -> draws_ok (o_cell orc (clock w)) N D -> parents (get_mat w i) = [k] -> model (get_lay w k) = "OR-AND"%string ->
  layer2 w k a b N D K A B X y -> updates_to orc w i X' -> imputed F X' N D).
Proof. exact C107_refuted_lemma. Qed.
Print Assumptions C107_imputed_refuted.
