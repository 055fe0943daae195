(** C06, C57: adding layers. *)
From Coq Require Import Lra String Permutation.
From Verif Require Import Base BaseR BaseLemmas Spec SpecR SpecClean Canon Fuzzy Scores Sampling SamplingExamples Lambda Clean Machine Dispatch Inference SpecMachine MachineProofs MachineProofs2 BuiltProofs
  InferenceProofs InferenceProofs2 InferenceProofs7 InferenceProofs8 InferenceProofs9 PlainProofs DispatchProofs UpdateProofs MachineExamples.
Local Open Scope R_scope.

(** C06. Full statement: the values of all other matrices are unchanged. Missing: a matrix that shares its array with an
    inverted child, where it is false (C06_refuted). *)
Theorem C06_add_layer_partial : forall o w K c m w', 
  stored w -> (c < List.length (mats w))%nat -> ternary (value w c) ->
  add_layer o w K (Some c) None m = (w', Ok tt) ->
  exists lay, layers w' = (layers w ++ [lay])%list /\ child lay = c /\ canonise_name m = Ok (model lay, invert_data lay, invert_factors lay) /\
  (invert_data lay = false -> value w' c = value w c) /\
  (invert_data lay = true -> opposite (value w c) (value w' c)) /\
  (forall j, (j < List.length (mats w))%nat -> invert_data lay = false \/ val (get_mat w j) <> val (get_mat w c) -> value w' j = value w j) /\
  factors lay = seq (List.length (mats w)) (List.length (shape_of (value w c))) /\
  forall k, (k < List.length (shape_of (value w c)))%nat -> let f := (List.length (mats w) + k)%nat in
    axis (get_mat w' f) = Some k /\ layer_of (get_mat w' f) = Some (List.length (layers w)) /\ binary_matrix (nth k (shape_of (value w c)) 0%nat) K (value w' f).
Proof. exact C06_lemma. Qed.
Print Assumptions C06_add_layer_partial.
(** NOR-AND (OR-AND on negated data) added to data [[1; 0]; [-1; 1]]. *)
Example C06_example : stored demo_world /\ (0 < List.length (mats demo_world))%nat /\ ternary (value demo_world 0) /\
  exists w', add_layer demo demo_world 2 (Some 0%nat) None "NOR-AND" = (w', Ok tt) /\ value w' 0 = A2 [[-1; 0]; [1; -1]]%Z.
Proof.
  split; [repeat constructor|]. split; [cbn; lia|]. split; [cbn; bin_tac|]. eexists. split; [cbn -[random_arr]; reflexivity|]. cbn -[random_arr]. reflexivity.
Qed.

(** C06 is false of the code: every matrix that shares its array with the child of an inverted model is negated with it. *)
Theorem C06_refuted : forall o w K c j m w', 
  stored w -> (c < List.length (mats w))%nat -> (j < List.length (mats w))%nat -> ternary (value w c) ->
  add_layer o w K (Some c) None m = (w', Ok tt) -> val (get_mat w j) = val (get_mat w c) ->
  (exists m' invf, canonise_name m = Ok (m', true, invf)) -> opposite (value w j) (value w' j).
Proof. exact C06_refuted_lemma. Qed.
Print Assumptions C06_refuted.
Example C06_refuted_example : let w := World [A2 [[1; 0]]%Z] [no_matrix; no_matrix] [] [0; 1]%nat false 0 in
  stored w /\ val (get_mat w 1) = val (get_mat w 0) /\ exists m' invf, canonise_name "NOR-AND" = Ok (m', true, invf).
Proof. split; [repeat constructor|]. split; [reflexivity|]. do 2 eexists. reflexivity. Qed.

(** C57. Full statement: every failing call leaves the machine as it was, and a layer can be made from a shape for every model.
    Missing: models that invert the data, where both are false (C57_refuted). *)
Theorem C57_no_effect_partial : forall o w K c shape m w' e, 
  add_layer o w K c shape m = (w', Err e) ->
  (forall m' invf, canonise_name m <> Ok (m', true, invf)) \/ c = None \/ shape = None -> w' = w.
Proof. exact C57_partial_lemma. Qed.
Print Assumptions C57_no_effect_partial.

(** A layer can be made from a shape for every model that does not invert the data. *)
Theorem C57_from_shape : forall o w K sh m m' invf, 
  canonise_name m = Ok (m', false, invf) ->
  exists w', add_layer o w K None (Some sh) m = (w', Ok tt).
Proof. exact C57_shape_lemma. Qed.
Print Assumptions C57_from_shape.

(** C57 is false of the code for every model that inverts the data: a call with both child and shape fails after negating the child; a call with a shape fails. *)
Theorem C57_refuted : forall o w K c sh m m' invf, 
  stored w -> (c < List.length (mats w))%nat -> ternary (value w c) ->
  canonise_name m = Ok (m', true, invf) ->
  (exists w', add_layer o w K (Some c) (Some sh) m = (w', Err ValueError) /\ opposite (value w c) (value w' c)) /\
  (forall sh', add_layer o w K None (Some sh') m = (w, Err AttributeError)).
Proof. exact C57_refuted_lemma. Qed.
Print Assumptions C57_refuted.
Example C57_example : (exists m' invf, canonise_name "NOR-AND" = Ok (m', true, invf)) /\ (exists m' invf, canonise_name "OR-AND" = Ok (m', false, invf)) /\
  (exists w', add_layer demo demo_world 2 None None "OR-AND" = (w', Err ValueError)) /\ stored demo_world /\ ternary (value demo_world 0).
Proof.
  split; [do 2 eexists; reflexivity|]. split; [do 2 eexists; reflexivity|]. split; [eexists; reflexivity|]. split; [repeat constructor|]. cbn. bin_tac.
Qed.

