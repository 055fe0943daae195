(** C58, C59, C74, C75: which update is run, and what it computes. *)
From Coq Require Import Lra String Permutation.
From Verif Require Import Base BaseR BaseLemmas Spec SpecR SpecClean Canon Fuzzy Scores Sampling SamplingExamples Lambda Clean Machine Dispatch Inference SpecMachine MachineProofs MachineProofs2 BuiltProofs
  InferenceProofs InferenceProofs2 InferenceProofs7 InferenceProofs8 InferenceProofs9 PlainProofs DispatchProofs UpdateProofs MachineExamples.
Local Open Scope R_scope.

(** C74. A factor of a two-factor layer of an implemented model, without parents: the update is the reference sweep of
    the posterior given the present data, sibling, dispersion and fixed entries, with the prior of the time of set-up. *)
Theorem C74_two_factors : forall orc o i, In (o, i) implemented -> forall out, is_output o i out ->
  forall w0 w l f g N D L A B X x F pB, 
  layer2 w l f g N D L A B X x -> model (get_lay w l) = model_name o i -> 0 < pB < 1 ->
  (set_up w0 f w -> parents (get_mat w f) = [] -> fixed_entries (get_mat w f) = A2 F -> 0 < bprior (get_mat w0 f) < 1 -> (Z.of_nat D <= 32767)%Z -> draws_ok (o_cell orc (clock w)) N L ->
     updates_to orc w f (ref_sweep (fun A' => post2 out x X N D L (bprior (get_mat w0 f)) pB A' B) F (o_cell orc (clock w)) N L A)) /\
  (set_up w0 g w -> parents (get_mat w g) = [] -> fixed_entries (get_mat w g) = A2 F -> 0 < bprior (get_mat w0 g) < 1 -> (Z.of_nat N <= 32767)%Z -> draws_ok (o_cell orc (clock w)) D L ->
     updates_to orc w g (ref_sweep (fun B' => post2 out x X N D L pB (bprior (get_mat w0 g)) A B') F (o_cell orc (clock w)) D L B)).
Proof. exact C74_2_lemma. Qed.
Print Assumptions C74_two_factors.
Example C74_example : layer2 flip_later 0 1 2 1 1 1 [[1%Z]] [[1%Z]] [[0%Z]] 1 /\ model (get_lay flip_later 0) = model_name OR AND /\ set_up (flip_world (1 / 2)) 1 flip_later /\
  parents (get_mat flip_later 1) = [] /\ fixed_entries (get_mat flip_later 1) = A2 [[0%Z]] /\ draws_ok (o_cell demo (clock flip_later)) 1 1.
Proof.
  split; [exact flip_layer|]. split; [reflexivity|]. split; [exact flip_set_up|]. split; [reflexivity|]. split; [reflexivity|]. intros n l _ _. unfold SpecR.is_draw. cbn. lra.
Qed.

(** The same for the factors of a three-factor layer. *)
Theorem C74_three_factors : forall orc o i, In (o, i) implemented -> forall out, is_output o i out ->
  forall w0 w l f g h N D M L A B C X x F pA pB pC, 
  layer3 w l f g h N D M L A B C X x -> model (get_lay w l) = model_name o i -> 0 < pA < 1 -> 0 < pB < 1 -> 0 < pC < 1 ->
  (set_up w0 f w -> parents (get_mat w f) = [] -> fixed_entries (get_mat w f) = A2 F -> bprior (get_mat w0 f) = pA -> draws_ok (o_cell orc (clock w)) N L ->
     updates_to orc w f (ref_sweep (fun A' => post3 out x X N D M L pA pB pC A' B C) F (o_cell orc (clock w)) N L A)) /\
  (set_up w0 g w -> parents (get_mat w g) = [] -> fixed_entries (get_mat w g) = A2 F -> bprior (get_mat w0 g) = pB -> draws_ok (o_cell orc (clock w)) D L ->
     updates_to orc w g (ref_sweep (fun B' => post3 out x X N D M L pA pB pC A B' C) F (o_cell orc (clock w)) D L B)) /\
  (set_up w0 h w -> parents (get_mat w h) = [] -> fixed_entries (get_mat w h) = A2 F -> bprior (get_mat w0 h) = pC -> draws_ok (o_cell orc (clock w)) M L ->
     updates_to orc w h (ref_sweep (fun C' => post3 out x X N D M L pA pB pC A B C') F (o_cell orc (clock w)) M L C)).
Proof. exact C74_3_lemma. Qed.
Print Assumptions C74_three_factors.
Example C74_three_example : layer3 cube_ready 0 1 2 3 1 2 1 1 [[1%Z]] [[1%Z]; [(-1)%Z]] [[(-1)%Z]] [[[1%Z]; [0%Z]]] 1 /\ model (get_lay cube_ready 0) = model_name XOR NAND /\ set_up cube 2 cube_ready /\
  parents (get_mat cube_ready 2) = [] /\ fixed_entries (get_mat cube_ready 2) = A2 [[0%Z]; [0%Z]] /\ draws_ok (o_cell demo (clock cube_ready)) 2 1.
Proof.
  split; [exact cube_layer|]. split; [reflexivity|]. split; [exact (proj1 cube_set_up)|]. split; [reflexivity|]. split; [reflexivity|]. intros n l _ _. unfold SpecR.is_draw. cbn. lra.
Qed.

(** A factor that is the child of a further layer k: the likelihood of that layer is a further term. *)
Theorem C74_one_parent : forall orc o i, In (o, i) implemented -> forall out, is_output o i out ->
  forall op ip, In (op, ip) implemented -> forall outp, is_output op ip outp ->
  forall w0 w l f g N D L A B X x F pB k a b K a1 a2 y, 
  layer2 w l f g N D L A B X x -> model (get_lay w l) = model_name o i -> 0 < pB < 1 -> model (get_lay w k) = model_name op ip ->
  (layer2 w k a b N L K a1 a2 A y -> set_up w0 f w -> parents (get_mat w f) = [k] -> fixed_entries (get_mat w f) = A2 F -> 0 < bprior (get_mat w0 f) < 1 -> (Z.of_nat D <= 32767)%Z -> draws_ok (o_cell orc (clock w)) N L ->
     updates_to orc w f (ref_sweep (fun A' => post2 out x X N D L (bprior (get_mat w0 f)) pB A' B * parent_lik outp y a1 a2 N L K A') F (o_cell orc (clock w)) N L A)) /\
  (layer2 w k a b D L K a1 a2 B y -> set_up w0 g w -> parents (get_mat w g) = [k] -> fixed_entries (get_mat w g) = A2 F -> 0 < bprior (get_mat w0 g) < 1 -> (Z.of_nat N <= 32767)%Z -> draws_ok (o_cell orc (clock w)) D L ->
     updates_to orc w g (ref_sweep (fun B' => post2 out x X N D L pB (bprior (get_mat w0 g)) A B' * parent_lik outp y a1 a2 D L K B') F (o_cell orc (clock w)) D L B)).
Proof. exact C74_parent_lemma. Qed.
Print Assumptions C74_one_parent.
Example C74_parent_example : layer2 (tower_ready [1%nat]) 0 1 2 2 2 2 bitm bitm [[1; 0]; [-1; 1]]%Z 1 /\ model (get_lay (tower_ready [1%nat]) 0) = model_name XOR AND /\ model (get_lay (tower_ready [1%nat]) 1) = model_name OR AND /\
  layer2 (tower_ready [1%nat]) 1 3 4 2 2 2 bitm bitm bitm 2 /\ set_up (tower [1%nat]) 1 (tower_ready [1%nat]) /\ parents (get_mat (tower_ready [1%nat]) 1) = [1%nat] /\ fixed_entries (get_mat (tower_ready [1%nat]) 1) = A2 [[0; 1]; [0; 0]]%Z.
Proof.
  split; [apply tower_layer0; auto|]. split; [reflexivity|]. split; [reflexivity|]. split; [apply (tower_layer [1%nat] 1); [auto|lia]|]. split; [apply tower_set_up; auto|]. split; reflexivity.
Qed.

(** A factor that is the child of two further layers of the same model (of different models: see C12). With more than two,
    all but the first two are left out of the posterior ([rest] does not occur in it). *)
Theorem C74_two_parents : forall orc o i, In (o, i) implemented -> forall out, is_output o i out ->
  forall op ip, In (op, ip) implemented -> forall outp, is_output op ip outp ->
  forall w0 w l f g N D L A B X x F pB k k' rest a b K a1 a2 y a' b' K' b1 b2 y', 
  layer2 w l f g N D L A B X x -> model (get_lay w l) = model_name o i -> 0 < pB < 1 -> model (get_lay w k) = model_name op ip -> model (get_lay w k') = model_name op ip ->
  (forall p, In p rest -> List.length (factors (get_lay w p)) = 2%nat /\ In (model (get_lay w p)) standard_models) ->
  (layer2 w k a b N L K a1 a2 A y -> layer2 w k' a' b' N L K' b1 b2 A y' -> set_up w0 f w -> parents (get_mat w f) = k :: k' :: rest -> fixed_entries (get_mat w f) = A2 F -> 0 < bprior (get_mat w0 f) < 1 -> (Z.of_nat D <= 32767)%Z -> draws_ok (o_cell orc (clock w)) N L ->
     updates_to orc w f (ref_sweep (fun A' => post2 out x X N D L (bprior (get_mat w0 f)) pB A' B * parent_lik outp y a1 a2 N L K A' * parent_lik outp y' b1 b2 N L K' A') F (o_cell orc (clock w)) N L A)) /\
  (layer2 w k a b D L K a1 a2 B y -> layer2 w k' a' b' D L K' b1 b2 B y' -> set_up w0 g w -> parents (get_mat w g) = k :: k' :: rest -> fixed_entries (get_mat w g) = A2 F -> 0 < bprior (get_mat w0 g) < 1 -> (Z.of_nat N <= 32767)%Z -> draws_ok (o_cell orc (clock w)) D L ->
     updates_to orc w g (ref_sweep (fun B' => post2 out x X N D L pB (bprior (get_mat w0 g)) A B' * parent_lik outp y a1 a2 D L K B' * parent_lik outp y' b1 b2 D L K' B') F (o_cell orc (clock w)) D L B)).
Proof. exact C74_parents_lemma. Qed.
Print Assumptions C74_two_parents.
Example C74_parents_example : let w := tower_ready [1; 2; 3]%nat in layer2 w 0 1 2 2 2 2 bitm bitm [[1; 0]; [-1; 1]]%Z 1 /\
  layer2 w 1 3 4 2 2 2 bitm bitm bitm 2 /\ layer2 w 2 5 6 2 2 2 bitm bitm bitm 2 /\ set_up (tower [1; 2; 3]%nat) 1 w /\ parents (get_mat w 1) = [1; 2; 3]%nat /\
  List.length (factors (get_lay w 3)) = 2%nat /\ In (model (get_lay w 3)) standard_models.
Proof.
  split; [apply tower_layer0; auto|]. split; [apply (tower_layer [1; 2; 3]%nat 1); [auto|lia]|]. split; [apply (tower_layer [1; 2; 3]%nat 2); [auto|lia]|]. split; [apply tower_set_up; auto|].
  split; [reflexivity|]. split; [reflexivity|left; reflexivity].
Qed.

(** C75. The dispersion update of a two-factor layer sets the best dispersion for the present factors and data and
    changes nothing else. *)
Theorem C75_two_factors : forall o i, In (o, i) implemented -> forall out, is_output o i out ->
  forall w0 w l f g N D L A B X x a b, 
  layer2 w l f g N D L A B X x -> model (get_lay w l) = model_name o i -> set_up_disp w0 l w -> beta (lbda (get_lay w l)) = (a, b) -> 0 < a -> 0 < b ->
  exists w' lam, run_lbda w l = Ok w' /\ disp w' l = LS lam /\ best_dispersion (correct2 out X N D L A B) (observed2 X N D) a b lam /\ arrays w' = arrays w /\ mats w' = mats w /\ forall l', l' <> l -> get_lay w' l' = get_lay w l'.
Proof. exact C75_2_lemma. Qed.
Print Assumptions C75_two_factors.

(** The same for three factors. *)
Theorem C75_three_factors : forall o i, In (o, i) implemented -> forall out, is_output o i out ->
  forall w0 w l f g h N D M L A B C X x a b, 
  layer3 w l f g h N D M L A B C X x -> model (get_lay w l) = model_name o i -> set_up_disp w0 l w -> beta (lbda (get_lay w l)) = (a, b) -> 0 < a -> 0 < b ->
  exists w' lam, run_lbda w l = Ok w' /\ disp w' l = LS lam /\ best_dispersion (correct3 out X N D M L A B C) (observed3 X N D M) a b lam /\ arrays w' = arrays w /\ mats w' = mats w /\ forall l', l' <> l -> get_lay w' l' = get_lay w l'.
Proof. exact C75_3_lemma. Qed.
Print Assumptions C75_three_factors.
Example C75_example : layer3 cube_ready 0 1 2 3 1 2 1 1 [[1%Z]] [[1%Z]; [(-1)%Z]] [[(-1)%Z]] [[[1%Z]; [0%Z]]] 1 /\ set_up_disp cube 0 cube_ready /\ beta (lbda (get_lay cube_ready 0)) = (1, 1).
Proof. split; [exact cube_layer|]. split; [exact (proj2 cube_set_up)|reflexivity]. Qed.

(** C58. Full statement: data, siblings, dispersion, fixed entries and the prior in place now are used. True for all but the
    prior: C74_two_factors, C74_three_factors, C74_one_parent and C74_two_parents speak about the values of the later
    state. Missing: the prior, where it is false (C58_refuted). The instance for two factors: *)
Theorem C58_present_state_partial : forall orc o i, In (o, i) implemented -> forall out, is_output o i out ->
  forall w0 w l f g N D L A B X x F, layer2 w l f g N D L A B X x -> model (get_lay w l) = model_name o i ->
  set_up w0 f w -> bprior (get_mat w f) = bprior (get_mat w0 f) -> parents (get_mat w f) = [] -> fixed_entries (get_mat w f) = A2 F -> 0 < bprior (get_mat w f) < 1 -> (Z.of_nat D <= 32767)%Z -> draws_ok (o_cell orc (clock w)) N L ->
  updates_to orc w f (ref_sweep (fun A' => post2 out x X N D L (bprior (get_mat w f)) (1 / 2) A' B) F (o_cell orc (clock w)) N L A).
Proof. exact C58_partial_lemma. Qed.
Print Assumptions C58_present_state_partial.

(** C58 is false of the code: the prior was 1/2 when the closure was made and is 9/10 now. *)
Theorem C58_refuted : 
  exists orc w0 w, built orc w0 /\ set_up w0 1 w /\ layer2 w 0 1 2 1 1 1 [[1%Z]] [[1%Z]] [[0%Z]] 1 /\ model (get_lay w 0) = model_name OR AND /\ parents (get_mat w 1) = [] /\
  fixed_entries (get_mat w 1) = A2 [[0%Z]] /\ bprior (get_mat w 1) = 9 / 10 /\ draws_ok (o_cell orc (clock w)) 1 1 /\
  forall out, is_output OR AND out -> ~ updates_to orc w 1 (ref_sweep (fun A' => post2 out 1 [[0%Z]] 1 1 1 (bprior (get_mat w 1)) (1 / 2) A' [[1%Z]]) [[0%Z]] (o_cell orc (clock w)) 1 1 [[1%Z]]).
Proof. exact C58_refuted_lemma. Qed.
Print Assumptions C58_refuted.

(** C59. Full statement: more than two parents are rejected with NotImplementedError. Missing: factors of two-factor layers,
    where it is false (C59_refuted). *)
Theorem C59_rejected_partial : forall w i, 
  sfct (get_mat w i) = None ->
  (forall l a b rest, layer_of (get_mat w i) = Some l -> In (model (get_lay w l)) standard_models -> List.length (factors (get_lay w l)) = 3%nat -> parents (get_mat w i) = a :: b :: rest ->
     (forall p, In p [a; b] -> List.length (factors (get_lay w p)) = 2%nat /\ In (model (get_lay w p)) standard_models) -> assign_mat w i = Err NotImplementedError) /\
  (layer_of (get_mat w i) = None -> parents (get_mat w i) = [] -> assign_mat w i = Err NotImplementedError) /\
  (forall a rest, parents (get_mat w i) = a :: rest -> List.length (factors (get_lay w a)) <> 2%nat -> assign_mat w i = Err AssertionError).
Proof. exact C59_partial_lemma. Qed.
Print Assumptions C59_rejected_partial.

(** C59 is false of the code: with three or more parents an update function is made; by C74_two_parents it samples from the
    model without the further parents. *)
Theorem C59_refuted : forall w i l a b c rest, 
  layer_of (get_mat w i) = Some l -> In (model (get_lay w l)) standard_models -> List.length (factors (get_lay w l)) = 2%nat ->
  parents (get_mat w i) = a :: b :: c :: rest -> sfct (get_mat w i) = None ->
  (forall p, In p (parents (get_mat w i)) -> List.length (factors (get_lay w p)) = 2%nat /\ In (model (get_lay w p)) standard_models) ->
  exists w', assign_mat w i = Ok w'.
Proof. exact C59_refuted_lemma. Qed.
Print Assumptions C59_refuted.
Example C59_example : layer_of (get_mat (tower [1; 2; 3]%nat) 1) = Some 0%nat /\ parents (get_mat (tower [1; 2; 3]%nat) 1) = [1; 2; 3]%nat /\ sfct (get_mat (tower [1; 2; 3]%nat) 1) = None /\
  In (model (get_lay (tower [1; 2; 3]%nat) 0)) standard_models /\ forall p, In p [1; 2; 3]%nat -> List.length (factors (get_lay (tower [1; 2; 3]%nat) p)) = 2%nat /\ In (model (get_lay (tower [1; 2; 3]%nat) p)) standard_models.
Proof.
  split; [reflexivity|]. split; [reflexivity|]. split; [reflexivity|]. split; [cbn; auto 10|]. intros p [<-|[<-|[<-|[]]]]; (split; [reflexivity|left; reflexivity]).
Qed.

