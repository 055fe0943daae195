(** Instances for C107. *)
From Coq Require Import String Lra.
From Verif Require Import Base BaseR BaseLemmas Spec SpecR Outputs OutputsProofs Scores Sampling SamplingProofs SamplingExamples Lambda Clean Machine Dispatch Inference SpecMachine MachineExamples Extended SpecExtended ExtendedProofs ExtendedExamples ImputeProofs SpecImpute.
Local Open Scope R_scope.

(** Data that are not fixed, under one OR-AND layer (factors 1 and 2) or two (also 3 and 4). *)
Definition hole : mat := [[1; 0]; [-1; 1]]%Z.
Definition holefix : mat := [[1; 0]; [0; 0]]%Z.
Definition downm : mat := [[-1; -1]; [-1; 1]]%Z.
Definition data_world (ps : list nat) : world :=
  World [A2 hole; A2 bitm; A2 bitm; A2 downm; A2 downm]
    [Mat 0 None (FBool false) (A2 holefix) (1 / 4) None ps None;
     Mat 1 (Some 0%nat) (FBool false) (A2 [[0; 0]; [0; 0]]%Z) (1 / 2) (Some 0%nat) [] None;
     Mat 2 (Some 1%nat) (FBool false) (A2 [[0; 0]; [0; 0]]%Z) (1 / 2) (Some 0%nat) [] None;
     Mat 3 (Some 0%nat) (FBool false) (A2 [[0; 0]; [0; 0]]%Z) (1 / 2) (Some 1%nat) [] None;
     Mat 4 (Some 1%nat) (FBool false) (A2 [[0; 0]; [0; 0]]%Z) (1 / 2) (Some 1%nat) [] None]
    [Lay [1; 2]%nat 0 "OR-AND" (Par (LS 1) false (1, 1) None) None None None 2 false false false false;
     Lay [3; 4]%nat 0 "OR-AND" (Par (LS 3) false (1, 1) None) None None None 2 false false false false] [0%nat; 1%nat] false 0.
Definition data_ready (ps : list nat) : world := match assign_mat (data_world ps) 0 with Ok w => w | Err _ => new_machine end.

Lemma data_ready_set_up ps : ps = [0]%nat \/ ps = [0; 1]%nat -> set_up (data_world ps) 0 (data_ready ps).
Proof.
  intros H. split; [reflexivity|]. destruct H as [-> | ->].
  all: eexists; split; [reflexivity|]; split; [|reflexivity];
  unfold edited; cbn -[get_mat get_lay stored]; (split; [reflexivity|]); (split; [repeat constructor|]);
  (split; [auto|]); (split; [reflexivity|]); (split; [auto|]); (split; [|reflexivity]);
  intros [|[|l]] Hl; cbn; cbn in Hl; lia.
Qed.
Lemma hole_ok : has_shape2 hole 2 2 /\ tern2 hole.
Proof. split; [shape_tac|bin_tac]. Qed.
Lemma downm_ok : okmat 2 2 downm.
Proof. split; [shape_tac|bin_tac]. Qed.
Lemma data_layer0 ps : ps = [0]%nat \/ ps = [0; 1]%nat -> layer2 (data_ready ps) 0 1 2 2 2 2 bitm bitm hole 1.
Proof. intros [-> | ->]; (constructor; [cbn; auto|cbn; auto 10|cbn; auto|]); (split; [apply bitm_ok|split; [apply bitm_ok|apply hole_ok]]). Qed.
Lemma data_layer1 ps : ps = [0]%nat \/ ps = [0; 1]%nat -> layer2 (data_ready ps) 1 3 4 2 2 2 downm downm hole 3.
Proof. intros [-> | ->]; (constructor; [cbn; auto|cbn; auto 10|cbn; auto|]); (split; [apply downm_ok|split; [apply downm_ok|apply hole_ok]]). Qed.
Lemma data_draws ps : ps = [0]%nat \/ ps = [0; 1]%nat -> draws_ok (o_cell demo (clock (data_ready ps))) 2 2.
Proof. intros _ n l _ _. unfold SpecR.is_draw. cbn. lra. Qed.

(** ** The refutation *)
Definition gap : mat := [[0]]%Z.
Definition gap_world : world :=
  World [A2 gap; A2 [[1]]%Z; A2 [[1]]%Z]
    [Mat 0 None (FBool false) (zeros_like (A2 gap)) (1 / 2) None [0%nat] None;
     Mat 1 (Some 0%nat) (FBool false) (A2 [[0]]%Z) (1 / 2) (Some 0%nat) [] None;
     Mat 2 (Some 1%nat) (FBool false) (A2 [[0]]%Z) (1 / 2) (Some 0%nat) [] None]
    [Lay [1; 2]%nat 0 "OR-AND" (Par (LS 1) false (1, 1) None) None None None 1 false false false false] [0%nat] false 0.
Definition gap_ready : world := match assign_mat gap_world 0 with Ok w => w | Err _ => new_machine end.
Lemma gap_built : built demo gap_world.
Proof.
  eapply built_edit; [apply (one_layer_built gap [[1]]%Z [[1]]%Z (1 / 2) false false 1 false false false)|].
  unfold edited. cbn -[get_mat get_lay stored]. split; [reflexivity|]. split; [repeat constructor|].
  split; [intros [|[|[|[|i]]]]; cbn; auto|]. split; [reflexivity|]. split; [intros [|[|l]]; cbn; auto|]. split; [|reflexivity].
  intros [|l] Hl; [cbn; lia|lia].
Qed.
Lemma gap_set_up : set_up gap_world 0 gap_ready.
Proof.
  split; [reflexivity|]. eexists. split; [reflexivity|]. split; [|reflexivity].
  unfold edited. cbn -[get_mat get_lay stored]. split; [reflexivity|]. split; [repeat constructor|].
  split; [auto|]. split; [reflexivity|]. split; [auto|]. split; [|reflexivity].
  intros [|l] Hl; [cbn; lia|cbn in Hl; lia].
Qed.
Lemma gap_layer : layer2 gap_ready 0 1 2 1 1 1 [[1]]%Z [[1]]%Z gap 1.
Proof.
  constructor; [cbn; auto|cbn; auto 10|cbn; auto|]. split; [apply single_ok; left; reflexivity|]. split; [apply single_ok; left; reflexivity|]. split; [shape_tac|bin_tac].
Qed.
Lemma C107_refuted_lemma : ~ (forall orc w0 w i N D X F k a b K A B y X', built orc w0 -> set_up w0 i w ->
  layer_of (get_mat w i) = None -> fixed (get_mat w i) = FBool false -> value w i = A2 X -> fixed_entries (get_mat w i) = A2 F ->
  0 < bprior (get_mat w0 i) < 1 -> draws_ok (o_cell orc (clock w)) N D -> parents (get_mat w i) = [k] -> model (get_lay w k) = "OR-AND"%string ->
  layer2 w k a b N D K A B X y -> updates_to orc w i X' -> imputed F X' N D).
Proof.
  intros H. assert (Hin : In (OR, AND) implemented) by (cbn; tauto). assert (HP : 0 < bprior (get_mat gap_world 0) < 1) by (cbn; lra).
  assert (HD : draws_ok (o_cell demo (clock gap_ready)) 1 1) by (intros n l _ _; unfold SpecR.is_draw; cbn; lra).
  pose proof (the_output_ok OR AND) as Ho. set (out := the_output OR AND) in *.
  destruct (C107_one_lemma demo OR AND Hin out Ho gap_world gap_ready 0 1 1 gap [[0]]%Z 0 1 2 1 [[1]]%Z [[1]]%Z 1 gap_set_up eq_refl ltac:(cbn; lia) eq_refl eq_refl HP HD eq_refl eq_refl gap_layer) as (X' & U & _ & R).
  specialize (H demo gap_world gap_ready 0%nat 1%nat 1%nat gap [[0]]%Z 0%nat 1%nat 2%nat 1%nat [[1]]%Z [[1]]%Z 1 X' gap_built gap_set_up eq_refl eq_refl eq_refl eq_refl HP HD eq_refl eq_refl gap_layer U).
  specialize (R 0%nat 0%nat ltac:(lia) ltac:(lia)). cbn in R. apply (H 0%nat 0%nat); [lia|lia|cbn; discriminate|exact R].
Qed.
