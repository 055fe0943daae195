(** C93, C94: reconstruction of tensors. *)
From Coq Require Import String Lia Lra.
From Verif Require Import Base BaseLemmas BaseR Spec SpecR SpecF SpecOut Machine Dispatch Inference LayerOutput MaxMachine SpecMachine SpecOrdinary SpecPass SpecPredict MachineExamples OrdinaryExamples Experiments SpecExperiments Reconstruct SpecReconstruct ReconstructProofs2 ReconstructProofs3.
Local Open Scope R_scope.

(** C93. Reconstructing a tensor coded 0/1, or -1/0/1 with 0 for missing, succeeds and leaves all arrays of the caller as
    they were. Inference is run on a machine with one OR-AND layer of latent size L and initial dispersion 0.05 on the
    data (coded -1/1). Returned are the means of the 50 recorded samples of the three factors; for every position the
    probability of the formula when every factor entry is true independently with its recorded frequency; and for every
    position whether some latent dimension has positive means in all three factors. The hyperparameters given have no
    influence. *)
Theorem C93 : forall argsort o arrs clk s X L h0 h1 hs, random o -> training_data arrs s X -> rectangular X -> zero_one X \/ ternary X -> List.length (shape_of X) = 3%nat -> (forall n, In n (shape_of X) -> (0 < n)%nat) ->
  let shape := shape_of X in forall fuel, (2002 <= fuel)%nat -> exists w D st Xr means Xp,
    factorised X D /\ ordinary o w /\ one_layer_machine w D (model_name OR AND) L (5 / 100) false /\ infer fuel o tensorm_settings 50 (fresh_state w) = Some (Ok st) /\
    tensorm_reconstruct argsort fuel o arrs clk s L (h0 :: h1 :: hs) = Some (Ok (arrs, (Xr, means, Xp))) /\ List.length means = 3%nat /\
    (forall k row c, (k < 3)%nat -> (row < nth k shape 0)%nat -> (c < L)%nat -> rat2 (nth k means []) row c = Rsum (fun j => IZR (at2 (nth k (recorded (factors (get_lay w 0)) j st) []) row c)) (seq 0 50) / 50) /\
    all_entries Xr shape (fun idx x => is_prob OR AND 3 L (fun k c => (1 + rat2 (nth k means []) (nth k idx 0%nat) c) / 2) x) /\
    all_entries Xp shape (fun idx x => let some := exists c, (c < L)%nat /\ forall k, (k < 3)%nat -> 0 < rat2 (nth k means []) (nth k idx 0%nat) c in (some -> x = 1) /\ (~ some -> x = 0)).
Proof. exact C93_lemma. Qed.
Print Assumptions C93.
(** Data with two axes: inference is run to the end, and then IndexError is raised (there is no third factor). *)
Theorem C93_two_axes : forall argsort o arrs clk s X L hyper, random o -> training_data arrs s X -> rectangular X -> zero_one X \/ ternary X -> matrix2 X -> small X ->
  forall fuel, (2002 <= fuel)%nat -> tensorm_reconstruct argsort fuel o arrs clk s L hyper = Some (Err IndexError).
Proof. exact C93_matrix_lemma. Qed.
Print Assumptions C93_two_axes.
(** The hyperparameters are not used, but fewer than two raise IndexError. *)
Theorem C93_hyperparameters : forall argsort fuel o arrs clk s L hyper, (List.length hyper < 2)%nat -> tensorm_reconstruct argsort fuel o arrs clk s L hyper = Some (Err IndexError).
Proof. exact C93_hyper_lemma. Qed.
Print Assumptions C93_hyperparameters.
Definition tensor01 : arr := A3 [[[1; 0]; [0; 0]]; [[1; 1]; [0; 1]]]%Z.
Definition tensor3 : arr := A3 [[[1; 0]; [-1; 0]]; [[1; 1]; [0; 1]]]%Z.
Ltac tern_tac := unfold tern3, tern2, tern1; repeat (apply Forall_cons || apply Forall_nil); unfold tern; lia.
Lemma tensor_rect : rectangular tensor01 /\ rectangular tensor3.
Proof. split; cbn; repeat split; repeat constructor. Qed.
Lemma tensor01_zero_one : zero_one tensor01.
Proof. intros i j k H. unfold inside in H. cbn in H. destruct H as (H1 & H2 & H3). destruct i as [|[|]], j as [|[|]], k as [|[|]]; try lia; cbn; auto. Qed.
Example C93_example : random demo /\ training_data [tensor01] (Given 0) tensor01 /\ rectangular tensor01 /\ zero_one tensor01 /\ training_data [tensor01] (Convert tensor3) tensor3 /\ rectangular tensor3 /\ ternary tensor3 /\ ~ zero_one tensor3 /\
  List.length (shape_of tensor01) = 3%nat /\ (forall n, In n (shape_of tensor01) -> (0 < n)%nat) /\ rectangular (A2 [[1; 0]; [0; 0]]%Z) /\ zero_one (A2 [[1; 0]; [0; 0]]%Z) /\ small (A2 [[1; 0]; [0; 0]]%Z).
Proof.
  split; [exact demo_random|]. split; [reflexivity|]. split; [apply tensor_rect|]. split; [exact tensor01_zero_one|]. split; [reflexivity|]. split; [apply tensor_rect|]. split; [cbn; tern_tac|]. split; [intros H; destruct (H 0%nat 1%nat 0%nat) as [C|C]; [unfold inside; cbn; lia|discriminate C|discriminate C]|].
  split; [reflexivity|]. split; [intros n Hn; cbn in Hn; lia|]. split; [cbn; repeat split; repeat constructor|]. split; [|intros n Hn; cbn in Hn; lia].
  intros i j k H. unfold inside in H. cbn in H. destruct H as (H1 & H2 & ->). destruct i as [|[|]], j as [|[|]]; try lia; cbn; auto.
Qed.

(** C94. Full statement: entries marked missing (0) in data coded -1/0/1 stay missing when a tensor is reconstructed.
    Proved for data in which -1 occurs: what is factorised (D of C93) is the data. Missing: data without a -1, for which
    the statement is false (C94_refuted). *)
Theorem C94_partial : forall X, rectangular X -> ternary X -> (exists i j k, inside X i j k /\ entry X i j k = (-1)%Z) -> forall D, factorised X D -> D = X.
Proof. exact C94_lemma. Qed.
Print Assumptions C94_partial.
(** False for data whose observed entries are all 1: whatever the machine draws, the result is that for data with every
    missing entry observed as -1. *)
Theorem C94_refuted : forall X, rectangular X -> zero_one X -> (exists i j k, inside X i j k /\ entry X i j k = 0%Z) -> exists D, coded X D /\
  forall argsort fuel o arrs clk L hyper, tensorm_reconstruct argsort fuel o arrs clk (Convert X) L hyper = tensorm_reconstruct argsort fuel o arrs clk (Convert D) L hyper.
Proof. exact C94_refuted_lemma. Qed.
Print Assumptions C94_refuted.
Example C94_example : rectangular tensor3 /\ ternary tensor3 /\ (exists i j k, inside tensor3 i j k /\ entry tensor3 i j k = (-1)%Z) /\ factorised tensor3 tensor3 /\
  rectangular tensor01 /\ zero_one tensor01 /\ (exists i j k, inside tensor01 i j k /\ entry tensor01 i j k = 0%Z).
Proof.
  split; [apply tensor_rect|]. split; [cbn; tern_tac|]. split; [exists 0%nat, 1%nat, 0%nat; split; [unfold inside; cbn; lia|reflexivity]|]. split; [right; split; [|reflexivity]; apply C93_example|]. split; [apply tensor_rect|]. split; [exact tensor01_zero_one|].
  exists 0%nat, 0%nat, 1%nat. split; [unfold inside; cbn; lia|reflexivity].
Qed.
