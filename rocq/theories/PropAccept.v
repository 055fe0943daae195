(** C104: which models can be fitted to which data. Also C76 for the arrays accepted by add_matrix. *)
From Coq Require Import String Lia Lra.
From Verif Require Import Base BaseR Spec SpecR SpecMax Canon Machine Dispatch Inference MachineExamples OrdinaryExamples MaxMachineProofs MaxRunProofs2 AcceptProofs SpecMachine SpecOrdinary SpecExperiments SpecAccept.
Local Open Scope R_scope.

(** Every machine of two logical operators can be fitted to every array with two or three axes of entries -1, 0, 1. *)
Theorem C104_logical : forall o arrs clk src L cfg n X m, random o -> usable cfg -> training_data arrs src X -> data_ok X -> (matrix2 X -> small X) ->
  logical_name m -> fits o arrs clk src L m cfg n.
Proof. intros o arrs clk src L cfg n X m Hr HU HT HD Hs Hm. exact (accept_logical o arrs clk src L cfg n X HT m Hr HU HD Hs Hm). Qed.
Print Assumptions C104_logical.
(** MAX-AND and qL-AND can be fitted to every matrix. *)
Theorem C104_special_matrix : forall o arrs clk src L cfg n X N D m, random o -> (forall v, is_argsort v (o_argsort o v)) -> (forall k d, SpecR.is_draw (o_feature o k d)) -> usable cfg ->
  training_data arrs src (A2 X) -> has_shape2 X N D -> tern2 X -> (Z.of_nat N <= 32767)%Z -> (Z.of_nat D <= 32767)%Z -> (0 < N)%nat -> (0 < D)%nat -> (0 < L)%nat ->
  m = "MAX-AND"%string \/ m = "qL-AND"%string -> fits o arrs clk src L m cfg n.
Proof.
  intros o arrs clk src L cfg n X N D m Hr HS HF HU HT HX H3 BN BD HN HD HL [-> | ->]; [exact (accept_max o arrs clk src L cfg n X N D Hr HS HU HT HX HN HD HL)|exact (accept_q o arrs clk src L cfg n X N D Hr HF HU HT HX H3 BN BD HN HD HL)].
Qed.
Print Assumptions C104_special_matrix.
(** None of the three special models can be fitted to an array with three axes: add_layer accepts them, inference raises. *)
Theorem C104_special_tensor : forall o arrs clk src L cfg n X m, training_data arrs src (A3 X) -> special_name m -> rejected_late o arrs clk src L m cfg n NotImplementedError.
Proof. exact accept_tensor. Qed.
Print Assumptions C104_special_tensor.
(** Nor does fixing the factors help: the dispersions of a MAX-AND layer with three factors cannot be updated. *)
Theorem C104_fixed_factors : forall fuel o cfg n s lay, layers (wd s) = [lay] -> model lay = "MAX-AND"%string -> List.length (factors lay) = 3%nat -> lfixed (lbda lay) = false -> lsfct (lbda lay) = None ->
  (forall i, In i (members (wd s)) -> fixed (get_mat (wd s) i) = FBool true) -> infer fuel o cfg n s = Some (Err AttributeError).
Proof. exact fixed_max. Qed.
Print Assumptions C104_fixed_factors.
(** Every other name is rejected by add_layer, which leaves the machine unchanged. *)
Theorem C104_unknown : forall o arrs clk src L X m, training_data arrs src X -> ~ logical_name m -> ~ special_name m -> rejected o arrs clk src L m NotImplementedError.
Proof. intros o arrs clk src L X m HT. exact (accept_unknown o arrs clk src L X HT m). Qed.
Print Assumptions C104_unknown.

Definition sorted_draws : oracle := {| o_perm := o_perm sorting; o_cell := o_cell sorting; o_feature := fun _ _ => 1 / 2; o_ibp := o_ibp sorting; o_init := o_init sorting; o_argsort := o_argsort sorting; o_memory := o_memory sorting |}.
Example C104_example : random sorted_draws /\ (forall v, is_argsort v (o_argsort sorted_draws v)) /\ (forall k d, SpecR.is_draw (o_feature sorted_draws k d)) /\ usable demo_settings /\
  training_data [A2 [[1; 0]; [-1; 1]]%Z] (Given 0) (A2 [[1; 0]; [-1; 1]]%Z) /\ data_ok (A2 [[1; 0]; [-1; 1]]%Z) /\ small (A2 [[1; 0]; [-1; 1]]%Z) /\ tern2 [[1; 0]; [-1; 1]]%Z /\ logical_name "NOR-NXOR" /\
  training_data [] (Convert (A3 [[[1; 0]]; [[-1; 1]]]%Z)) (A3 [[[1; 0]]; [[-1; 1]]]%Z) /\ ~ logical_name "AND" /\ ~ special_name "AND".
Proof.
  split; [exact sorting_random|]. split; [exact isort_argsort|]. split; [intros; split; cbn; lra|]. split; [unfold usable; cbn; lia|]. split; [reflexivity|].
  split; [split; [split; [reflexivity|repeat constructor]|repeat (apply Forall_cons || apply Forall_nil); unfold tern; auto]|]. split; [intros k [<-|[<-|[]]]; cbn; lia|]. split; [repeat (apply Forall_cons || apply Forall_nil); unfold tern; auto|].
  split; [exists NOR, NXOR; reflexivity|]. split; [reflexivity|]. split; [intros ([] & [] & E); discriminate E|intros [E|[E|E]]; discriminate E].
Qed.
Definition fixed_tensor_layer : world := World [A3 [[[1; 0]]]%Z; A2 [[1]]%Z; A2 [[1]]%Z; A2 [[1]; [-1]]%Z]
  [Mat 0 None (FBool true) (A3 [[[0; 0]]]%Z) (1 / 2) None [0%nat] None; Mat 1 (Some 0%nat) (FBool true) (A2 [[0]]%Z) (1 / 2) (Some 0%nat) [] None; Mat 2 (Some 1%nat) (FBool true) (A2 [[0]]%Z) (1 / 2) (Some 0%nat) [] None; Mat 3 (Some 2%nat) (FBool true) (A2 [[0]; [0]]%Z) (1 / 2) (Some 0%nat) [] None]
  [Lay [1; 2; 3]%nat 0 "MAX-AND" (Par (LV [8 / 10; 1 / 100]) false (1, 1) None) None None None 1 false false false false] [0%nat] false 0.
Example C104_fixed_factors_example : exists lay, layers (wd (fresh_state fixed_tensor_layer)) = [lay] /\ model lay = "MAX-AND"%string /\ List.length (factors lay) = 3%nat /\ lfixed (lbda lay) = false /\ lsfct (lbda lay) = None /\
  (forall i, In i (members fixed_tensor_layer) -> fixed (get_mat fixed_tensor_layer i) = FBool true).
Proof. eexists. split; [reflexivity|]. repeat (split; [reflexivity|]). intros i Hi. cbn in Hi. destruct Hi as [<-|[<-|[<-|[<-|[]]]]]; reflexivity. Qed.

(** C76: add_matrix accepts an array that says what is fixed exactly when it has the shape of the data. *)
Theorem C76_shape_partial : forall o w src X ax f, training_data (arrays w) src X ->
  (shape_of (A2 f) = shape_of X -> exists w', add_matrix o w src ax (FArr f) = Ok w' /\ value w' (List.length (mats w)) = X /\ fixed (get_mat w' (List.length (mats w))) = FArr f) /\
  (shape_of (A2 f) <> shape_of X -> add_matrix o w src ax (FArr f) = Err AssertionError).
Proof. exact fixed_array_shape. Qed.
Print Assumptions C76_shape_partial.
Example C76_shape_example : training_data [A2 [[1; 1]]%Z] (Given 0) (A2 [[1; 1]]%Z) /\ shape_of (A2 [[0; 1]]%Z) = shape_of (A2 [[1; 1]]%Z) /\ shape_of (A2 [[0]; [1]]%Z) <> shape_of (A2 [[1; 1]]%Z).
Proof. repeat split. discriminate. Qed.
