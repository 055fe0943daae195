(** C111: layers added between two calls of infer. *)
From Coq Require Import String Lra.
From Verif Require Import Base BaseR Spec SpecR SpecClean Canon Scores Sampling Machine Dispatch Inference SpecMachine UpdateProofs MachineExamples GrownProofs GrownExamples SpecGrown.
Local Open Scope R_scope.

(** C111. Adding a layer leaves all connections in place, makes the given matrix a child of the new layer, and
    leaves the update functions of all matrices as they are. *)
Theorem C111_added : forall o w K c m w', built o w -> (c < List.length (mats w))%nat -> add_layer o w K (Some c) None m = (w', Ok tt) ->
  grown w w' /\ parents (get_mat w' c) = (parents (get_mat w c) ++ [List.length (layers w)])%list /\
  forall i, (i < List.length (mats w))%nat -> sfct (get_mat w' i) = sfct (get_mat w i).
Proof. exact C111_added_lemma. Qed.
Print Assumptions C111_added.
Example C111_added_example : built late plot1 /\ (1 < List.length (mats plot1))%nat /\ add_layer late plot1 1 (Some 1%nat) None "OR-AND" = (plot2, Ok tt).
Proof. split; [exact plot1_built|]. split; [repeat constructor|exact plot2_made]. Qed.

(** C111. The next call of infer does not make a new update function for a matrix that has one. *)
Theorem C111_cached : forall w i f, sfct (get_mat w i) = Some f -> assign_mat w i = Ok w.
Proof. exact C111_cached_lemma. Qed.
Print Assumptions C111_cached.
Example C111_cached_example : exists f, sfct (get_mat plot2 1) = Some f.
Proof. eexists. reflexivity. Qed.

(** C111. Hence a factor whose update function was made while it had no parents is updated by the sweep of the
    posterior without any parents, whatever layers were added since. The full statement (the parents of now enter, as
    in C74_one_parent and C74_two_parents, where the layers are added before the first call) is false. *)
Theorem C111_stale : forall orc o i, In (o, i) implemented -> forall out, is_output o i out ->
  forall w0 w l f g N D L A B X x F pB, layer2 w l f g N D L A B X x -> model (get_lay w l) = model_name o i -> 0 < pB < 1 ->
  (l < List.length (layers w0))%nat -> (f < List.length (mats w0))%nat -> (g < List.length (mats w0))%nat ->
  (set_up_before w0 f w -> parents (get_mat w0 f) = [] -> fixed_entries (get_mat w f) = A2 F -> 0 < bprior (get_mat w0 f) < 1 -> (Z.of_nat D <= 32767)%Z -> draws_ok (o_cell orc (clock w)) N L ->
     updates_to orc w f (ref_sweep (fun A' => post2 out x X N D L (bprior (get_mat w0 f)) pB A' B) F (o_cell orc (clock w)) N L A)) /\
  (set_up_before w0 g w -> parents (get_mat w0 g) = [] -> fixed_entries (get_mat w g) = A2 F -> 0 < bprior (get_mat w0 g) < 1 -> (Z.of_nat N <= 32767)%Z -> draws_ok (o_cell orc (clock w)) D L ->
     updates_to orc w g (ref_sweep (fun B' => post2 out x X N D L pB (bprior (get_mat w0 g)) A B') F (o_cell orc (clock w)) D L B)).
Proof. exact C111_stale_lemma. Qed.
Print Assumptions C111_stale.
Example C111_stale_example : layer2 plot2 0 1 2 1 1 1 [[1%Z]] [[1%Z]] [[0%Z]] 1 /\ set_up_before plot0 1 plot2 /\ parents (get_mat plot0 1) = [] /\ parents (get_mat plot2 1) = [1%nat] /\ draws_ok (o_cell late (clock plot2)) 1 1.
Proof. exact (conj plot2_layer (conj plot_before (conj eq_refl (conj (proj1 (proj2 plot2_added)) plot2_draws)))). Qed.

(** A machine to which a layer is added after the update function of factor 1 was made: the next call keeps that
    function, and the update differs from that of the posterior of the machine. *)
Theorem C111_refuted : exists orc w0 w1 w, built orc w0 /\ assign_mat w0 1 = Ok w1 /\ add_layer orc w1 1 (Some 1%nat) None "OR-AND" = (w, Ok tt) /\
  layer2 w 0 1 2 1 1 1 [[1%Z]] [[1%Z]] [[0%Z]] 1 /\ model (get_lay w 0) = model_name OR AND /\ parents (get_mat w 1) = [1%nat] /\ layer2 w 1 3 4 1 1 1 [[1%Z]] [[1%Z]] [[1%Z]] (5 / 100) /\ model (get_lay w 1) = model_name OR AND /\
  fixed_entries (get_mat w 1) = A2 [[0%Z]] /\ bprior (get_mat w 1) = 1 / 2 /\ draws_ok (o_cell orc (clock w)) 1 1 /\ assign_mat w 1 = Ok w /\
  forall out, is_output OR AND out -> ~ updates_to orc w 1 (ref_sweep (fun A' => post2 out 1 [[0%Z]] 1 1 1 (1 / 2) (1 / 2) A' [[1%Z]] * parent_lik out (5 / 100) [[1%Z]] [[1%Z]] 1 1 1 A') [[0%Z]] (o_cell orc (clock w)) 1 1 [[1%Z]]).
Proof. exact C111_refuted_lemma. Qed.
Print Assumptions C111_refuted.
