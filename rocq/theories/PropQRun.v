(** C89: running inference on a machine with a qL-AND layer. *)
From Coq Require Import String Lia Lra.
From Verif Require Import Base BaseR Spec SpecR SpecQL Canon Machine Dispatch Inference SpecMachine SpecOrdinary SpecExperiments SpecMaxRun SpecQRun MachineExamples OrdinaryExamples QRunProofs QRunProofs2.
Local Open Scope R_scope.

(** C89. Full statement: inference completes, and every update of a factor or of the thresholds resamples from the
    conditional distribution given everything else ([q_update false]). Both halves are false. Unless
    λ + logit p = 1, some update of a factor entry is wrong: *)
Theorem C89_conditional_refuted : forall out, is_qout out -> forall lam p, 0 < p < 1 -> lam + ln (p / (1 - p)) <> 1 ->
  exists o w w', random o /\ q_machine w 1 1 1 [[1%Z]] [[1%Z]] [[1%Z]] [[1%Z]] lam /\ bprior (get_mat w 1) = p /\ run_mat o w 1 = Ok w' /\ ~ q_update false out o w 1 w'.
Proof. exact C89_conditional_refuted_lemma. Qed.
(** whatever dispersion and prior, a fixed entry can change: *)
Theorem C89_fixed_refuted : forall out lam p, exists o w w' F, random o /\ q_machine w 1 1 1 [[1%Z]] [[1%Z]] [[1%Z]] [[1%Z]] lam /\ bprior (get_mat w 1) = p /\ run_mat o w 1 = Ok w' /\
  fixed_entries (get_mat w 1) = A2 F /\ at2 F 0 0 = 1%Z /\ value w 1 = A2 [[1%Z]] /\ value w' 1 = A2 [[(-1)%Z]] /\ ~ q_update false out o w 1 w'.
Proof. exact C89_fixed_refuted_lemma. Qed.
(** whatever positive dispersion, some update of a threshold is wrong: *)
Theorem C89_thresholds_refuted : forall out, is_qout out -> forall lam, 0 < lam ->
  exists o w w', random o /\ (forall k d, SpecR.is_draw (o_feature o k d)) /\ q_machine w 1 1 1 [[1%Z]] [[1%Z]] [[(-1)%Z]] [[1%Z]] lam /\ run_mat o w 3 = Ok w' /\ ~ q_update false out o w 3 w'.
Proof. exact C89_thresholds_refuted_lemma. Qed.
(** and inference fails if both factors are fixed and the thresholds are not, before any update. *)
Theorem C89_completes_refuted : forall o N D L X cfg n s A B Q lam fuel, random o -> usable cfg -> q_machine (wd s) N D L A B X Q lam -> ~ q_ready (wd s) -> burn_in_min cfg <> 0%Z -> (1 <= fuel)%nat ->
  infer fuel o cfg n s = Some (Err ValueError).
Proof. intros o N D L X cfg n s A B Q lam fuel Hr. exact (C89_fixed_lemma o Hr N D L X cfg n s A B Q lam fuel). Qed.
(** True part: otherwise, and without annealing, a run completes for every number of samples and leaves a qL-AND machine;
    all that differs from the state before are the closures, the factors, the thresholds and the dispersion; its log
    explains every change, updates of matrices as [q_update true], updates of the dispersion as C17; and only what is
    not fixed is updated. *)
Theorem C89_run_partial : forall out o N D L X cfg n s A B Q lam, is_qout out -> random o -> (forall k d, SpecR.is_draw (o_feature o k d)) -> usable cfg -> q_machine (wd s) N D L A B X Q lam -> q_ready (wd s) -> anneal (wd s) = false ->
  exists F0, forall fuel, (F0 <= fuel)%nat -> exists s' w1 evs, infer fuel o cfg n s = Some (Ok s') /\
  (exists A' B' Q' lam', q_machine (wd s') N D L A' B' X Q' lam') /\ strip w1 = strip (wd s) /\ log s' = (log s ++ evs)%list /\ does (q_update true out o) (q_dispersion out) evs w1 (wd s') /\
  (forall i, In (EMat i) evs -> (i = 1%nat \/ i = 2%nat \/ i = 3%nat) /\ fixed (get_mat (wd s) i) = FBool false) /\ (forall l v, In (ELbda l v) evs -> l = 0%nat /\ lfixed (lbda (get_lay (wd s) 0)) = false).
Proof. intros out o N D L X cfg n s A B Q lam Ho Hr Hf. exact (C89_run_lemma out Ho o Hr Hf N D L X cfg n s A B Q lam). Qed.
(** Machines made by add_matrix and add_layer are qL-AND machines with thresholds 1, whatever else the caller holds. *)
Theorem C89_built : forall o arrs clk src X N D L, training_data arrs src (A2 X) -> has_shape2 X N D -> tern2 X -> (Z.of_nat N <= 32767)%Z -> (Z.of_nat D <= 32767)%Z -> (0 < N)%nat -> (0 < D)%nat -> (0 < L)%nat ->
  exists w1 w2 A B lam, add_matrix o (World arrs [] [] [] false clk) src None (FBool true) = Ok w1 /\ add_layer o w1 L (Some 0%nat) None "qL-AND" = (w2, Ok tt) /\
    q_machine w2 N D L A B X [repeat 1%Z D] lam /\ anneal w2 = false /\ fixed (get_mat w2 1) = FBool false /\ fixed (get_mat w2 2) = FBool false /\ fixed (get_mat w2 3) = FBool false /\ lfixed (lbda (get_lay w2 0)) = false.
Proof. exact C89_built_lemma. Qed.
(** Machines that meet the hypotheses: the second has both factors fixed. *)
Definition demo_q (b : bool) : world := small_q [[1; -1]; [1; 1]]%Z [[1; 1]; [-1; 1]; [1; -1]]%Z [[1; 0; -1]; [-1; 1; 1]]%Z [[1; 2; 1]]%Z (1 / 2) (1 / 4) [[0; 1]; [0; 0]]%Z b.
Example C89_example : is_qout q_out /\ random demo /\ (forall k d, SpecR.is_draw (o_feature (with_draws (1 / 2) (1 / 3)) k d)) /\ usable demo_settings /\ burn_in_min demo_settings <> 0%Z /\
  (forall b, q_machine (demo_q b) 2 3 2 [[1; -1]; [1; 1]]%Z [[1; 1]; [-1; 1]; [1; -1]]%Z [[1; 0; -1]; [-1; 1; 1]]%Z [[1; 2; 1]]%Z (1 / 2)) /\ q_ready (demo_q false) /\ ~ q_ready (demo_q true) /\
  training_data [A2 [[1; 0; -1]; [-1; 1; 1]]%Z] (Given 0) (A2 [[1; 0; -1]; [-1; 1; 1]]%Z).
Proof.
  split; [exact q_out_is|]. split; [exact demo_random|]. split; [intros; split; cbn; lra|]. split; [unfold usable; cbn; lia|]. split; [discriminate|]. split; [|split; [left; reflexivity|split; [|reflexivity]]].
  - intros b. apply small_q_machine; try lia; try (split; [reflexivity|repeat constructor]).
    + repeat (apply Forall_cons || apply Forall_nil); unfold tern; auto.
    + split; [split; [reflexivity|repeat constructor]|]. repeat (apply Forall_cons || apply Forall_nil); unfold pm1; auto.
    + split; [split; [reflexivity|repeat constructor]|]. repeat (apply Forall_cons || apply Forall_nil); unfold pm1; auto.
    + intros [|[|[|d]]] Hd; cbn; lia.
  - intros [C|[C|[C|C]]]; cbn in C; try discriminate C. apply C. reflexivity.
Qed.
Print Assumptions C89_conditional_refuted.
Print Assumptions C89_fixed_refuted.
Print Assumptions C89_thresholds_refuted.
Print Assumptions C89_completes_refuted.
Print Assumptions C89_run_partial.
Print Assumptions C89_built.
