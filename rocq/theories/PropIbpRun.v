(** C90: running inference on a machine with an OR-AND-IBP layer. *)
From Coq Require Import String Lia Lra.
From Verif Require Import Base BaseR Spec SpecR SpecIbp Canon Ibp Machine Dispatch Inference SpecMachine SpecOrdinary SpecExperiments SpecMaxRun SpecIbpRun SamplingExamples MachineExamples OrdinaryExamples IbpRunProofs2 IbpRunProofs3.
Local Open Scope R_scope.

(** C90. Full statement: inference completes, and every update resamples from the conditional distribution given
    everything else and respects what is fixed ([ibp_update false]). All of this is false. An update of the first factor
    draws new columns and their features from the wrong distribution: *)
Theorem C90_conditional_refuted : forall out, is_output OR AND out -> exists o w w' X, random o /\ (forall k n, SpecR.is_draw (dk (o_ibp o k n))) /\ ibp_machine w 1 1 0 [[]] [[]] X 1 /\ bprior (get_mat w 2) = 1 / 10 /\ concentration w = 1 /\
  run_mat o w 1 = Ok w' /\ ~ ibp_update false out o w 1 w'.
Proof. exact C90_conditional_refuted_lemma. Qed.
(** whatever the parameters, it can empty a second factor that is fixed: *)
Theorem C90_fixed_refuted : forall lam q a x, 0 < q < 1 -> 0 < a -> tern x -> exists o w w', random o /\ (forall k n, SpecR.is_draw (dk (o_ibp o k n))) /\ ibp_machine w 1 1 1 [[1%Z]] [[1%Z]] [[x]] lam /\ bprior (get_mat w 2) = q /\ concentration w = a /\
  fixed (get_mat w 2) = FBool true /\ fixed_entries (get_mat w 2) = A2 [[1%Z]] /\ run_mat o w 1 = Ok w' /\ value w' 2 = A2 [[]].
Proof. exact C90_fixed_refuted_lemma. Qed.
(** and can make the second factor wider than the array that says which of its entries are fixed, which the next update
    of the second factor then reads out of bounds: *)
Theorem C90_bounds_refuted : forall lam q a x, 0 < q < 1 -> 0 < a -> tern x -> exists o w w' F B', random o /\ (forall k n, SpecR.is_draw (dk (o_ibp o k n))) /\ ibp_machine w 1 1 1 [[1%Z]] [[1%Z]] [[x]] lam /\ bprior (get_mat w 2) = q /\ concentration w = a /\
  run_mat o w 1 = Ok w' /\ value w' 2 = A2 B' /\ has_shape2 B' 1 2 /\ fixed_entries (get_mat w' 2) = A2 F /\ has_shape2 F 1 1.
Proof. exact C90_bounds_refuted_lemma. Qed.
(** and a run fails when a sample is more than ten columns wider than the factors were when sampling began. *)
Theorem C90_completes_refuted : exists o cfg w A, random o /\ (forall k n, SpecR.is_draw (dk (o_ibp o k n))) /\ usable cfg /\ ibp_machine w 6 1 1 A [[(-1)%Z]] (repeat [0%Z] 6) 1 /\ anneal w = false /\
  forall fuel, (2 <= fuel)%nat -> infer fuel o cfg 1 (fresh_state w) = Some (Err ValueError).
Proof. exact C90_trace_refuted_lemma. Qed.
(** True part, without annealing and with out-of-bounds entries of the array of fixed entries read as not fixed. A run
    fails in no other way; it completes if the first factor is fixed or 2 N times the number of samples is at most 10. A
    run that completes leaves an OR-AND-IBP machine, perhaps of another size; its log explains every change from the
    state with closures chosen and concentration set, updates of matrices as [ibp_update true], updates of the dispersion
    as C17; and only what is not fixed is updated. *)
Theorem C90_run_partial : forall out o N D X cfg n s L A B lam, is_output OR AND out -> random o -> (forall k n, SpecR.is_draw (dk (o_ibp o k n))) -> usable cfg -> ibp_machine (wd s) N D L A B X lam -> anneal (wd s) = false ->
  exists F0, forall fuel, (F0 <= fuel)%nat ->
  (infer fuel o cfg n s = Some (Err ValueError) /\ fixed (get_mat (wd s) 1) = FBool false /\ (10 < n * (2 * N))%nat) \/
  exists s' w1 evs, infer fuel o cfg n s = Some (Ok s') /\
  (exists L' A' B' lam', ibp_machine (wd s') N D L' A' B' X lam') /\ started (wd s) w1 /\ log s' = (log s ++ evs)%list /\ does (ibp_update true out o) (ibp_dispersion out) evs w1 (wd s') /\
  (forall i, In (EMat i) evs -> (i = 1%nat \/ i = 2%nat) /\ fixed (get_mat (wd s) i) = FBool false) /\ (forall l v, In (ELbda l v) evs -> l = 0%nat /\ lfixed (lbda (get_lay (wd s) 0)) = false).
Proof. intros out o N D X cfg n s L A B lam Ho Hr Hk. exact (C90_run_lemma out Ho o Hr Hk N D X cfg n s L A B lam). Qed.
(** Machines made by add_matrix and add_layer are OR-AND-IBP machines with concentration 3, whatever else the caller
    holds. *)
Theorem C90_built : forall o arrs clk src X N D L, training_data arrs src (A2 X) -> has_shape2 X N D -> tern2 X -> (Z.of_nat N <= 32767)%Z -> (Z.of_nat D <= 32767)%Z -> (0 < N)%nat -> (0 < D)%nat -> (0 < L)%nat ->
  exists w1 w2 A B lam, add_matrix o (World arrs [] [] [] false clk) src None (FBool true) = Ok w1 /\ add_layer o w1 L (Some 0%nat) None "OR-AND-IBP" = (w2, Ok tt) /\
    ibp_machine w2 N D L A B X lam /\ concentration w2 = 3 /\ anneal w2 = false /\ fixed (get_mat w2 1) = FBool false /\ fixed (get_mat w2 2) = FBool false /\ lfixed (lbda (get_lay w2 0)) = false.
Proof. exact C90_built_lemma. Qed.
(** A machine that meets the hypotheses, and completes with 2 samples, whatever the draws. *)
Definition demo_ibp : world := small_ibp [[1; -1]; [1; 1]]%Z [[1; 1]; [-1; 1]; [1; -1]]%Z [[1; 0; -1]; [-1; 1; 1]]%Z [[0; 1]; [0; 0]; [0; 0]]%Z (1 / 2) (1 / 4) 2 false false false.
Example C90_example : is_output OR AND (the_output OR AND) /\ random demo /\ (forall k n, SpecR.is_draw (dk (o_ibp demo k n))) /\ usable demo_settings /\
  ibp_machine demo_ibp 2 3 2 [[1; -1]; [1; 1]]%Z [[1; 1]; [-1; 1]; [1; -1]]%Z [[1; 0; -1]; [-1; 1; 1]]%Z (1 / 2) /\
  (exists fuel s', infer fuel demo demo_settings 2 (fresh_state demo_ibp) = Some (Ok s')) /\
  training_data [A2 [[1; 0; -1]; [-1; 1; 1]]%Z] (Given 0) (A2 [[1; 0; -1]; [-1; 1; 1]]%Z) /\ 0 < 1 / 4 < 1 /\ 0 < 2 /\ tern (-1).
Proof.
  assert (H : ibp_machine demo_ibp 2 3 2 [[1; -1]; [1; 1]]%Z [[1; 1]; [-1; 1]; [1; -1]]%Z [[1; 0; -1]; [-1; 1; 1]]%Z (1 / 2)).
  { apply small_ibp_machine; try lia; try lra; try (split; [reflexivity|repeat constructor]).
    - repeat (apply Forall_cons || apply Forall_nil); unfold tern; auto.
    - split; [split; [reflexivity|repeat constructor]|]. repeat (apply Forall_cons || apply Forall_nil); unfold pm1; auto.
    - split; [split; [reflexivity|repeat constructor]|]. repeat (apply Forall_cons || apply Forall_nil); unfold pm1; auto. }
  assert (HD : forall k n, SpecR.is_draw (dk (o_ibp demo k n))) by (intros; cbn; split; lra).
  split; [apply the_output_ok|]. split; [exact demo_random|]. split; [exact HD|]. split; [unfold usable; cbn; lia|]. split; [exact H|]. split; [|split; [reflexivity|split; [lra|split; [lra|unfold tern; auto]]]].
  destruct (C90_run_partial _ demo 2 3 _ demo_settings 2 (fresh_state demo_ibp) 2 _ _ _ (the_output_ok OR AND) demo_random HD ltac:(unfold usable; cbn; lia) H eq_refl) as (F & G).
  exists F. destruct (G F (le_n F)) as [(_ & _ & C)|(s' & _ & _ & E & _)]; [lia|]. exists s'. exact E.
Qed.
Print Assumptions C90_conditional_refuted.
Print Assumptions C90_fixed_refuted.
Print Assumptions C90_bounds_refuted.
Print Assumptions C90_completes_refuted.
Print Assumptions C90_run_partial.
Print Assumptions C90_built.
