(** C88: running inference on a machine with a MAX-AND layer; C41 for dispersions in any order. *)
From Coq Require Import String Permutation Lia Lra.
From Verif Require Import Base BaseR Spec SpecR SpecMax Canon Fuzzy MaxMachine MaxMachineProofs Machine Dispatch Inference SpecMachine SpecOrdinary SpecExperiments SpecMaxRun MachineExamples MaxOrderProofs MaxRunProofs MaxRunProofs2.
Local Open Scope R_scope.

(** C88. Full statement: inference completes, and every update of a factor resamples each entry from its conditional
    distribution given everything else ([max_gibbs], up to the truncation of C41). The second half is false: *)
Theorem C88_gibbs_refuted : exists o w N D L A B X lam w', random o /\ (forall v, is_argsort v (o_argsort o v)) /\ max_machine w N D L A B X lam /\
  run_mat o w 1 = Ok w' /\ ~ max_update max_gibbs o w 1 w'.
Proof. exact C88_refuted_lemma. Qed.
(** True part: without annealing a run completes for every number of samples and leaves a MAX-AND machine; all that
    differs from the state before are the closures, the two factors and the dispersions; its log explains every change,
    factor updates as [max_resampled], dispersion updates as C40 with tables to match; and only what is not fixed is
    updated. *)
Theorem C88_run_partial : forall o N D L X cfg n s A B lam, random o -> (forall v, is_argsort v (o_argsort o v)) -> usable cfg -> max_machine (wd s) N D L A B X lam -> anneal (wd s) = false ->
  exists F0, forall fuel, (F0 <= fuel)%nat -> exists s' w1 evs, infer fuel o cfg n s = Some (Ok s') /\
  (exists A' B' lam', max_machine (wd s') N D L A' B' X lam') /\ strip w1 = strip (wd s) /\ log s' = (log s ++ evs)%list /\ does (max_update max_resampled o) max_dispersions evs w1 (wd s') /\
  (forall i, In (EMat i) evs -> (i = 1%nat \/ i = 2%nat) /\ fixed (get_mat (wd s) i) = FBool false) /\ (forall l v, In (ELbda l v) evs -> l = 0%nat /\ lfixed (lbda (get_lay (wd s) 0)) = false).
Proof. intros o N D L X cfg n s A B lam Hr HS HU H Ha. exact (C88_run_lemma o Hr HS N D L X cfg HU n s A B lam H Ha). Qed.
(** While the dispersions are strictly decreasing an update is what it should be. *)
Theorem C88_decreasing_partial : forall o w N D L A B X lam i, random o -> (forall v, is_argsort v (o_argsort o v)) -> max_machine w N D L A B X lam -> dec_sorted lam L -> i = 1%nat \/ i = 2%nat -> sfct (get_mat w i) <> None ->
  exists w', run_mat o w i = Ok w' /\ max_update max_gibbs o w i w'.
Proof. exact C88_decreasing_lemma. Qed.
(** With annealing, a run with a free dispersion fails once annealing starts. *)
Theorem C88_annealing : forall o N D L X cfg n s A B lam, random o -> (forall v, is_argsort v (o_argsort o v)) -> usable cfg -> max_machine (wd s) N D L A B X lam -> anneal (wd s) = true ->
  lfixed (lbda (get_lay (wd s) 0)) = false -> (Z.max 0 (fix_lbda_iters cfg) < burn_in_min cfg)%Z ->
  exists F0, forall fuel, (F0 <= fuel)%nat -> exists e, infer fuel o cfg n s = Some (Err e).
Proof. intros o N D L X cfg n s A B lam Hr HS HU H Ha Hx Hlt. exact (C88_anneal_lemma o Hr HS N D L X cfg HU n s A B lam H Ha Hx Hlt). Qed.
(** Machines made by add_matrix and add_layer are MAX-AND machines, whatever else the caller holds. *)
Theorem C88_built : forall o arrs clk src X N D L, training_data arrs src (A2 X) -> has_shape2 X N D -> (0 < N)%nat -> (0 < D)%nat -> (0 < L)%nat ->
  exists w1 w2 A B, add_matrix o (World arrs [] [] [] false clk) src None (FBool true) = Ok w1 /\ add_layer o w1 L (Some 0%nat) None "MAX-AND" = (w2, Ok tt) /\
    max_machine w2 N D L A B X (initial_dispersions L) /\ anneal w2 = false /\ fixed (get_mat w2 1) = FBool false /\ fixed (get_mat w2 2) = FBool false /\ lfixed (lbda (get_lay w2 0)) = false.
Proof. exact C88_built_lemma. Qed.
(** Setting the dispersion of a MAX-AND layer to a number makes every update of its factors fail. *)
Theorem C88_scalar : forall o w i x order, sfct (get_mat w i) = Some (FMax order) -> (exists A, value w i = A2 A) -> (exists F, fixed_entries (get_mat w i) = A2 F) -> layer_of (get_mat w i) = Some 0%nat -> disp w 0 = LS x ->
  run_mat o w i = Err TypeError.
Proof. exact C88_scalar_lemma. Qed.
Definition demo_max : world := small_max [[1; -1]; [1; 1]]%Z [[1; 1]; [-1; 1]]%Z [[1; 0]; [-1; 1]]%Z 2 [1 / 2; 1 / 4; 1 / 8] false false.
Example C88_example : random sorting /\ (forall v, is_argsort v (o_argsort sorting v)) /\ usable demo_settings /\ dec_sorted [1 / 2; 1 / 4; 1 / 8] 2 /\ sfct (get_mat demo_max 2) <> None /\
  max_machine demo_max 2 2 2 [[1; -1]; [1; 1]]%Z [[1; 1]; [-1; 1]]%Z [[1; 0]; [-1; 1]]%Z [1 / 2; 1 / 4; 1 / 8] /\
  training_data [A2 [[1; 0]; [-1; 1]]%Z] (Given 0) (A2 [[1; 0]; [-1; 1]]%Z).
Proof.
  split; [exact sorting_random|]. split; [exact isort_argsort|]. split; [unfold usable; cbn; lia|]. split; [intros [|[|a]] [|[|b]] Hab; cbn; lra || lia|]. split; [discriminate|]. split; [|reflexivity].
  apply small_max_machine; try lia; try reflexivity; repeat constructor; lra.
Qed.

(** C41 for dispersions in any order: the accumulated score is the log-odds of entry [nth l ord 0], computed as if column
    [nth l ord 0] of the sibling were its column l. *)
Theorem C41_any_order_partial : forall lam L ord z U x D l rt, decreasing_order lam L ord -> (forall k, (k <= L)%nat -> 0 < nth k lam 0 < 1) -> tables L lam rt ->
  List.length z = L -> has_shape2 U D L -> (0 < D)%nat -> (l < L)%nat ->
  max_log_odds lam z (replace_column U (nth l ord 0%nat) l) x D L (nth l ord 0%nat) (score_MAX_AND_float z U x l ord rt).
Proof. intros lam L ord z U x D l rt HO. exact (any_order lam L ord HO z U x D l rt). Qed.
Example C41_any_order_example : decreasing_order [1 / 4; 1 / 2; 1 / 8] 2 [1; 0]%nat /\ tables 2 [1 / 4; 1 / 2; 1 / 8] (compute_lbda_ratios 2 [1 / 4; 1 / 2; 1 / 8]).
Proof.
  split; [split; [apply perm_swap|intros [|[|a]] [|[|b]] Hab; cbn; lra || lia]|]. apply tables_of; [reflexivity|repeat constructor; lra].
Qed.

Print Assumptions C88_gibbs_refuted.
Print Assumptions C88_run_partial.
Print Assumptions C88_decreasing_partial.
Print Assumptions C88_annealing.
Print Assumptions C88_built.
Print Assumptions C88_scalar.
Print Assumptions C41_any_order_partial.
