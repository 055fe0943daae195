(** Properties C100 to C103: do runs of infer converge to the posterior? *)
From Coq Require Import String Lia Lra.
From Verif Require Import Base BaseR Spec SpecR Machine Dispatch Inference SpecMachine SpecOrdinary SpecPass SpecPredict SpecErgodic MachineExamples OrdinaryProofs7 OrdinaryExamples PassExamples ErgodicProofs3 ErgodicProofs4 ErgodicProofs6 ErgodicProofs8 ErgodicExamples ErgodicExamples2.
Local Open Scope R_scope.

(** C100. Samples recorded late enough by infer are distributed as the joint posterior of the unfixed factors, up to any
    given error, wherever the run starts.  Full statement: [forgets] for every ordinary machine with fixed dispersions.
    Proved when no two configurations one entry apart are equally probable; missing: machines with ties, for some of
    which the statement is false (C100_refuted); the exact condition is in C102. *)
Theorem C100_forgets_partial : forall outs o0 s, outputs outs -> random o0 -> ordinary o0 (wd s) ->
  (forall l, (l < List.length (layers (wd s)))%nat -> lfixed (lbda (get_lay (wd s) l)) = true) ->
  no_ties (posterior outs s) (configurations s) -> forgets outs s.
Proof. exact C100_all. Qed.
Print Assumptions C100_forgets_partial.
Example C100_forgets_partial_example : let s := one_machine (2 / 3) 1 in outputs the_outputs /\ random demo /\ ordinary demo (wd s) /\
  (forall l, (l < List.length (layers (wd s)))%nat -> lfixed (lbda (get_lay (wd s) l)) = true) /\ unfixed (wd s) = [1; 2]%nat /\
  no_ties (posterior the_outputs s) (configurations s).
Proof.
  split; [exact the_outputs_ok|]. split; [exact demo_random|]. split; [apply one_machine_ordinary; [lra|left; reflexivity]|]. split; [apply one_machine_held|]. split; [apply one_machine_unfixed|]. apply one_machine_no_ties. lra.
Qed.

(** Where all configurations are equally probable, every update flips its entry whatever is drawn, so a run only negates
    all free entries back and forth. *)
Theorem C100_only_negates : forall outs o0 s, outputs outs -> random o0 -> ordinary o0 (wd s) ->
  (forall l, (l < List.length (layers (wd s)))%nat -> lfixed (lbda (get_lay (wd s) l)) = true) ->
  (forall c c', In c (configurations s) -> In c' (configurations s) -> posterior outs s c = posterior outs s c') -> only_negates s.
Proof. exact ties_lemma. Qed.
Print Assumptions C100_only_negates.
Example C100_only_negates_example : let s := one_machine (1 / 2) 0 in outputs the_outputs /\ random demo /\ ordinary demo (wd s) /\
  (forall l, (l < List.length (layers (wd s)))%nat -> lfixed (lbda (get_lay (wd s) l)) = true) /\ unfixed (wd s) = [1; 2]%nat /\ List.length (configurations s) = 4%nat /\
  (forall c c', In c (configurations s) -> In c' (configurations s) -> posterior the_outputs s c = posterior the_outputs s c').
Proof.
  split; [exact the_outputs_ok|]. split; [exact demo_random|]. split; [apply one_machine_ordinary; [lra|right; right; reflexivity]|]. split; [apply one_machine_held|]. split; [apply one_machine_unfixed|]. split; [rewrite one_machine_states; reflexivity|exact one_machine_flat].
Qed.
(** The full statement is false: a machine with one missing data point and the default prior never forgets its start. *)
Theorem C100_refuted : exists outs o0 s, outputs outs /\ random o0 /\ ordinary o0 (wd s) /\
  (forall l, (l < List.length (layers (wd s)))%nat -> lfixed (lbda (get_lay (wd s) l)) = true) /\ ~ forgets outs s.
Proof.
  exists the_outputs, demo, (one_machine (1 / 2) 0). split; [exact the_outputs_ok|]. split; [exact demo_random|]. split; [apply one_machine_ordinary; [lra|right; right; reflexivity]|]. split; [apply one_machine_held|exact one_machine_forgetful].
Qed.
Print Assumptions C100_refuted.

(** C101. Averages over the samples recorded by infer converge in mean square to posterior expectations as the number of
    samples grows, and so do the posterior means that the machine reports.  Full statement: for every ordinary machine
    with fixed dispersions.  Proved without ties; missing: machines with ties, for some of which the statement is false
    (C101_refuted); a weaker condition is in C102. *)
Theorem C101_consistent_partial : forall outs o0 s, outputs outs -> random o0 -> ordinary o0 (wd s) ->
  (forall l, (l < List.length (layers (wd s)))%nat -> lfixed (lbda (get_lay (wd s) l)) = true) ->
  no_ties (posterior outs s) (configurations s) -> consistent outs s /\ consistent_means outs s.
Proof. exact C101_all. Qed.
Print Assumptions C101_consistent_partial.
Example C101_consistent_partial_example : let s := one_machine (2 / 3) 1 in outputs the_outputs /\ random demo /\ ordinary demo (wd s) /\
  (forall l, (l < List.length (layers (wd s)))%nat -> lfixed (lbda (get_lay (wd s) l)) = true) /\ no_ties (posterior the_outputs s) (configurations s) /\ usable demo_settings /\ annealable demo_settings (wd s).
Proof.
  destruct C100_forgets_partial_example as (H1 & H2 & H3 & H4 & _ & H5). split; [exact H1|]. split; [exact H2|]. split; [exact H3|]. split; [exact H4|]. split; [exact H5|]. split; [unfold usable; cbn; lia|intros G; discriminate G].
Qed.
Theorem C101_refuted : exists outs o0 s, outputs outs /\ random o0 /\ ordinary o0 (wd s) /\
  (forall l, (l < List.length (layers (wd s)))%nat -> lfixed (lbda (get_lay (wd s) l)) = true) /\ ~ consistent outs s.
Proof.
  exists the_outputs, demo, (one_machine (1 / 2) 0). split; [exact the_outputs_ok|]. split; [exact demo_random|]. split; [apply one_machine_ordinary; [lra|right; right; reflexivity]|]. split; [apply one_machine_held|exact one_machine_inconsistent].
Qed.
Print Assumptions C101_refuted.

(** C102. With ties, and whatever the orders of the updates: the chain forgets its start exactly when some number of passes,
    in any orders, links all configurations by steps that the posterior tells apart; and then averages converge. *)
Theorem C102_forgets_iff : forall outs o0 s, outputs outs -> random o0 -> ordinary o0 (wd s) ->
  (forall l, (l < List.length (layers (wd s)))%nat -> lfixed (lbda (get_lay (wd s) l)) = true) ->
  (forgets outs s <-> mixing outs s).
Proof. exact C102_forgets. Qed.
Print Assumptions C102_forgets_iff.
Theorem C102_averages : forall outs o0 s, outputs outs -> random o0 -> ordinary o0 (wd s) ->
  (forall l, (l < List.length (layers (wd s)))%nat -> lfixed (lbda (get_lay (wd s) l)) = true) ->
  mixing outs s -> consistent outs s /\ consistent_means outs s.
Proof. exact C102_consistent. Qed.
Print Assumptions C102_averages.
Example C102_averages_example : let s := one_machine (2 / 3) 1 in outputs the_outputs /\ random demo /\ ordinary demo (wd s) /\
  (forall l, (l < List.length (layers (wd s)))%nat -> lfixed (lbda (get_lay (wd s) l)) = true) /\ mixing the_outputs s.
Proof.
  destruct C100_forgets_partial_example as (H1 & H2 & H3 & H4 & _ & H5). split; [exact H1|]. split; [exact H2|]. split; [exact H3|]. split; [exact H4|]. apply (C102_forgets_iff _ _ _ H1 H2 H3 H4). exact (C100_forgets_partial _ _ _ H1 H2 H3 H4 H5).
Qed.
(** An observed one with the default prior: some orders never forget where the run started, although the posterior is
    not flat. *)
Theorem C102_default_prior : let s := one_machine (1 / 2) 1 in outputs the_outputs /\ random demo /\ ordinary demo (wd s) /\
  (forall l, (l < List.length (layers (wd s)))%nat -> lfixed (lbda (get_lay (wd s) l)) = true) /\ unfixed (wd s) = [1; 2]%nat /\
  posterior the_outputs s [[[1%Z]]; [[(-1)%Z]]] < posterior the_outputs s [[[1%Z]]; [[1%Z]]] /\ ~ forgets the_outputs s.
Proof.
  assert (H3 : ordinary demo (wd (one_machine (1 / 2) 1))) by (apply one_machine_ordinary; [lra|left; reflexivity]). split; [exact the_outputs_ok|]. split; [exact demo_random|]. split; [exact H3|]. split; [apply one_machine_held|]. split; [apply one_machine_unfixed|]. split.
  - fold (cfg2 1 (-1)). fold (cfg2 1 1). rewrite !one_weight by sign. exact one_weights.
  - intros HF. apply one_machine_not_mixing. apply (C102_forgets_iff _ _ _ the_outputs_ok demo_random H3 (one_machine_held _ _)). exact HF.
Qed.
Print Assumptions C102_default_prior.

(** C103. With uniformly random orders, as the code draws them, the chain forgets its start on average over the orders exactly
    when the steps that some passes tell apart link all configurations; and then averages converge. *)
Theorem C103_forgets_iff : forall outs o0 s, outputs outs -> random o0 -> ordinary o0 (wd s) ->
  (forall l, (l < List.length (layers (wd s)))%nat -> lfixed (lbda (get_lay (wd s) l)) = true) ->
  (forgets_on_average outs s <-> linked outs s).
Proof. exact C103_forgets. Qed.
Print Assumptions C103_forgets_iff.
Theorem C103_averages : forall outs o0 s, outputs outs -> random o0 -> ordinary o0 (wd s) ->
  (forall l, (l < List.length (layers (wd s)))%nat -> lfixed (lbda (get_lay (wd s) l)) = true) ->
  linked outs s -> consistent_on_average outs s /\ consistent_means_on_average outs s.
Proof. exact C103_consistent. Qed.
Print Assumptions C103_averages.
Example C103_averages_example : let s := one_machine (1 / 2) 1 in outputs the_outputs /\ random demo /\ ordinary demo (wd s) /\
  (forall l, (l < List.length (layers (wd s)))%nat -> lfixed (lbda (get_lay (wd s) l)) = true) /\ linked the_outputs s /\ all_orders s [[1; 2]; [2; 1]]%nat.
Proof.
  destruct C102_default_prior as (H1 & H2 & H3 & H4 & _). split; [exact H1|]. split; [exact H2|]. split; [exact H3|]. split; [exact H4|]. split; [exact one_machine_linked|apply one_all_orders].
Qed.
(** Mixing whatever the orders is more than being linked, and less than having no ties. *)
Theorem C103_compare : (forall outs o0 s, outputs outs -> random o0 -> ordinary o0 (wd s) ->
  (forall l, (l < List.length (layers (wd s)))%nat -> lfixed (lbda (get_lay (wd s) l)) = true) ->
    (no_ties (posterior outs s) (configurations s) -> mixing outs s) /\ (mixing outs s -> linked outs s)) /\
  (exists outs o0 s, outputs outs /\ random o0 /\ ordinary o0 (wd s) /\ (forall l, (l < List.length (layers (wd s)))%nat -> lfixed (lbda (get_lay (wd s) l)) = true) /\ linked outs s /\ ~ mixing outs s).
Proof.
  split.
  - intros outs o0 s H1 H2 H3 H4. split; [|apply mixing_linked]. intros H5. apply (C102_forgets_iff _ _ _ H1 H2 H3 H4). exact (C100_forgets_partial _ _ _ H1 H2 H3 H4 H5).
  - destruct C103_averages_example as (H1 & H2 & H3 & H4 & H5 & _). exists the_outputs, demo, (one_machine (1 / 2) 1). repeat (split; [assumption|]). exact one_machine_not_mixing.
Qed.
Print Assumptions C103_compare.
(** Random orders do not help where all configurations are equally probable. *)
Theorem C103_not_always : exists outs o0 s, outputs outs /\ random o0 /\ ordinary o0 (wd s) /\
  (forall l, (l < List.length (layers (wd s)))%nat -> lfixed (lbda (get_lay (wd s) l)) = true) /\ ~ forgets_on_average outs s.
Proof.
  exists the_outputs, demo, (one_machine (1 / 2) 0). assert (H3 : ordinary demo (wd (one_machine (1 / 2) 0))) by (apply one_machine_ordinary; [lra|right; right; reflexivity]). split; [exact the_outputs_ok|]. split; [exact demo_random|]. split; [exact H3|]. split; [apply one_machine_held|].
  intros HF. apply one_machine_unlinked. apply (C103_forgets_iff _ _ _ the_outputs_ok demo_random H3 (one_machine_held _ _)). exact HF.
Qed.
Print Assumptions C103_not_always.
