(** C112: machines whose layers are cleaned up during inference. *)
From Coq Require Import String.
From Verif Require Import Base BaseR Spec SpecR SpecClean Machine Dispatch Inference SpecMachine MachineExamples OrdinaryExamples OrdinaryProofs7 TidyProofs4 TidyProofs5 TidyExamples SpecOrdinary SpecTidy.
Local Open Scope R_scope.

(** Every run on a machine whose flagged layers are on top comes to an end. *)
Theorem C112_completes o cfg n s : random o -> tidying o (wd s) -> usable cfg -> annealable cfg (wd s) ->
  exists F, forall fuel, (F <= fuel)%nat -> exists s', infer fuel o cfg n s = Some (Ok s') /\ tidying o (wd s').
Proof. exact (C112_completes_lemma o cfg n s). Qed.
Print Assumptions C112_completes.
Example C112_completes_ex : exists F, forall fuel, (F <= fuel)%nat -> exists s', infer fuel demo demo_settings 5 (fresh_state tidy_stack) = Some (Ok s') /\ tidying demo (wd s').
Proof. apply C112_completes; [exact demo_random|exact tidy_stack_tidying|unfold usable; cbn; repeat split; discriminate|intros C; discriminate C]. Qed.

(** All its matrices keep fitting together. *)
Theorem C112_well_formed o w : random o -> tidying o w ->
  (forall l, (l < List.length (layers w))%nat -> in_shape w l) /\
  (forall i, is_factor w i -> own_array w i /\ forall k, In k (parents (get_mat w i)) <-> (k < List.length (layers w))%nat /\ child (get_lay w k) = i) /\
  (forall i, In i (free w) -> data_ok (value w i)) /\ on_top w.
Proof. exact (C112_well_formed_lemma o w). Qed.
Print Assumptions C112_well_formed.
Example C112_well_formed_ex : random demo /\ tidying demo trimmed /\ in_shape trimmed 1.
Proof. split; [exact demo_random|]. split; [exact trimmed_tidying|]. apply (proj1 (C112_well_formed demo trimmed demo_random trimmed_tidying)). cbn. repeat constructor. Qed.

(** What a run does: Gibbs updates, dispersion updates and clean-ups, each of superfluous dimensions only. *)
Theorem C112_explained outs fuel o cfg n s s' : outputs outs -> random o -> tidying o (wd s) -> infer fuel o cfg n s = Some (Ok s') ->
  exists w1 evs, strip w1 = strip (wd s) /\ log s' = (log s ++ evs)%list /\ tidily outs o evs w1 (wd s') /\
    (forall i, In (EMat i) evs -> is_factor (wd s) i /\ fixed (get_mat (wd s) i) = FBool false) /\
    (forall l v, In (ELbda l v) evs -> (l < List.length (layers (wd s)))%nat /\ lfixed (lbda (get_lay (wd s) l)) = false) /\
    (forall l v, In (EAnneal l v) evs -> (l < List.length (layers (wd s)))%nat /\ lfixed (lbda (get_lay (wd s) l)) = false /\ anneal (wd s) = true) /\
    (forall i, is_factor (wd s) i -> fixed (get_mat (wd s) i) = FBool false -> sfct (get_mat (wd s') i) <> None).
Proof. exact (C112_explained_lemma outs fuel o cfg n s s'). Qed.
Print Assumptions C112_explained.
Example C112_explained_ex : exists s', infer 10 demo hasty 1 (fresh_state trimmed) = Some (Ok s') /\ exists w1 evs, strip w1 = strip trimmed /\ tidily the_outputs demo evs w1 (wd s').
Proof.
  destruct trimmed_run as (s' & E & _). exists s'. split; [exact E|]. destruct (C112_explained the_outputs 10 demo hasty 1 (fresh_state trimmed) s' the_outputs_ok demo_random trimmed_tidying E) as (w1 & evs & H1 & _ & H2 & _). exists w1, evs. auto.
Qed.

(** Sizes: only the latent size of flagged layers changes, in all factors of the layer alike, and never grows. *)
Theorem C112_sizes fuel o cfg n s s' : random o -> tidying o (wd s) -> infer fuel o cfg n s = Some (Ok s') ->
  (forall i, (i < List.length (mats (wd s)))%nat -> (forall l, (l < List.length (layers (wd s)))%nat -> flagged (wd s) l -> ~ In i (factors (get_lay (wd s) l))) -> shape_of (value (wd s') i) = shape_of (value (wd s) i)) /\
  (forall l, (l < List.length (layers (wd s)))%nat -> flagged (wd s) l -> exists L L', (L' <= L)%nat /\
     forall i, In i (factors (get_lay (wd s) l)) -> exists m, m <> 0%nat /\ shape_of (value (wd s) i) = [m; L] /\ shape_of (value (wd s') i) = [m; L']).
Proof. exact (C112_sizes_lemma fuel o cfg n s s'). Qed.
Print Assumptions C112_sizes.
Example C112_sizes_ex : random demo /\ tidying demo trimmed /\ exists s', infer 10 demo hasty 1 (fresh_state trimmed) = Some (Ok s') /\ shape_of (value trimmed 3) = [2; 1]%nat /\ shape_of (value (wd s') 3) = [2; 0]%nat /\ shape_of (value (wd s') 4) = [2; 0]%nat.
Proof. split; [exact demo_random|]. split; [exact trimmed_tidying|exact trimmed_run]. Qed.

(** Where a flagged layer carries another layer, removing dimensions leaves the upper layer with a factor that no longer fits its data. *)
Theorem C112_stacked o w l i p w' : random o -> ordinary o (unflagged w) -> (l < List.length (layers w))%nat -> (forall n, In n (shape_of (value w (child (get_lay w l)))) -> n <> 0%nat) -> flagged w l ->
  In i (factors (get_lay w l)) -> (p < List.length (layers w))%nat -> child (get_lay w p) = i -> clean_layer w l false true = Some (Ok (w', true)) -> in_shape w p /\ ~ in_shape w' p.
Proof. exact (C112_stacked_lemma o w l i p w'). Qed.
Print Assumptions C112_stacked.
Example C112_stacked_ex : exists w', clean_layer pruned 0 false true = Some (Ok (w', true)) /\ in_shape pruned 1 /\ ~ in_shape w' 1.
Proof.
  destruct pruned_clean as (w' & E). exists w'. split; [exact E|]. apply (C112_stacked demo pruned 0 1 1 w'); [exact demo_random|exact sparse_ordinary|cbn; repeat constructor| |exact (proj1 (proj2 pruned_flags))|cbn; auto|cbn; repeat constructor|reflexivity|exact E].
  intros n Hn. cbn in Hn. destruct Hn as [<-|[<-|[]]]; discriminate.
Qed.
(** So "after inference, every layer of a flagged machine still fits together" is false. *)
Theorem C112_refuted : ~ (forall o cfg n fuel s s', random o -> ordinary o (unflagged (wd s)) -> usable cfg -> annealable cfg (wd s) ->
    (forall l k, (l < List.length (layers (wd s)))%nat -> In k (shape_of (value (wd s) (child (get_lay (wd s) l)))) -> k <> 0%nat) ->
    infer fuel o cfg n s = Some (Ok s') -> forall l, (l < List.length (layers (wd s)))%nat -> in_shape (wd s') l).
Proof. exact C112_refuted_lemma. Qed.
Print Assumptions C112_refuted.
