(** C83, C84: what the outputs and means of a machine report after inference. *)
From Coq Require Import String Lia.
From Verif Require Import Base BaseR Spec SpecR SpecF SpecOut SpecMaxF Outputs LayerOutput Predict Machine Dispatch Inference SpecMachine MachineExamples SpecOrdinary SpecPass SpecPredict OrdinaryProofs7 OrdinaryExamples PassExamples PredictProofs UnbiasedProofs.
Local Open Scope R_scope.

(** C83. Full statement: for every layer of an ordinary machine, after a call of infer that asked for n samples, the
    output with technique 'mc' is, entry by entry, the share of the n recorded states in which the formula of the
    model holds; with 'point_estimate' it is the formula in the final state; with 'factor_map' it is the formula of
    the majority votes; with 'factor_mean' it is the probability of the formula when every factor entry is true
    independently with the share of recorded states in which it is true.
    Proved for layers none of whose factors is fixed and whose dispersion is not fixed. The states W 1, ..., W n are
    those after each of the n sampling iterations. Missing: fixed factors or dispersions, for which the statement is
    false (C83_refuted); factor_mean for three-axis data and models other than OR-AND (C22). *)
Theorem C83_partial : forall argsort fuel o cfg n s s' l oo ii, random o -> ordinary o (wd s) -> (0 <= burn_in_min cfg)%Z -> infer fuel o cfg n s = Some (Ok s') -> (1 <= n)%nat ->
  (l < List.length (layers (wd s)))%nat -> model (get_lay (wd s) l) = model_name oo ii -> In (oo, ii) implemented ->
  let fs := factors (get_lay (wd s) l) in let shape := shape_of (value (wd s) (child (get_lay (wd s) l))) in
  (forall i, In i fs -> fixed (get_mat (wd s) i) = FBool false) -> lfixed (lbda (get_lay (wd s) l)) = false ->
  exists ms ls W K,
    (NoDup ms /\ forall i, In i ms <-> is_member (wd s) i /\ ~ declared_fixed (fixed (get_mat (wd s) i))) /\
    (NoDup ls /\ forall k, In k ls <-> (k < List.length (layers (wd s)))%nat /\ lfixed (lbda (get_lay (wd s) k)) = false) /\
    (forall j, (j < n)%nat -> iteration o ms ls (W j) (W (S j))) /\ W n = wd s' /\
    (forall k j, (k < List.length fs)%nat -> (j <= n)%nat -> okmat (nth k shape 0%nat) K (matrix_of (W j) (nth k fs 0%nat))) /\
    (exists out, layer_output argsort "mc" s' l = Ok out /\
       all_entries out shape (fun idx x => exists p, (forall j, (j < n)%nat -> p j = true <-> lom_true oo ii (selected (map (matrix_of (W (S j))) fs) idx) K) /\ x = share p n)) /\
    (exists out, layer_output argsort "point_estimate" s' l = Ok out /\
       all_entries out shape (fun idx x => (lom_true oo ii (selected (map (matrix_of (wd s')) fs) idx) K -> x = 1) /\ (~ lom_true oo ii (selected (map (matrix_of (wd s')) fs) idx) K -> x = 0))) /\
    (exists out votes, layer_output argsort "factor_map" s' l = Ok out /\
       Forall2 (fun i m => List.length m = List.length (matrix_of (wd s') i) /\ has_cols m K /\ forall r c, (r < List.length m)%nat -> (c < K)%nat -> at2 m r c = vote (fun j => matrix_of (W (S j)) i) n r c) fs votes /\
       all_entries out shape (fun idx x => (lom_true oo ii (selected votes idx) K -> x = 1) /\ (~ lom_true oo ii (selected votes idx) K -> x = 0))) /\
    (List.length fs = 2%nat \/ (oo, ii) = (OR, AND) -> exists out, layer_output argsort "factor_mean" s' l = Ok out /\
       all_entries out shape (fun idx x => is_prob oo ii (List.length fs) K (fun k c => share (fun j => at2 (matrix_of (W (S j)) (nth k fs 0%nat)) (nth k idx 0%nat) c =? 1)%Z n) x)).
Proof. exact C83_lemma. Qed.
Print Assumptions C83_partial.
Example C83_example : random demo /\ ordinary demo (wd (fresh_state stack)) /\ (0 <= burn_in_min demo_settings)%Z /\ (exists fuel s', infer fuel demo demo_settings 5 (fresh_state stack) = Some (Ok s')) /\
  (0 < List.length (layers stack))%nat /\ model (get_lay stack 0) = model_name OR AND /\ In (OR, AND) implemented /\ (forall i, In i (factors (get_lay stack 0)) -> fixed (get_mat stack i) = FBool false) /\ lfixed (lbda (get_lay stack 0)) = false.
Proof.
  split; [exact demo_random|]. split; [exact stack_ordinary|]. split; [cbn; lia|]. split.
  - destruct (C72_lemma demo demo_settings 5 (fresh_state stack) demo_random stack_ordinary) as (F & H); [unfold usable; cbn; lia|intros G; discriminate G|]. destruct (H F (le_n F)) as (s' & E & _). exists F, s'. exact E.
  - split; [cbn; lia|]. split; [reflexivity|]. split; [cbn; auto|]. split; [|reflexivity]. intros i Hi. apply stack_factor. cbn in Hi. cbn. destruct Hi as [<-|[<-|[]]]; auto.
Qed.

(** Holding the dispersion or one factor of a layer fixed: inference still succeeds, but the Monte Carlo output of that
    layer then raises AttributeError, because fixed parameters have no trace. *)
Theorem C83_refuted : forall argsort o cfg n w l, random o -> ordinary o w -> usable cfg -> annealable cfg w -> (1 <= n)%nat -> (l < List.length (layers w))%nat ->
  lfixed (lbda (get_lay w l)) = true \/ (exists i, In i (factors (get_lay w l)) /\ fixed (get_mat w i) = FBool true) ->
  exists F, forall fuel, (F <= fuel)%nat -> exists s', infer fuel o cfg n (fresh_state w) = Some (Ok s') /\ layer_output argsort "mc" s' l = Err AttributeError.
Proof. exact C83_fixed_lemma. Qed.
Print Assumptions C83_refuted.
Example C83_refuted_example : random demo /\ ordinary demo (held stack) /\ usable demo_settings /\ annealable demo_settings (held stack) /\ (0 < List.length (layers (held stack)))%nat /\ lfixed (lbda (get_lay (held stack) 0)) = true.
Proof. split; [exact demo_random|]. destruct held_example as (H1 & _ & H2 & H3 & _). split; [exact H1|]. split; [exact H3|]. split; [exact held_annealable|]. split; [cbn; lia|]. apply H2. cbn. lia. Qed.

(** C84. Averages over the samples that infer records are unbiased on an ordinary machine with fixed dispersions: if the
    unfixed factors start out distributed as their joint posterior, then the expected average over the recorded samples
    of any function of all unfixed factors is its posterior expectation, for every number of samples, settings and
    update orders; in particular the mean reported for each factor entry (MachineMatrix.mean) has the posterior mean of
    that entry as its expectation. *)
Theorem C84 : forall outs o cfg n s, outputs outs -> random o -> ordinary o (wd s) -> usable cfg -> annealable cfg (wd s) -> (forall l, (l < List.length (layers (wd s)))%nat -> lfixed (lbda (get_lay (wd s) l)) = true) -> (1 <= n)%nat ->
  exists F, forall fuel, (F <= fuel)%nat ->
  let w := wd s in let fs := unfixed w in let pl := plan o fs (burn_in_passes cfg + n) (clock w) in let states := choices (map (values_of w) fs) in let weight := fun c => joint outs (puts w fs c) in
  let run := fun c rss => infer fuel (with_plan o w pl rss) cfg n (set_wd s (puts w fs c)) in let ks := map (draws_needed w) (map snd pl) in
  (forall h, unbiased (fun c rss => run_mean fs n h (run c rss)) ks weight states h) /\
  (forall i r col, In i fs -> (r < nrows (matrix_of w i))%nat -> (col < ncols (matrix_of w i))%nat ->
     unbiased (fun c rss => reported_mean i r col (run c rss)) ks weight states (fun c => IZR (at2 (nth (place i fs) c []) r col))).
Proof. exact C84_lemma. Qed.
Print Assumptions C84.
Example C84_example : outputs the_outputs /\ random demo /\ ordinary demo (held stack) /\ unfixed (held stack) = [1; 2; 3; 4]%nat /\ (forall l, (l < List.length (layers (held stack)))%nat -> lfixed (lbda (get_lay (held stack) l)) = true) /\ usable demo_settings /\ annealable demo_settings (held stack) /\ nrows (matrix_of (held stack) 1) = 2%nat /\ ncols (matrix_of (held stack) 1) = 2%nat.
Proof. split; [exact the_outputs_ok|]. split; [exact demo_random|]. destruct held_example as (H1 & H2 & H3 & H4 & _). split; [exact H1|]. split; [exact H2|]. split; [exact H3|]. split; [exact H4|]. split; [exact held_annealable|]. split; reflexivity. Qed.
