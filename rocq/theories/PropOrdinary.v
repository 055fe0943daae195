(** C72, C73, C77, C78: machines made of standard layers, and what inference does to them as a whole. *)
From Coq Require Import String Lra.
From Verif Require Import Base BaseR Spec SpecR Invariance Canon Machine Dispatch Inference SpecMachine MachineExamples SpecOrdinary OrdinaryProofs7 OrdinaryExamples.
Local Open Scope R_scope.

(** C72. Inference on an ordinary machine never fails and never hangs: with enough fuel every call returns, for every
    order of updates, all draws, every number of samples and all usable settings; the machine stays ordinary. With
    annealing this needs dispersions to be annealed from the first round on, towards values other than 0. *)
Theorem C72 : forall o cfg n s, random o -> ordinary o (wd s) -> usable cfg -> annealable cfg (wd s) ->
  exists F, forall fuel, (F <= fuel)%nat -> exists s', infer fuel o cfg n s = Some (Ok s') /\ ordinary o (wd s').
Proof. exact C72_lemma. Qed.
Print Assumptions C72.
Example C72_example : random demo /\ ordinary demo (wd (fresh_state (annealing stack))) /\ anneal (annealing stack) = true /\ usable annealing_settings /\ annealable annealing_settings (wd (fresh_state (annealing stack))).
Proof. split; [exact demo_random|]. split; [exact annealing_ordinary|]. destruct annealing_ok as (H1 & H2 & H3 & _). auto. Qed.
(** The condition on annealing is also necessary: otherwise every call raises an exception. *)
Theorem C72_annealing : forall o cfg n s, random o -> ordinary o (wd s) -> usable cfg -> ~ annealable cfg (wd s) ->
  exists F, forall fuel, (F <= fuel)%nat -> exists e, infer fuel o cfg n s = Some (Err e).
Proof. exact C72_annealing_lemma. Qed.
Print Assumptions C72_annealing.
Example C72_annealing_example : random demo /\ ordinary demo (wd (fresh_state (annealing stack))) /\ usable demo_settings /\ ~ annealable demo_settings (wd (fresh_state (annealing stack))).
Proof. split; [exact demo_random|]. split; [exact annealing_ordinary|]. destruct annealing_ok as (_ & _ & _ & H). split; [unfold usable; cbn; lia|exact H]. Qed.

(** C73. Whatever sequence of calls led to it, an ordinary machine is well-formed: every layer has one {-1,1} factor per
    axis of its data, of matching shapes and latent size, and ternary data; factors have arrays of their own; the
    parents of a factor are exactly the layers whose data it is. *)
Theorem C73 : forall o w, random o -> ordinary o w ->
  (forall l, (l < List.length (layers w))%nat ->
     (exists f g N D L A B X x, layer2 w l f g N D L A B X x /\ (Z.of_nat N <= 32767)%Z /\ (Z.of_nat D <= 32767)%Z) \/
     (exists f g h N D M L A B C X x, layer3 w l f g h N D M L A B C X x /\ data_ok (A3 X))) /\
  (forall i, is_factor w i -> own_array w i /\ forall k, In k (parents (get_mat w i)) <-> (k < List.length (layers w))%nat /\ child (get_lay w k) = i) /\
  (forall i, In i (free w) -> data_ok (value w i)).
Proof. exact C73_lemma. Qed.
Print Assumptions C73.
Example C73_example : random demo /\ ordinary demo stack /\ List.length (layers stack) = 2%nat /\ parents (get_mat stack 1) = [1]%nat /\ is_factor stack 1.
Proof. split; [exact demo_random|]. split; [exact stack_ordinary|]. split; [reflexivity|]. split; [reflexivity|]. exists 0%nat. split; [cbn; repeat constructor|left; reflexivity]. Qed.

(** C77. Everything a call of infer does to an ordinary machine, from burn-in to the last sample: the recorded events are
    replayed by the specification. Each recorded matrix update resamples that matrix entry by entry from the joint
    posterior of all layers given everything else; each recorded dispersion update finds the optimum for the state of
    that moment; annealing assigns dispersions only; nothing else changes any value. Only factors and dispersions that are not fixed are updated, and all
    such factors have an update function afterwards. *)
Theorem C77 : forall outs fuel o cfg n s s', outputs outs -> random o -> ordinary o (wd s) -> infer fuel o cfg n s = Some (Ok s') ->
  exists w1 evs, strip w1 = strip (wd s) /\ (log s' = log s ++ evs)%list /\ explained outs o evs w1 (wd s') /\
    (forall i, In (EMat i) evs -> is_factor (wd s) i /\ fixed (get_mat (wd s) i) = FBool false) /\ (forall l v, In (ELbda l v) evs -> (l < List.length (layers (wd s)))%nat /\ lfixed (lbda (get_lay (wd s) l)) = false) /\
    (forall l v, In (EAnneal l v) evs -> (l < List.length (layers (wd s)))%nat /\ lfixed (lbda (get_lay (wd s) l)) = false /\ anneal (wd s) = true) /\
    (forall i, is_factor (wd s) i -> fixed (get_mat (wd s) i) = FBool false -> sfct (get_mat (wd s') i) <> None).
Proof. exact C77_lemma. Qed.
Print Assumptions C77.
Example C77_example : outputs the_outputs /\ random demo /\ ordinary demo (wd (fresh_state (annealing stack))) /\ exists fuel s', infer fuel demo annealing_settings 5 (fresh_state (annealing stack)) = Some (Ok s').
Proof.
  split; [exact the_outputs_ok|]. split; [exact demo_random|]. split; [exact annealing_ordinary|]. destruct annealing_ok as (_ & U & A & _). destruct (C72 demo annealing_settings 5 (fresh_state (annealing stack)) demo_random annealing_ordinary U A) as (F & H).
  destruct (H F (le_n F)) as (s' & E & _). exists F, s'. exact E.
Qed.

(** C78. An update of a factor of an ordinary machine, stacked or not, leaves the joint posterior of the whole machine
    invariant: started from a value distributed as the joint posterior given everything else (and the fixed entries),
    the value after the update has the same distribution. *)
Theorem C78 : forall outs o w i A F N L, outputs outs -> random o -> ordinary o w -> is_factor w i -> sfct (get_mat w i) <> None -> value w i = A2 A -> okmat N L A -> fixed_entries (get_mat w i) = A2 F ->
  (forall A', okmat N L A' -> 0 < joint outs (put w i A')) /\
  invariant (move o w i) (fun A' => joint outs (put w i A')) (filter (agrees F A N L) (all_mats N L)) N L.
Proof. exact C78_lemma. Qed.
Print Assumptions C78.
Example C78_example : outputs the_outputs /\ random demo /\ exists s', ordinary demo (wd s') /\ is_factor (wd s') 1 /\ sfct (get_mat (wd s') 1) <> None.
Proof. split; [exact the_outputs_ok|]. split; [exact demo_random|]. exact stack_run. Qed.
