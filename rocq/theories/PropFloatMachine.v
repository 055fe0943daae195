(** C119: sequences of updates of a whole machine in double precision, with the random draws of a computer. *)
From Coq Require Import String Permutation Lra.
From Verif Require Import Base BaseR Spec SpecR Sampling Invariance SpecFloat Machine Dispatch SpecMachine SpecOrdinary SpecPass SpecFloatRun FloatMachine SpecFloatMachine FloatMachineProofs2 FloatMachineProofs6 OrdinaryProofs7 MachineExamples OrdinaryExamples PassExamples FloatSampleProofs5.
Local Open Scope R_scope.

(** C119. Any updates, in any order, of factors of an ordinary machine (any number of layers, one or two parents, two or three factors):
    started from the joint posterior of [fs], the probability of every event [h] afterwards differs from the posterior one by at most the sum of
    the errors of the updates (relative to the total weight). [lg]: scipy's logit as computed, off by at most [d] on the priors. *)
Theorem C119 : forall ex lg outs o w fs order d h, good_exp ex -> outputs outs -> random o -> ordinary o w -> NoDup fs -> (forall i, In i fs -> is_factor w i /\ sfct (get_mat w i) <> None) -> (forall i, In i fs -> Rabs (lg (bprior (get_mat w i)) - logit (bprior (get_mat w i))) <= d) ->
  (forall i, In i order -> In i fs) -> (forall c, 0 <= h c <= 1) ->
  let states := choices (map (values_of w) fs) in let weight := fun c => joint outs (puts w fs c) in
  Rabs (Rsum (fun c => weight c * updates_mean (double_run ex lg) order (fun w' => h (map (matrix_of w') fs)) (puts w fs c)) states - Rsum (fun c => weight c * h c) states)
    <= Rsum (fun i => update_error w (lg (bprior (get_mat w i))) d i) order * Rsum weight states.
Proof. exact C119_lemma. Qed.
Print Assumptions C119.
(** Whole passes, each in an order of its own: the error grows linearly with their number. *)
Theorem C119_passes : forall ex lg outs o w fs passes d h, good_exp ex -> outputs outs -> random o -> ordinary o w -> NoDup fs -> (forall i, In i fs -> is_factor w i /\ sfct (get_mat w i) <> None) -> (forall i, In i fs -> Rabs (lg (bprior (get_mat w i)) - logit (bprior (get_mat w i))) <= d) ->
  Forall (Permutation fs) passes -> (forall c, 0 <= h c <= 1) ->
  let states := choices (map (values_of w) fs) in let weight := fun c => joint outs (puts w fs c) in
  Rabs (Rsum (fun c => weight c * updates_mean (double_run ex lg) (concat passes) (fun w' => h (map (matrix_of w') fs)) (puts w fs c)) states - Rsum (fun c => weight c * h c) states)
    <= INR (List.length passes) * Rsum (fun i => update_error w (lg (bprior (get_mat w i))) d i) fs * Rsum weight states.
Proof. exact C119_passes_lemma. Qed.
Print Assumptions C119_passes.
(** An update never fails, whatever the exponential function, the logit and the draws; entries stay -1 or 1, fixed entries stay what they are,
    and nothing else changes. *)
Theorem C119_safe : forall ex lg o w i r, random o -> ordinary o w -> is_factor w i -> sfct (get_mat w i) <> None ->
  exists A', double_run ex lg w i r = Ok (put w i A') /\ In A' (values_of w i) /\ okmat (nrows (matrix_of w i)) (ncols (matrix_of w i)) A'.
Proof. exact C119_safe_lemma. Qed.
Print Assumptions C119_safe.
(** A stack of two layers, two passes over its four factors. *)
Example C119_example : good_exp exp /\ outputs the_outputs /\ random demo /\ (exists w, ordinary demo w /\ NoDup [1; 2; 3; 4]%nat /\ forall i, In i [1; 2; 3; 4]%nat -> is_factor w i /\ sfct (get_mat w i) <> None) /\
  (forall p, Rabs (logit p - logit p) <= 0) /\ Forall (Permutation [1; 2; 3; 4]%nat) [[1; 2; 3; 4]; [4; 3; 2; 1]]%nat.
Proof.
  split; [apply C116_exp_lemma|]. split; [exact the_outputs_ok|]. split; [exact demo_random|]. split; [exact stack_ready|]. split; [intros p; rewrite Rminus_diag_eq, Rabs_R0 by reflexivity; lra|].
  repeat constructor. exact (Permutation_rev [1; 2; 3; 4]%nat).
Qed.
(** A matrix that is not a factor itself, with one parent layer or two: data to be predicted, in any machine. Its update in double precision is
    close to the exact one. *)
Theorem C119_unobserved : forall ex lg o w i N L F p d, good_exp ex -> (val (get_mat w i) < List.length (arrays w))%nat -> value w i = A2 (matrix_of w i) -> okmat N L (matrix_of w i) -> fixed_entries (get_mat w i) = A2 F -> Rabs (lg p - logit p) <= d ->
  forall op ip a1 a2 la, In (op, ip) implemented -> parent_args w i 0 = Ok (a1, a2, la) ->
  let close b := close_update (fun r => bind (run_mat (with_cells o r) w i) (fun w' => Ok (matrix_of w' i))) (fun r => bind (double_run ex lg w i r) (fun w' => Ok (matrix_of w' i))) N L b in
  (sfct (get_mat w i) = Some (F01 (model_name op ip) p) -> close (INR (N * L) * ((10 + 3 * Rabs (lg p)) * roundoff + d))) /\
  (forall oq iq b1 b2 lb K, In (oq, iq) implemented -> parent_args w i 1 = Ok (b1, b2, lb) -> okmat N K b1 -> okmat L K b2 ->
   sfct (get_mat w i) = Some (F02 (model_name op ip) (model_name oq iq) p) -> close (INR (N * L) * ((13 + 4 * (Rabs lb + Rabs (lg p))) * roundoff + d))).
Proof. exact C119_unobserved_lemma. Qed.
Print Assumptions C119_unobserved.
(** A 1 x 2 matrix with an OR-AND layer of one dimension above it. *)
Example C119_unobserved_example : let m v f := Mat v None (FBool false) (A2 [[0]]%Z) (1 / 2) None [] f in
  let w := World [A2 [[1; -1]]; A2 [[1]]; A2 [[1]; [-1]]]%Z [Mat 0 None (FBool false) (A2 [[0; 0]]%Z) (1 / 2) None [0%nat] (Some (F01 (model_name OR AND) (1 / 2))); m 1%nat None; m 2%nat None]
    [Lay [1; 2]%nat 0 (model_name OR AND) (Par (LS 2) true (1, 1) None) None None None 1 false false false false] [0%nat] false 0 in
  (val (get_mat w 0) < List.length (arrays w))%nat /\ value w 0 = A2 (matrix_of w 0) /\ okmat 1 2 (matrix_of w 0) /\ fixed_entries (get_mat w 0) = A2 [[0; 0]]%Z /\
  In (OR, AND) implemented /\ parent_args w 0 0 = Ok ([[1]]%Z, [[1]; [-1]]%Z, 2) /\ sfct (get_mat w 0) = Some (F01 (model_name OR AND) (1 / 2)).
Proof.
  cbv zeta. split; [cbn; auto|]. split; [reflexivity|]. split; [repeat constructor; cbn; tauto|]. split; [reflexivity|]. split; [cbn; tauto|]. split; reflexivity.
Qed.
