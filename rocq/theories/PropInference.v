(** C25 - C30, C63, C64, C76: inference. *)
From Coq Require Import Lra String Permutation.
From Verif Require Import Base BaseR BaseLemmas Spec SpecR SpecClean Canon Fuzzy Scores Sampling SamplingExamples Lambda Clean Machine Dispatch Inference SpecMachine MachineProofs MachineProofs2 BuiltProofs
  InferenceProofs InferenceProofs2 InferenceProofs7 InferenceProofs8 InferenceProofs9 PlainProofs DispatchProofs UpdateProofs MachineExamples.
Local Open Scope R_scope.

(** C63. The log of a run: burn_in_min pre-burn-in rounds, monitored rounds, n sampling rounds; every pass updates each
    non-fixed member exactly once. *)
Theorem C63_sweeps : forall fuel o cfg n s s', 
  built o (wd s) -> fair o -> (0 <= burn_in_min cfg)%Z -> infer fuel o cfg n s = Some (Ok s') ->
  exists ms ls, (NoDup ms /\ forall i, In i ms <-> is_member (wd s) i /\ ~ declared_fixed (fixed (get_mat (wd s) i))) /\
    (NoDup ls /\ forall l, In l ls <-> (l < List.length (layers (wd s)))%nat /\ lfixed (lbda (get_lay (wd s) l)) = false) /\
  exists k p evs last smp, pre_rounds ms ls (fix_lbda_iters cfg) (anneal (wd s)) (Z.to_nat (burn_in_min cfg)) p /\ rounds ms ls (window cfg) k evs /\
    checks ls (window cfg) (S k) last /\ full_sweeps ms ls n smp /\ log s' = (log s ++ p ++ evs ++ last ++ smp)%list.
Proof. exact C63_lemma. Qed.
Print Assumptions C63_sweeps.
(** A machine that meets the hypotheses: two free factors and a free dispersion. *)
Example infer_example : built demo (wd (fresh_state demo_world)) /\ fair demo /\ (0 <= burn_in_min demo_settings)%Z /\
  (exists fuel s', infer fuel demo demo_settings 5 (fresh_state demo_world) = Some (Ok s')) /\
  is_member demo_world 1 /\ ~ declared_fixed (fixed (get_mat demo_world 1)) /\ is_ibp demo_world 1 = false.
Proof.
  split; [apply one_layer_built|]. split; [exact demo_fair|]. split; [cbn; lia|]. split; [exists (enough demo_settings); exact demo_runs|].
  split; [left; exists 0%nat; cbn; auto|]. split; [intros [E|(a & x & E & _)]; discriminate|reflexivity].
Qed.

(** C25. Full statement: every slice equals the value. Missing: factors of IBP layers, whose slices are padded with -1
    (C25_refuted); runs that raise (see C72). *)
Theorem C25_traces_partial : forall fuel o cfg n s s', 
  built o (wd s) -> fair o -> (0 <= burn_in_min cfg)%Z -> infer fuel o cfg n s = Some (Ok s') ->
  exists ms ls W, (NoDup ms /\ forall i, In i ms <-> is_member (wd s) i /\ ~ declared_fixed (fixed (get_mat (wd s) i))) /\
    (NoDup ls /\ forall l, In l ls <-> (l < List.length (layers (wd s)))%nat /\ lfixed (lbda (get_lay (wd s) l)) = false) /\
    (forall j, (j < n)%nat -> iteration o ms ls (W j) (W (S j))) /\ wd s' = W n /\
    (forall i, In i ms -> mti s' i = n /\ exists tr, mtr s' i = Some tr /\
       if is_ibp (wd s) i then exists m0, value (W 0%nat) i = A2 m0 /\ traces_padded (List.length m0) (ncols m0 + 10) (fun j => value (W j) i) n tr
       else traces (fun j => value (W j) i) n tr) /\
    (forall l, In l ls -> lti s' l = n /\ exists tr, ltr s' l = Some tr /\ ltraces (fun j => disp (W j) l) n tr).
Proof. exact C25_lemma. Qed.
Print Assumptions C25_traces_partial.

(** The last slice is the current value. *)
Theorem C25_last_slice : forall fuel o cfg n s s' i, 
  built o (wd s) -> fair o -> (0 <= burn_in_min cfg)%Z -> infer fuel o cfg n s = Some (Ok s') -> (0 < n)%nat ->
  is_member (wd s) i -> ~ declared_fixed (fixed (get_mat (wd s) i)) -> is_ibp (wd s) i = false ->
  exists tr, mtr s' i = Some tr /\ last (mcells tr) None = Some (value (wd s') i).
Proof. exact C25_last_lemma. Qed.
Print Assumptions C25_last_slice.

(** C25 is false of the code for IBP layers: the value has no column left, the slice has eleven. *)
Theorem C25_refuted : 
  exists o cfg s s' i tr fuel, built o (wd s) /\ fair o /\ infer fuel o cfg 1 s = Some (Ok s') /\ is_member (wd s) i /\ fixed (get_mat (wd s) i) = FBool false /\
  mtr s' i = Some tr /\ mcells tr = [Some (A2 [repeat (-1)%Z 11])] /\ value (wd s') i = A2 [[]].
Proof. exact C25_refuted_lemma. Qed.
Print Assumptions C25_refuted.

(** C26. Burn-in stops: [enough cfg] iterations of either loop suffice. *)
Theorem C26_terminates : forall o cfg ms ls s fuel, 
  (0 <= burn_in_min cfg)%Z -> (enough cfg <= fuel)%nat -> burn_in fuel o cfg ms ls s <> None.
Proof. exact C26_terminates_lemma. Qed.
Print Assumptions C26_terminates.

(** C26, the number of sweeps. *)
Theorem C26_sweep_bound : forall fuel o cfg ms ls s s', 
  fair o -> NoDup ls -> (0 <= burn_in_min cfg)%Z -> (forall l, In l ls -> (1 <= width (disp (wd s) l))%nat) ->
  burn_in fuel o cfg ms ls s = Some (Ok s') ->
  exists p evs last, log s' = (log s ++ p ++ evs ++ last)%list /\ no_check p /\ sweeps p = Z.to_nat (burn_in_min cfg) /\ sweeps last = 0%nat /\
    (Z.of_nat (sweeps (p ++ evs)) <= Z.max (burn_in_min cfg) (burn_in_max cfg))%Z /\
    ((Z.of_nat (sweeps (p ++ evs)) < burn_in_max cfg)%Z -> ended_by_convergence cfg ls (wd s') last).
Proof. exact C26_lemma. Qed.
Print Assumptions C26_sweep_bound.
Example C26_example : NoDup [0%nat] /\ (forall l, In l [0%nat] -> (1 <= width (disp demo_world l))%nat) /\
  exists s s', wd s = demo_ready /\ burn_in (enough demo_settings) demo demo_settings [1; 2]%nat [0%nat] s = Some (Ok s').
Proof. split; [repeat constructor; intros []|]. split; [intros l [<-|[]]; cbn; lia|]. exact demo_burn_in. Qed.

(** With a negative burn_in_min burn-in never returns. *)
Theorem C26_negative : forall fuel o cfg ms ls s s', 
  (burn_in_min cfg < 0)%Z -> burn_in fuel o cfg ms ls s <> Some (Ok s').
Proof. exact C26_negative_lemma. Qed.
Print Assumptions C26_negative.

(** C27. Full statement: every entry of every window checked was written in this run. Missing: the first check, whose window
    has one entry that was never written (C27_refuted). *)
Theorem C27_windows_partial : forall fuel o cfg ms ls s s', 
  fair o -> NoDup ls -> (0 <= burn_in_min cfg)%Z -> (forall l, In l ls -> (1 <= width (disp (wd s) l))%nat) ->
  burn_in fuel o cfg ms ls s = Some (Ok s') ->
  exists p run, log s' = (log s ++ p ++ run)%list /\ no_check p /\
    forall a l win b, run = (a ++ ECheck l win :: b)%list -> recorded (window cfg) (values_of l a) win \/ one_missing (window cfg) (values_of l a) win.
Proof. exact C27_lemma. Qed.
Print Assumptions C27_windows_partial.

(** C27 is false of the code: in every run that reaches the first check, that check reads an unwritten entry. *)
Theorem C27_refuted : forall fuel o cfg ms ls s s' l, 
  fair o -> NoDup ls -> (0 <= burn_in_min cfg)%Z -> (forall l, In l ls -> (1 <= width (disp (wd s) l))%nat) ->
  burn_in fuel o cfg ms ls s = Some (Ok s') -> In l ls -> (Z.of_nat (window cfg) - 1 + burn_in_min cfg <= burn_in_max cfg)%Z ->
  exists p a win b, log s' = (log s ++ p ++ a ++ ECheck l win :: b)%list /\ no_check p /\ one_missing (window cfg) (values_of l a) win.
Proof. exact C27_refuted_lemma. Qed.
Print Assumptions C27_refuted.
Example C27_example : (Z.of_nat (window demo_settings) - 1 + burn_in_min demo_settings <= burn_in_max demo_settings)%Z /\ In 0%nat [0%nat].
Proof. split; [cbn; lia|left; reflexivity]. Qed.

(** C28. Full statement: burn_in_iters is the number N of sweeps. What it is: N + 1 when burn-in ended by convergence, N + 1
    - burn_in_min when it ended at burn_in_max; equal to N only in the second case and for burn_in_min = 1. *)
Theorem C28_burn_in_iters_partial : forall fuel o cfg ms ls s s', 
  fair o -> NoDup ls -> (0 <= burn_in_min cfg)%Z -> (forall l, In l ls -> (1 <= width (disp (wd s) l))%nat) ->
  burn_in fuel o cfg ms ls s = Some (Ok s') ->
  exists evs, log s' = (log s ++ evs)%list /\ let N := Z.of_nat (sweeps evs) in
    (iters s' = Some (N + 1)%Z /\ ended_by_convergence cfg ls (wd s') evs) \/
    (iters s' = Some (N + 1 - burn_in_min cfg)%Z /\ (burn_in_max cfg <= N)%Z).
Proof. exact C28_lemma. Qed.
Print Assumptions C28_burn_in_iters_partial.

(** C28 is false of the code for every run with burn_in_min other than 1. *)
Theorem C28_refuted : forall fuel o cfg ms ls s s', 
  fair o -> NoDup ls -> (0 <= burn_in_min cfg)%Z -> (forall l, In l ls -> (1 <= width (disp (wd s) l))%nat) ->
  burn_in fuel o cfg ms ls s = Some (Ok s') -> burn_in_min cfg <> 1%Z ->
  exists evs, log s' = (log s ++ evs)%list /\ iters s' <> Some (Z.of_nat (sweeps evs)).
Proof. exact C28_refuted_lemma. Qed.
Print Assumptions C28_refuted.
Example C28_example : burn_in_min demo_settings <> 1%Z.
Proof. discriminate. Qed.

(** C29. What annealing assigns: in round k = 1, ..., b the target times (k + 1) / b. *)
Theorem C29_schedule : forall fuel o cfg ms ls s s' x, 
  fair o -> NoDup ls -> fix_lbda_iters cfg = 0%Z -> (1 <= burn_in_min cfg)%Z -> anneal (wd s) = true ->
  (forall l, In l ls -> (l < List.length (layers (wd s)))%nat /\ disp (wd s) l = LS (x l) /\ x l <> 0) ->
  burn_in fuel o cfg ms ls s = Some (Ok s') ->
  exists evs, log s' = (log s ++ evs)%list /\ forall l, In l ls ->
    anneal_values l evs = map (fun k => LS (x l * (INR k + 1) / IZR (burn_in_min cfg))) (seq 1 (Z.to_nat (burn_in_min cfg))).
Proof. exact C29_lemma. Qed.
Print Assumptions C29_schedule.

(** Every lookup in the schedule is in range. *)
Theorem C29_in_range : forall w l b x, 
  (1 <= b)%Z -> disp w l = LS x -> x <> 0 ->
  exists steps, annealing_steps w b l = Ok steps /\ forall k, (1 <= k <= b)%Z -> nth_error steps (Z.to_nat k) = Some (x * (IZR k + 1) / IZR b).
Proof. exact C29_range_lemma. Qed.
Print Assumptions C29_in_range.

(** C29 is false of the code: the last value assigned exceeds the target x by x / burn_in_min. *)
Theorem C29_refuted : forall fuel o cfg ms ls s s' x l, 
  fair o -> NoDup ls -> fix_lbda_iters cfg = 0%Z -> (1 <= burn_in_min cfg)%Z -> anneal (wd s) = true ->
  (forall l, In l ls -> (l < List.length (layers (wd s)))%nat /\ disp (wd s) l = LS (x l) /\ x l <> 0) ->
  burn_in fuel o cfg ms ls s = Some (Ok s') -> In l ls ->
  exists evs, log s' = (log s ++ evs)%list /\ last (anneal_values l evs) (LS 0) = LS (x l + x l / IZR (burn_in_min cfg)) /\ last (anneal_values l evs) (LS 0) <> LS (x l).
Proof. exact C29_refuted_lemma. Qed.
Print Assumptions C29_refuted.
Example C29_example : let w := one_layer [[1%Z]] [[1%Z]] [[1%Z]] (1 / 2) false false 3 false false true in
  anneal w = true /\ disp w 0 = LS 3 /\ 3 <> 0 /\ exists steps, annealing_steps w 4 0 = Ok steps /\ nth_error steps 4 = Some (15 / 4).
Proof.
  split; [reflexivity|]. split; [reflexivity|]. split; [lra|]. destruct (C29_range_lemma (one_layer [[1%Z]] [[1%Z]] [[1%Z]] (1 / 2) false false 3 false false true) 0 4 3) as (steps & E & G); [lia|reflexivity|lra|].
  exists steps. split; [exact E|]. change 4%nat with (Z.to_nat 4). rewrite (G 4%Z) by lia. f_equal. lra.
Qed.

(** C30. Full statement: for every fixed matrix. Missing: matrices of layers flagged for clean-up, siblings of factors updated
    by the IBP sampler, and arrays shared with a matrix that is updated; false for the first two (C30_refuted, C71). *)
Theorem C30_fixed_kept_partial : forall fuel o cfg n s s' i, 
  built o (wd s) -> fair o -> infer fuel o cfg n s = Some (Ok s') -> (i < List.length (mats (wd s)))%nat ->
  declared_fixed (fixed (get_mat (wd s) i)) \/ ~ is_member (wd s) i -> own_array (wd s) i -> ~ exposed (wd s) i -> value (wd s') i = value (wd s) i.
Proof. exact C30_lemma. Qed.
Print Assumptions C30_fixed_kept_partial.
Example C30_example : declared_fixed (fixed (get_mat demo_world 0)) /\ own_array demo_world 0 /\ ~ exposed demo_world 0 /\ (0 < List.length (mats demo_world))%nat.
Proof.
  split; [left; reflexivity|]. split; [intros [|[|[|j]]] Hj Hn; cbn in *; lia|]. split; [|cbn; lia].
  intros [(j & l & _ & _ & Hin & _)|(l & _ & Hin)]; destruct l as [|[|l]]; cbn in Hin; lia.
Qed.

(** Dispersions declared fixed are kept. *)
Theorem C30_fixed_dispersions : forall fuel o cfg n s s' l, 
  fair o -> infer fuel o cfg n s = Some (Ok s') -> (l < List.length (layers (wd s)))%nat -> lfixed (lbda (get_lay (wd s) l)) = true -> disp (wd s') l = disp (wd s) l.
Proof. exact C30_lbda_lemma. Qed.
Print Assumptions C30_fixed_dispersions.

(** C30 is false of the code: a fixed factor loses a column. *)
Theorem C30_refuted : 
  exists o cfg n s s' i fuel, built o (wd s) /\ fair o /\ infer fuel o cfg n s = Some (Ok s') /\
  is_member (wd s) i /\ fixed (get_mat (wd s) i) = FBool true /\ own_array (wd s) i /\ value (wd s) i = A2 [[1; 1]; [1; 1]]%Z /\ value (wd s') i = A2 [[1]; [1]]%Z.
Proof. exact C30_refuted_lemma. Qed.
Print Assumptions C30_refuted.

(** C64 is false of the code: no run with an unfixed matrix that belongs to no layer succeeds. *)
Theorem C64_refuted : forall fuel o cfg n s s' i, 
  fair o -> is_member (wd s) i -> fixed (get_mat (wd s) i) = FBool false -> layer_of (get_mat (wd s) i) = None -> infer fuel o cfg n s <> Some (Ok s').
Proof. exact C64_lemma. Qed.
Print Assumptions C64_refuted.
Example C64_example : let w := World [A2 [[1%Z]]] [no_matrix] [] [0%nat] false 0 in
  is_member w 0 /\ fixed (get_mat w 0) = FBool false /\ layer_of (get_mat w 0) = None.
Proof. split; [right; left; left; reflexivity|split; reflexivity]. Qed.

(** C76 is false of the code: a member whose [fixed] is an array of two or more entries makes every run raise ValueError. *)
Theorem C76_refuted : forall fuel o cfg n s i a, 
  is_member (wd s) i -> fixed (get_mat (wd s) i) = FArr a -> (2 <= List.length (concat a))%nat ->
  infer fuel o cfg n s = Some (Err ValueError).
Proof. exact fixed_array_lemma. Qed.
Print Assumptions C76_refuted.
Example C76_example : let w := World [A2 [[1; 1]]%Z] [with_val (Mat 0 None (FArr [[0; 1]]%Z) (A2 [[0; 0]]%Z) (1 / 2) None [] None) 0] [] [0%nat] false 0 in
  add_matrix demo (set_arrays new_machine [A2 [[1; 1]]%Z]) (Given 0) None (FArr [[0; 1]]%Z) = Ok w /\ is_member w 0.
Proof. split; [reflexivity|right; left; left; reflexivity]. Qed.

