(** C120 to C122: runs of any length in double precision, from any start, with the random draws of a computer. *)
From Coq Require Import String Permutation Lia Lra.
From Verif Require Import Base BaseR SpecR Sampling Invariance SpecFloat Machine Dispatch Inference SpecMachine SpecOrdinary SpecPass SpecPredict SpecErgodic SpecFloatRun FloatMachine SpecFloatMachine FloatMachineProofs3 FloatMachineProofs4 FloatMachineProofs5 FloatSampleProofs5 MachineExamples OrdinaryProofs7 OrdinaryExamples PassExamples ErgodicExamples ErgodicExamples2 PropErgodic.
Local Open Scope R_scope.

(** C120. An ordinary machine with fixed dispersions that mixes in real arithmetic (C102): after T passes or more, however many, over its
    unfixed factors, started anywhere and prepared as infer does, the probability of every event [h] is within [eps] plus the errors of T
    passes of its posterior probability. Rounding errors do not add up over the run. T depends neither on the exponential function and
    the logit nor on the start, the orders and the event. *)
Theorem C120 : forall outs o0 s, outputs outs -> random o0 -> ordinary o0 (wd s) ->
  (forall l, (l < List.length (layers (wd s)))%nat -> lfixed (lbda (get_lay (wd s) l)) = true) -> mixing outs s ->
  forall eps, 0 < eps -> exists T, forall ex lg d c, good_exp ex -> (forall i, In i (unfixed (wd s)) -> Rabs (lg (bprior (get_mat (wd s) i)) - logit (bprior (get_mat (wd s) i))) <= d) -> In c (configurations s) ->
  exists s1, prepare (set_wd s (puts (wd s) (unfixed (wd s)) c)) = Ok (unfixed (wd s), [], s1) /\
  forall passes h, Forall (fun order => Permutation order (unfixed (wd s))) passes -> (T <= List.length passes)%nat -> (forall c, 0 <= h c <= 1) ->
  Rabs (updates_mean (double_run ex lg) (concat passes) (fun w' => h (map (matrix_of w') (unfixed (wd s)))) (wd s1) - average_over (posterior outs s) (configurations s) h)
    <= eps + INR T * Rsum (fun i => update_error (wd s) (lg (bprior (get_mat (wd s) i))) d i) (unfixed (wd s)).
Proof. exact C120_lemma. Qed.
Print Assumptions C120.
(** Every sample that infer records in real arithmetic, whether or not the machine mixes: after the same passes in double precision the
    probability of every event is the same up to the errors of these passes. *)
Theorem C120_samples : forall outs o0 s, outputs outs -> random o0 -> ordinary o0 (wd s) ->
  (forall l, (l < List.length (layers (wd s)))%nat -> lfixed (lbda (get_lay (wd s) l)) = true) ->
  forall o cfg n, random o -> usable cfg -> annealable cfg (wd s) -> exists F, forall fuel j, (F <= fuel)%nat -> (j < n)%nat ->
  forall ex lg d c h, good_exp ex -> (forall i, In i (unfixed (wd s)) -> Rabs (lg (bprior (get_mat (wd s) i)) - logit (bprior (get_mat (wd s) i))) <= d) -> In c (configurations s) -> (forall c, 0 <= h c <= 1) ->
  exists s1 E, prepare (set_wd s (puts (wd s) (unfixed (wd s)) c)) = Ok (unfixed (wd s), [], s1) /\
  is_EE (run_draws s o cfg n) (fun rss => after_run (unfixed (wd s)) j h (run_from s fuel o cfg n c rss)) E /\
  Rabs (updates_mean (double_run ex lg) (map snd (plan o (unfixed (wd s)) (burn_in_passes cfg + S j) (clock (wd s)))) (fun w' => h (map (matrix_of w') (unfixed (wd s)))) (wd s1) - E)
    <= INR (burn_in_passes cfg + S j) * Rsum (fun i => update_error (wd s) (lg (bprior (get_mat (wd s) i))) d i) (unfixed (wd s)).
Proof. exact C120_samples_lemma. Qed.
Print Assumptions C120_samples.
(** A machine with one data point and two factors; its logit as computed may be off. *)
Example C120_example : let s := one_machine (2 / 3) 1 in outputs the_outputs /\ random demo /\ ordinary demo (wd s) /\
  (forall l, (l < List.length (layers (wd s)))%nat -> lfixed (lbda (get_lay (wd s) l)) = true) /\ mixing the_outputs s /\ unfixed (wd s) = [1; 2]%nat /\ List.length (configurations s) = 4%nat /\
  usable demo_settings /\ annealable demo_settings (wd s) /\ good_exp exp /\ (let lg := fun p => logit p + / 1000 in forall p, Rabs (lg p - logit p) <= / 1000).
Proof.
  destruct C102_averages_example as (H1 & H2 & H3 & H4 & H5). destruct C101_consistent_partial_example as (_ & _ & _ & _ & _ & H6 & H7). cbv zeta in *. repeat (split; [assumption|]). split; [apply one_machine_unfixed|]. split; [rewrite one_machine_states; reflexivity|]. split; [exact H6|]. split; [exact H7|]. split; [apply C116_exp_lemma|].
  intros p. replace (logit p + / 1000 - logit p) with (/ 1000) by ring. rewrite Rabs_pos_eq; lra.
Qed.

(** C121. Averages over the passes of a run in double precision: the expected squared distance of the average of [h] from its posterior
    average, after any number of passes that are not counted, is at most (1 + 2 T) / n plus twice the bound of C120, n the number of passes counted. *)
Theorem C121 : forall outs o0 s, outputs outs -> random o0 -> ordinary o0 (wd s) ->
  (forall l, (l < List.length (layers (wd s)))%nat -> lfixed (lbda (get_lay (wd s) l)) = true) -> mixing outs s ->
  forall eps, 0 < eps -> exists T, forall ex lg d c, good_exp ex -> (forall i, In i (unfixed (wd s)) -> Rabs (lg (bprior (get_mat (wd s) i)) - logit (bprior (get_mat (wd s) i))) <= d) -> In c (configurations s) ->
  exists s1, prepare (set_wd s (puts (wd s) (unfixed (wd s)) c)) = Ok (unfixed (wd s), [], s1) /\
  forall burn passes h, Forall (fun order => Permutation order (unfixed (wd s))) (burn ++ passes) -> passes <> [] -> (forall c, 0 <= h c <= 1) ->
  updates_mean (double_run ex lg) (concat burn) (passes_mean (double_run ex lg) passes (fun l =>
      (Rsum (fun w' => h (map (matrix_of w') (unfixed (wd s)))) l / INR (List.length passes) - average_over (posterior outs s) (configurations s) h) ^ 2)) (wd s1)
    <= (1 + 2 * INR T) / INR (List.length passes) + 2 * (eps + INR T * Rsum (fun i => update_error (wd s) (lg (bprior (get_mat (wd s) i))) d i) (unfixed (wd s))).
Proof. exact C121_lemma. Qed.
Print Assumptions C121.
(** As in C120_example; one pass of burn-in, two counted passes, and an entry of the first factor as a quantity between 0 and 1. *)
Example C121_example : let s := one_machine (2 / 3) 1 in ordinary demo (wd s) /\ mixing the_outputs s /\ In [[[1]]; [[-1]]]%Z (configurations s) /\
  Forall (fun order => Permutation order (unfixed (wd s))) ([[1; 2]] ++ [[2; 1]; [1; 2]])%nat /\ (forall c : list mat, 0 <= (if (at2 (nth 0 c []) 0 0 =? 1)%Z then 1 else 0) <= 1).
Proof.
  destruct C120_example as (_ & _ & H3 & _ & H5 & H6 & _). cbv zeta in *. split; [exact H3|]. split; [exact H5|]. split; [rewrite one_machine_states; right; left; reflexivity|]. split.
  - rewrite H6. repeat constructor.
  - intros c. destruct (_ =? _)%Z; lra.
Qed.

(** C122. With the orders of the passes uniformly random, as infer shuffles them, it is enough that the machine is linked (C103); this covers
    machines with the default prior 1/2, which need not mix if the order stays the same. *)
Theorem C122 : forall outs o0 s, outputs outs -> random o0 -> ordinary o0 (wd s) ->
  (forall l, (l < List.length (layers (wd s)))%nat -> lfixed (lbda (get_lay (wd s) l)) = true) -> linked outs s ->
  forall perms, all_orders s perms -> forall eps, 0 < eps -> exists T, forall ex lg d c, good_exp ex -> (forall i, In i (unfixed (wd s)) -> Rabs (lg (bprior (get_mat (wd s) i)) - logit (bprior (get_mat (wd s) i))) <= d) -> In c (configurations s) ->
  exists s1, prepare (set_wd s (puts (wd s) (unfixed (wd s)) c)) = Ok (unfixed (wd s), [], s1) /\
  forall n h, (T <= n)%nat -> (forall c, 0 <= h c <= 1) ->
  Rabs (mean_orders perms n (fun passes => updates_mean (double_run ex lg) (concat passes) (fun w' => h (map (matrix_of w') (unfixed (wd s)))) (wd s1)) - average_over (posterior outs s) (configurations s) h)
    <= eps + INR T * Rsum (fun i => update_error (wd s) (lg (bprior (get_mat (wd s) i))) d i) (unfixed (wd s)).
Proof. exact C122_lemma. Qed.
Print Assumptions C122.
(** Averages over n passes in random orders, after any number b of passes in random orders that are not counted. *)
Theorem C122_averages : forall outs o0 s, outputs outs -> random o0 -> ordinary o0 (wd s) ->
  (forall l, (l < List.length (layers (wd s)))%nat -> lfixed (lbda (get_lay (wd s) l)) = true) -> linked outs s ->
  forall perms, all_orders s perms -> forall eps, 0 < eps -> exists T, forall ex lg d c, good_exp ex -> (forall i, In i (unfixed (wd s)) -> Rabs (lg (bprior (get_mat (wd s) i)) - logit (bprior (get_mat (wd s) i))) <= d) -> In c (configurations s) ->
  exists s1, prepare (set_wd s (puts (wd s) (unfixed (wd s)) c)) = Ok (unfixed (wd s), [], s1) /\
  forall b n h, (0 < n)%nat -> (forall c, 0 <= h c <= 1) ->
  mean_orders perms b (fun burn => mean_orders perms n (fun passes => updates_mean (double_run ex lg) (concat burn) (passes_mean (double_run ex lg) passes (fun l =>
      (Rsum (fun w' => h (map (matrix_of w') (unfixed (wd s)))) l / INR n - average_over (posterior outs s) (configurations s) h) ^ 2)) (wd s1)))
    <= (1 + 2 * INR T) / INR n + 2 * (eps + INR T * Rsum (fun i => update_error (wd s) (lg (bprior (get_mat (wd s) i))) d i) (unfixed (wd s))).
Proof. exact C122_averages_lemma. Qed.
Print Assumptions C122_averages.
(** The machine with the default prior: linked, and not mixing. *)
Example C122_example : let s := one_machine (1 / 2) 1 in outputs the_outputs /\ random demo /\ ordinary demo (wd s) /\
  (forall l, (l < List.length (layers (wd s)))%nat -> lfixed (lbda (get_lay (wd s) l)) = true) /\ linked the_outputs s /\ ~ mixing the_outputs s /\ all_orders s [[1; 2]; [2; 1]]%nat /\
  In [[[1]]; [[-1]]]%Z (configurations s) /\ good_exp exp.
Proof.
  destruct C103_averages_example as (H1 & H2 & H3 & H4 & H5 & H6). cbv zeta in *. repeat (split; [assumption|]). split; [exact one_machine_not_mixing|]. split; [exact H6|]. split; [rewrite one_machine_states; right; left; reflexivity|apply C116_exp_lemma].
Qed.
