(** C113: parallel counting and filling do not depend on the schedule. *)
From Coq Require Import Permutation.
From Verif Require Import Base BaseR Spec SpecR Outputs Fuzzy Lambda LambdaProofs ParallelReduce ReduceProofs.
Local Open Scope Z_scope.

(** However the rows are dealt out, the workers interleaved and their counters added, the result is the number of
    hits, as an int64. *)
Theorem C113_reduction : forall hit N W r, parallel_count hit N W r <-> r = wrap 64 (Z.of_nat (List.length (filter hit (seq 0 (N * W))))).
Proof. exact C113_reduction_lemma. Qed.
Print Assumptions C113_reduction.
(** Three rows of two entries for two workers; the second starts first and waits before its last position. *)
Example C113_reduction_example : let ws := count_run Nat.even [1; 0; 1; 1; 0; 1; 1]%nat (start 2 [[1]; [0; 2]]%nat) in
  Permutation (concat [[1]; [0; 2]]%nat) (seq 0 3) /\ ws = [Worker [] 1; Worker [] 2] /\ done ws /\ parallel_count Nat.even 3 2 3 /\ ~ parallel_count Nat.even 3 2 2.
Proof.
  assert (P : Permutation (concat [[1]; [0; 2]]%nat) (seq 0 3)) by apply perm_swap.
  cbv zeta. split; [exact P|]. split; [reflexivity|]. split; [repeat constructor|]. split.
  - exists [[1]; [0; 2]]%nat, [1; 0; 1; 1; 0; 1; 1]%nat, [2; 1]. split; [exact P|]. split; [repeat constructor|]. split; [apply perm_swap|reflexivity].
  - intros H. apply C113_reduction in H. discriminate H.
Qed.

(** The loops end as soon as every worker had a turn for each of its positions. *)
Theorem C113_completes : forall hit W dist sched,
  (forall i, (i < List.length dist)%nat -> (List.length (nth i dist []) * W <= count_occ Nat.eq_dec sched i)%nat) ->
  done (count_run hit sched (start W dist)) /\ (forall (A : Type) (g : nat -> A) X, Forall (eq []) (snd (fill_run g sched (X, map (block W) dist)))).
Proof. exact C113_completes_lemma. Qed.
Print Assumptions C113_completes.
Example C113_completes_example : let dist := [[1]; [0; 2]]%nat in let sched := [1; 0; 1; 1; 0; 1]%nat in
  (forall i, (i < List.length dist)%nat -> (List.length (nth i dist []) * 2 <= count_occ Nat.eq_dec sched i)%nat) /\
  ~ done (count_run Nat.even [1; 0; 1; 1; 0]%nat (start 2 dist)).
Proof.
  cbv zeta. split; [intros [|[|i]] Hi; cbn in Hi |- *; lia|]. intros H. inversion H as [|? ? _ H1]. inversion H1 as [|? ? C _]. discriminate C.
Qed.

(** The counters of the eight models return the number of correct predictions. *)
Theorem C113_counter_2d : forall o i, In (o, i) implemented -> forall out, is_output o i out ->
  exists f, get_scalar_output_function_2d (counted_model (model_name o i)) = Some f /\
  forall A B X N D L, okmat N L A -> okmat D L B -> has_shape2 X N D -> Z.of_nat (N * D) < 2 ^ 63 ->
    forall r, parallel_counter_2d f A B X r <-> r = Z.of_nat (correct2 out X N D L A B).
Proof. exact C113_2d_lemma. Qed.
Print Assumptions C113_counter_2d.
Theorem C113_counter_3d : forall o i, In (o, i) implemented -> forall out, is_output o i out ->
  exists f, get_scalar_output_function_3d (counted_model (model_name o i)) = Some f /\
  forall A B C X N D M L, okmat N L A -> okmat D L B -> okmat M L C -> has_shape3 X N D M -> Z.of_nat (N * D * M) < 2 ^ 63 ->
    forall r, parallel_counter_3d f A B C X r <-> r = Z.of_nat (correct3 out X N D M L A B C).
Proof. exact C113_3d_lemma. Qed.
Print Assumptions C113_counter_3d.
Theorem C113_counter_qL : forall A B X q N D, has_shape2 X N D -> Z.of_nat (N * D) < 2 ^ 63 ->
  forall r, parallel_counter_qL A B X q r <-> r = Z.of_nat (List.length (filter (fun '(n, d) => qL_AND_product (row A n) (row B d) (at1 q d) =? at2 X n d) (cells N D))).
Proof. exact C113_qL_lemma. Qed.
Print Assumptions C113_counter_qL.
Example C113_counter_example :
  parallel_counter_2d OR_AND_product lexA lexB lexX 3 /\ ~ parallel_counter_2d OR_AND_product lexA lexB lexX 2 /\
  parallel_counter_3d OR_AND_product_3d [[1]; [-1]] [[1]; [1]] [[1]; [-1]] [[[1; 1]; [0; -1]]; [[-1; -1]; [1; 1]]] 4 /\
  parallel_counter_qL [[1; 1]; [1; -1]] [[1; 1]] [[1]; [1]] [2] 1.
Proof.
  split; [apply C113_counter_2d_lemma; [cbn; lia|reflexivity]|]. split; [intros H; apply C113_counter_2d_lemma in H; [discriminate H|cbn; lia]|].
  split; [apply C113_counter_3d_lemma; [cbn; lia|reflexivity]|apply C113_counter_qL_lemma; [cbn; lia|reflexivity]].
Qed.

(** The arrays filled in parallel are those filled in order. *)
Theorem C113_outputs_2d : forall f A B X, (parallel_output_2d f A B X <-> X = concat (output_function_2d f A B)) /\
  (parallel_output_2d f A B X <-> List.length X = (nrows A * nrows B)%nat /\ forall n d, (n < nrows A)%nat -> (d < nrows B)%nat -> nth (n * nrows B + d) X 0 = f (row A n) (row B d)).
Proof. intros f A B X. exact (conj (C113_outputs_lemma f A B X) (C113_fill_2d 0 (fun n d => f (row A n) (row B d)) _ _ X)). Qed.
Print Assumptions C113_outputs_2d.
Theorem C113_outputs_3d : forall f A B C X, (parallel_output_3d f A B C X <-> X = concat (concat (output_function_3d f A B C))) /\
  (parallel_output_3d f A B C X <-> List.length X = (nrows A * nrows B * nrows C)%nat /\
    forall n d m, (n < nrows A)%nat -> (d < nrows B)%nat -> (m < nrows C)%nat -> nth ((n * nrows B + d) * nrows C + m) X 0 = f (row A n) (row B d) (row C m)).
Proof. intros f A B C X. exact (conj (C113_outputs3_lemma f A B C X) (C113_fill_3d 0 (fun n d m => f (row A n) (row B d) (row C m)) _ _ _ X)). Qed.
Print Assumptions C113_outputs_3d.
Theorem C113_fuzzy_2d : forall f (A B : rmat) X, parallel_output_2d_fuzzy f A B X <-> List.length X = (nrows A * nrows B)%nat /\
  forall n d, (n < nrows A)%nat -> (d < nrows B)%nat -> ndR_get (output_function_2d_fuzzy f A B) [n; d] = Some (nth (n * nrows B + d) X 0%R).
Proof. exact C113_fuzzy_lemma. Qed.
Print Assumptions C113_fuzzy_2d.
Theorem C113_fuzzy_3d : forall f (A B C : rmat) X, parallel_output_3d_fuzzy f A B C X <-> List.length X = (nrows A * nrows B * nrows C)%nat /\
  forall n d m, (n < nrows A)%nat -> (d < nrows B)%nat -> (m < nrows C)%nat -> ndR_get (output_function_3d_fuzzy f A B C) [n; d; m] = Some (nth ((n * nrows B + d) * nrows C + m) X 0%R).
Proof. exact C113_fuzzy3_lemma. Qed.
Print Assumptions C113_fuzzy_3d.
(** Two rows dealt to two workers in reverse, the second worker one position ahead. *)
Example C113_outputs_example : let A := [[1; -1]; [-1; 1]] in let B := [[1; 1]; [-1; 1]; [-1; -1]] in
  parallel_output_2d OR_AND_product A B [1; -1; -1; 1; 1; -1] /\ ~ parallel_output_2d OR_AND_product A B [1; 1; -1; 1; -1; -1] /\
  fill_run (fun k => OR_AND_product (row A (k / 3)) (row B (k mod 3))) [1; 0; 1; 0; 1; 0]%nat (repeat 0 6, map (block 3) [[1]; [0]]%nat) = ([1; -1; -1; 1; 1; -1], [[]; []]).
Proof.
  cbv zeta. split; [apply C113_outputs_lemma; reflexivity|]. split; [intros H; apply C113_outputs_lemma in H; discriminate H|reflexivity].
Qed.
