(** C95-C99: analysis helpers. *)
From Coq Require Import String Lia Lra Permutation.
From Verif Require Import Base BaseR Spec SpecF SpecMax SpecMaxF SpecHelpers Fuzzy MaxMachine Density DensityProofs Tools SpecTools ToolsProofs.
Local Open Scope R_scope.

(** C95. If the solver returns candidates in [0,1] for all guesses, factor_density returns the candidate whose data
    density is closest to the requested one, and a candidate of exactly that density if there is one. Full statement:
    whatever the solver returns, without the third hypothesis (see C52). *)
Theorem C95_closest_partial : forall o i K L X sol, (1 <= L)%nat -> (1 <= K)%nat -> ((o = XOR \/ o = NXOR) /\ i = XOR -> K = 2%nat \/ L = 1%nat) -> 0 <= X <= 1 -> (forall g, In g guesses -> 0 <= sol g <= 1) ->
  exists g d, In g guesses /\ factor_density (model_name o i) L K X sol = Ok (sol g) /\ is_prob o i K L (fun _ _ => sol g) d /\
    (forall g' d', In g' guesses -> is_prob o i K L (fun _ _ => sol g') d' -> Rabs (d - X) <= Rabs (d' - X)) /\
    ((exists g', In g' guesses /\ is_prob o i K L (fun _ _ => sol g') X) -> d = X).
Proof. exact C95_lemma. Qed.
Print Assumptions C95_closest_partial.
Example C95_example : factor_density "OR-AND" 2 2 (7 / 16) (fun g => if Rltb g (1 / 4) then 0 else 1 / 2) = Ok (1 / 2).
Proof.
  set (sol := fun g => if Rltb g (1 / 4) then 0 else 1 / 2). assert (S1 : sol (1 / 100) = 0) by (unfold sol, Rltb; destruct (Rlt_dec _ _); [reflexivity|exfalso; lra]). assert (S2 : sol (5 / 10) = 1 / 2) by (unfold sol, Rltb; destruct (Rlt_dec _ _); [exfalso; lra|reflexivity]).
  assert (P : forall f, is_prob OR AND 2 2 (fun _ _ => f) (1 - (1 - f * f) * (1 - f * f))). { intros f. destruct (C52_lemma OR AND 2 2 f ltac:(lia) ltac:(lia) ltac:(intros ([C|C] & _); discriminate)) as (v & E & Q). cbn in E. injection E as <-. match goal with |- is_prob _ _ _ _ _ ?x => match type of Q with is_prob _ _ _ _ _ ?y => replace x with y by (cbn; unfold invert, identity; ring) end end. exact Q. }
  destruct (C95_closest_partial OR AND 2 2 (7 / 16) sol ltac:(lia) ltac:(lia) ltac:(intros ([C|C] & _); discriminate) ltac:(lra)) as (g & d & Hg & E & Hd & _ & HX). { intros g _. unfold sol. destruct (Rltb g (1 / 4)); lra. }
  change (model_name OR AND) with "OR-AND"%string in E. rewrite E. f_equal. unfold sol in *. destruct (Rltb g (1 / 4)) eqn:EG; [exfalso|reflexivity].
  assert (D0 : d = 7 / 16). { apply HX. exists (5 / 10). split; [cbn; auto|]. rewrite S2. match goal with |- is_prob _ _ _ _ ?f ?x => replace x with (1 - (1 - 1 / 2 * (1 / 2)) * (1 - 1 / 2 * (1 / 2))) by lra end. apply P. }
  pose proof (prob_unique _ _ _ _ _ _ _ Hd (P 0)). lra.
Qed.
(** A candidate outside [0,1] makes the call raise: the penalty is a plain number and is indexed. *)
Theorem C95_refuted : forall o i K L X sol, (exists g, In g guesses /\ (sol g < 0 \/ 1 < sol g)) -> factor_density (model_name o i) L K X sol = Err TypeError.
Proof. exact C95_outside_lemma. Qed.
Print Assumptions C95_refuted.
Example C95_refuted_example : factor_density "OR-AND" 2 2 (7 / 16) (fun g => if Rltb g (1 / 4) then - (1 / 2) else 1 / 2) = Err TypeError.
Proof. apply (C95_refuted OR AND). exists (1 / 100). split; [cbn; auto|]. left. unfold Rltb. destruct (Rlt_dec _ _); lra. Qed.
(** Any other name raises as well. *)
Theorem C95_unknown : forall model, (forall o i, model <> model_name o i) -> forall L K X sol, factor_density model L K X sol = Err UnboundLocalError.
Proof. exact C95_unknown_lemma. Qed.
Print Assumptions C95_unknown.
Example C95_unknown_example : forall X sol, factor_density "MAX-AND" 2 2 X sol = Err UnboundLocalError.
Proof. intros. apply C95_unknown. intros o i. destruct o, i; discriminate. Qed.

(** C96. Full statement: exactly S entries are held out. Whatever is drawn, only observed entries are held out, and the
    training array is the tensor without them. Their number is the number of draws below the number of observed
    entries; it is S if nothing is missing. *)
Theorem C96_split_partial : forall v split S idx, 0 <= split <= 1 -> let n := List.length v in is_floor S (split * INR n) -> is_draw n S idx -> let nobs := List.length (filter (fun x => negb (x =? 0)%Z) v) in
  exists tr mask, split_tensor_train_test_old true v split idx = Ok (tr, mask) /\ List.length tr = n /\ List.length mask = n /\
    (forall i, (i < n)%nat -> at1 tr i = (if nth i mask false then 0%Z else at1 v i) /\ (nth i mask false = true -> at1 v i <> 0%Z)) /\
    List.length (filter (fun b => b) mask) = List.length (filter (fun k => Nat.ltb k nobs) idx).
Proof. exact C96_lemma. Qed.
Print Assumptions C96_split_partial.
Theorem C96_complete : forall v split S idx, 0 <= split <= 1 -> is_floor S (split * INR (List.length v)) -> is_draw (List.length v) S idx -> Forall (fun x => x <> 0%Z) v ->
  exists tr mask, split_tensor_train_test_old true v split idx = Ok (tr, mask) /\ List.length (filter (fun b => b) mask) = S.
Proof. exact C96_complete_lemma. Qed.
Print Assumptions C96_complete.
Example C96_example : exists tr mask, split_tensor_train_test_old true [1; -1; 1; 1]%Z (1 / 2) [3; 1]%nat = Ok (tr, mask) /\ List.length (filter (fun b => b) mask) = 2%nat.
Proof.
  apply C96_complete; [lra|unfold is_floor; cbn; lra| |repeat constructor; discriminate]. unfold is_draw. split; [repeat constructor; cbn; lia|]. split; [repeat constructor; cbn; lia|reflexivity].
Qed.
(** With missing entries there are draws that hold out nothing at all. *)
Theorem C96_refuted : forall v split S, 0 <= split <= 1 -> is_floor S (split * INR (List.length v)) -> (1 <= S)%nat -> (S <= List.length (filter (fun x => x =? 0)%Z v))%nat ->
  exists idx tr mask, is_draw (List.length v) S idx /\ split_tensor_train_test_old true v split idx = Ok (tr, mask) /\ List.length (filter (fun b => b) mask) = 0%nat.
Proof. exact C96_refuted_lemma. Qed.
Print Assumptions C96_refuted.
Example C96_refuted_example : exists idx tr mask, is_draw 4 2 idx /\ split_tensor_train_test_old true [1; 0; 0; -1]%Z (1 / 2) idx = Ok (tr, mask) /\ List.length (filter (fun b => b) mask) = 0%nat.
Proof. apply (C96_refuted [1; 0; 0; -1]%Z (1 / 2) 2); [lra|unfold is_floor; cbn; lra|lia|cbn; lia]. Qed.
(** Tensors of another type are rejected. *)
Theorem C96_type : forall v split idx, split_tensor_train_test_old false v split idx = Err AssertionError.
Proof. exact (fun _ _ _ => eq_refl). Qed.
Print Assumptions C96_type.

(** C97. Full statement: the same for the {-1,1} matrices of a layer, for dispersions that may be 0, and the expectation
    for matrices of probabilities. For 0/1 matrices and positive dispersions every entry is the output of the MaxMachine:
    the largest dispersion of an active dimension, the last one if none is active. *)
Theorem C97_forward_partial : forall argsort alpha u z N D L, List.length alpha = S L -> (forall l, (l < L)%nat -> 0 < nth l alpha 0) -> zero_one_matrix N L z -> zero_one_matrix D L u -> is_argsort (map Ropp (removelast alpha)) (argsort (map Ropp (removelast alpha))) ->
  forall n d, (n < N)%nat -> (d < D)%nat -> max_output alpha (row z n) (row u d) L (rat2 (maxmachine_forward_pass argsort (map (map IZR) u) (map (map IZR) z) alpha) n d).
Proof. exact C97_lemma. Qed.
Print Assumptions C97_forward_partial.
Example C97_example : max_output [1 / 4; 1 / 2; 1 / 8] [1; 1]%Z [1; 1]%Z 2 (rat2 (maxmachine_forward_pass (fun _ => [1; 0]%nat) (map (map IZR) [[1; 1]]%Z) (map (map IZR) [[0; 1]; [1; 1]]%Z) [1 / 4; 1 / 2; 1 / 8]) 1 0).
Proof.
  refine (C97_forward_partial (fun _ => [1; 0]%nat) [1 / 4; 1 / 2; 1 / 8] [[1; 1]]%Z [[0; 1]; [1; 1]]%Z 2 1 2 _ _ _ _ _ 1 0 _ _); try lia.
  - reflexivity.
  - intros [|[|l]] Hl; cbn; [lra|lra|lia].
  - split; [split; [reflexivity|repeat constructor]|]. intros [|[|i]] [|[|j]] Hi Hj; cbn; lia.
  - split; [split; [reflexivity|repeat constructor]|]. intros [|i] [|[|j]] Hi Hj; cbn; lia.
  - split; [apply perm_swap|]. cbn [map removelast]. intros [|[|a]] [|[|b]]; cbn; intros; lra || lia.
Qed.
(** With -1 for false, a dimension that is on in one row and off in the other gives a negative "probability". *)
Theorem C97_coding_refuted : forall argsort a b, is_argsort [- a] (argsort [- a]) -> 0 < a -> 0 <= b -> none_active [1]%Z [-1]%Z 1 /\ rat2 (maxmachine_forward_pass argsort [[-1]] [[1]] [a; b]) 0 0 = - a /\ ~ max_output [a; b] [1]%Z [-1]%Z 1 (- a).
Proof. exact C97_coding_lemma. Qed.
Print Assumptions C97_coding_refuted.
(** A dispersion 0 counts as "not explained". *)
Theorem C97_zero_refuted : forall argsort b, is_argsort [- 0] (argsort [- 0]) -> b <> 0 -> rat2 (maxmachine_forward_pass argsort [[1]] [[1]] [0; b]) 0 0 = b /\ ~ max_output [0; b] [1]%Z [1]%Z 1 b.
Proof. exact C97_zero_lemma. Qed.
Print Assumptions C97_zero_refuted.
(** For probabilities the result is not the expected output. *)
Theorem C97_expectation_refuted : forall argsort a b p q v, is_argsort [- a] (argsort [- a]) -> a <> 0 -> b <> 0 -> 0 < p < 1 -> 0 < q < 1 -> is_expected_top [a; b] 1 (fun k _ => if Nat.eqb k 0 then p else q) b v -> rat2 (maxmachine_forward_pass argsort [[q]] [[p]] [a; b]) 0 0 <> v.
Proof. exact C97_expect_lemma. Qed.
Print Assumptions C97_expectation_refuted.
Example C97_refuted_example : rat2 (maxmachine_forward_pass (fun _ => [0]%nat) [[-1]] [[1]] [1 / 2; 1 / 8]) 0 0 = - (1 / 2) /\ rat2 (maxmachine_forward_pass (fun _ => [0]%nat) [[1]] [[1]] [0; 1 / 8]) 0 0 = 1 / 8.
Proof.
  assert (A : forall a, is_argsort [a] [0%nat]) by (intros a; split; [apply Permutation_refl|]; cbn; intros; lia). split; [apply (C97_coding_refuted (fun _ => [0%nat]) (1 / 2) (1 / 8)); [apply A|lra|lra]|apply (C97_zero_refuted (fun _ => [0%nat]) (1 / 8)); [apply A|lra]].
Qed.

(** C98. For a list in which equal labels are next to each other, one position is returned for every label, in order:
    the middle of the stretch of the label (the left one of two middles). *)
Theorem C98_centers : forall rs, runs_ok rs -> List.length (find_centers_of_ordered_list (labels_of rs)) = List.length rs /\
  forall j, (j < List.length rs)%nat -> nth j (find_centers_of_ordered_list (labels_of rs)) 0%nat = (start rs j + (snd (nth j rs (0%Z, 0%nat)) - 1) / 2)%nat.
Proof. exact C98_lemma. Qed.
Print Assumptions C98_centers.
Example C98_example : labels_of [(7, 2%nat); (3, 3%nat); (5, 1%nat)]%Z = [7; 7; 3; 3; 3; 5]%Z /\ nth 1 (find_centers_of_ordered_list [7; 7; 3; 3; 3; 5]%Z) 0%nat = 3%nat.
Proof.
  split; [reflexivity|]. destruct (C98_centers [(7, 2%nat); (3, 3%nat); (5, 1%nat)]%Z) as (_ & H); [split; repeat constructor; cbn; lia|]. exact (H 1%nat ltac:(cbn; lia)).
Qed.
(** Without that the position of the first label may carry another label. *)
Theorem C98_unordered_refuted : exists x ls, In x ls /\ nth (nth 0 (find_centers_of_ordered_list (x :: ls)) 0%nat) (x :: ls) 0%Z <> x.
Proof. exact C98_unordered_lemma. Qed.
Print Assumptions C98_unordered_refuted.

(** C99. The area under the ROC curve is never returned: the labels use up the iterator, so no scores are left. *)
Theorem C99_refuted : forall roc data data_train prediction, needs_scores roc -> get_roc_auc roc data data_train prediction = Err ValueError.
Proof. exact C99_lemma. Qed.
Print Assumptions C99_refuted.
Example C99_example : get_roc_auc (fun labels scores => match labels with [] => Err ValueError | _ => if Nat.eqb (List.length labels) (List.length scores) then Ok (1 / 2) else Err ValueError end) [[1; -1]]%Z [[0; 0]]%Z [[1 / 2; 1 / 4]] = Err ValueError.
Proof. apply C99_refuted. intros [|l labels] scores [C|C]; [reflexivity|reflexivity|discriminate|]. apply Nat.eqb_neq in C. rewrite C. reflexivity. Qed.
