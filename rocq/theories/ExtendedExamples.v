(** Instances for C105 and C106. *)
From Coq Require Import String Lra.
From Verif Require Import Base BaseLemmas BaseR Spec SpecR Outputs Scores Sampling SamplingProofs Extended SpecExtended ExtendedProofs.
Local Open Scope R_scope.

Lemma named_or_and : named "OR-AND".
Proof. exists OR, AND. split; [cbn; tauto|reflexivity]. Qed.
Lemma Rleb_true a b : a <= b -> Rleb a b = true.
Proof. intros H. unfold Rleb. destruct (Rle_dec a b); [reflexivity|contradiction]. Qed.
Lemma Rltb_false a b : b <= a -> Rltb a b = false.
Proof. intros H. unfold Rltb. destruct (Rlt_dec a b); [lra|reflexivity]. Qed.

Ltac bins := unfold okmat, has_shape2, bin2, bin1, pm1; repeat first [apply conj | apply Forall_cons | apply Forall_nil]; auto.

Lemma agree_example :
  run_call_x (OneChild2 "OR-AND" 0 [[-1]] [[1]] [[1]] (Fin 1))%Z [[0]]%Z (1 / 2) (fun _ _ => 0) = Ok [[1]]%Z.
Proof.
  unfold run_call_x. rewrite xlogit_fin by lra. unfold logit. replace (1 / 2 / (1 - 1 / 2)) with 1 by lra. rewrite ln_1.
  cbn. rewrite Rleb_true by lra. reflexivity.
Qed.

Lemma certain_example :
  let c := OneChild2 "OR-AND" 0 [[-1; -1]]%Z [[1; 1]; [1; 1]]%Z [[-1; -1]]%Z 2 in
  known c /\ okmat 1 2 (target c) /\
  run_call_x (fin_call c) [[0; 1]]%Z 1 (fun _ _ => 1 / 2) = Ok [[1; -1]]%Z.
Proof.
  cbv zeta. split; [apply named_or_and|]. split; [cbn; bins|].
  unfold run_call_x. rewrite xlogit_1. reflexivity.
Qed.

Lemma out_of_range_example :
  let c := OneChild2 "OR-AND" 0 [[-1]]%Z [[1]]%Z [[1]]%Z (Fin 5) in
  known c /\ okmat 1 1 (target c) /\ run_call_x c [[0]]%Z 2 (fun _ _ => 0) = Ok [[-1]]%Z.
Proof.
  cbv zeta. split; [apply named_or_and|]. split; [cbn; bins|].
  unfold run_call_x. rewrite xlogit_out by lra. reflexivity.
Qed.

Lemma rejected_refuted :
  ~ (forall c N L fixed p rand, known c -> okmat N L (target c) -> p < 0 \/ 1 < p ->
       exists e, run_call_x c fixed p rand = Err e).
Proof.
  intros H. destruct out_of_range_example as (K & O & E).
  destruct (H _ 1%nat 1%nat [[0%Z]] 2 (fun _ _ => 0) K O ltac:(lra)) as (e & E'). rewrite E in E'. discriminate E'.
Qed.

Lemma greedy_example :
  run_call_x (OneChild2 "OR-AND" 0 [[-1; 1; -1]] [[1; -1; -1]; [-1; 1; -1]] [[1; -1]] PInf)%Z [[0; 0; 0]]%Z (9 / 10)
    (fun _ _ => 1 / 2) = Ok [[1; -1; -1]]%Z.
Proof. unfold run_call_x. rewrite xlogit_fin by lra. reflexivity. Qed.

Lemma parent_example :
  okmat 2 1 [[1]; [-1]]%Z /\ okmat 2 1 [[1]; [1]]%Z /\ okmat 2 2 [[-1; -1]; [1; 1]]%Z /\
  run_call_x (NoChildOneParent "OR-AND" [[-1; -1]; [1; 1]] [[1]; [-1]] [[1]; [1]] PInf)%Z [[0; 1]; [0; 0]]%Z (1 / 2)
    (fun _ _ => 1 / 2) = Ok [[1; -1]; [-1; -1]]%Z.
Proof.
  split; [bins|]. split; [bins|]. split; [bins|]. unfold run_call_x. rewrite xlogit_fin by lra. reflexivity.
Qed.

Lemma limit_refuted :
  ~ (forall model ax A B X fixed p rand Z', named model -> 0 < p < 1 ->
       (forall lbda, run_call_x (OneChild2 model ax A B X (Fin lbda)) fixed p rand = Ok Z') ->
       run_call_x (OneChild2 model ax A B X PInf) fixed p rand = Ok Z').
Proof.
  intros H.
  specialize (H "OR-AND"%string 0%nat [[-1]]%Z [[-1]]%Z [[1]]%Z [[0]]%Z (3 / 4) (fun _ _ => 0) [[1]]%Z named_or_and ltac:(lra)).
  assert (L3 : 0 < logit (3 / 4)).
  { unfold logit. replace (3 / 4 / (1 - 3 / 4)) with 3 by lra. rewrite <- ln_1. apply ln_increasing; lra. }
  assert (E : run_call_x (OneChild2 "OR-AND" 0 [[-1]] [[-1]] [[1]] PInf)%Z [[0]]%Z (3 / 4) (fun _ _ => 0) = Ok [[-1]]%Z).
  { unfold run_call_x. rewrite xlogit_fin by lra. reflexivity. }
  rewrite E in H. discriminate H. intros lbda.
  unfold run_call_x. rewrite xlogit_fin by lra. cbn. rewrite Rleb_true by lra. reflexivity.
Qed.

Lemma conflict_example :
  okmat 1 1 [[1]]%Z /\ okmat 2 1 [[1]; [1]]%Z /\ okmat 2 1 [[1]; [-1]]%Z /\ okmat 1 2 [[-1; 1]]%Z /\
  run_call_x (NoChildTwoParents "OR-AND" "OR-AND" [[-1; 1]] [[1]] [[1]; [1]] PInf [[1]] [[1]; [-1]] PInf)%Z [[0; 0]]%Z (1 / 2)
    (fun _ _ => 1 / 2) = Ok [[1; 1]]%Z.
Proof.
  split; [bins|]. split; [bins|]. split; [bins|]. split; [bins|].
  unfold run_call_x. rewrite xlogit_fin by lra. reflexivity.
Qed.
