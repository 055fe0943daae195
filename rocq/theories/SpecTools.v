(** Specification vocabulary for the analysis helpers. *)
From Verif Require Import Base BaseR Spec SpecF.
Local Open Scope R_scope.

(** The five initial guesses. *)
Definition guesses : list R := [1 / 100; 25 / 100; 5 / 10; 75 / 100; 99 / 100].
(** Runs of labels: each label with the number of its repetitions, at least one, no label twice; the list they make. *)
Definition runs_ok (rs : list (Z * nat)) : Prop := NoDup (map fst rs) /\ Forall (fun r => (1 <= snd r)%nat) rs.
Definition labels_of (rs : list (Z * nat)) : list Z := concat (map (fun r => repeat (fst r) (snd r)) rs).
(** Where the j-th run begins. *)
Definition start (rs : list (Z * nat)) (j : nat) : nat := fold_right Nat.add 0%nat (map snd (firstn j rs)).
(** All that is assumed about the computation of an area under the ROC curve: it needs a score for every label, and at
    least one. *)
Definition needs_scores (roc : list bool -> list R -> res R) : Prop :=
  forall labels scores, labels = [] \/ List.length labels <> List.length scores -> roc labels scores = Err ValueError.
(** A matrix of 0 and 1. *)
Definition zero_one_matrix (n l : nat) (m : mat) : Prop := has_shape2 m n l /\ forall i j, (i < n)%nat -> (j < l)%nat -> at2 m i j = 0%Z \/ at2 m i j = 1%Z.
