(** Specification: shares and votes over the machines passed through by a run. *)
From Verif Require Import Base BaseR Machine Dispatch Inference Fuzzy LayerOutput MaxMachine Predict SpecMachine SpecPass.
Local Open Scope R_scope.

(** The share of the first n natural numbers for which p holds. *)
Definition share (p : nat -> bool) (n : nat) : R := INR (List.length (filter p (seq 0 n))) / INR n.
(** 1 if strictly more than half of the n matrices V 0, ..., V (n - 1) have a 1 at (r,c), otherwise -1. *)
Definition vote (V : nat -> mat) (n r c : nat) : Z :=
  if Nat.ltb n (2 * List.length (filter (fun j => at2 (V j) r c =? 1)%Z (seq 0 n))) then 1%Z else (-1)%Z.

(** ** Averages over the samples that a run records (an error or an endless run counts 0) *)
(** The average of a function of the recorded values of the matrices [fs]. *)
Definition run_mean (fs : list nat) (n : nat) (h : list mat -> R) (x : option (res state)) : R :=
  match x with Some (Ok s) => Rsum (fun j => h (recorded fs j s)) (seq 0 n) / INR n | _ => 0 end.
(** Entry (r,c) of the posterior mean that the machine reports for matrix i. *)
Definition reported_mean (i r c : nat) (x : option (res state)) : R :=
  match x with Some (Ok s) => rat2 (factor_mean (factor_view s i)) r c | _ => 0 end.
(** Started from a draw of the distribution with weights [weight] on [states], the random number [M] has the mean that
    [h] has under that distribution. *)
Definition unbiased (M : list mat -> list (list R) -> R) (ks : list nat) (weight : list mat -> R) (states : list (list mat)) (h : list mat -> R) : Prop :=
  exists E : list mat -> R, (forall c, In c states -> is_EE ks (M c) (E c)) /\ Rsum (fun c => weight c * E c) states = Rsum (fun c => weight c * h c) states.
