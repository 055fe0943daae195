(** C52: expected_density. *)
From Coq Require Import String Lra.
From Verif Require Import Base BaseR Spec SpecF Density DensityProofs.
Local Open Scope R_scope.

(** C52. Full statement: without the last hypothesis. It fails for the two models XOR-XOR and NXOR-XOR. *)
Theorem C52_density_partial : forall o i K L f, 
  (1 <= L)%nat -> (1 <= K)%nat -> ((o = XOR \/ o = NXOR) /\ i = XOR -> K = 2%nat \/ L = 1%nat) ->
  exists v, expected_density (model_name o i) L K f = Ok v /\ is_prob o i K L (fun _ _ => f) v.
Proof. exact C52_lemma. Qed.
Example C52_example : exists v, expected_density "OR-XOR" 2 3 (1/2) = Ok v /\ is_prob OR XOR 3 2 (fun _ _ => 1/2) v.
Proof. apply (C52_density_partial OR XOR); [auto|auto|]. intros [[H|H] _]; discriminate. Qed.
(** For the two models the value is wrong for every number of factors but two. *)
Theorem C52_density_refuted : forall o K L f, 
  o = XOR \/ o = NXOR -> (1 <= K)%nat -> K <> 2%nat -> (2 <= L)%nat -> 0 < f < 1 ->
  exists v, expected_density (model_name o XOR) L K f = Ok v /\ ~ is_prob o XOR K L (fun _ _ => f) v.
Proof. exact C52_refuted_lemma. Qed.
(** The density can be 2. *)
Theorem C52_above_one_refuted : 
  exists v, expected_density "XOR-XOR" 2 1 1 = Ok v /\ v = 2.
Proof. exact C52_refuted_example. Qed.
Theorem C52_unknown_names : forall model, 
  (forall o i, model <> model_name o i) -> forall L K f, expected_density model L K f = Err UnboundLocalError.
Proof. exact C52_unknown. Qed.
Example C52_unknown_example : forall o i, "MAX-AND"%string <> model_name o i.
Proof. destruct o, i; discriminate. Qed.
Print Assumptions C52_density_partial.
Print Assumptions C52_density_refuted.
Print Assumptions C52_above_one_refuted.
Print Assumptions C52_unknown_names.
