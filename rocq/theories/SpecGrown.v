(** Specification vocabulary for machines that are extended between two calls of infer. *)
From Coq Require Import String.
From Verif Require Import Base BaseR Machine Dispatch Inference SpecMachine.

(** All objects of w are in w', connected as before, except that matrices may have become children of further layers. *)
Definition grown (w w' : world) : Prop :=
  List.length (mats w) <= List.length (mats w') /\ stored w' /\
  (forall i, i < List.length (mats w) -> axis (get_mat w' i) = axis (get_mat w i) /\ layer_of (get_mat w' i) = layer_of (get_mat w i) /\
     exists more, parents (get_mat w' i) = (parents (get_mat w i) ++ more)%list) /\
  List.length (layers w) <= List.length (layers w') /\
  (forall l, l < List.length (layers w) -> factors (get_lay w' l) = factors (get_lay w l) /\ child (get_lay w' l) = child (get_lay w l) /\
     model (get_lay w' l) = model (get_lay w l)).
(** Matrix i of w is given its update function; w' is a later, extended machine in which that function is still in place. *)
Definition set_up_before (w : world) (i : nat) (w' : world) : Prop :=
  sfct (get_mat w i) = None /\ exists w1, assign_mat w i = Ok w1 /\ grown w1 w' /\ sfct (get_mat w' i) = sfct (get_mat w1 i).
