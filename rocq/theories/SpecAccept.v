(** Vocabulary for C104: which model names can be used on which data. *)
From Coq Require Import String.
From Verif Require Import Base BaseR Spec Machine Dispatch Inference SpecMachine.

(** The names made of two of the six logical operators, and the three others that add_layer knows. *)
Definition logical_name (m : string) : Prop := exists o i, m = model_name o i.
Definition special_name (m : string) : Prop := m = "MAX-AND"%string \/ m = "qL-AND"%string \/ m = "OR-AND-IBP"%string.

Section Calls.
(** A new machine gets fixed data from [src], a layer of model m with L latent dimensions on it, and is run for n samples. *)
Context (o : oracle) (arrs : list arr) (clk : nat) (src : source) (L : nat) (m : string) (cfg : settings) (n : nat).
(** Everything succeeds; *)
Definition fits : Prop :=
  exists w1 w2, add_matrix o (World arrs [] [] [] false clk) src None (FBool true) = Ok w1 /\ add_layer o w1 L (Some 0%nat) None m = (w2, Ok tt) /\
  exists F, forall fuel, (F <= fuel)%nat -> exists s', infer fuel o cfg n (fresh_state w2) = Some (Ok s').
(** add_layer raises and leaves the machine as it was; *)
Definition rejected (e : exc) : Prop :=
  exists w1, add_matrix o (World arrs [] [] [] false clk) src None (FBool true) = Ok w1 /\ add_layer o w1 L (Some 0%nat) None m = (w1, Err e).
(** add_layer succeeds and inference raises, whatever it would have drawn. *)
Definition rejected_late (e : exc) : Prop :=
  exists w1 w2, add_matrix o (World arrs [] [] [] false clk) src None (FBool true) = Ok w1 /\ add_layer o w1 L (Some 0%nat) None m = (w2, Ok tt) /\
  forall fuel, infer fuel o cfg n (fresh_state w2) = Some (Err e).
End Calls.
