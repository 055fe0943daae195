(** C01, C02: deterministic outputs mean what the model name says. *)
From Coq Require Import String.
From Verif Require Import Base Spec Outputs OutputsProofs.
Local Open Scope Z_scope.

(** C01. For every implemented model, the function the package selects by name computes, from two
    {-1,1} rows of equal length, the {-1,1}-coded truth value of OUTER over latent dimensions of
    INNER over the two factors; and the matrix version does so in every cell. *)
Theorem C01_two_factor_outputs :
  forall o i, In (o, i) implemented ->
  exists f, get_scalar_output_function_2d (model_name o i) = Some f /\
    (forall u z : vec, bin1 u -> bin1 z -> List.length u = List.length z ->
      lom_output o i [u; z] (List.length u) (f u z)) /\
    (forall (Z_ U : mat) N D L, has_shape2 Z_ N L -> has_shape2 U D L -> bin2 Z_ -> bin2 U ->
      has_shape2 (output_function_2d f Z_ U) N D /\
      forall n d, (n < N)%nat -> (d < D)%nat ->
        lom_output o i [row Z_ n; row U d] L (at2 (output_function_2d f Z_ U) n d)).
Proof. exact C01_lemma. Qed.
Print Assumptions C01_two_factor_outputs.

(** XOR-NAND on three latent dimensions: exactly one dimension (the second) is not all-ones. *)
Example C01_example :
  In (XOR, NAND) implemented /\ bin1 [1; -1; 1] /\ bin1 [1; 1; 1] /\
  (exists f, get_scalar_output_function_2d "XOR-NAND" = Some f /\
     f [1; -1; 1] [1; 1; 1] = 1 /\ f [1; -1; 1] [-1; 1; 1] = -1) /\
  lom_true XOR NAND [[1; -1; 1]; [1; 1; 1]] 3.
Proof. exact C01_example_lemma. Qed.

(** C02. The same for three factors. *)
Theorem C02_three_factor_outputs :
  forall o i, In (o, i) implemented ->
  exists f, get_scalar_output_function_3d (model_name o i) = Some f /\
    (forall u z v : vec, bin1 u -> bin1 z -> bin1 v ->
      List.length u = List.length z -> List.length u = List.length v ->
      lom_output o i [u; z; v] (List.length u) (f u z v)) /\
    (forall (Z_ U V : mat) N D M L,
      has_shape2 Z_ N L -> has_shape2 U D L -> has_shape2 V M L -> bin2 Z_ -> bin2 U -> bin2 V ->
      has_shape3 (output_function_3d f Z_ U V) N D M /\
      forall n d m, (n < N)%nat -> (d < D)%nat -> (m < M)%nat ->
        lom_output o i [row Z_ n; row U d; row V m] L (at3 (output_function_3d f Z_ U V) n d m)).
Proof. exact C02_lemma. Qed.
Print Assumptions C02_three_factor_outputs.

(** NAND-XOR with three factors: in the first dimension exactly one factor is 1, in the second
    two are, so not every dimension is XOR-true. *)
Example C02_example :
  In (NAND, XOR) implemented /\ bin1 [1; 1] /\ bin1 [-1; 1] /\ bin1 [-1; -1] /\
  (exists f, get_scalar_output_function_3d "NAND-XOR" = Some f /\
     f [1; 1] [-1; 1] [-1; -1] = 1 /\ f [1; 1] [-1; -1] [-1; -1] = -1) /\
  lom_true NAND XOR [[1; 1]; [-1; 1]; [-1; -1]] 2.
Proof. exact C02_example_lemma. Qed.
