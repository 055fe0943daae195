(** C79 (compute_g) and the three-factor parent scores of C11. *)
From Coq Require Import String.
From Verif Require Import Base Spec SpecMax Outputs Scores ActiveProofs.
Local Open Scope Z_scope.

(** C79. Full statement: compute_g adds to g[n,d] the number of latent dimensions in which row n of Z and row d of U are
    both 1. Proved modulo 256, hence exactly as long as the result fits int8; missing: larger counts, where it is false
    (C79_refuted). *)
Theorem C79_counts_partial : forall Z_ U g N D L, has_shape2 Z_ N L -> has_shape2 U D L -> has_shape2 g N D ->
  has_shape2 (compute_g Z_ U g) N D /\
  forall n d k, (n < N)%nat -> (d < D)%nat -> -128 <= at2 g n d <= 127 -> number_active (row Z_ n) (row U d) L k ->
    at2 (compute_g Z_ U g) n d = wrap8 (at2 g n d + Z.of_nat k) /\ (at2 g n d + Z.of_nat k <= 127 -> at2 (compute_g Z_ U g) n d = at2 g n d + Z.of_nat k).
Proof. exact C79_lemma. Qed.
Print Assumptions C79_counts_partial.
Example C79_example : compute_g [[1; -1; 1]; [1; 1; 1]] [[1; 1; 1]; [-1; -1; 1]] [[0; 0]; [5; -1]] = [[2; 1]; [8; 0]].
Proof. reflexivity. Qed.
Theorem C79_refuted : exists Z_ U g, has_shape2 Z_ 1 128 /\ has_shape2 U 1 128 /\ g = [[0]] /\ number_active (row Z_ 0) (row U 0) 128 128 /\ compute_g Z_ U g = [[-128]].
Proof. exact C79_refuted_lemma. Qed.
Print Assumptions C79_refuted.

(** C11. The parent score of a three-factor parent is the output of its model. *)
Theorem C11_three_factor_parent_score : forall o i, In (o, i) implemented ->
  exists f, get_parent_score_fct_3d (model_tag (model_name o i) "3") = Ok f /\
    forall u z v : vec, bin1 u -> bin1 z -> bin1 v -> List.length u = List.length z -> List.length u = List.length v ->
      lom_output o i [u; z; v] (List.length u) (f u z v).
Proof. exact parent_score_3d. Qed.
Print Assumptions C11_three_factor_parent_score.
Example C11_parent_score_example : In (OR, XOR) implemented /\ match get_parent_score_fct_3d "OR_XOR_3D" with Ok f => f [1; -1] [-1; -1] [-1; 1] = 1 | Err _ => False end.
Proof. split; [cbn; auto|reflexivity]. Qed.
