(** C109: the interface to dbtf. *)
From Verif Require Import Base Helpers Dbtf DbtfProofs DbtfExamples SpecDbtf.
Local Open Scope Z_scope.

(** C109. The file handed to dbtf lists the ones of the tensor, each once, in order, with its size and base 0. *)
Theorem C109_written : forall X N D M, lists_ones X N D M (sparse X N D M).
Proof. exact C109_written_lemma. Qed.
Print Assumptions C109_written.
Example C109_written_example : sparse blocks_X 2 2 2 = [(0, 0, 0); (1, 0, 0); (1, 1, 0); (1, 1, 1)]%nat.
Proof. exact blocks_sparse. Qed.

(** C109. If every factor file lists positions within its factor, and none lists exactly one, the factors have
    their ones at these positions, and the reconstruction is the union of the L blocks they span. *)
Theorem C109_product_partial : forall prog fs X N D M L f1 f2 f3, prog (N, D, M) L (TensorFile (N, D, M) 0 (sparse X N D M)) fs = (f1, f2, f3) ->
  within f1 N L -> within f2 D L -> within f3 M L -> List.length f1 <> 1%nat -> List.length f2 <> 1%nat -> List.length f3 <> 1%nat ->
  exists Y Z_ U V, dbtf_reconstruct prog fs X N D M L true = ((f1, f2, f3), Ok (Some Y, [Z_; U; V])) /\
    dbtf_reconstruct prog fs X N D M L false = ((f1, f2, f3), Ok (None, [Z_; U; V])) /\
    indicator_of Z_ N L f1 /\ indicator_of U D L f2 /\ indicator_of V M L f3 /\ sum_of_blocks Y N D M L f1 f2 f3.
Proof. exact C109_product_lemma. Qed.
Print Assumptions C109_product_partial.
Example C109_product_example : within blocks_f1 2 2 /\ within blocks_f2 2 2 /\ within blocks_f3 2 2 /\
  dbtf_reconstruct blocks ([], [], []) blocks_X 2 2 2 2 true =
  ((blocks_f1, blocks_f2, blocks_f3),
   Ok (Some [[[true; false]; [false; false]]; [[true; false]; [true; true]]],
       [[[true; false]; [true; true]]; [[true; false]; [false; true]]; [[true; true]; [false; true]]])).
Proof. exact (conj (proj1 blocks_ok) (conj (proj1 (proj2 blocks_ok)) (conj (proj2 (proj2 blocks_ok)) blocks_run))). Qed.

(** The full statement has no condition on the number of lines. It is false: a factor with exactly one entry is
    loaded as a one-dimensional array, and unpacking its numbers raises TypeError. *)
Theorem C109_single : forall prog fs X N D M L f1 f2 f3, prog (N, D, M) L (TensorFile (N, D, M) 0 (sparse X N D M)) fs = (f1, f2, f3) ->
  forall co, within f1 N L -> within f2 D L -> within f3 M L -> List.length f1 = 1%nat \/ List.length f2 = 1%nat \/ List.length f3 = 1%nat ->
  dbtf_reconstruct prog fs X N D M L co = ((f1, f2, f3), Err TypeError).
Proof. exact C109_single_lemma. Qed.
Print Assumptions C109_single.
(** In particular for the exact factorisation of a tensor with a single one. *)
Theorem C109_single_refuted : exists prog fs X N D M L f1 f2 f3,
  has_shape3 X N D M /\ prog (N, D, M) L (TensorFile (N, D, M) 0 (sparse X N D M)) fs = (f1, f2, f3) /\
  within f1 N L /\ within f2 D L /\ within f3 M L /\
  (forall n d m, (n < N)%nat -> (d < D)%nat -> (m < M)%nat ->
    (nth m (nth d (nth n X []) []) 0 = 1 <-> exists l, 0 <= l < Z.of_nat L /\ In (Z.of_nat n, l) f1 /\ In (Z.of_nat d, l) f2 /\ In (Z.of_nat m, l) f3)) /\
  forall co, dbtf_reconstruct prog fs X N D M L co = ((f1, f2, f3), Err TypeError).
Proof. exact C109_single_refuted_lemma. Qed.
Print Assumptions C109_single_refuted.

(** C109. Positions past the end, such as those of a program counting from 1, raise IndexError. *)
Theorem C109_range : forall prog fs X N D M L f1 f2 f3 co, prog (N, D, M) L (TensorFile (N, D, M) 0 (sparse X N D M)) fs = (f1, f2, f3) ->
  List.length f1 <> 1%nat -> (forall i j, In (i, j) f1 -> 0 <= i /\ 0 <= j) -> ~ within f1 N L ->
  dbtf_reconstruct prog fs X N D M L co = ((f1, f2, f3), Err IndexError).
Proof. exact C109_range_lemma. Qed.
Print Assumptions C109_range.
Example C109_range_example : exists (prog : program) fs X f1, prog (1, 1, 1)%nat 1%nat (TensorFile (1, 1, 1)%nat 0 (sparse X 1 1 1)) fs = (f1, [], []) /\ List.length f1 <> 1%nat /\
  (forall i j, In (i, j) f1 -> 0 <= i /\ 0 <= j) /\ ~ within f1 1 1.
Proof. exact ex_range. Qed.

(** The exit status of the program is ignored: after a failure the factors of an earlier run are returned, here
    a tensor of ones as the reconstruction of a tensor of zeros. *)
Theorem C109_stale_refuted : exists prog fs X X' N D M L Y fac,
  has_shape3 X N D M /\ has_shape3 X' N D M /\
  let '(fs', r) := dbtf_reconstruct prog fs X N D M L true in
  r = Ok (Some Y, fac) /\ snd (dbtf_reconstruct prog fs' X' N D M L true) = Ok (Some Y, fac) /\
  (forall n d m, (n < N)%nat -> (d < D)%nat -> (m < M)%nat -> nth m (nth d (nth n X' []) []) 0 = -1 /\ nth m (nth d (nth n Y []) []) false = true) /\
  (0 < N)%nat /\ (0 < D)%nat /\ (0 < M)%nat.
Proof. exact C109_stale_refuted_lemma. Qed.
Print Assumptions C109_stale_refuted.
