(** Specification vocabulary for the interface to dbtf. *)
From Verif Require Import Base.
Local Open Scope Z_scope.

(** Strict lexicographic order of index triples. *)
Definition before (a b : nat * nat * nat) : Prop :=
  let '(n, d, m) := a in let '(n', d', m') := b in
  (n < n' \/ n = n' /\ (d < d' \/ d = d' /\ m < m'))%nat.
(** The list holds the index triples of the ones of X, each once, in order. *)
Definition lists_ones (X : ten) (N D M : nat) (l : list (nat * nat * nat)) : Prop :=
  (forall n d m, In (n, d, m) l <-> (n < N)%nat /\ (d < D)%nat /\ (m < M)%nat /\ nth m (nth d (nth n X []) []) 0 = 1) /\
  (forall i j a b, (i < j)%nat -> nth_error l i = Some a -> nth_error l j = Some b -> before a b).
(** A list of positions within a matrix of dim rows and L columns. *)
Definition within (lines : list (Z * Z)) (dim L : nat) : Prop :=
  forall i j, In (i, j) lines -> 0 <= i < Z.of_nat dim /\ 0 <= j < Z.of_nat L.
(** F is the dim x L matrix whose true entries are the listed positions. *)
Definition indicator_of (F : list (list bool)) (dim L : nat) (lines : list (Z * Z)) : Prop :=
  List.length F = dim /\ Forall (fun r => List.length r = L) F /\
  forall i j, (i < dim)%nat -> (j < L)%nat -> (nth j (nth i F []) false = true <-> In (Z.of_nat i, Z.of_nat j) lines).
(** Y is the Boolean sum of L outer products of the listed positions. *)
Definition sum_of_blocks (Y : list (list (list bool))) (N D M L : nat) (f1 f2 f3 : list (Z * Z)) : Prop :=
  List.length Y = N /\ Forall (fun S => List.length S = D /\ Forall (fun r => List.length r = M) S) Y /\
  forall n d m, (n < N)%nat -> (d < D)%nat -> (m < M)%nat ->
  (nth m (nth d (nth n Y []) []) false = true <->
   exists l, 0 <= l < Z.of_nat L /\ In (Z.of_nat n, l) f1 /\ In (Z.of_nat d, l) f2 /\ In (Z.of_nat m, l) f3).
