(** Examples for the interface to dbtf. *)
From Verif Require Import Base Helpers Dbtf DbtfProofs SpecDbtf.
Local Open Scope Z_scope.

(** Two overlapping blocks of a 2 x 2 x 2 tensor, found by the program. *)
Definition blocks_f1 : list (Z * Z) := [(0, 0); (1, 0); (1, 1)].
Definition blocks_f2 : list (Z * Z) := [(0, 0); (1, 1)].
Definition blocks_f3 : list (Z * Z) := [(0, 0); (0, 1); (1, 1)].
Definition blocks : program := fun _ _ _ _ => (blocks_f1, blocks_f2, blocks_f3).
Definition blocks_X : ten := [[[1; -1]; [-1; -1]]; [[1; -1]; [1; 1]]].
Lemma blocks_ok : within blocks_f1 2 2 /\ within blocks_f2 2 2 /\ within blocks_f3 2 2.
Proof. repeat split; cbn in H; repeat (destruct H as [H|H]; [injection H; intros; lia|]); destruct H. Qed.
Lemma blocks_run : dbtf_reconstruct blocks ([], [], []) blocks_X 2 2 2 2 true =
  ((blocks_f1, blocks_f2, blocks_f3),
   Ok (Some [[[true; false]; [false; false]]; [[true; false]; [true; true]]],
       [[[true; false]; [true; true]]; [[true; false]; [false; true]]; [[true; true]; [false; true]]])).
Proof. reflexivity. Qed.
Lemma blocks_sparse : sparse blocks_X 2 2 2 = [(0, 0, 0); (1, 0, 0); (1, 1, 0); (1, 1, 1)]%nat.
Proof. reflexivity. Qed.

(** The exact factorisation of a tensor with a single one. *)
Definition one_line : program := fun _ _ _ _ => ([(1, 0)], [(0, 0)], [(0, 0)]).
Lemma C109_single_refuted_lemma : exists prog fs X N D M L f1 f2 f3,
  has_shape3 X N D M /\ prog (N, D, M) L (TensorFile (N, D, M) 0 (sparse X N D M)) fs = (f1, f2, f3) /\
  within f1 N L /\ within f2 D L /\ within f3 M L /\
  (forall n d m, (n < N)%nat -> (d < D)%nat -> (m < M)%nat ->
    (nth m (nth d (nth n X []) []) 0 = 1 <-> exists l, 0 <= l < Z.of_nat L /\ In (Z.of_nat n, l) f1 /\ In (Z.of_nat d, l) f2 /\ In (Z.of_nat m, l) f3)) /\
  forall co, dbtf_reconstruct prog fs X N D M L co = ((f1, f2, f3), Err TypeError).
Proof.
  exists one_line, ([], [], []), [[[-1]]; [[1]]], 2%nat, 1%nat, 1%nat, 1%nat, [(1, 0)], [(0, 0)], [(0, 0)].
  split; [repeat constructor|]. split; [reflexivity|].
  assert (W : forall a dim, 0 <= a < Z.of_nat dim -> within [(a, 0)] dim 1) by (intros a dim H i j [K|[]]; injection K as <- <-; split; [exact H|lia]).
  split; [apply W; lia|]. split; [apply W; lia|]. split; [apply W; lia|]. split; [|intros [|]; reflexivity].
  intros n d m Hn Hd Hm. assert (d = 0%nat) by lia. assert (m = 0%nat) by lia. subst d m. destruct n as [|[|n]]; [| |lia]; cbn; split.
  - discriminate.
  - intros (l & _ & [K|[]] & _). discriminate K.
  - intros _. exists 0. repeat split; try lia; left; reflexivity.
  - reflexivity.
Qed.

(** A program that fails on a tensor without ones, and leaves the files alone. *)
Definition fails_on_zeros : program := fun _ _ t fs =>
  match t_entries t with [] => fs | _ => ([(0, 0); (1, 0)], [(0, 0); (1, 0)], [(0, 0); (1, 0)]) end.
Lemma C109_stale_refuted_lemma : exists prog fs X X' N D M L Y fac,
  has_shape3 X N D M /\ has_shape3 X' N D M /\
  let '(fs', r) := dbtf_reconstruct prog fs X N D M L true in
  r = Ok (Some Y, fac) /\ snd (dbtf_reconstruct prog fs' X' N D M L true) = Ok (Some Y, fac) /\
  (forall n d m, (n < N)%nat -> (d < D)%nat -> (m < M)%nat -> nth m (nth d (nth n X' []) []) 0 = -1 /\ nth m (nth d (nth n Y []) []) false = true) /\
  (0 < N)%nat /\ (0 < D)%nat /\ (0 < M)%nat.
Proof.
  exists fails_on_zeros, ([], [], []), [[[1; 1]; [1; 1]]; [[1; 1]; [1; 1]]], [[[-1; -1]; [-1; -1]]; [[-1; -1]; [-1; -1]]], 2%nat, 2%nat, 2%nat, 1%nat.
  eexists. eexists. split; [repeat constructor|]. split; [repeat constructor|]. cbn -[Nat.lt]. split; [reflexivity|]. split; [reflexivity|]. split; [|lia].
  intros n d m Hn Hd Hm. destruct n as [|[|n]]; [| |lia]; (destruct d as [|[|d]]; [| |lia]); (destruct m as [|[|m]]; [| |lia]); split; reflexivity.
Qed.
Lemma ex_range : exists (prog : program) fs X f1, prog (1, 1, 1)%nat 1%nat (TensorFile (1, 1, 1)%nat 0 (sparse X 1 1 1)) fs = (f1, [], []) /\ List.length f1 <> 1%nat /\
  (forall i j, In (i, j) f1 -> 0 <= i /\ 0 <= j) /\ ~ within f1 1 1.
Proof.
  exists (fun _ _ _ _ => ([(0, 0); (1, 1)], [], [])), ([], [], []), [[[1]]], [(0, 0); (1, 1)]. split; [reflexivity|]. split; [cbn; lia|]. split.
  - intros i j [K|[K|[]]]; injection K as <- <-; lia.
  - intros W. specialize (W 1 1 (or_intror (or_introl eq_refl))). lia.
Qed.
