(** Proofs about compute_g (C79) and the three-factor parent scores (C11). *)
From Coq Require Import String Lia Permutation.
From Verif Require Import Base BaseLemmas Spec SpecMax Outputs OutputsProofs Scores.
Local Open Scope Z_scope.
Local Open Scope bool_scope.

Lemma parent_score_3d o i : In (o, i) implemented ->
  exists f, get_parent_score_fct_3d (model_tag (model_name o i) "3") = Ok f /\
    forall u z v : vec, bin1 u -> bin1 z -> bin1 v -> List.length u = List.length z -> List.length u = List.length v ->
      lom_output o i [u; z; v] (List.length u) (f u z v).
Proof.
  intros Hin. destruct (C02_lemma o i Hin) as (f & Hf & H & _). exists f. split; [|exact H].
  clear H. simpl in Hin.
  repeat (destruct Hin as [Hin|Hin]; [inversion Hin; subst; clear Hin; vm_compute in Hf; injection Hf as <-; reflexivity|]).
  contradiction.
Qed.


(** compute_g *)
Lemma wrap8_step x k : wrap8 (wrap8 x + k) = wrap8 (x + k).
Proof. unfold wrap8, wrap. f_equal. replace ((x + 2 ^ (8 - 1)) mod 2 ^ 8 - 2 ^ (8 - 1) + k + 2 ^ (8 - 1)) with ((x + 2 ^ (8 - 1)) mod 2 ^ 8 + k) by ring. rewrite Zplus_mod_idemp_l. f_equal. ring. Qed.
Lemma count_loop (c : nat -> bool) (ls : list nat) : forall a, wrap8 a = a -> fold_left (fun acc l => if c l then wrap8 (acc + 1) else acc) ls a = wrap8 (a + Z.of_nat (cnt c ls)).
Proof.
  induction ls as [|l ls IH]; intros a Ha; cbn [fold_left cnt filter List.length]; [rewrite Z.add_0_r; symmetry; exact Ha|].
  unfold cnt in *. destruct (c l) eqn:E; cbn [List.length].
  - rewrite IH by (pose proof (wrap8_step (a + 1) 0) as G; rewrite !Z.add_0_r in G; exact G). rewrite wrap8_step. f_equal. lia.
  - rewrite IH by exact Ha. reflexivity.
Qed.
Definition int8 (x : Z) : Prop := -128 <= x <= 127.
Lemma wrap8_int8 x : int8 x -> wrap8 x = x.
Proof. intros H. apply wrap_id; [lia|]. unfold int8 in H. cbn. lia. Qed.
Lemma nth_grid {A} (f : nat -> nat -> A) N D n d (x : A) : (n < N)%nat -> (d < D)%nat -> nth d (nth n (map (fun n => map (fun d => f n d) (seq 0 D)) (seq 0 N)) []) x = f n d.
Proof.
  intros Hn Hd. rewrite (nth_indep _ [] (map (fun d => f 0%nat d) (seq 0 D))) by (rewrite map_length, seq_length; exact Hn). rewrite (map_nth (fun n => map (fun d => f n d) (seq 0 D))), seq_nth by exact Hn.
  rewrite (nth_indep _ x (f (0 + n)%nat 0%nat)) by (rewrite map_length, seq_length; exact Hd). rewrite (map_nth (fun d => f (0 + n)%nat d)), seq_nth by exact Hd. reflexivity.
Qed.
Lemma shape_grid {A} (f : nat -> nat -> A) N D : List.length (map (fun n => map (fun d => f n d) (seq 0 D)) (seq 0 N)) = N /\ Forall (fun r => List.length r = D) (map (fun n => map (fun d => f n d) (seq 0 D)) (seq 0 N)).
Proof. split; [rewrite map_length, seq_length; reflexivity|]. apply Forall_forall. intros r Hr. apply in_map_iff in Hr. destruct Hr as (n & <- & _). rewrite map_length, seq_length. reflexivity. Qed.
Lemma C79_lemma Z_ U g N D L : has_shape2 Z_ N L -> has_shape2 U D L -> has_shape2 g N D ->
  has_shape2 (compute_g Z_ U g) N D /\
  forall n d k, (n < N)%nat -> (d < D)%nat -> int8 (at2 g n d) -> number_active (row Z_ n) (row U d) L k ->
    at2 (compute_g Z_ U g) n d = wrap8 (at2 g n d + Z.of_nat k) /\ (at2 g n d + Z.of_nat k <= 127 -> at2 (compute_g Z_ U g) n d = at2 g n d + Z.of_nat k).
Proof.
  intros HZ HU Hg. unfold compute_g. rewrite (shape2_nrows _ _ _ HZ), (shape2_nrows _ _ _ HU). split; [apply shape_grid|]. intros n d k Hn Hd Hi (ls & ND & Hls & Hk).
  assert (EL : ncols Z_ = L) by (apply (shape2_ncols _ _ _ HZ); lia). rewrite EL.
  assert (E : wrap8 (at2 g n d + Z.of_nat k) = at2 (map (fun n => map (fun d => fold_left (fun acc l => if (at2 Z_ n l =? at2 U d l) && (at2 U d l =? 1) then wrap8 (acc + 1) else acc) (seq 0 L) (at2 g n d)) (seq 0 D)) (seq 0 N)) n d).
  { unfold at2 at 2, row, at1. rewrite (nth_grid (fun n d => fold_left _ (seq 0 L) (at2 g n d))) by assumption. rewrite count_loop by (apply wrap8_int8; exact Hi). do 3 f_equal. rewrite <- Hk. unfold cnt. apply Permutation.Permutation_length, NoDup_Permutation; [exact ND|apply NoDup_filter, seq_NoDup|].
    intros l. rewrite Hls, filter_In, in_seq, andb_true_iff, !Z.eqb_eq. unfold active. unfold at2, at1, row. split; [intros (H1 & H2 & H3); rewrite H2, H3; lia|intros (H1 & H2 & H3); rewrite H2, H3; lia]. }
  rewrite <- E. split; [reflexivity|]. intros H. apply wrap8_int8. unfold int8 in *. lia.
Qed.
Lemma C79_refuted_lemma : exists Z_ U g, has_shape2 Z_ 1 128 /\ has_shape2 U 1 128 /\ g = [[0]] /\ number_active (row Z_ 0) (row U 0) 128 128 /\ compute_g Z_ U g = [[-128]].
Proof.
  exists [repeat 1 128], [repeat 1 128], [[0]]. split; [split; [reflexivity|repeat constructor]|]. split; [split; [reflexivity|repeat constructor]|]. split; [reflexivity|]. split; [|vm_compute; reflexivity].
  exists (seq 0 128). split; [apply seq_NoDup|]. split; [|reflexivity]. intros l. rewrite in_seq. unfold active, row. cbn [nth]. split; [|intros H; lia]. intros H. split; [lia|]. assert (nth l (repeat 1 128) 0 = 1) by (apply (repeat_spec 128), nth_In; rewrite repeat_length; lia). auto.
Qed.
