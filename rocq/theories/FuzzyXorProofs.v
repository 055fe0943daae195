(** C20, the fuzzy OR-XOR output for three factors. *)
From Coq Require Import String Lra Lia.
From Verif Require Import Base BaseR BaseRLemmas Spec SpecF Lops Fuzzy FuzzyProofs DensityProofs.
Local Open Scope R_scope.

Lemma Rprod_mono (f g : nat -> R) l : (forall x, In x l -> 0 <= f x <= g x) -> 0 <= Rprod f l <= Rprod g l.
Proof.
  induction l as [|x l IH]; intros H; [cbn; lra|]. rewrite !Rprod_cons. destruct (IH (fun y Hy => H y (or_intror Hy))) as (I1 & I2). destruct (H x (or_introl eq_refl)) as (H1 & H2). split; [apply Rmult_le_pos; lra|apply Rmult_le_compat; lra].
Qed.
Lemma C20_value_lemma : exists f, get_scalar_output_function_3d_fuzzy "OR-XOR" = Some f /\
  forall z u v L p, List.length z = L -> List.length u = L -> List.length v = L -> probs z -> probs u -> probs v -> is_prob OR XOR 3 L (fun k l => nth l (nth k [z; u; v] []) 0) p ->
    let second l := nth l u 0 * (1 - nth l z 0) * (1 - nth l v 0) in
    let third l := nth l v 0 * (1 - nth l z 0) * (1 - nth l u 0) in
    f z u v <= p /\ ((forall l, (l < L)%nat -> second l = 0 /\ third l = 0) -> f z u v = p) /\ (L = 1%nat -> p - f z u v = 2 * (second 0%nat + third 0%nat)).
Proof.
  exists OR_XOR_product_fuzzy_3d. split; [reflexivity|]. intros z u v L p Hz Hu Hv Pz Pu Pv HP. cbv zeta. rewrite <- (prob_unique _ _ _ _ _ _ _ (prob_fuzz OR XOR 3 L _) HP). clear HP p.
  set (a := fun l => nth l z 0 * (1 - nth l u 0) * (1 - nth l v 0)). set (b := fun l => nth l u 0 * (1 - nth l z 0) * (1 - nth l v 0)). set (c := fun l => nth l v 0 * (1 - nth l z 0) * (1 - nth l u 0)).
  assert (EF : OR_XOR_product_fuzzy_3d z u v = 1 - Rprod (fun l => 1 - a l + b l + c l) (seq 0 L)) by (unfold OR_XOR_product_fuzzy_3d; rewrite prod_loop_Rprod, Hz; f_equal; apply Rprod_ext; intros l _; unfold a, b, c, rat; ring).
  assert (EP : fuzz OR XOR 3 L (fun k l => nth l (nth k [z; u; v] []) 0) = 1 - Rprod (fun l => 1 - a l - b l - c l) (seq 0 L)).
  { unfold fuzz. cbn [flop]. unfold fuzzy_fn_OR. rewrite Rprod_map. f_equal. apply Rprod_ext. intros l _. cbn [seq map flop nth]. unfold fuzzy_fn_XOR, rat. cbn [List.length seq map filter Nat.eqb negb app Rsum Rprod fold_right nth]. unfold a, b, c. ring. }
  assert (RG : forall l, In l (seq 0 L) -> 0 <= 1 - a l - b l - c l <= 1 - a l + b l + c l).
  { intros l Hl. apply in_seq in Hl. pose proof (nth_probs z l Pz ltac:(lia)) as Rz. pose proof (nth_probs u l Pu ltac:(lia)) as Ru. pose proof (nth_probs v l Pv ltac:(lia)) as Rv. unfold a, b, c. set (x := nth l z 0) in *. set (y := nth l u 0) in *. set (w := nth l v 0) in *.
    assert (Q1 : 0 <= y * (1 - x) * (1 - w)) by (repeat apply Rmult_le_pos; lra). assert (Q2 : 0 <= w * (1 - x) * (1 - y)) by (repeat apply Rmult_le_pos; lra). split; [|lra].
    replace (1 - x * (1 - y) * (1 - w) - y * (1 - x) * (1 - w) - w * (1 - x) * (1 - y)) with ((1 - x) * (1 - y) * (1 - w) + x * y * (1 - w) + x * (1 - y) * w + (1 - x) * y * w + x * y * w) by ring.
    repeat apply Rplus_le_le_0_compat; repeat apply Rmult_le_pos; lra. }
  rewrite EF, EP. split; [destruct (Rprod_mono _ _ _ RG); lra|]. split.
  - intros H. f_equal. apply Rprod_ext. intros l Hl. apply in_seq in Hl. destruct (H l ltac:(lia)) as (E1 & E2). fold (b l) in E1. fold (c l) in E2. lra.
  - intros ->. cbn [seq]. rewrite !Rprod_cons. cbn [Rprod fold_right]. fold (b 0%nat). fold (c 0%nat). ring.
Qed.
