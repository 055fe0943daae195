(** Proofs for C82. *)
From Coq Require Import Lra.
From Verif Require Import Base BaseLemmas BaseR BaseRLemmas Spec SpecF SpecMaxF Outputs Fuzzy FuzzyProofs MaxMachine MaxMachineProofs.
Local Open Scope R_scope.

Lemma Ebl_sum {A} x (G : A -> list bool -> R) ls : Ebl x (fun bs => Rsum (fun a => G a bs) ls) = Rsum (fun a => Ebl x (G a)) ls.
Proof.
  revert G. induction x as [|c x IH]; intros G; [reflexivity|]. cbn [Ebl].
  rewrite (IH (fun a bs => G a (true :: bs))), (IH (fun a bs => G a (false :: bs))). rewrite <- !Rsum_scale, <- Rsum_add. apply Rsum_ext. intros. reflexivity.
Qed.
Lemma Ebl_scale x G a : Ebl x (fun bs => a * G bs) = a * Ebl x G.
Proof. rewrite (Ebl_ext x _ (fun bs => a * G bs + 0)) by (intros; ring). rewrite Ebl_lin. ring. Qed.
Lemma Ebl_prod (x : list R) : forall (f : nat -> bool -> R), Ebl x (fun bs => Rprod (fun l => f l (nth l bs false)) (seq 0 (List.length x))) =
  Rprod (fun l => nth l x 0 * f l true + (1 - nth l x 0) * f l false) (seq 0 (List.length x)).
Proof.
  induction x as [|a x IH]; intros f; [reflexivity|]. cbn [Ebl List.length].
  transitivity (a * Ebl x (fun bs => f 0%nat true * Rprod (fun l => f (S l) (nth l bs false)) (seq 0 (List.length x))) + (1 - a) * Ebl x (fun bs => f 0%nat false * Rprod (fun l => f (S l) (nth l bs false)) (seq 0 (List.length x)))).
  { f_equal; f_equal; apply Ebl_ext; intros bs _; rewrite Rprod_seq_S; reflexivity. }
  rewrite Rprod_seq_S. cbn [nth].
  rewrite !Ebl_scale, (IH (fun l => f (S l))). ring.
Qed.

Lemma Rprod_single L l a : (l < L)%nat -> Rprod (fun l' => if Nat.eqb l l' then a else 1) (seq 0 L) = a.
Proof.
  intros Hl. assert (G : forall ls, NoDup ls -> Rprod (fun l' => if Nat.eqb l l' then a else 1) ls = if existsb (Nat.eqb l) ls then a else 1).
  { induction ls as [|b ls IH]; intros ND; [reflexivity|]. inversion ND; subst. rewrite Rprod_cons, IH by assumption. cbn [existsb]. destruct (Nat.eqb_spec l b); cbn [orb]; [|ring].
    subst. destruct (existsb (Nat.eqb b) ls) eqn:E; [|ring]. apply existsb_exists in E. destruct E as (y & Hy & Ey). apply Nat.eqb_eq in Ey. subst. contradiction. }
  rewrite G by apply seq_NoDup. replace (existsb (Nat.eqb l) (seq 0 L)) with true; [reflexivity|]. symmetry. apply existsb_exists. exists l. split; [apply in_seq; lia|apply Nat.eqb_refl].
Qed.
(** Which column is on top. *)
Definition contribution (lam : list R) (l l' : nat) (b : bool) : R :=
  if Nat.eqb l l' then (if b then nth l lam 0 else 0) else if Rltb (nth l lam 0) (nth l' lam 0) then (if b then 0 else 1) else 1.
Lemma contribution_top lam L bs l : (l < L)%nat -> nth l bs false = true -> (forall l', (l' < L)%nat -> nth l' bs false = true -> nth l' lam 0 <= nth l lam 0) ->
  Rprod (fun l' => contribution lam l l' (nth l' bs false)) (seq 0 L) = nth l lam 0.
Proof.
  intros Hl Hb Hm. rewrite (Rprod_ext _ (fun l' => if Nat.eqb l l' then nth l lam 0 else 1)).
  - apply Rprod_single. exact Hl.
  - intros l' H'. apply in_seq in H'. unfold contribution. destruct (Nat.eqb_spec l l'); [subst; rewrite Hb; reflexivity|].
    destruct (Rltb (nth l lam 0) (nth l' lam 0)) eqn:E; [|reflexivity]. apply Rltb_true in E. destruct (nth l' bs false) eqn:B; [|reflexivity]. specialize (Hm l' ltac:(lia) B). lra.
Qed.
Lemma contribution_zero lam L bs l : (l < L)%nat -> (nth l bs false = false \/ exists l', (l' < L)%nat /\ nth l' bs false = true /\ nth l lam 0 < nth l' lam 0) ->
  Rprod (fun l' => contribution lam l l' (nth l' bs false)) (seq 0 L) = 0.
Proof.
  intros Hl [H|(l' & H1 & H2 & H3)].
  - apply (Rprod_zero _ _ l); [apply in_seq; lia|]. unfold contribution. rewrite Nat.eqb_refl, H. reflexivity.
  - apply (Rprod_zero _ _ l'); [apply in_seq; lia|]. unfold contribution. destruct (Nat.eqb_spec l l'); [subst; lra|]. rewrite (proj2 (Rltb_true _ _) H3), H2. reflexivity.
Qed.
Lemma Rsum_only {A} (f : A -> R) ls a : NoDup ls -> In a ls -> (forall b, In b ls -> b <> a -> f b = 0) -> Rsum f ls = f a.
Proof.
  induction ls as [|b ls IH]; intros ND Hin H; [destruct Hin|]. inversion ND as [|? ? Hni ND']; subst. rewrite Rsum_cons. destruct Hin as [->|Hin].
  - rewrite Rsum_zero; [ring|]. intros c Hc. apply H; [right; exact Hc|]. intros ->. contradiction.
  - rewrite (H b) by (try (left; reflexivity); intros ->; contradiction). rewrite IH; [ring|assumption|assumption|]. intros c Hc. apply H. right. exact Hc.
Qed.
Lemma top_value lam L t x : distinct lam L -> In t (tables 2 L) -> top lam L 0 t x ->
  Rsum (fun l => Rprod (fun l' => contribution lam l l' (nth l' (map (forallb (fun b => b)) t) false)) (seq 0 L)) (seq 0 L) = x.
Proof.
  intros Hd Ht H. destruct (tables_shape 2 L t Ht) as [HL HK]. set (bs := map (forallb (fun b => b)) t).
  assert (Hb : forall l, (l < L)%nat -> (nth l bs false = true <-> both_on t l)).
  { intros l Hl. unfold bs, both_on. rewrite nth_indep with (d' := forallb (fun b => b) []) by (rewrite map_length; lia). rewrite map_nth.
    pose proof (Forall_nth' _ t l [] HK ltac:(lia)) as E. cbn beta in E. destruct (nth l t []) as [|b1 [|b2 [|? ?]]]; cbn in E; try discriminate. cbn. rewrite andb_true_r, andb_true_iff. tauto. }
  destruct H as [(l & Hl & Hon & Hx & Hmax)|(Hnone & Hx)].
  - rewrite (Rsum_only _ _ l); [rewrite contribution_top; [exact Hx|exact Hl|apply Hb; assumption|]|apply seq_NoDup|apply in_seq; lia|].
    + intros l' Hl' B. rewrite Hx. apply Hmax; [exact Hl'|apply Hb; assumption].
    + intros l' Hl' Hne. apply in_seq in Hl'. apply contribution_zero; [lia|]. destruct (nth l' bs false) eqn:B; [|left; reflexivity]. right. exists l. split; [exact Hl|]. split; [apply Hb; assumption|].
      assert (Hle : nth l' lam 0 <= x) by (apply Hmax; [lia|apply Hb; [lia|exact B]]). pose proof (Hd l' l ltac:(lia) Hl Hne). lra.
  - subst x. apply Rsum_zero. intros l Hl. apply in_seq in Hl. apply contribution_zero; [lia|]. left. destruct (nth l bs false) eqn:B; [|reflexivity]. exfalso. apply (Hnone l); [lia|]. apply Hb; [lia|exact B].
Qed.
Lemma loop_prod (c : nat -> bool) (f : nat -> R) ls : forall a, fold_left (fun prod l => if c l then prod else f l * prod) ls a = a * Rprod (fun l => if c l then 1 else f l) ls.
Proof. induction ls as [|l ls IH]; intros a; [cbn; ring|]. cbn [fold_left]. rewrite IH, Rprod_cons. destruct (c l); ring. Qed.
Lemma inner_loop lam p L l1 : (l1 < L)%nat ->
  let temp1 := p l1 * nth l1 lam 0 in
  fold_left (fun prod l2 => if Nat.eqb l1 l2 then prod else if Rltb temp1 (p l2 * nth l2 lam 0) then prod * (1 - p l2) else prod) (seq 0 L) 1 =
  Rprod (fun l2 => if Nat.eqb l1 l2 then 1 else if Rltb temp1 (p l2 * nth l2 lam 0) then 1 - p l2 else 1) (seq 0 L).
Proof.
  intros _ temp1. assert (G : forall ls a, fold_left (fun prod l2 => if Nat.eqb l1 l2 then prod else if Rltb temp1 (p l2 * nth l2 lam 0) then prod * (1 - p l2) else prod) ls a =
    a * Rprod (fun l2 => if Nat.eqb l1 l2 then 1 else if Rltb temp1 (p l2 * nth l2 lam 0) then 1 - p l2 else 1) ls).
  { induction ls as [|l ls IH]; intros a; [cbn; ring|]. cbn [fold_left]. rewrite IH, Rprod_cons. destruct (Nat.eqb l1 l), (Rltb temp1 (p l * nth l lam 0)); ring. }
  rewrite G. ring.
Qed.
Lemma sum_loop_acc (f : nat -> R) ls : forall a, fold_left (fun acc l => acc + f l) ls a = a + Rsum f ls.
Proof. induction ls as [|l ls IH]; intros a; [cbn; ring|]. cbn [fold_left]. rewrite IH, Rsum_cons. ring. Qed.

Lemma fuzzy_cell lam L (z u : nat -> R) : distinct lam L -> (forall l, (l < L)%nat -> 0 <= z l * u l) -> same_order lam L (fun l => z l * u l) ->
  is_expected_top lam L (fun k l => match k with O => z l | _ => u l end) 0
    (fold_left (fun acc l1 =>
        let temp1 := z l1 * u l1 * rat lam l1 in
        let prod := fold_left (fun prod l2 => if Nat.eqb l1 l2 then prod else let temp2 := z l2 * u l2 in if Rltb temp1 (temp2 * rat lam l2) then prod * (1 - temp2) else prod) (seq 0 L) 1 in
        acc + temp1 * prod) (seq 0 L) 0).
Proof.
  intros Hd Hp Ho val Hval. set (p := fun l => z l * u l).
  rewrite (Rsum_ext _ (fun t => table_weight 2 L (fun k l => match k with O => z l | _ => u l end) t *
     (fun bs => Rsum (fun l => Rprod (fun l' => contribution lam l l' (nth l' bs false)) (seq 0 L)) (seq 0 L)) (map (forallb (fun b => b)) t)))
    by (intros t Ht; cbv beta; rewrite (top_value lam L t (val t) Hd Ht (Hval t Ht)); reflexivity).
  rewrite (tables_sum 2 L _ (forallb (fun b => b)) (fun bs => Rsum (fun l => Rprod (fun l' => contribution lam l l' (nth l' bs false)) (seq 0 L)) (seq 0 L))). set (x := map _ (seq 0 L)).
  assert (Ex : x = map p (seq 0 L)). { unfold x. apply map_ext. intros l. rewrite Ebl_all. unfold Rprod, p. cbn. ring. }
  assert (Lx : List.length x = L) by (rewrite Ex, map_length, seq_length; reflexivity).
  rewrite (Ebl_sum x (fun l bs => Rprod (fun l' => contribution lam l l' (nth l' bs false)) (seq 0 L))).
  rewrite (sum_loop_acc (fun l1 => z l1 * u l1 * rat lam l1 * _)). rewrite Rplus_0_l. apply Rsum_ext. intros l Hl. apply in_seq in Hl.
  replace (seq 0 L) with (seq 0 (List.length x)) by (rewrite Lx; reflexivity). rewrite Ebl_prod, Lx.
  change (fold_left _ (seq 0 L) 1) with (fold_left (fun prod l2 => if Nat.eqb l l2 then prod else if Rltb (p l * nth l lam 0) (p l2 * nth l2 lam 0) then prod * (1 - p l2) else prod) (seq 0 L) 1).
  rewrite inner_loop by lia. change (z l * u l * rat lam l) with (p l * nth l lam 0).
  assert (Hnth : forall l', (l' < L)%nat -> nth l' x 0 = p l') by (intros l' H'; rewrite Ex, nth_map_seq by exact H'; reflexivity).
  destruct (Req_dec (p l) 0) as [Z0|NZ].
  - rewrite Z0, !Rmult_0_l. apply (Rprod_zero _ _ l); [apply in_seq; lia|]. rewrite Hnth by lia. unfold contribution. rewrite Nat.eqb_refl, Z0. ring.
  - assert (Pl : 0 < p l) by (pose proof (Hp l ltac:(lia)) as Q; change (0 <= p l) in Q; lra).
    rewrite (Rprod_ext _ (fun l' => (if Nat.eqb l l' then p l * nth l lam 0 else 1) * (if Nat.eqb l l' then 1 else if Rltb (p l * nth l lam 0) (p l' * nth l' lam 0) then 1 - p l' else 1))).
    + rewrite Rprod_mul, Rprod_single by lia. reflexivity.
    + intros l' H'. apply in_seq in H'. rewrite Hnth by lia. unfold contribution. destruct (Nat.eqb_spec l l') as [En|n]; [rewrite <- En; ring|]. rewrite Rmult_1_l.
      destruct (Req_dec (p l') 0) as [Z0'|NZ'].
      * rewrite Z0'. destruct (Rltb (nth l lam 0) (nth l' lam 0)), (Rltb (p l * nth l lam 0) (0 * nth l' lam 0)); ring.
      * assert (Pl' : 0 < p l') by (pose proof (Hp l' ltac:(lia)) as Q; change (0 <= p l') in Q; lra). pose proof (Ho l l' ltac:(lia) ltac:(lia) n Pl Pl') as Hiff. change (p l * nth l lam 0 < p l' * nth l' lam 0 <-> nth l lam 0 < nth l' lam 0) in Hiff.
        destruct (Rltb (nth l lam 0) (nth l' lam 0)) eqn:E1, (Rltb (p l * nth l lam 0) (p l' * nth l' lam 0)) eqn:E2; try ring; exfalso.
        -- apply Rltb_true in E1. apply Rltb_false in E2. apply Hiff in E1. lra.
        -- apply Rltb_false in E1. apply Rltb_true in E2. apply Hiff in E2. lra.
Qed.

Lemma expected_formula lam L (z u : nat -> R) : distinct lam L ->
  is_expected_top lam L (fun k l => match k with O => z l | _ => u l end) 0
    (Rsum (fun l => Rprod (fun l' => z l' * u l' * contribution lam l l' true + (1 - z l' * u l') * contribution lam l l' false) (seq 0 L)) (seq 0 L)).
Proof.
  intros Hd val Hval.
  rewrite (Rsum_ext _ (fun t => table_weight 2 L (fun k l => match k with O => z l | _ => u l end) t *
     (fun bs => Rsum (fun l => Rprod (fun l' => contribution lam l l' (nth l' bs false)) (seq 0 L)) (seq 0 L)) (map (forallb (fun b => b)) t)))
    by (intros t Ht; cbv beta; rewrite (top_value lam L t (val t) Hd Ht (Hval t Ht)); reflexivity).
  rewrite (tables_sum 2 L _ (forallb (fun b => b)) (fun bs => Rsum (fun l => Rprod (fun l' => contribution lam l l' (nth l' bs false)) (seq 0 L)) (seq 0 L))). set (x := map _ (seq 0 L)).
  assert (Ex : x = map (fun l => z l * u l) (seq 0 L)). { unfold x. apply map_ext. intros l. rewrite Ebl_all. unfold Rprod. cbn. ring. }
  assert (Lx : List.length x = L) by (rewrite Ex, map_length, seq_length; reflexivity).
  rewrite (Ebl_sum x (fun l bs => Rprod (fun l' => contribution lam l l' (nth l' bs false)) (seq 0 L))).
  apply Rsum_ext. intros l Hl. replace (seq 0 L) with (seq 0 (List.length x)) by (rewrite Lx; reflexivity). rewrite Ebl_prod, Lx.
  apply Rprod_ext. intros l' H'. apply in_seq in H'. rewrite Ex, nth_map_seq by lia. reflexivity.
Qed.
Ltac rltb := repeat match goal with
  | |- context [Rltb ?a ?b] => (replace (Rltb a b) with true by (symmetry; apply Rltb_true; lra)) || (replace (Rltb a b) with false by (symmetry; apply Rltb_false; lra))
  end.
Lemma C82_refuted_1 : rat2 (MAX_AND_product_fuzzy [[1 / 10; 1]] [[1; 1]] [9 / 10; 1 / 2; 1 / 100]) 0 0 = 1 / 2 /\ distinct [9 / 10; 1 / 2; 1 / 100] 2 /\
  is_expected_top [9 / 10; 1 / 2; 1 / 100] 2 (fun k l => nth l (nth k [[1 / 10; 1]; [1; 1]] []) 0) 0 (27 / 50).
Proof.
  assert (D : distinct [9 / 10; 1 / 2; 1 / 100] 2). { intros [|[|?]] [|[|?]] H1 H2 H3; try lia; cbn; lra. }
  split; [|split; [exact D|]].
  - cbn. rltb. lra.
  - pose proof (expected_formula [9 / 10; 1 / 2; 1 / 100] 2 (fun l => nth l [1 / 10; 1] 0) (fun l => nth l [1; 1] 0) D) as H.
    intros val Hval. rewrite <- (Rsum_ext (fun t => table_weight 2 2 (fun k l => match k with O => nth l [1 / 10; 1] 0 | _ => nth l [1; 1] 0 end) t * val t)).
    + rewrite (H val Hval). unfold contribution, Rsum, Rprod. cbn. rltb. cbn. lra.
    + intros t _. reflexivity.
Qed.
Lemma C82_refuted_2 : rat2 (MAX_AND_product_fuzzy [[1]] [[1 / 2]] [1 / 2; 1 / 10]) 0 0 = 1 / 4 /\
  is_expected_top [1 / 2; 1 / 10] 1 (fun k l => nth l (nth k [[1]; [1 / 2]] []) 0) (1 / 10) (3 / 10).
Proof.
  split; [cbn; lra|]. intros val Hval.
  assert (V : forall a b, val [[a; b]] = if a && b then 1 / 2 else 1 / 10).
  { intros a b. assert (Hin : In [[a; b]] (tables 2 1)) by (destruct a, b; cbn; auto 10). destruct (Hval _ Hin) as [(l & Hl & [B1 B2] & E & _)|[Hn E]].
    - destruct l as [|l]; [|lia]. cbn in B1, B2, E. subst. rewrite <- E. reflexivity.
    - destruct (a && b) eqn:E2; [|exact E]. apply andb_true_iff in E2. destruct E2 as [-> ->]. exfalso. apply (Hn 0%nat); [lia|]. split; reflexivity. }
  unfold Rsum, tables, bools, table_weight, Rprod. cbn. rewrite !V. cbn. lra.
Qed.
Lemma C82_example_lemma : distinct [9 / 10; 1 / 2; 1 / 100] 2 /\ same_order [9 / 10; 1 / 2; 1 / 100] 2 (fun l => nth l [3 / 4; 1 / 2] 0 * nth l [1; 1 / 2] 0) /\
  rat2 (MAX_AND_product_fuzzy [[3 / 4; 1 / 2]] [[1; 1 / 2]] [9 / 10; 1 / 2; 1 / 100]) 0 0 = 113 / 160.
Proof.
  split; [intros [|[|?]] [|[|?]] H1 H2 H3; try lia; cbn; lra|]. split; [|cbn; rltb; lra].
  intros [|[|?]] [|[|?]] H1 H2 H3; try lia; cbn; lra.
Qed.
