(** Fuzzy outputs in double precision: range, exactness for certain factors, means of traces, refutation. *)
From Coq Require Import Lra Psatz String.
From Verif Require Import Base BaseR Spec SpecF Fuzzy FuzzyProofs FloatFuzzy FloatProofs FloatProofs2 FloatProofs3.
From Flocq Require Import Core.
Local Open Scope R_scope.

(** ** Range *)
Lemma prod_range (h : nat -> R) ls : (forall l, In l ls -> in01 (h l)) -> forall x, in01 x -> in01 (fold_left (fun o l => rnd (o * h l)) ls x).
Proof. induction ls as [|l ls IH]; intros H x Hx; [exact Hx|]. cbn [fold_left]. apply IH; [intros j Hj; apply H; right; exact Hj|]. apply rnd_01, in01_mul; [exact Hx|apply H; left; reflexivity]. Qed.
Lemma or_range (h : nat -> R) L : (forall l, (l < L)%nat -> in01 (h l)) -> in01 (asub double 1 (a_prod double h L)).
Proof. intros H. cbn [asub double]. apply rnd_01, in01_sub. apply prod_range; [intros l Hl; apply in_seq in Hl; apply H; lia|apply in01_1]. Qed.
Lemma prod_pos (h : nat -> R) ls : (forall l, In l ls -> 0 <= h l) -> forall x, 0 <= x -> 0 <= fold_left (fun o l => rnd (o * h l)) ls x.
Proof. induction ls as [|l ls IH]; intros H x Hx; [exact Hx|]. cbn [fold_left]. apply IH; [intros j Hj; apply H; right; exact Hj|]. apply rnd_pos, Rmult_le_pos; [exact Hx|apply H; left; reflexivity]. Qed.
Lemma xor_pos (h h' : nat -> R) L : (forall l, (l < L)%nat -> 0 <= h l) -> (forall l, (l < L)%nat -> 0 <= h' l) -> 0 <= a_sum double (fun l => amul double (h' l) (a_skip double h L l)) L.
Proof.
  intros H H'. unfold a_sum. cbn [aadd amul double]. assert (G : forall ls, (forall l, In l ls -> (l < L)%nat) -> forall x, 0 <= x -> 0 <= fold_left (fun o l => rnd (o + rnd (h' l * a_skip double h L l))) ls x).
  { induction ls as [|l ls IH]; intros HI x Hx; [exact Hx|]. cbn [fold_left]. apply IH; [intros j Hj; apply HI; right; exact Hj|]. apply rnd_pos. apply Rplus_le_le_0_compat; [exact Hx|]. apply rnd_pos, Rmult_le_pos; [apply H', HI; left; reflexivity|].
    unfold a_skip. cbn [amul double]. rewrite (skip_filter (fun t l' => rnd (t * h l'))). apply prod_pos; [|lra]. intros j Hj. apply filter_In in Hj. destruct Hj as (Hj & _). apply in_seq in Hj. apply H. lia. }
  apply G; [intros l Hl; apply in_seq in Hl; lia|lra].
Qed.
(** Numbers of double precision. *)
Definition doubles (v : list R) : Prop := Forall (fun x => rnd x = x) v.
Lemma rat_double z l : doubles z -> rnd (rat z l) = rat z l.
Proof. intros D. unfold rat. destruct (Nat.lt_ge_cases l (List.length z)) as [H|H]; [exact (proj1 (Forall_nth _ _) D l 0 H)|rewrite nth_overflow by exact H; apply rnd_0]. Qed.
Lemma one_minus x : in01 x -> x + rnd (1 - x) <= 1 + bpow radix2 (-54).
Proof.
  intros (A & B). destruct (Req_dec x 0) as [->|N].
  - rewrite Rminus_0_r, rnd_1. pose proof (bpow_gt_0 radix2 (-54)). lra.
  - assert (P : Rabs (1 - x) < 1) by (rewrite Rabs_pos_eq; lra). pose proof (rnd_half_ulp _ P) as H. pose proof (Rle_abs (rnd (1 - x) - (1 - x))). lra.
Qed.
Lemma mul_le_l x y : 0 <= x -> in01 y -> rnd (x * y) <= rnd x.
Proof. intros H (A & B). apply rnd_le. nra. Qed.
Lemma mul_le_r x y : in01 x -> 0 <= y -> rnd (x * y) <= rnd y.
Proof. intros (A & B) H. apply rnd_le. nra. Qed.
Lemma xor_range x y : in01 x -> in01 y -> rnd x = x -> rnd y = y -> in01 (rnd (rnd (x * rnd (1 - y)) + rnd (y * rnd (1 - x)))).
Proof.
  intros I J Dx Dy. destruct (n_half x y I J) as (_ & K). destruct (n_half y x J I) as (_ & K'). destruct (n_sub y J) as (_ & S1). destruct (n_sub x I) as (_ & S2). split; [apply rnd_pos; unfold in01 in *; lra|]. apply rnd_above_one.
  eapply Rle_trans; [|apply (one_minus x I)]. apply Rplus_le_compat; [rewrite <- Dx at 2; apply mul_le_l; [apply I|exact S1]|]. eapply Rle_trans; [apply mul_le_r; [exact J|apply S2]|rewrite rnd_rnd; lra].
Qed.
Lemma nxor_range x y : in01 x -> in01 y -> rnd x = x -> in01 (rnd (rnd (x * y) + rnd (rnd (1 - x) * rnd (1 - y)))).
Proof.
  intros I J Dx. destruct (n_and x y I J) as (_ & K). destruct (n_none x y I J) as (_ & K'). destruct (n_sub y J) as (_ & S1). destruct (n_sub x I) as (_ & S2). split; [apply rnd_pos; unfold in01 in *; lra|]. apply rnd_above_one.
  eapply Rle_trans; [|apply (one_minus x I)]. apply Rplus_le_compat; [rewrite <- Dx at 2; apply mul_le_l; [apply I|exact J]|]. eapply Rle_trans; [apply mul_le_l; [apply S2|exact S1]|rewrite rnd_rnd; lra].
Qed.
Lemma range2 o i : In (o, i) implemented -> exists f, a_output_2d double (model_name o i) = Some f /\
  forall z u L, List.length z = L -> List.length u = L -> probs z -> probs u -> doubles z -> doubles u -> 0 <= f z u /\ (o <> XOR -> f z u <= 1).
Proof.
  intros H.
  assert (N1 : forall z u l, probs z -> probs u -> (l < List.length z)%nat -> List.length z = List.length u -> in01 (rat z l) /\ in01 (rat u l)) by (intros z u l Pz Pu Hl E; split; apply rat01; [exact Pz|exact Hl|exact Pu|rewrite <- E; exact Hl]).
  destruct H as [H|[H|[H|[H|[H|[H|[H|[H|[]]]]]]]]]; injection H as <- <-; eexists; (split; [reflexivity|]); intros z u L <- Hu Pz Pu Dz Du; symmetry in Hu.
  - cut (in01 (a_OR_AND double z u)); [intros (A & B); split; [exact A|intros _; exact B]|]. apply or_range. intros l Hl. destruct (N1 z u l Pz Pu Hl Hu) as (I & J). apply n_nand; assumption.
  - cut (in01 (a_OR_NAND double z u)); [intros (A & B); split; [exact A|intros _; exact B]|]. apply or_range. intros l Hl. destruct (N1 z u l Pz Pu Hl Hu) as (I & J). apply n_and; assumption.
  - cut (in01 (a_OR_XOR double z u)); [intros (A & B); split; [exact A|intros _; exact B]|]. apply or_range. intros l Hl. destruct (N1 z u l Pz Pu Hl Hu) as (I & J). apply nxor_range; [assumption|assumption|apply rat_double, Dz].
  - cut (in01 (a_NAND_XOR double z u)); [intros (A & B); split; [exact A|intros _; exact B]|]. apply or_range. intros l Hl. destruct (N1 z u l Pz Pu Hl Hu) as (I & J). apply xor_range; [assumption|assumption|apply rat_double, Dz|apply rat_double, Du].
  - split; [|intros C; contradiction C; reflexivity]. apply (xor_pos (fun l => rnd (1 - rnd (rat z l * rat u l))) (fun l => rnd (rat z l * rat u l))); intros l Hl; destruct (N1 z u l Pz Pu Hl Hu) as (I & J); [apply n_nand|apply n_and]; assumption.
  - split; [|intros C; contradiction C; reflexivity]. unfold a_XOR_XOR. rewrite (sum_comm double _ _ _ double_comm).
    apply (xor_pos (fun l => rnd (rnd (rat z l * rat u l) + rnd (rnd (1 - rat z l) * rnd (1 - rat u l)))) (fun l => rnd (rnd (rnd (1 - rat z l) * rat u l) + rnd (rnd (1 - rat u l) * rat z l)))); intros l Hl; destruct (N1 z u l Pz Pu Hl Hu) as (I & J).
    + apply nxor_range; [assumption|assumption|apply rat_double, Dz].
    + destruct (n_sub _ I) as (_ & S1). destruct (n_sub _ J) as (_ & S2). apply rnd_pos, Rplus_le_le_0_compat; apply rnd_pos, Rmult_le_pos; [apply S1|apply J|apply S2|apply I].
  - split; [|intros C; contradiction C; reflexivity]. unfold a_XOR_NXOR. rewrite (sum_comm double _ _ _ double_comm).
    apply (xor_pos (fun l => rnd (rnd (rat z l * rnd (1 - rat u l)) + rnd (rnd (1 - rat z l) * rat u l))) (fun l => rnd (rnd (rat z l * rat u l) + rnd (rnd (1 - rat u l) * rnd (1 - rat z l))))); intros l Hl; destruct (N1 z u l Pz Pu Hl Hu) as (I & J); destruct (n_sub _ I) as (_ & S1); destruct (n_sub _ J) as (_ & S2).
    + apply rnd_pos, Rplus_le_le_0_compat; apply rnd_pos, Rmult_le_pos; [apply I|apply S2|apply S1|apply J].
    + apply rnd_pos, Rplus_le_le_0_compat; apply rnd_pos, Rmult_le_pos; [apply I|apply J|apply S2|apply S1].
  - split; [|intros C; contradiction C; reflexivity]. apply (xor_pos (fun l => rnd (rat z l * rat u l)) (fun l => rnd (1 - rnd (rat z l * rat u l)))); intros l Hl; destruct (N1 z u l Pz Pu Hl Hu) as (I & J); [apply n_and|apply n_nand]; assumption.
Qed.
Lemma range3 o i : In (o, i) implemented -> i = AND \/ i = NAND -> exists f, a_output_3d double (model_name o i) = Some f /\
  forall z u v L, List.length z = L -> List.length u = L -> List.length v = L -> probs z -> probs u -> probs v -> 0 <= f z u v /\ (o <> XOR -> f z u v <= 1).
Proof.
  intros H Hi.
  assert (N1 : forall z u v l, probs z -> probs u -> probs v -> (l < List.length z)%nat -> List.length z = List.length u -> List.length z = List.length v -> in01 (rat z l) /\ in01 (rat u l) /\ in01 (rat v l)).
  { intros z u v l Pz Pu Pv Hl E E'. split; [|split]; apply rat01; [exact Pz|exact Hl|exact Pu|rewrite <- E; exact Hl|exact Pv|rewrite <- E'; exact Hl]. }
  destruct H as [H|[H|[H|[H|[H|[H|[H|[H|[]]]]]]]]]; injection H as <- <-; try (exfalso; destruct Hi; discriminate); eexists; (split; [reflexivity|]); intros z u v L <- Hu Hv Pz Pu Pv; symmetry in Hu, Hv.
  - cut (in01 (a_OR_AND_3d double z u v)); [intros (A & B); split; [exact A|intros _; exact B]|]. apply or_range. intros l Hl. destruct (N1 z u v l Pz Pu Pv Hl Hu Hv) as (I & J & K). apply n_nand3; assumption.
  - cut (in01 (a_OR_NAND_3d double z u v)); [intros (A & B); split; [exact A|intros _; exact B]|]. apply or_range. intros l Hl. destruct (N1 z u v l Pz Pu Pv Hl Hu Hv) as (I & J & K). apply n_and3; assumption.
  - split; [|intros C; contradiction C; reflexivity]. apply (xor_pos (fun l => rnd (1 - rnd (rnd (rat z l * rat u l) * rat v l))) (fun l => rnd (rnd (rat z l * rat u l) * rat v l))); intros l Hl; destruct (N1 z u v l Pz Pu Pv Hl Hu Hv) as (I & J & K); [apply n_nand3|apply n_and3]; assumption.
  - split; [|intros C; contradiction C; reflexivity]. apply (xor_pos (fun l => rnd (rnd (rat z l * rat u l) * rat v l)) (fun l => rnd (1 - rnd (rnd (rat z l * rat u l) * rat v l)))); intros l Hl; destruct (N1 z u v l Pz Pu Pv Hl Hu Hv) as (I & J & K); [apply n_and3|apply n_nand3]; assumption.
Qed.

(** ** A value rounded to a tie *)
Lemma near_even n x : Z.even n = true -> Rabs (x - IZR n) <= / 2 -> ZnearestE x = n.
Proof.
  intros E H. destruct (Rlt_or_le (Rabs (x - IZR n)) (/ 2)) as [H1|H1]; [apply Znearest_imp, H1|]. assert (H2 : Rabs (x - IZR n) = / 2) by lra. unfold Znearest. unfold Rabs in H2. destruct (Rcase_abs (x - IZR n)).
  - assert (F : Zfloor x = (n - 1)%Z) by (apply Zfloor_imp; rewrite plus_IZR, minus_IZR; lra). rewrite F, minus_IZR, Rcompare_Eq by lra. rewrite <- (Z.sub_simpl_r n 1), Z.even_add in E. destruct (Z.even (n - 1)); [discriminate E|]. cbn [negb]. apply Zceil_imp. rewrite minus_IZR. lra.
  - assert (F : Zfloor x = n) by (apply Zfloor_imp; rewrite plus_IZR; lra). rewrite F, Rcompare_Eq by lra. rewrite E. reflexivity.
Qed.
Lemma rnd_tie e n x : (-1021 <= e)%Z -> bpow radix2 (e - 1) <= Rabs x < bpow radix2 e -> Z.even n = true -> Rabs (x * bpow radix2 (53 - e) - IZR n) <= / 2 -> rnd x = IZR n * bpow radix2 (e - 53).
Proof.
  intros He Hm Hp Hn. unfold rnd, round, scaled_mantissa, cexp. rewrite (mag_unique radix2 x e Hm). replace (FLT_exp (-1074) 53 e) with (e - 53)%Z by (unfold FLT_exp; lia). replace (- (e - 53))%Z with (53 - e)%Z by lia. rewrite (near_even n _ Hp Hn). reflexivity.
Qed.
