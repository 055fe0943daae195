(** OR-AND-IBP machines: what the update of the first factor does, row by row (C90). *)
From Coq Require Import String Lia Lra Sorted.
From Verif Require Import Base BaseLemmas BaseR BaseRLemmas Spec SpecR SpecIbp Canon Sampling SamplingProofs Lambda LambdaProofs Ibp IbpProofs IbpProofs2 IbpProofs3 IbpProofs4 IbpProofs5 Machine Dispatch Inference SpecMachine SpecOrdinary SpecMaxRun SpecIbpRun.
Local Open Scope R_scope.

Lemma sorted_unique (a b : list nat) : StronglySorted lt a -> StronglySorted lt b -> (forall x, In x a <-> In x b) -> a = b.
Proof.
  revert b. induction a as [|x a IH]; intros b Ha Hb H.
  - destruct b as [|y b]; [reflexivity|]. destruct (proj2 (H y) (or_introl eq_refl)).
  - destruct b as [|y b]; [destruct (proj1 (H x) (or_introl eq_refl))|]. inversion Ha as [|? ? Ha1 Ha2]; subst. inversion Hb as [|? ? Hb1 Hb2]; subst. rewrite Forall_forall in Ha2, Hb2.
    assert (E : x = y).
    { destruct (proj1 (H x) (or_introl eq_refl)) as [G|G]; [congruence|]. destruct (proj2 (H y) (or_introl eq_refl)) as [G'|G']; [congruence|]. specialize (Ha2 _ G'). specialize (Hb2 _ G). lia. }
    subst y. f_equal. apply IH; [exact Ha1|exact Hb1|]. intros z. split; intros Hz.
    + destruct (proj1 (H z) (or_intror Hz)) as [G|G]; [subst z; specialize (Ha2 _ Hz); lia|exact G].
    + destruct (proj2 (H z) (or_intror Hz)) as [G|G]; [subst z; specialize (Hb2 _ Hz); lia|exact G].
Qed.

Section Rows.
Context (out : list vec -> nat -> Z) (Ho : is_output OR AND out) (X : mat) (N D : nat) (lam q a : R) (d : nat -> draws).
Context (HX : has_shape2 X N D) (TX : tern2 X) (BN : (Z.of_nat N <= 32767)%Z) (BD : (Z.of_nat D <= 32767)%Z) (Hq : 0 < q < 1) (Ha : 0 < a) (Hd : forall n, SpecR.is_draw (dk (d n))).
Definition good (st : nat * mat * mat) : Prop := let '(L, A, B) := st in okmat N L A /\ okmat D L B.
Lemma row_spec st n : (n < N)%nat -> good st -> row_redrawn true out X N D lam q a n (d n) st (ibp_row X N D lam q a st n (d n)) /\ good (ibp_row X N D lam q a st n (d n)) /\ (fst (fst (ibp_row X N D lam q a st n (d n))) <= fst (fst st) + 2)%nat.
Proof.
  destruct st as [[L A] B]. intros Hn (HA & HB). destruct (ibp_row X N D lam q a (L, A, B) n (d n)) as [[L' A'] B'] eqn:E.
  destruct (C69_row_lemma X N D L n lam q a A B (d n) L' A' B' HA HB HX TX Hn Hq Ha (Hd n) E) as (keep & zs & k & lw & S1 & K1 & EL & HA' & HB' & RO & Lz & RN & RU & NC & SE).
  destruct (C68_row_lemma out Ho X N D L n lam q a A B (d n) L' A' B' HA HB HX TX BD Hn E) as (keep2 & S2 & K2 & _ & RZ).
  destruct (C70_row_lemma out Ho X N D L n lam q a A B (d n) L' A' B' HA HB HX TX BN Hn E) as (keep3 & k3 & S3 & K3 & EL3 & EU).
  assert (keep2 = keep) by (apply sorted_unique; [exact S2|exact S1|intros x; rewrite K1, K2; reflexivity]). assert (keep3 = keep) by (apply sorted_unique; [exact S3|exact S1|intros x; rewrite K1, K3; reflexivity]). subst keep2 keep3. assert (k3 = k) by lia. subst k3.
  assert (Ez : zs = map (fun l => at2 (gibbs_row out lam X N D L B n (dz (d n)) A) n l) keep).
  { apply (nth_ext _ _ 0%Z 0%Z); [rewrite map_length; exact Lz|]. intros i Hi. assert (Hi' : (i < List.length keep)%nat) by (unfold vec in *; lia). rewrite (nth_map2 (fun l => at2 (gibbs_row out lam X N D L B n (dz (d n)) A) n l)) by exact Hi'. rewrite <- RZ by exact Hi'. unfold at2, at1. rewrite RN. symmetry. apply app_nth1. exact Hi. }
  split; [|split; [split; assumption|]].
  - exists keep, k, lw. cbv zeta. rewrite <- Ez. split; [exact S1|]. split; [exact K1|]. split; [exact EL|]. split; [apply HA'|]. split; [|split; [exact NC|split; [exact SE|]]].
    + intros n' Hn'. destruct (Nat.eqb_spec n' n) as [->|Ne]; [exact RN|]. apply RO; assumption.
    + rewrite EU at 1. apply (gibbs_cells_ext _ _ _ _ D L'); [intros Uc i j _ _; rewrite !Rmult_1_r; reflexivity|]. rewrite EL. apply (regroup_ok keep D L); [exact HB|]. intros l Hl. apply K1. exact Hl.
  - cbn [fst]. destruct SE as (K & _). assert (G : (List.length keep <= L)%nat); [|lia]. rewrite <- (seq_length L 0). apply NoDup_incl_length.
    + clear - S1. induction S1 as [|x l S1 IH F1]; constructor; [|exact IH]. intros C. rewrite Forall_forall in F1. specialize (F1 _ C). lia.
    + intros l Hl. apply in_seq. destruct (proj1 (K1 l) Hl). lia.
Qed.
Lemma rows_spec L A B : okmat N L A -> okmat D L B -> (0 < N)%nat -> let '(A', B') := sample_2d_IBP A B X lam q a d in
  exists L', rows_redrawn true out X N D lam q a d (L, A, B) (L', A', B') /\ okmat N L' A' /\ okmat D L' B' /\ (L' <= L + 2 * N)%nat.
Proof.
  intros HA HB HN. unfold sample_2d_IBP. rewrite (shape2_nrows A N L (proj1 HA)), (shape2_nrows B D L (proj1 HB)), (shape2_ncols A N L (proj1 HA) HN).
  set (s := fun n => fold_left (fun s n => ibp_row X N D lam q a s n (d n)) (seq 0 n) (L, A, B)).
  assert (SS : forall n, s (S n) = ibp_row X N D lam q a (s n) n (d n)) by (intros n; unfold s; rewrite seq_S, fold_left_app; reflexivity).
  assert (G : forall n, (n <= N)%nat -> good (s n) /\ (fst (fst (s n)) <= L + 2 * n)%nat).
  { induction n as [|n IH]; intros Hn; [split; [split; assumption|cbn; lia]|]. destruct IH as (I1 & I2); [lia|]. destruct (row_spec (s n) n ltac:(lia) I1) as (_ & G1 & G2). rewrite <- SS in *. split; [exact G1|lia]. }
  change (let '(A', B') := (let '(_, Z', U') := s N in (Z', U')) in exists L', rows_redrawn true out X N D lam q a d (L, A, B) (L', A', B') /\ okmat N L' A' /\ okmat D L' B' /\ (L' <= L + 2 * N)%nat).
  destruct (G N (le_n _)) as (G1 & G2). destruct (s N) as [[L' A'] B'] eqn:ES. exists L'. split; [|destruct G1; auto].
  exists s. split; [reflexivity|]. split; [exact ES|]. intros n Hn. rewrite SS. apply row_spec; [exact Hn|]. apply G. lia.
Qed.
End Rows.
