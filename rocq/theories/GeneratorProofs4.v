(** Which draws a generated OR-AND product consists of (C92). *)
From Coq Require Import String Lia Lra.
From Verif Require Import Base BaseLemmas BaseR BaseRLemmas Spec SpecR Helpers SpecHelpers HelpersProofs Generators SpecGenerators GeneratorProofs3.
Local Open Scope R_scope.

Lemma coin_flips_iff rand off K L m : coin_flips rand off K L m <-> m = to_pm (random_mat rand off K L).
Proof.
  assert (EN : forall n l, (n < K)%nat -> (l < L)%nat -> at2 (to_pm (random_mat rand off K L)) n l = if Rltb (1 / 2) (rand (off + (n * L + l))%nat) then 1%Z else (-1)%Z).
  { intros n l Hn Hl. unfold at2, row, at1, to_pm, random_mat. rewrite map_map. rewrite (nth_map_lt _ _ n 0%nat) by (rewrite seq_length; exact Hn). rewrite seq_nth by exact Hn. rewrite map_map, (nth_map_lt _ _ l 0%nat) by (rewrite seq_length; exact Hl). rewrite seq_nth by exact Hl. cbn [Nat.add]. destruct (Rltb _ _); reflexivity. }
  assert (SH : has_shape2 (to_pm (random_mat rand off K L)) K L) by apply to_pm_shape, random_mat_shape.
  split.
  - intros (H1 & H2). apply (mat_ext _ _ K L H1 SH). intros n l Hn Hl. rewrite EN by assumption. destruct (H2 n l Hn Hl) as (A1 & A2). unfold Rltb. destruct (Rlt_dec _ _) as [G|G]; [apply A1, G|apply A2; lra].
  - intros ->. split; [exact SH|]. intros n l Hn Hl. rewrite EN by assumption. unfold Rltb. destruct (Rlt_dec _ _); split; intros; lra || reflexivity.
Qed.
Lemma good_iff rand off K L : all_columsn_are_disjoint (random_mat rand off K L) L = true <-> no_column_below (to_pm (random_mat rand off K L)) L.
Proof.
  pose proof (random_mat_zo rand off K L) as HZ. split; [apply to_pm_columns, HZ|]. intros H. apply C55_lemma. intros i j Hi Hj Hne HB. destruct (H i j Hi Hj Hne) as (r & Hr & E1 & E2). unfold to_pm in Hr. apply in_map_iff in Hr. destruct Hr as (r0 & <- & Hr).
  rewrite Forall_forall in HZ. rewrite pm_entry in E1, E2 by (apply HZ, Hr). apply E2, (HB r0 Hr E1).
Qed.
Lemma loop_iff rand K L fuel : forall off m off', disjoint_columns_mat fuel rand off K L = Some (m, off') <->
  exists a, (a < fuel)%nat /\ m = random_mat rand (off + a * (K * L)) K L /\ off' = (off + S a * (K * L))%nat /\ all_columsn_are_disjoint m L = true /\
    forall a', (a' < a)%nat -> all_columsn_are_disjoint (random_mat rand (off + a' * (K * L)) K L) L = false.
Proof.
  induction fuel as [|fuel IH]; intros off m off'; cbn [disjoint_columns_mat]; [split; [discriminate|intros (a & H & _); lia]|].
  destruct (all_columsn_are_disjoint (random_mat rand off K L) L) eqn:E.
  - split.
    + intros H. injection H as <- <-. exists 0%nat. split; [lia|]. replace (off + 0 * (K * L))%nat with off by lia. split; [reflexivity|]. split; [lia|]. split; [exact E|lia].
    + intros (a & H1 & H2 & H3 & H4 & H5). destruct a as [|a]; [|specialize (H5 0%nat ltac:(lia)); replace (off + 0 * (K * L))%nat with off in H5 by lia; congruence]. replace (off + 0 * (K * L))%nat with off in H2 by lia. subst. f_equal. f_equal. lia.
  - rewrite IH. split; intros (a & H1 & H2 & H3 & H4 & H5).
    + exists (S a). split; [lia|]. split; [rewrite H2; f_equal; cbn; lia|]. split; [rewrite H3; cbn; lia|]. split; [exact H4|]. intros [|a'] Ha; [replace (off + 0 * (K * L))%nat with off by lia; exact E|]. replace (off + S a' * (K * L))%nat with (off + K * L + a' * (K * L))%nat by (cbn; lia). apply H5. lia.
    + destruct a as [|a]; [replace (off + 0 * (K * L))%nat with off in H2 by lia; congruence|]. exists a. split; [lia|]. split; [rewrite H2; f_equal; cbn; lia|]. split; [rewrite H3; cbn; lia|]. split; [exact H4|]. intros a' Ha. replace (off + K * L + a' * (K * L))%nat with (off + S a' * (K * L))%nat by (cbn; lia). apply H5. lia.
Qed.
Lemma loop_good rand K L fuel off m off' : disjoint_columns_mat fuel rand off K L = Some (m, off') -> exists a, (a < fuel)%nat /\ first_good rand off K L a (to_pm m) /\ off' = (off + S a * (K * L))%nat.
Proof.
  intros H. apply loop_iff in H. destruct H as (a & H1 & H2 & H3 & H4 & H5). exists a. split; [exact H1|]. split; [|exact H3]. subst m. split; [apply coin_flips_iff; reflexivity|]. split; [apply good_iff, H4|].
  intros a' m' Ha Hm. apply coin_flips_iff in Hm. subst m'. rewrite <- good_iff, (H5 a' Ha). discriminate.
Qed.
Lemma good_loop rand K L fuel off a m : (a < fuel)%nat -> first_good rand off K L a m -> exists m0, m = to_pm m0 /\ disjoint_columns_mat fuel rand off K L = Some (m0, (off + S a * (K * L))%nat).
Proof.
  intros Ha (H1 & H2 & H3). apply coin_flips_iff in H1. exists (random_mat rand (off + a * (K * L)) K L). split; [exact H1|]. apply loop_iff. exists a. split; [exact Ha|]. split; [reflexivity|]. split; [reflexivity|]. split; [apply good_iff; rewrite <- H1; exact H2|].
  intros a' Ha'. apply Bool.not_true_iff_false. rewrite good_iff. apply (H3 a'); [exact Ha'|]. apply coin_flips_iff. reflexivity.
Qed.
Lemma C92_draws_lemma fuel rand N D L U Z_ : (exists X, generate_orm_product fuel rand N D L = Some (U, Z_, X)) <->
  exists a b, (a < fuel)%nat /\ (b < fuel)%nat /\ first_good rand 0 D L a U /\ first_good rand (S a * (D * L)) N L b Z_.
Proof.
  unfold generate_orm_product. split.
  - intros (X & H). destruct (disjoint_columns_mat fuel rand 0 D L) as [[U0 o]|] eqn:E1; [|discriminate]. destruct (disjoint_columns_mat fuel rand o N L) as [[Z0 o2]|] eqn:E2; [|discriminate]. injection H as <- <- <-.
    destruct (loop_good _ _ _ _ _ _ _ E1) as (a & A1 & A2 & ->). destruct (loop_good _ _ _ _ _ _ _ E2) as (b & B1 & B2 & _). exists a, b. auto.
  - intros (a & b & Ha & Hb & H1 & H2). destruct (good_loop _ _ _ _ _ _ _ Ha H1) as (U0 & -> & E1). destruct (good_loop _ _ _ _ _ _ _ Hb H2) as (Z0 & -> & E2). rewrite E1. cbn [Nat.add]. rewrite E2. eexists. reflexivity.
Qed.
