(** Generated OR-AND products (C92). *)
From Coq Require Import String Lia Lra.
From Verif Require Import Base BaseLemmas BaseR BaseRLemmas Spec SpecR Helpers SpecHelpers HelpersProofs Generators SpecGenerators.
Local Open Scope R_scope.

Lemma attempt fuel rand K L : forall off m off', disjoint_columns_mat fuel rand off K L = Some (m, off') -> exists o, m = random_mat rand o K L /\ all_columsn_are_disjoint m L = true.
Proof.
  induction fuel as [|fuel IH]; intros off m off' H; [discriminate|]. cbn [disjoint_columns_mat] in H. destruct (all_columsn_are_disjoint (random_mat rand off K L) L) eqn:E.
  - injection H as <- <-. exists off. auto.
  - apply (IH _ _ _ H).
Qed.
Lemma random_mat_shape rand o K L : has_shape2 (random_mat rand o K L) K L.
Proof. unfold random_mat. split; [rewrite map_length, seq_length; reflexivity|]. apply Forall_map, Forall_forall. intros n _. rewrite map_length, seq_length. reflexivity. Qed.
Definition zo (x : Z) : Prop := x = 0%Z \/ x = 1%Z.
Lemma random_mat_zo rand o K L : Forall (Forall zo) (random_mat rand o K L).
Proof. unfold random_mat. apply Forall_map, Forall_forall. intros n _. apply Forall_map, Forall_forall. intros l _. destruct (Rltb _ _); [right|left]; reflexivity. Qed.
Lemma to_pm_shape m N L : has_shape2 m N L -> has_shape2 (to_pm m) N L.
Proof. intros (H1 & H2). unfold to_pm. split; [rewrite map_length; exact H1|]. apply Forall_map. eapply Forall_impl; [|exact H2]. intros r Hr. cbv beta in *. rewrite map_length. exact Hr. Qed.
Lemma to_pm_bin m : Forall (Forall zo) m -> bin2 (to_pm m).
Proof. intros H. unfold to_pm, bin2, bin1. apply Forall_map. eapply Forall_impl; [|exact H]. intros r Hr. apply Forall_map. eapply Forall_impl; [|exact Hr]. intros x [->| ->]; unfold pm1; auto. Qed.
Lemma pm_entry r i : Forall zo r -> nth i (map (fun x => 2 * x - 1)%Z r) 0%Z = 1%Z <-> nth i r 0%Z = 1%Z.
Proof.
  intros H. destruct (Nat.lt_ge_cases i (List.length r)) as [Hi|Hi].
  - rewrite (nth_map_lt _ r i 0%Z 0%Z Hi). rewrite Forall_forall in H. destruct (H _ (nth_In r 0%Z Hi)) as [->| ->]; lia.
  - rewrite !nth_overflow by (rewrite ?map_length; exact Hi). lia.
Qed.
Lemma to_pm_columns m L : Forall (Forall zo) m -> all_columsn_are_disjoint m L = true -> no_column_below (to_pm m) L.
Proof.
  intros HZ H i j Hi Hj Hne. pose proof (proj1 (C55_lemma m L) H i j Hi Hj Hne) as K. unfold column_below in K.
  assert (E : exists r, In r m /\ nth i r 0%Z = 1%Z /\ nth j r 0%Z <> 1%Z).
  { destruct (existsb (fun r => (nth i r 0 =? 1)%Z && negb (nth j r 0 =? 1)%Z) m) eqn:E.
    - apply existsb_exists in E. destruct E as (r & Hr & E). apply andb_prop in E. destruct E as (E1 & E2). apply Z.eqb_eq in E1. apply negb_true_iff, Z.eqb_neq in E2. exists r. auto.
    - exfalso. apply K. intros r Hr H1. destruct (Z.eq_dec (nth j r 0%Z) 1) as [|Hx]; [assumption|]. exfalso. assert (X : existsb (fun r => (nth i r 0 =? 1)%Z && negb (nth j r 0 =? 1)%Z) m = true); [|congruence].
      apply existsb_exists. exists r. split; [exact Hr|]. apply Z.eqb_eq in H1. apply Z.eqb_neq in Hx. rewrite H1, Hx. reflexivity. }
  destruct E as (r & Hr & E1 & E2). rewrite Forall_forall in HZ. pose proof (HZ r Hr) as Z0. exists (map (fun x => 2 * x - 1)%Z r). split; [apply in_map, Hr|]. rewrite !pm_entry by exact Z0. auto.
Qed.
Lemma C92_result_lemma fuel rand N D L U Z_ X : generate_orm_product fuel rand N D L = Some (U, Z_, X) ->
  has_shape2 U D L /\ bin2 U /\ has_shape2 Z_ N L /\ bin2 Z_ /\ has_shape2 X N D /\ bin2 X /\ no_column_below U L /\ no_column_below Z_ L /\
  forall n d, (n < N)%nat -> (d < D)%nat -> lom_output OR AND [row Z_ n; row U d] L (at2 X n d).
Proof.
  unfold generate_orm_product. destruct (disjoint_columns_mat fuel rand 0 D L) as [[U0 o]|] eqn:E1; [|discriminate]. destruct (disjoint_columns_mat fuel rand o N L) as [[Z0 o2]|] eqn:E2; [|discriminate].
  intros E. injection E as <- <- <-. destruct (attempt _ _ _ _ _ _ _ E1) as (o3 & EU & TU). destruct (attempt _ _ _ _ _ _ _ E2) as (o4 & EZ & TZ).
  pose proof (random_mat_shape rand o3 D L) as SU. pose proof (random_mat_shape rand o4 N L) as SZ. pose proof (random_mat_zo rand o3 D L) as BU. pose proof (random_mat_zo rand o4 N L) as BZ. rewrite <- EU in SU, BU. rewrite <- EZ in SZ, BZ. clear EU EZ E1 E2.
  assert (SX : has_shape2 (bool_dot Z0 U0 L) N D). { destruct SZ as (S1 & _). destruct SU as (S2 & _). unfold bool_dot. split; [rewrite map_length; exact S1|]. apply Forall_map, Forall_forall. intros z _. rewrite map_length. exact S2. }
  assert (BX : Forall (Forall zo) (bool_dot Z0 U0 L)). { unfold bool_dot. apply Forall_map, Forall_forall. intros z _. apply Forall_map, Forall_forall. intros u _. destruct (existsb _ _); [right|left]; reflexivity. }
  repeat (split; [first [apply to_pm_shape; assumption|apply to_pm_bin; assumption|apply to_pm_columns; assumption]|]).
  intros n d Hn Hd. destruct SZ as (S1 & _). destruct SU as (S2 & _).
  assert (EX : at2 (to_pm (bool_dot Z0 U0 L)) n d = (2 * (if existsb (fun l => (nth l (nth n Z0 []) 0 =? 1)%Z && (nth l (nth d U0 []) 0 =? 1)%Z) (seq 0 L) then 1 else 0) - 1)%Z).
  { unfold at2, row, at1, to_pm, bool_dot. unfold mat, vec in *. rewrite map_map. rewrite (nth_map_lt _ Z0 n [] []) by lia. rewrite map_map, (nth_map_lt _ U0 d [] 0%Z) by (unfold mat, vec in *; lia). reflexivity. }
  rewrite EX. 
  assert (ER : forall m k, (k < List.length m)%nat -> row (to_pm m) k = map (fun x => 2 * x - 1)%Z (nth k m [])) by (intros m k Hk; unfold row, to_pm; apply (nth_map_lt _ m k [] []); exact Hk).
  rewrite !ER by (unfold mat, vec in *; lia).
  rewrite Forall_forall in BU, BZ. assert (ZU : Forall zo (nth d U0 [])) by (apply BU, nth_In; unfold mat, vec in *; lia). assert (ZZ : Forall zo (nth n Z0 [])) by (apply BZ, nth_In; unfold mat, vec in *; lia).
  assert (T : lom_true OR AND [map (fun x => 2 * x - 1)%Z (nth n Z0 []); map (fun x => 2 * x - 1)%Z (nth d U0 [])] L <-> existsb (fun l => (nth l (nth n Z0 []) 0 =? 1)%Z && (nth l (nth d U0 []) 0 =? 1)%Z) (seq 0 L) = true).
  { rewrite existsb_exists. unfold lom_true, lop_holds. cbn [List.length]. split.
    - intros (l & Hl & K). exists l. split; [apply in_seq; lia|]. pose proof (K 0%nat ltac:(lia)) as K0. pose proof (K 1%nat ltac:(lia)) as K1. cbn [nth] in K0, K1. rewrite pm_entry in K0, K1 by assumption. rewrite K0, K1. reflexivity.
    - intros (l & Hl & K). apply in_seq in Hl. apply andb_prop in K. destruct K as (K0 & K1). apply Z.eqb_eq in K0. apply Z.eqb_eq in K1. exists l. split; [lia|]. intros [|[|k]] Hk; [| |lia]; cbn [nth]; rewrite pm_entry by assumption; assumption. }
  unfold lom_output. rewrite T. destruct (existsb _ _); [left; auto|right; split; [reflexivity|discriminate]].
Qed.
(** With one row and two columns one column is always below the other. *)
Lemma one_row m L : (List.length m <= 1)%nat -> (2 <= L)%nat -> all_columsn_are_disjoint m L = false.
Proof.
  intros H1 H2. destruct (all_columsn_are_disjoint m L) eqn:E; [|reflexivity]. exfalso. pose proof (proj1 (C55_lemma m L) E) as K. destruct m as [|r [|r' m]]; [| |cbn in H1; lia].
  - apply (K 0%nat 1%nat ltac:(lia) ltac:(lia) ltac:(lia)). intros x [].
  - destruct (Z.eq_dec (nth 1 r 0%Z) 1) as [E1|E1].
    + apply (K 0%nat 1%nat ltac:(lia) ltac:(lia) ltac:(lia)). intros x [<-|[]] _. exact E1.
    + apply (K 1%nat 0%nat ltac:(lia) ltac:(lia) ltac:(lia)). intros x [<-|[]] E2. contradiction.
Qed.
Lemma never fuel rand K L : (K <= 1)%nat -> (2 <= L)%nat -> forall off, disjoint_columns_mat fuel rand off K L = None.
Proof. intros HK HL. induction fuel as [|fuel IH]; intros off; [reflexivity|]. cbn [disjoint_columns_mat]. rewrite one_row; [apply IH|rewrite (proj1 (random_mat_shape rand off K L)); exact HK|exact HL]. Qed.
Lemma C92_never_lemma fuel rand N D L : (N <= 1 \/ D <= 1)%nat -> (2 <= L)%nat -> generate_orm_product fuel rand N D L = None.
Proof.
  intros [H|H] HL; unfold generate_orm_product.
  - destruct (disjoint_columns_mat fuel rand 0 D L) as [[U o]|]; [|reflexivity]. rewrite never by assumption. reflexivity.
  - rewrite never by assumption. reflexivity.
Qed.
(** Draws that make the first attempts identity matrices. *)
Definition eye_draws (D L : nat) (k : nat) : R :=
  let j := if (k <? D * L)%nat then k else (k - D * L)%nat in if ((j / L) =? (j mod L))%nat then 3 / 4 else 1 / 4.
Lemma random_mat_at rand o K L n l : (n < K)%nat -> (l < L)%nat -> nth l (nth n (random_mat rand o K L) []) 0%Z = if Rltb (1 / 2) (rand (o + (n * L + l))%nat) then 1%Z else 0%Z.
Proof.
  intros Hn Hl. unfold random_mat, mat, vec. rewrite (nth_map_lt _ (seq 0 K) n 0%nat []) by (rewrite seq_length; exact Hn). rewrite seq_nth by exact Hn.
  rewrite (nth_map_lt _ (seq 0 L) l 0%nat 0%Z) by (rewrite seq_length; exact Hl). rewrite seq_nth by exact Hl. reflexivity.
Qed.
Lemma eye_ok rand o K L : (L <= K)%nat -> (forall n l, (n < K)%nat -> (l < L)%nat -> rand (o + (n * L + l))%nat = if (n =? l)%nat then 3 / 4 else 1 / 4) -> all_columsn_are_disjoint (random_mat rand o K L) L = true.
Proof.
  intros HK H. apply C55_lemma. intros i j Hi Hj Hne HB. specialize (HB (nth i (random_mat rand o K L) [])).
  assert (V : forall c, (c < L)%nat -> nth c (nth i (random_mat rand o K L) []) 0%Z = if (i =? c)%nat then 1%Z else 0%Z).
  { intros c Hc. rewrite random_mat_at by lia. rewrite H by lia. destruct (i =? c)%nat; [destruct (Rltb_spec (1 / 2) (3 / 4)); [reflexivity|lra]|destruct (Rltb_spec (1 / 2) (1 / 4)); [lra|reflexivity]]. }
  rewrite !V in HB by assumption. rewrite Nat.eqb_refl in HB. destruct (Nat.eqb_spec i j); [contradiction|]. assert (A : In (nth i (random_mat rand o K L) []) (random_mat rand o K L)) by (apply nth_In; rewrite (proj1 (random_mat_shape rand o K L)); lia). specialize (HB A eq_refl). discriminate.
Qed.
Lemma C92_possible_lemma N D L : (L <= D)%nat -> (L <= N)%nat -> exists rand, (forall k, 0 < rand k < 1) /\ generate_orm_product 1 rand N D L <> None.
Proof.
  intros HD HN. exists (eye_draws D L). split; [intros k; unfold eye_draws; destruct (Nat.eqb _ _); lra|].
  assert (Q : forall n l, (l < L)%nat -> ((n * L + l) / L = n)%nat /\ ((n * L + l) mod L = l)%nat).
  { intros n l Hl. split; [symmetry; apply (Nat.div_unique _ _ _ l); lia|symmetry; apply (Nat.mod_unique _ _ n); lia]. }
  unfold generate_orm_product. cbn [disjoint_columns_mat]. rewrite eye_ok; [cbn [Nat.add]|exact HD|].
  - rewrite eye_ok; [discriminate|exact HN|]. intros n l Hn Hl. unfold eye_draws. destruct (Nat.ltb_spec (D * L + (n * L + l)) (D * L)); [lia|]. replace (D * L + (n * L + l) - D * L)%nat with (n * L + l)%nat by lia. destruct (Q n l Hl) as (-> & ->). reflexivity.
  - intros n l Hn Hl. unfold eye_draws. cbn [Nat.add]. destruct (Nat.ltb_spec (n * L + l) (D * L)); [|nia]. destruct (Q n l Hl) as (-> & ->). reflexivity.
Qed.
(** Overlapping columns: the first two rows are (1,1) and the others those of an identity matrix. *)
Definition overlap_draws (k : nat) : R := if existsb (Nat.eqb k) [0; 1; 2; 5; 6; 7; 8; 11]%nat then 3 / 4 else 1 / 4.
Lemma overlap_bit k : Rltb (1 / 2) (overlap_draws k) = existsb (Nat.eqb k) [0; 1; 2; 5; 6; 7; 8; 11]%nat.
Proof. unfold overlap_draws. destruct (existsb _ _); [destruct (Rltb_spec (1 / 2) (3 / 4)); [reflexivity|lra]|destruct (Rltb_spec (1 / 2) (1 / 4)); [lra|reflexivity]]. Qed.
Lemma C92_disjoint_lemma : exists rand U Z_ X, (forall k, 0 < rand k < 1) /\ generate_orm_product 1 rand 3 3 2 = Some (U, Z_, X) /\ ~ disjoint_columns U 2 /\ ~ disjoint_columns Z_ 2.
Proof.
  exists overlap_draws. 
  assert (E : generate_orm_product 1 overlap_draws 3 3 2 = Some ([[1;1];[1;-1];[-1;1]]%Z, [[1;1];[1;-1];[-1;1]]%Z, [[1;1;1];[1;1;-1];[1;-1;1]]%Z)).
  { assert (M0 : random_mat overlap_draws 0 3 2 = [[1;1];[1;0];[0;1]]%Z) by (unfold random_mat; cbn [map seq]; rewrite !overlap_bit; reflexivity).
    assert (M6 : random_mat overlap_draws 6 3 2 = [[1;1];[1;0];[0;1]]%Z) by (unfold random_mat; cbn [map seq]; rewrite !overlap_bit; reflexivity).
    assert (G : all_columsn_are_disjoint [[1;1];[1;0];[0;1]]%Z 2 = true) by reflexivity.
    unfold generate_orm_product, disjoint_columns_mat. rewrite M0, G. change (0 + 3 * 2)%nat with 6%nat. cbv iota beta. rewrite M6, G. reflexivity. }
  do 3 eexists. split; [intros k; unfold overlap_draws; destruct (existsb _ _); lra|]. split; [exact E|].
  split; intros H; apply (H [1;1]%Z 0%nat 1%nat); try (left; reflexivity); try lia; split; reflexivity.
Qed.
