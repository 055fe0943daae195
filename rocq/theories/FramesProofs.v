(** Proof of C123. *)
From Coq Require Import Reals Permutation Sorted.
From Verif Require Import Base BaseLemmas Frames SpecFrames.
Local Open Scope Z_scope.

Lemma isin_In l x : isin l x = true <-> In x l.
Proof. unfold isin. rewrite existsb_exists. split; [intros (y & H & E); apply Z.eqb_eq in E; subst; exact H|intros H; exists x; split; [exact H|apply Z.eqb_refl]]. Qed.
Lemma insert_perm r l : Permutation (insert_row r l) (r :: l).
Proof. induction l as [|x l IH]; cbn; [reflexivity|]. destruct (_ <=? _); [reflexivity|]. rewrite IH. apply perm_swap. Qed.
Lemma sort_perm l : Permutation (fold_right insert_row [] l) l.
Proof. induction l as [|r l IH]; cbn; [reflexivity|]. rewrite insert_perm, IH. reflexivity. Qed.
Lemma insert_sorted r l : StronglySorted Z.le (map fst l) -> StronglySorted Z.le (map fst (insert_row r l)).
Proof.
  induction l as [|x l IH]; intros H; cbn; [repeat constructor|]. inversion H as [|? ? H1 H2]; subst. destruct (Z.leb_spec (fst r) (fst x)) as [G|G].
  - cbn. constructor; [exact H|]. constructor; [exact G|]. eapply Forall_impl; [|exact H2]. intros a Ha. cbn in Ha. lia.
  - cbn. constructor; [apply IH, H1|]. eapply Permutation_Forall; [apply Permutation_sym, Permutation_map, insert_perm|]. cbn. constructor; [lia|exact H2].
Qed.
Lemma sort_sorted l : StronglySorted Z.le (map fst (fold_right insert_row [] l)).
Proof. induction l as [|r l IH]; cbn; [constructor|]. apply insert_sorted, IH. Qed.
Lemma sorted_unique l : forall l', StronglySorted Z.le l -> StronglySorted Z.le l' -> Permutation l l' -> l = l'.
Proof.
  induction l as [|x l IH]; intros l' H H' P; [apply Permutation_nil in P; congruence|]. destruct l' as [|y l']; [apply Permutation_sym, Permutation_nil in P; discriminate|].
  inversion H as [|? ? H1 H2]; subst. inversion H' as [|? ? K1 K2]; subst. rewrite Forall_forall in H2, K2.
  assert (E : x = y). { assert (I1 : In x (y :: l')) by (eapply Permutation_in; [exact P|left; reflexivity]). assert (I2 : In y (x :: l)) by (eapply Permutation_in; [apply Permutation_sym, P|left; reflexivity]). destruct I1 as [->|I1]; [reflexivity|]. destruct I2 as [->|I2]; [reflexivity|]. apply K2 in I1. apply H2 in I2. lia. }
  subst. f_equal. apply IH; try assumption. eapply Permutation_cons_inv, P.
Qed.
(** Columns *)
Lemma positions_ok cols c j : In j (positions cols c) <-> nth_error cols j = Some c.
Proof.
  unfold positions. rewrite filter_In, in_seq, Z.eqb_eq. split.
  - intros (H & E). rewrite (nth_error_nth' cols 0) by lia. rewrite E. reflexivity.
  - intros E. assert (H : (j < List.length cols)%nat) by (apply nth_error_Some; congruence). split; [lia|]. apply nth_error_nth, E.
Qed.
Lemma positions_labels cols c : map (fun j => nth j cols 0) (positions cols c) = repeat c (count_occ Z.eq_dec cols c).
Proof.
  unfold positions. induction cols as [|x cols IH]; [reflexivity|]. cbn [List.length seq filter nth]. rewrite <- seq_shift.
  assert (E : map (fun j => nth j (x :: cols) 0) (filter (fun j => nth j (x :: cols) 0 =? c) (map S (seq 0 (List.length cols)))) = map (fun j => nth j cols 0) (filter (fun j => nth j cols 0 =? c) (seq 0 (List.length cols)))).
  { generalize (seq 0 (List.length cols)). induction l as [|k l IL]; [reflexivity|]. cbn [map filter]. change (nth (S k) (x :: cols) 0) with (nth k cols 0). destruct (_ =? _); cbn [map]; [change (nth (S k) (x :: cols) 0) with (nth k cols 0)|]; rewrite IL; reflexivity. }
  rewrite IH in E. cbn [count_occ]. destruct (Z.eqb_spec x c) as [->|G].
  - destruct (Z.eq_dec c c); [|congruence]. cbn [map nth repeat]. f_equal. exact E.
  - destruct (Z.eq_dec x c); [congruence|]. exact E.
Qed.
Lemma picked_labels cols cs : map (fun j => nth j cols 0) (flat_map (positions cols) cs) = flat_map (fun c => repeat c (count_occ Z.eq_dec cols c)) cs.
Proof. induction cs as [|c cs IH]; [reflexivity|]. cbn [flat_map]. rewrite map_app, positions_labels, IH. reflexivity. Qed.
Lemma repeats_count (h : Z -> nat) cs c : NoDup cs -> In c cs -> count_occ Z.eq_dec (flat_map (fun c => repeat c (h c)) cs) c = h c.
Proof.
  intros HN Hc. induction cs as [|a cs IH]; [destruct Hc|]. inversion HN as [|? ? H1 H2]; subst. cbn [flat_map]. rewrite count_occ_app. destruct (Z.eq_dec a c) as [->|G].
  - assert (Z0 : count_occ Z.eq_dec (flat_map (fun c => repeat c (h c)) cs) c = 0%nat). { apply count_occ_not_In. intros Hi. apply in_flat_map in Hi. destruct Hi as (y & Hy & Hi). apply repeat_spec in Hi. subst. contradiction. }
    rewrite Z0. clear. induction (h c) as [|n IH]; [reflexivity|]. cbn. destruct (Z.eq_dec c c); [|congruence]. cbn in IH. lia.
  - rewrite IH by (solve [assumption | destruct Hc; [congruence|assumption]]). assert (Z0 : count_occ Z.eq_dec (repeat a (h a)) c = 0%nat) by (apply count_occ_not_In; intros Hi; apply repeat_spec in Hi; congruence). lia.
Qed.
Lemma repeats_same (f g : Z -> nat) cs : NoDup cs -> (flat_map (fun c => repeat c (f c)) cs = flat_map (fun c => repeat c (g c)) cs <-> forall c, In c cs -> f c = g c).
Proof.
  intros HN. split.
  - intros E c Hc. pose proof (fun h => repeats_count h cs c HN Hc) as CO.
    rewrite <- (CO f), <- (CO g), E. reflexivity.
  - intros E. clear HN. induction cs as [|a cs IH]; [reflexivity|]. cbn [flat_map]. rewrite (E a (or_introl eq_refl)), IH; [reflexivity|]. intros c Hc. apply E. right. exact Hc.
Qed.
Lemma assert_same_ok l l' : assert_same l l' = Ok tt <-> l = l'.
Proof.
  unfold assert_same. destruct (Nat.eqb_spec (List.length l) (List.length l')) as [E|E]; cbn [negb].
  - destruct (list_eq_dec Z.eq_dec l l'); split; congruence.
  - split; [discriminate|]. intros ->. congruence.
Qed.
Lemma assert_same_cases l l' : assert_same l l' = Ok tt \/ assert_same l l' = Err ValueError \/ assert_same l l' = Err AssertionError.
Proof. unfold assert_same. destruct (negb _); [tauto|]. destruct (list_eq_dec _ _ _); tauto. Qed.

Section Common.
Context (order : list Z -> list Z) (Hord : forall l, Permutation (order l) l) (A B : frame).
Let joint_rows := filter (isin (index B)) (index A).
Let joint_cols := order (nodup Z.eq_dec (filter (isin (columns B)) (columns A))).
Let result (f : frame) := sort_index (pick joint_cols (keep_rows joint_rows f)).
Lemma common_eq : common_frames order A B = bind (assert_same (index (result A)) (index (result B))) (fun _ => bind (assert_same (columns (result A)) (columns (result B))) (fun _ => Ok (result A, result B))).
Proof. reflexivity. Qed.
Lemma joint_rows_In r : In r joint_rows <-> In r (index A) /\ In r (index B).
Proof. unfold joint_rows. rewrite filter_In, isin_In. tauto. Qed.
Lemma joint_cols_In c : In c joint_cols <-> In c (columns A) /\ In c (columns B).
Proof.
  unfold joint_cols. transitivity (In c (nodup Z.eq_dec (filter (isin (columns B)) (columns A)))); [split; apply Permutation_in; [|apply Permutation_sym]; apply Hord|]. rewrite nodup_In, filter_In, isin_In. tauto.
Qed.
Lemma joint_cols_NoDup : NoDup joint_cols.
Proof. eapply Permutation_NoDup; [apply Permutation_sym, Hord|]. apply NoDup_nodup. Qed.
Lemma result_index f : Permutation (index (result f)) (filter (isin joint_rows) (index f)).
Proof.
  unfold result, sort_index, index. cbn [rows]. rewrite sort_perm. unfold pick, keep_rows. cbn [rows columns]. rewrite map_map. cbn [fst]. apply Permutation_refl'. change (map (fun r => fst r) ?l) with (map fst l).
  induction (rows f) as [|r l IH]; [reflexivity|]. cbn [filter map]. destruct (isin joint_rows (fst r)); cbn [map]; rewrite <- IH; reflexivity.
Qed.
Lemma result_sorted f : StronglySorted Z.le (index (result f)).
Proof. apply sort_sorted. Qed.
Lemma result_columns f : columns (result f) = flat_map (fun c => repeat c (count_occ Z.eq_dec (columns f) c)) joint_cols.
Proof. apply picked_labels. Qed.
Lemma count_filter p l x : count_occ Z.eq_dec (filter p l) x = if p x then count_occ Z.eq_dec l x else 0%nat.
Proof.
  induction l as [|y l IH]; [destruct (p x); reflexivity|]. cbn [filter count_occ]. destruct (Z.eq_dec y x) as [->|G].
  - destruct (p x) eqn:E; [cbn [count_occ]; destruct (Z.eq_dec x x); [|congruence]; rewrite IH; reflexivity|exact IH].
  - destruct (p y); [cbn [count_occ]; destruct (Z.eq_dec y x); [congruence|]|]; exact IH.
Qed.
Lemma index_same : index (result A) = index (result B) <-> balanced (index A) (index B).
Proof.
  assert (C : forall f x, count_occ Z.eq_dec (index (result f)) x = if isin joint_rows x then count_occ Z.eq_dec (index f) x else 0%nat).
  { intros f x. rewrite <- count_filter. apply Permutation_count_occ, result_index. }
  split.
  - intros E x H1 H2. pose proof (C A x) as E1. pose proof (C B x) as E2. rewrite E in E1. assert (G : isin joint_rows x = true) by (apply isin_In, joint_rows_In; tauto). rewrite G in *. congruence.
  - intros HB. apply sorted_unique; try apply result_sorted. apply (Permutation_count_occ Z.eq_dec). intros x. rewrite !C. destruct (isin joint_rows x) eqn:E; [|reflexivity]. apply isin_In, joint_rows_In in E. apply HB; tauto.
Qed.
Lemma columns_same : columns (result A) = columns (result B) <-> balanced (columns A) (columns B).
Proof.
  rewrite !result_columns. rewrite (repeats_same _ _ _ joint_cols_NoDup). split; [intros H c H1 H2; apply H, joint_cols_In; tauto|intros H c Hc; apply joint_cols_In in Hc; apply H; tauto].
Qed.
Lemma result_holds f : full f -> forall r c x, holds (result f) r c x <-> holds f r c x /\ In r joint_rows /\ In c joint_cols.
Proof.
  intros HF r c x. set (js := flat_map (positions (columns f)) joint_cols).
  assert (RP : Permutation (rows (result f)) (map (fun r => (fst r, map (fun j => nth j (snd r) 0%R) js)) (filter (fun r => isin joint_rows (fst r)) (rows f)))) by apply sort_perm.
  assert (CP : columns (result f) = map (fun j => nth j (columns f) 0) js) by reflexivity.
  assert (JS : forall j, In j js <-> exists c, In c joint_cols /\ nth_error (columns f) j = Some c). { intros j. unfold js. rewrite in_flat_map. split; intros (c0 & H1 & H2); exists c0; (split; [exact H1|]); apply positions_ok, H2. }
  split.
  - intros (i & j & vs & H1 & H2 & H3). apply nth_error_In in H1. eapply Permutation_in in H1; [|exact RP]. apply in_map_iff in H1. destruct H1 as ((r0 & vs0) & E & H1). cbn [fst snd] in E. inversion E; subst r0 vs; clear E. apply filter_In in H1. destruct H1 as (H1 & G). cbn [fst] in G. apply isin_In in G.
    rewrite CP in H2. rewrite nth_error_map in H2, H3. destruct (nth_error js j) as [k|] eqn:Ek; [|discriminate]. cbn in H2, H3. inversion H2; inversion H3; subst c x; clear H2 H3. apply nth_error_In, JS in Ek. destruct Ek as (c & Hc & Ec). pose proof (nth_error_nth _ _ 0 Ec) as En. rewrite En.
    split; [|split; assumption]. apply In_nth_error in H1. destruct H1 as (i' & Hi'). exists i', k, vs0. split; [exact Hi'|]. split; [exact Ec|]. apply nth_error_nth'. pose proof (HF _ (nth_error_In _ _ Hi')) as HL. cbn [snd] in HL. rewrite HL. apply nth_error_Some. congruence.
  - intros ((i & k & vs & H1 & H2 & H3) & Hr & Hc). assert (Hk : In k js) by (apply JS; exists c; auto). apply In_nth_error in Hk. destruct Hk as (j & Hj).
    assert (H4 : In (r, map (fun j => nth j vs 0%R) js) (rows (result f))). { eapply Permutation_in; [apply Permutation_sym, RP|]. apply in_map_iff. exists (r, vs). split; [reflexivity|]. apply filter_In. split; [eapply nth_error_In, H1|]. apply isin_In, Hr. }
    apply In_nth_error in H4. destruct H4 as (i' & Hi'). exists i', j, (map (fun j => nth j vs 0%R) js). split; [exact Hi'|]. rewrite CP, !nth_error_map, Hj. cbn. split; f_equal; apply nth_error_nth; assumption.
Qed.
Lemma result_full f : full (result f).
Proof.
  intros r Hr. unfold result, sort_index, pick in Hr. cbn [rows columns] in Hr. eapply Permutation_in in Hr; [|apply sort_perm]. apply in_map_iff in Hr. destruct Hr as (r0 & <- & _). cbn [snd]. unfold result, sort_index, pick. cbn [columns]. rewrite !map_length. reflexivity.
Qed.
Lemma C123_common : (exists A' B', common_frames order A B = Ok (A', B')) <-> balanced (index A) (index B) /\ balanced (columns A) (columns B).
Proof.
  rewrite common_eq, <- index_same, <- columns_same. split.
  - intros (A' & B' & E). destruct (assert_same_cases (index (result A)) (index (result B))) as [E1|[E1|E1]]; rewrite E1 in E; try discriminate. cbn [bind] in E. destruct (assert_same_cases (columns (result A)) (columns (result B))) as [E2|[E2|E2]]; rewrite E2 in E; try discriminate. split; apply assert_same_ok; assumption.
  - intros (E1 & E2). apply assert_same_ok in E1, E2. rewrite E1. cbn [bind]. rewrite E2. cbn [bind]. eauto.
Qed.
Lemma C123_frames A' B' : common_frames order A B = Ok (A', B') ->
  index A' = index B' /\ columns A' = columns B' /\ StronglySorted Z.le (index A') /\ (forall r, In r (index A') <-> In r (index A) /\ In r (index B)) /\ (forall c, In c (columns A') <-> In c (columns A) /\ In c (columns B)) /\
  (forall r, In r (index A) -> In r (index B) -> count_occ Z.eq_dec (index A') r = count_occ Z.eq_dec (index A) r) /\ (forall c, In c (columns A) -> In c (columns B) -> count_occ Z.eq_dec (columns A') c = count_occ Z.eq_dec (columns A) c) /\
  (full A' /\ full B') /\
  (full A -> forall r c x, holds A' r c x <-> holds A r c x /\ In r (index B) /\ In c (columns B)) /\ (full B -> forall r c x, holds B' r c x <-> holds B r c x /\ In r (index A) /\ In c (columns A)).
Proof.
  intros E. rewrite common_eq in E. destruct (assert_same_cases (index (result A)) (index (result B))) as [E1|[E1|E1]]; rewrite E1 in E; try discriminate. cbn [bind] in E. destruct (assert_same_cases (columns (result A)) (columns (result B))) as [E2|[E2|E2]]; rewrite E2 in E; try discriminate. cbn [bind] in E. inversion E; subst A' B'; clear E.
  apply assert_same_ok in E1, E2. split; [exact E1|]. split; [exact E2|]. split; [apply result_sorted|].
  assert (HH : forall f r c x, holds f r c x -> In r (index f) /\ In c (columns f)). { intros f r c x (i & j & vs & H1 & H2 & _). split; [|eapply nth_error_In, H2]. unfold index. change r with (fst (r, vs)). apply in_map. eapply nth_error_In, H1. }
  split; [|split; [|split; [|split; [|split; [|split]]]]].
  - intros r. transitivity (In r (filter (isin joint_rows) (index A))); [split; apply Permutation_in; [|apply Permutation_sym]; apply result_index|]. rewrite filter_In, isin_In, joint_rows_In. tauto.
  - intros c. rewrite result_columns, in_flat_map. split.
    + intros (c0 & H1 & H2). apply repeat_spec in H2. subst. apply joint_cols_In, H1.
    + intros H. exists c. split; [apply joint_cols_In, H|]. destruct H as (H & _). apply (count_occ_In Z.eq_dec) in H. destruct (count_occ _ _ _); [lia|left; reflexivity].
  - intros r H1 H2. rewrite (proj1 (Permutation_count_occ Z.eq_dec _ _) (result_index A)), count_filter. assert (G : isin joint_rows r = true) by (apply isin_In, joint_rows_In; tauto). rewrite G. reflexivity.
  - intros c H1 H2. rewrite result_columns. apply repeats_count; [apply joint_cols_NoDup|apply joint_cols_In; tauto].
  - split; apply result_full.
  - intros HF r c x. rewrite (result_holds A HF). rewrite joint_rows_In, joint_cols_In. split; [tauto|]. intros (H & H1 & H2). pose proof (HH _ _ _ _ H). tauto.
  - intros HF r c x. rewrite (result_holds B HF). rewrite joint_rows_In, joint_cols_In. split; [tauto|]. intros (H & H1 & H2). pose proof (HH _ _ _ _ H). tauto.
Qed.
End Common.
Lemma C123_refuted_lemma order A B : (forall r, intersect_dataframes order A B <> Ok r) /\
  ((forall l, Permutation (order l) l) -> NoDup (index A) -> NoDup (index B) -> NoDup (columns A) -> NoDup (columns B) -> intersect_dataframes order A B = Err NameError).
Proof.
  split.
  - intros r. unfold intersect_dataframes. destruct (common_frames order A B); discriminate.
  - intros Hord H1 H2 H3 H4. assert (BL : forall l l', NoDup l -> NoDup l' -> balanced l l').
    { intros l l' N N' x I I'. apply (count_occ_In Z.eq_dec) in I, I'. pose proof (proj1 (NoDup_count_occ Z.eq_dec l) N x). pose proof (proj1 (NoDup_count_occ Z.eq_dec l') N' x). lia. }
    destruct (proj2 (C123_common order Hord A B)) as (A' & B' & E); [split; apply BL; assumption|]. unfold intersect_dataframes. rewrite E. reflexivity.
Qed.
