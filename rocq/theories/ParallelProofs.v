(** Proofs for Parallel.v. *)
From Verif Require Import Base BaseLemmas BaseR SpecR Sampling SamplingProofs Parallel.
Local Open Scope R_scope.

Definition row_local (logit : mat -> nat -> nat -> R) : Prop :=
  forall Z1 Z2 n l, row Z1 n = row Z2 n -> logit Z1 n l = logit Z2 n l.

Lemma row_only n buf : row (only_row n buf) n = buf.
Proof. unfold row, only_row. rewrite app_nth2; rewrite repeat_length; [rewrite Nat.sub_diag; reflexivity|lia]. Qed.

Section Par.
  Variables (logit : mat -> nat -> nat -> R) (fixed : mat) (rand : nat -> nat -> R).
  Hypothesis loc : row_local logit.
  Variables (N L : nat) (Z0 : mat).
  Hypothesis HZ : has_shape2 Z0 N L.

  (* one row, processed sequentially up to column j *)
  Definition cell_row (n : nat) (v : vec) (l : nat) : vec :=
    if (at2 fixed n l =? 1)%Z then v
    else upd v l (flip_metropolised_gibbs_numba (logit (only_row n v) n l) (at1 v l) (rand n l)).
  Definition seqrow (n j : nat) : vec := fold_left (cell_row n) (seq 0 j) (row Z0 n).

  Lemma seqrow_S n j : seqrow n (S j) = cell_row n (seqrow n j) j.
  Proof. unfold seqrow. rewrite seq_S, fold_left_app. reflexivity. Qed.
  Lemma cell_row_length n v l : List.length (cell_row n v l) = List.length v.
  Proof. unfold cell_row. destruct (_ =? 1)%Z; [reflexivity|apply upd_length]. Qed.
  Lemma seqrow_length n j : (n < N)%nat -> List.length (seqrow n j) = L.
  Proof.
    intros Hn. induction j as [|j IH]; [|rewrite seqrow_S, cell_row_length; exact IH].
    unfold seqrow. simpl. apply (shape2_row _ _ _ _ HZ Hn).
  Qed.

  Lemma row_oob (m : mat) n : (List.length m <= n)%nat -> row m n = [].
  Proof. intros H. unfold row. apply nth_overflow, H. Qed.

  Lemma sample_cell_row Zc n l n' : (n < List.length Zc)%nat ->
    row (sample_cell logit fixed rand Zc n l) n' = if Nat.eqb n' n then cell_row n (row Zc n) l else row Zc n'.
  Proof.
    intros Hn. unfold sample_cell, cell_row. destruct (Nat.eqb_spec n' n) as [->|Hne].
    - destruct (_ =? 1)%Z; [reflexivity|]. rewrite row_set2_same by exact Hn. unfold at2.
      rewrite (loc Zc (only_row n (row Zc n))) by (rewrite row_only; reflexivity). reflexivity.
    - destruct (_ =? 1)%Z; [reflexivity|]. apply row_set2_other, Hne.
  Qed.
  Lemma sample_cell_len Zc n l : List.length (sample_cell logit fixed rand Zc n l) = List.length Zc.
  Proof. unfold sample_cell, set2. destruct (_ =? 1)%Z; [reflexivity|apply upd_length]. Qed.

  Lemma inner_row ls Zc n : (n < List.length Zc)%nat ->
    List.length (fold_left (fun Zl l => sample_cell logit fixed rand Zl n l) ls Zc) = List.length Zc /\
    forall n', row (fold_left (fun Zl l => sample_cell logit fixed rand Zl n l) ls Zc) n' =
      if Nat.eqb n' n then fold_left (cell_row n) ls (row Zc n) else row Zc n'.
  Proof.
    revert Zc. induction ls as [|l ls IH]; intros Zc Hn; simpl.
    - split; [reflexivity|]. intros n'. destruct (Nat.eqb_spec n' n) as [->|]; reflexivity.
    - assert (H : (n < List.length (sample_cell logit fixed rand Zc n l))%nat) by (rewrite sample_cell_len; exact Hn).
      destruct (IH _ H) as [A B]. split; [rewrite A; apply sample_cell_len|].
      intros n'. rewrite B, !sample_cell_row by exact Hn. destruct (Nat.eqb_spec n' n) as [->|]; [|reflexivity].
      rewrite Nat.eqb_refl. reflexivity.
  Qed.

  Lemma outer_row ns Zc : NoDup ns -> (forall n, In n ns -> (n < List.length Zc)%nat) ->
    let R := fold_left (fun Zn n => fold_left (fun Zl l => sample_cell logit fixed rand Zl n l) (seq 0 L) Zn) ns Zc in
    List.length R = List.length Zc /\
    forall n', row R n' = if existsb (Nat.eqb n') ns then fold_left (cell_row n') (seq 0 L) (row Zc n') else row Zc n'.
  Proof.
    revert Zc. induction ns as [|n ns IH]; intros Zc ND Hn; simpl; [split; reflexivity|].
    inversion ND; subst. destruct (inner_row (seq 0 L) Zc n) as [A B]; [apply Hn; left; reflexivity|].
    destruct (IH (fold_left (fun Zl l => sample_cell logit fixed rand Zl n l) (seq 0 L) Zc) H2) as [C D].
    { intros m Hm. rewrite A. apply Hn. right; exact Hm. }
    split; [rewrite C; exact A|]. intros n'. rewrite D, !B.
    destruct (Nat.eqb_spec n' n) as [->|]; simpl; [|reflexivity].
    destruct (existsb (Nat.eqb n) ns) eqn:E; [|reflexivity].
    exfalso. apply existsb_exists in E. destruct E as (m & Hm & E). apply Nat.eqb_eq in E. subst. contradiction.
  Qed.

  Lemma mat_ext (A B : mat) : List.length A = List.length B -> (forall n, row A n = row B n) -> A = B.
  Proof. intros HL H. apply (nth_ext A B [] []); [exact HL|]. intros n _. apply H. Qed.

  Lemma sample_loop_row n : row (sample_loop logit Z0 fixed rand) n = if (n <? N)%nat then seqrow n L else [].
  Proof.
    destruct (Nat.ltb_spec n N) as [Hn|Hn].
    - unfold sample_loop. rewrite (shape2_nrows _ _ _ HZ). rewrite (shape2_ncols _ _ _ HZ) by lia.
      destruct (outer_row (seq 0 N) Z0) as [A B]; [apply seq_NoDup| |].
      { intros m Hm. apply in_seq in Hm. destruct HZ as [-> _]. lia. }
      rewrite B. replace (existsb (Nat.eqb n) (seq 0 N)) with true; [reflexivity|].
      symmetry. apply existsb_exists. exists n. split; [apply in_seq; lia|apply Nat.eqb_refl].
    - apply row_oob. unfold sample_loop.
      assert (E : nrows Z0 = N) by apply (shape2_nrows _ _ _ HZ). rewrite E.
      destruct N as [|N'] eqn:EN; [simpl; destruct HZ as [-> _]; lia|]. rewrite <- EN in *.
      rewrite (shape2_ncols _ _ _ HZ) by lia.
      destruct (outer_row (seq 0 N) Z0) as [A B]; [apply seq_NoDup| |].
      { intros m Hm. apply in_seq in Hm. destruct HZ as [-> _]. lia. }
      rewrite A. destruct HZ as [-> _]. lia.
  Qed.
  Lemma sample_loop_len : List.length (sample_loop logit Z0 fixed rand) = N.
  Proof.
    unfold sample_loop. rewrite (shape2_nrows _ _ _ HZ).
    destruct N as [|N'] eqn:EN; [simpl; destruct HZ as [-> _]; lia|]. rewrite <- EN in *.
    rewrite (shape2_ncols _ _ _ HZ) by lia.
    destruct (outer_row (seq 0 N) Z0) as [A B]; [apply seq_NoDup| |].
    { intros m Hm. apply in_seq in Hm. destruct HZ as [-> _]. lia. }
    rewrite A. apply HZ.
  Qed.

  (* invariant of the concurrent execution *)
  Definition tinv (Zc : mat) (n : nat) (t : thread) : Prop :=
    (t_l t <= L)%nat /\ row Zc n = seqrow n (t_l t) /\ (List.length (t_buf t) <= L)%nat /\
    t_buf t = firstn (List.length (t_buf t)) (row Zc n).
  Definition sinv (s : pstate) : Prop :=
    List.length (fst s) = N /\ List.length (snd s) = N /\
    forall n t, nth_error (snd s) n = Some t -> tinv (fst s) n t.

  Lemma sinv_init : sinv (pinit Z0).
  Proof.
    unfold pinit, sinv. simpl. rewrite repeat_length. destruct HZ as [HL _]. rewrite (shape2_nrows _ _ _ HZ).
    split; [exact HL|]. split; [reflexivity|]. intros n t Ht.
    assert (Hn : (n < N)%nat) by (rewrite <- (repeat_length (Thread 0 []) N); apply nth_error_Some; rewrite Ht; discriminate).
    apply nth_error_In, repeat_spec in Ht. subst t. unfold tinv. simpl. repeat split; lia.
  Qed.

  Lemma firstn_S_nth (v : vec) k : (k < List.length v)%nat -> firstn (S k) v = firstn k v ++ [nth k v 0%Z].
  Proof.
    revert k. induction v as [|a v IH]; intros k Hk; simpl in *; [lia|]. destruct k; [reflexivity|].
    simpl. f_equal. apply IH. lia.
  Qed.

  (* the amount of work thread n still has to do *)
  Definition work (t : thread) : nat := (L - t_l t) * S L - List.length (t_buf t).

  Lemma step_inv Zc n t : List.length Zc = N -> (n < N)%nat -> tinv Zc n t ->
    let '(Z', t') := step logit fixed rand L n Zc t in
    List.length Z' = N /\ tinv Z' n t' /\ (forall n', n' <> n -> row Z' n' = row Zc n') /\
    ((t_l t < L)%nat -> (work t' < work t)%nat) /\ ((L <= t_l t)%nat -> t' = t).
  Proof.
    intros HLn Hn (Hl & Hr & Hb & Hbuf). unfold step.
    assert (HrL : List.length (row Zc n) = L) by (rewrite Hr; apply seqrow_length, Hn).
    destruct (Nat.ltb_spec (t_l t) L) as [Hlt|Hge].
    2:{ split; [exact HLn|]. split; [repeat split; assumption|]. split; [reflexivity|]. split; [lia|reflexivity]. }
    assert (Hw : forall v b, (List.length b <= L)%nat -> (t_l t < L)%nat -> v = S (t_l t) -> b = [] -> (work (Thread v b) < work t)%nat).
    { intros v b Hbb _ -> ->. unfold work. simpl t_l; simpl t_buf. simpl List.length.
      assert (E : (L - t_l t = S (L - S (t_l t)))%nat) by lia. rewrite E.
      generalize (L - S (t_l t))%nat as q. intros q. rewrite Nat.mul_succ_l. lia. }
    destruct (Z.eqb_spec (at2 fixed n (t_l t)) 1) as [Hf|Hf].
    - split; [exact HLn|]. split; [|split; [reflexivity|split; [intros _; apply Hw; auto; simpl; lia|lia]]].
      repeat split; simpl; try lia. rewrite seqrow_S. unfold cell_row.
      destruct (Z.eqb_spec (at2 fixed n (t_l t)) 1); [exact Hr|contradiction].
    - destruct (Nat.ltb_spec (List.length (t_buf t)) L) as [Hk|Hk].
      + split; [exact HLn|]. split; [|split; [reflexivity|split; [|lia]]].
        * repeat split; simpl; try assumption; try lia.
          { rewrite app_length. simpl. lia. }
          rewrite app_length. simpl. rewrite Nat.add_1_r. rewrite firstn_S_nth by lia. rewrite <- Hbuf. reflexivity.
        * intros _. unfold work. cbn [t_l t_buf]. rewrite app_length. cbn [List.length].
          assert (E : (L - t_l t = S (L - S (t_l t)))%nat) by lia. rewrite E. generalize (L - S (t_l t))%nat as q. intros q. rewrite Nat.mul_succ_l. lia.
      + assert (Eb : t_buf t = row Zc n) by (rewrite Hbuf; apply firstn_all2; lia).
        split; [unfold set2; rewrite upd_length; exact HLn|].
        split; [|split; [intros n' Hne; apply row_set2_other, Hne|split; [intros _; apply Hw; auto; simpl; lia|lia]]].
        repeat split; simpl; try lia. rewrite row_set2_same by lia. rewrite seqrow_S. unfold cell_row.
        destruct (Z.eqb_spec (at2 fixed n (t_l t)) 1); [contradiction|]. rewrite <- Hr, Eb. reflexivity.
  Qed.

  Definition wk (s : pstate) (n : nat) : nat := match nth_error (snd s) n with Some t => work t | None => 0%nat end.

  Lemma pstep_inv s n : sinv s -> sinv (pstep logit fixed rand L s n) /\
    (forall n', n' <> n -> wk (pstep logit fixed rand L s n) n' = wk s n') /\
    (wk (pstep logit fixed rand L s n) n <= wk s n - 1)%nat.
  Proof.
    destruct s as [Zc ts]. intros (H1 & H2 & H3). cbn [fst snd] in *. unfold pstep.
    destruct (nth_error ts n) as [t|] eqn:Et.
    2:{ split; [split; [exact H1|split; [exact H2|exact H3]]|]. split; [reflexivity|]. unfold wk. cbn [snd]. rewrite Et. lia. }
    assert (Hn : (n < N)%nat) by (rewrite <- H2; apply nth_error_Some; rewrite Et; discriminate).
    pose proof (step_inv Zc n t H1 Hn (H3 n t Et)) as S. destruct (step logit fixed rand L n Zc t) as [Z' t'].
    destruct S as (S1 & S2 & S3 & S4 & S5). split; [|split].
    - split; [exact S1|]. split; [cbn [snd]; rewrite upd_length; exact H2|]. cbn [fst snd]. intros n0 t0 H.
      destruct (Nat.eq_dec n0 n) as [->|Hne].
      + rewrite nth_error_upd_same in H by lia. injection H as <-. exact S2.
      + rewrite nth_error_upd_other in H by congruence. unfold tinv. rewrite S3 by exact Hne. apply (H3 _ _ H).
    - intros n' Hne. unfold wk. cbn [snd]. rewrite nth_error_upd_other by exact Hne. reflexivity.
    - unfold wk. cbn [snd]. rewrite nth_error_upd_same by lia. rewrite Et.
      destruct (Nat.lt_ge_cases (t_l t) L) as [Hl|Hl].
      + specialize (S4 Hl). lia.
      + rewrite (S5 Hl). unfold work. replace (L - t_l t)%nat with 0%nat by lia. lia.
  Qed.

  Lemma exec_inv sched s : sinv s -> sinv (exec logit fixed rand L sched s) /\
    forall n, (wk (exec logit fixed rand L sched s) n <= wk s n - count_occ Nat.eq_dec sched n)%nat.
  Proof.
    revert s. induction sched as [|m sched IH]; intros s Hs; [split; [exact Hs|intros; cbn; lia]|].
    cbn [exec fold_left]. destruct (pstep_inv s m Hs) as (P1 & P2 & P3).
    destruct (IH _ P1) as [I1 I2]. split; [exact I1|]. intros n. specialize (I2 n). unfold exec in I2.
    cbn [count_occ]. destruct (Nat.eq_dec m n) as [->|Hne].
    - lia.
    - rewrite P2 in I2 by congruence. lia.
  Qed.

  Lemma fin_result s : sinv s -> finished L s -> fst s = sample_loop logit Z0 fixed rand.
  Proof.
    intros (H1 & H2 & H3) HF. apply mat_ext; [rewrite sample_loop_len; exact H1|].
    intros n. rewrite sample_loop_row. destruct (Nat.ltb_spec n N) as [Hn|Hn].
    - destruct (nth_error (snd s) n) as [t|] eqn:Et; [|apply nth_error_None in Et; lia].
      destruct (H3 n t Et) as (A & B & _). unfold finished in HF. rewrite Forall_forall in HF.
      specialize (HF t (nth_error_In _ _ Et)). assert (E : t_l t = L) by lia. rewrite E in B. exact B.
    - apply row_oob. lia.
  Qed.

  Lemma wk_zero_fin s : sinv s -> (forall n, (n < N)%nat -> wk s n = 0%nat) -> finished L s.
  Proof.
    intros (H1 & H2 & H3) HW. apply Forall_forall. intros t Ht. destruct (In_nth_error _ _ Ht) as [n Et].
    assert (Hn : (n < N)%nat) by (rewrite <- H2; apply nth_error_Some; rewrite Et; discriminate).
    specialize (HW n Hn). unfold wk in HW. rewrite Et in HW. destruct (H3 n t Et) as (A & _ & B & _).
    unfold work in HW. destruct (Nat.lt_ge_cases (t_l t) L) as [Hl|Hl]; [|exact Hl].
    exfalso. assert (E : (L - t_l t = S (L - S (t_l t)))%nat) by lia. rewrite E in HW.
    revert HW. generalize (L - S (t_l t))%nat as q. intros q. rewrite Nat.mul_succ_l. lia.
  Qed.

  Lemma wk_init n : (wk (pinit Z0) n <= L * S L)%nat.
  Proof.
    unfold wk, pinit. cbn [snd]. destruct (nth_error _ n) as [t|] eqn:Et; [|lia].
    apply nth_error_In, repeat_spec in Et. subst t. unfold work. cbn [t_l t_buf List.length]. rewrite !Nat.sub_0_r. lia.
  Qed.
End Par.

Lemma finished_0 L (s : pstate) : snd s = [] -> finished L s.
Proof. intros H. unfold finished. rewrite H. constructor. Qed.
Lemma exec_nil logit fixed rand L sched (Zc : mat) : exec logit fixed rand L sched (Zc, []) = (Zc, []).
Proof.
  unfold exec. induction sched as [|n sched IH]; [reflexivity|]. cbn [fold_left].
  replace (pstep logit fixed rand L (Zc, []) n) with ((Zc, []) : pstate); [exact IH|].
  unfold pstep. destruct n; reflexivity.
Qed.

Lemma C16_lemma logit fixed rand N L Z_ : row_local logit -> has_shape2 Z_ N L ->
  (forall sched, finished L (exec logit fixed rand L sched (pinit Z_)) ->
     fst (exec logit fixed rand L sched (pinit Z_)) = sample_loop logit Z_ fixed rand) /\
  (forall sched, (forall n, (n < N)%nat -> (L * S L <= count_occ Nat.eq_dec sched n)%nat) ->
     finished L (exec logit fixed rand L sched (pinit Z_))).
Proof.
  intros loc HZ. split; intros sched H.
  - apply (fin_result logit fixed rand loc N L Z_ HZ); [|exact H].
    apply (exec_inv logit fixed rand N L Z_ HZ). apply sinv_init, HZ.
  - destruct (exec_inv logit fixed rand N L Z_ HZ sched (pinit Z_)) as [A B]; [apply sinv_init, HZ|].
    eapply wk_zero_fin; [exact A|]. intros n Hn. specialize (B n). specialize (H n Hn).
    pose proof (wk_init L Z_ n). lia.
Qed.

Lemma loc_1 score U X la lp : row_local (logit_onechild_2d score U X la lp).
Proof. intros Z1 Z2 n l H. unfold logit_onechild_2d. rewrite H. reflexivity. Qed.
Lemma loc_2 score U V X la lp : row_local (logit_onechild_3d score U V X la lp).
Proof. intros Z1 Z2 n l H. unfold logit_onechild_3d. rewrite H. reflexivity. Qed.
Lemma loc_3 score ps U X la a b c lp : row_local (logit_onechild_oneparent_2d score ps U X la a b c lp).
Proof. intros Z1 Z2 n l H. unfold logit_onechild_oneparent_2d. rewrite H. reflexivity. Qed.
Lemma loc_4 ps a b c lp : row_local (logit_nochild_oneparent_2d ps a b c lp).
Proof. intros Z1 Z2 n l H. reflexivity. Qed.
Lemma loc_5 ps a b c a' b' c' lp : row_local (logit_nochild_twoparents_2d ps a b c a' b' c' lp).
Proof. intros Z1 Z2 n l H. reflexivity. Qed.
Lemma loc_6 score ps U X la a b c a' b' c' lp : row_local (logit_onechild_twoparents_2d score ps U X la a b c a' b' c' lp).
Proof. intros Z1 Z2 n l H. unfold logit_onechild_twoparents_2d. rewrite H. reflexivity. Qed.

Lemma count_flat n k ns : NoDup ns -> In n ns -> count_occ Nat.eq_dec (flat_map (fun m => repeat m k) ns) n = k.
Proof.
  assert (Z0 : forall m j, m <> n -> count_occ Nat.eq_dec (repeat m j) n = 0%nat).
  { intros m j H. induction j as [|j IH]; [reflexivity|]. cbn. destruct (Nat.eq_dec m n); [contradiction|exact IH]. }
  assert (Zn : forall j, count_occ Nat.eq_dec (repeat n j) n = j).
  { induction j as [|j IH]; [reflexivity|]. cbn. destruct (Nat.eq_dec n n); [rewrite IH; reflexivity|congruence]. }
  assert (Znone : forall ms, ~ In n ms -> count_occ Nat.eq_dec (flat_map (fun m => repeat m k) ms) n = 0%nat).
  { induction ms as [|m ms IH]; intros H; [reflexivity|]. cbn [flat_map]. rewrite count_occ_app, Z0, IH; [reflexivity| |].
    - intros C; apply H; right; exact C.
    - intros ->; apply H; left; reflexivity. }
  induction ns as [|m ns IH]; intros ND Hi; [destruct Hi|]. inversion ND; subst. cbn [flat_map]. rewrite count_occ_app.
  destruct (Nat.eq_dec m n) as [->|Hne].
  - rewrite Zn, Znone by assumption. lia.
  - destruct Hi as [Hi|Hi]; [contradiction|]. rewrite Z0 by exact Hne. rewrite IH by assumption. reflexivity.
Qed.

(** The logits of the samplers. *)
Lemma sampler_logit_local logit : sampler_logit logit -> row_local logit.
Proof. intros H. destruct H; auto using loc_1, loc_2, loc_3, loc_4, loc_5, loc_6. Qed.

Lemma C16_full logit fixed rand N L Z_ : sampler_logit logit -> has_shape2 Z_ N L ->
  (forall Z', parallel_result logit fixed rand Z_ Z' <-> Z' = sample_loop logit Z_ fixed rand) /\
  (forall sched, (forall n, (n < N)%nat -> (L * S L <= count_occ Nat.eq_dec sched n)%nat) ->
     finished (ncols Z_) (exec logit fixed rand (ncols Z_) sched (pinit Z_))).
Proof.
  intros Hl HZ. apply sampler_logit_local in Hl.
  assert (HZ' : has_shape2 Z_ N (ncols Z_) /\ (N = 0%nat \/ ncols Z_ = L)).
  { destruct N as [|N].
    - split; [|left; reflexivity]. destruct HZ as [H _]. destruct Z_; [split; constructor|discriminate].
    - rewrite (shape2_ncols _ _ _ HZ) by lia. split; [exact HZ|right; reflexivity]. }
  destruct HZ' as [HZ' HL]. destruct (C16_lemma logit fixed rand N (ncols Z_) Z_ Hl HZ') as [A B].
  split.
  - intros Z'. split.
    + intros (sched & F & <-). apply A, F.
    + intros ->. pose (sched := flat_map (fun m => repeat m (ncols Z_ * S (ncols Z_))) (seq 0 N)).
      exists sched. assert (F : finished (ncols Z_) (exec logit fixed rand (ncols Z_) sched (pinit Z_))).
      { apply B. intros n Hn. unfold sched. rewrite count_flat; [lia|apply seq_NoDup|apply in_seq; lia]. }
      split; [exact F|apply A, F].
  - intros sched H. apply B. intros n Hn. destruct HL as [HL|HL]; [lia|]. rewrite HL. apply H, Hn.
Qed.
