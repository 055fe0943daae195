(** Proofs for C36, C68 - C70. *)
From Coq Require Import Lra String Sorted.
From Verif Require Import Base BaseLemmas BaseR BaseRLemmas Spec SpecR Outputs OutputsProofs Scores ScoresProofs Sampling SamplingProofs Lambda HelpersProofs QLProofs2 Ibp SpecIbp IbpProofs.
Local Open Scope R_scope.

Lemma rows_ext_eq (r r' : vec) k : List.length r = k -> List.length r' = k -> (forall i, (i < k)%nat -> nth i r 0%Z = nth i r' 0%Z) -> r = r'.
Proof. intros H1 H2 H. apply (nth_ext _ _ 0%Z 0%Z); [congruence|]. rewrite H1. exact H. Qed.

Section RowStep.
  Context (X : mat) (N D L n : nat) (lbda q alpha : R) (Z_ U : mat) (w : draws).
  Context (HZ : okmat N L Z_) (HU : okmat D L U) (Hn : (n < N)%nat).
  Let m := used_by_others Z_ N n.
  Let keep := filter (fun l => Nat.ltb 0 (m l)) (seq 0 L).
  Let Z1 := ibp_existing Z_ U X N n lbda m (dz w) L.
  Let zs := row (take_cols keep Z1) n.
  Let kk := choose_L_new (p_L_new (log_L_new lbda q alpha N (List.length keep) (tn_count zs (take_cols keep U) (row X n) D) (fn_count zs (take_cols keep U) (row X n) D))) (dk w).
  Lemma keep_lt l : In l keep -> (l < L)%nat.
  Proof. intros H. apply filter_In in H. apply in_seq0, H. Qed.
  Lemma keep_used l : In l keep <-> (l < L)%nat /\ used_elsewhere Z_ N n l.
  Proof. unfold keep. rewrite filter_In, in_seq0, Nat.ltb_lt, <- used_pos. reflexivity. Qed.
  Lemma Z1_ok : okmat N L Z1 /\ forall n', n' <> n -> row Z1 n' = row Z_ n'.
  Proof. apply existing_ok; [exact HZ|]. intros l Hl. apply in_seq0. exact Hl. Qed.
  Lemma row_step : let '(L', Z', U') := ibp_row X N D lbda q alpha (L, Z_, U) n w in
    L' = (List.length keep + kk)%nat /\ okmat N L' Z' /\ okmat D L' U' /\
    (forall n', (n' < N)%nat -> n' <> n -> row Z' n' = regroup keep (row Z_ n') (repeat (-1)%Z kk)) /\
    row Z' n = zs ++ repeat 1%Z kk /\ List.length zs = List.length keep /\ zs = map (fun l => nth l (row Z1 n) 0%Z) keep /\
    (forall d, (d < D)%nat -> exists us, List.length us = kk /\ row U' d = regroup keep (row U d) us).
  Proof.
    destruct Z1_ok as [HZ1 HR1].
    assert (HZ2 : okmat N (List.length keep) (take_cols keep Z1)) by (apply (take_ok keep N L); [exact HZ1|apply keep_lt]).
    assert (HU2 : okmat D (List.length keep) (take_cols keep U)) by (apply (take_ok keep D L); [exact HU|apply keep_lt]).
    assert (NZ1 : List.length Z1 = N) by apply HZ1. assert (NU : List.length U = D) by apply HU.
    assert (NZ2 : List.length (take_cols keep Z1) = N) by apply HZ2. assert (NU2 : List.length (take_cols keep U) = D) by apply HU2.
    assert (RZ : forall n', (n' < N)%nat -> n' <> n -> row (take_cols keep Z1) n' = map (fun l => nth l (row Z_ n') 0%Z) keep).
    { intros n' Hn' Hne. etransitivity; [apply row_take; unfold mat, vec in *; rewrite NZ1; exact Hn'|]. rewrite HR1 by exact Hne. reflexivity. }
    assert (Ezs : zs = map (fun l => nth l (row Z1 n) 0%Z) keep).
    { etransitivity; [apply row_take; unfold mat, vec in *; rewrite NZ1; exact Hn|reflexivity]. }
    assert (Lzs : List.length zs = List.length keep) by (rewrite Ezs; apply map_length).
    assert (RU : forall d, (d < D)%nat -> row (take_cols keep U) d = map (fun l => nth l (row U d) 0%Z) keep).
    { intros d Hd. etransitivity; [apply row_take; unfold mat, vec in *; rewrite NU; exact Hd|reflexivity]. }
    unfold ibp_row. cbv zeta. fold m. fold keep. fold Z1. fold zs. fold kk.
    destruct (Nat.ltb_spec 0 kk) as [Hk|Hk].
    - set (Z3 := map (fun r => r ++ repeat (-1)%Z kk) (take_cols keep Z1)). set (Z4 := upd Z3 n (zs ++ repeat 1%Z kk)).
      assert (Hext : forall M (A : mat), okmat M (List.length keep) A -> okmat M (List.length keep + kk) (map (fun r => r ++ repeat (-1)%Z kk) A)).
      { intros M A [[H1 H2] H3]. split; [split; [rewrite map_length; exact H1|]|].
        - apply Forall_map. eapply Forall_impl; [|exact H2]. intros r Hr. cbn. rewrite app_length, repeat_length. rewrite Hr. reflexivity.
        - unfold bin2. apply Forall_map. eapply Forall_impl; [|exact H3]. intros r Hr. apply Forall_app. split; [exact Hr|]. apply Forall_forall. intros y Hy. apply repeat_spec in Hy. subst y. unfold pm1. auto. }
      pose proof (Hext N _ HZ2) as HZ3. fold Z3 in HZ3. pose proof (Hext D _ HU2) as HU3.
      assert (NZ3 : List.length Z3 = N) by apply HZ3.
      assert (HZ4 : okmat N (List.length keep + kk) Z4).
      { destruct HZ3 as [[H1 H2] H3]. split; [split|].
        - unfold Z4. rewrite upd_length. exact H1.
        - apply Forall_upd; [exact H2|]. rewrite app_length, repeat_length, Lzs. reflexivity.
        - apply Forall_upd; [exact H3|]. apply Forall_app. split; [apply (bin2_row _ n (proj2 HZ2))|]. apply Forall_forall. intros y Hy. apply repeat_spec in Hy. subst y. unfold pm1. auto. }
      destruct (features_ok Z4 X lbda D (List.length keep) kk (du w) (seq 0 D) (seq (List.length keep) kk) (map (fun r => r ++ repeat (-1)%Z kk) (take_cols keep U)) HU3) as [HU4 HF].
      { intros l Hl. apply in_seq in Hl. lia. }
      split; [reflexivity|]. split; [exact HZ4|]. split; [exact HU4|]. split; [|split; [|split; [exact Lzs|split; [exact Ezs|]]]].
      + intros n' Hn' Hne. unfold Z4, row. etransitivity; [apply nth_upd_other; congruence|]. unfold Z3.
        etransitivity; [exact (nth_map_lt (fun r => r ++ repeat (-1)%Z kk) (take_cols keep Z1) n' [] [] ltac:(unfold mat, vec in *; rewrite NZ2; exact Hn'))|].
        unfold regroup. f_equal. exact (RZ n' Hn' Hne).
      + unfold Z4, row. apply nth_upd_same. unfold mat, vec in *. rewrite NZ3. exact Hn.
      + intros d Hd. match type of HU4 with okmat _ _ ?u => set (U4 := u) in * end.
        exists (skipn (List.length keep) (row U4 d)).
        assert (LR : List.length (row U4 d) = (List.length keep + kk)%nat) by (apply (shape2_row U4 D _ d (proj1 HU4) Hd)).
        split; [unfold vec in *; rewrite skipn_length; lia|]. unfold ibp_new_features. fold U4. unfold regroup.
        transitivity (firstn (List.length keep) (row U4 d) ++ skipn (List.length keep) (row U4 d)); [symmetry; apply firstn_skipn|]. f_equal.
        apply (rows_ext_eq _ _ (List.length keep)); [unfold vec in *; rewrite firstn_length; lia|apply map_length|].
        intros i Hi. assert (E : nth i (firstn (List.length keep) (row U4 d)) 0%Z = nth i (row U4 d) 0%Z).
        { rewrite <- (firstn_skipn (List.length keep) (row U4 d)) at 2. symmetry. apply app_nth1. unfold vec in *. rewrite firstn_length. lia. }
        rewrite E. etransitivity; [exact (HF d i Hi)|]. unfold at2, at1.
        assert (E2 : row (map (fun r => r ++ repeat (-1)%Z kk) (take_cols keep U)) d = map (fun l => nth l (row U d) 0%Z) keep ++ repeat (-1)%Z kk).
        { unfold row at 1. etransitivity; [exact (nth_map_lt (fun r => r ++ repeat (-1)%Z kk) (take_cols keep U) d [] [] ltac:(unfold mat, vec in *; rewrite NU2; exact Hd))|]. f_equal. exact (RU d Hd). }
        rewrite E2. apply app_nth1. rewrite map_length. exact Hi.
    - assert (E : kk = 0%nat) by lia. rewrite E. rewrite Nat.add_0_r. cbn [repeat]. split; [reflexivity|]. split; [exact HZ2|]. split; [exact HU2|].
      split; [|split; [|split; [exact Lzs|split; [exact Ezs|]]]].
      + intros n' Hn' Hne. unfold regroup. rewrite app_nil_r. exact (RZ n' Hn' Hne).
      + rewrite app_nil_r. reflexivity.
      + intros d Hd. exists []. split; [reflexivity|]. unfold regroup. rewrite app_nil_r. exact (RU d Hd).
  Qed.
End RowStep.
