(** Proofs for C68, C70 at the level of one row update, and C71. *)
From Coq Require Import Lra String Sorted.
From Verif Require Import Base BaseLemmas BaseR BaseRLemmas Spec SpecR Outputs OutputsProofs Scores ScoresProofs Sampling SamplingProofs Lambda HelpersProofs QLProofs2 Ibp SpecIbp IbpProofs IbpProofs2 IbpProofs3 IbpProofs4.
Local Open Scope R_scope.

Lemma C68_row_lemma out : is_output OR AND out -> forall X N D L n lbda q alpha Z_ U w L' Z' U',
  okmat N L Z_ -> okmat D L U -> has_shape2 X N D -> tern2 X -> (Z.of_nat D <= 32767)%Z -> (n < N)%nat ->
  ibp_row X N D lbda q alpha (L, Z_, U) n w = (L', Z', U') ->
  exists keep, StronglySorted lt keep /\ (forall l, In l keep <-> (l < L)%nat /\ used_elsewhere Z_ N n l) /\ (List.length keep <= L')%nat /\
    forall i, (i < List.length keep)%nat -> at2 Z' n i = at2 (gibbs_row out lbda X N D L U n (dz w) Z_) n (nth i keep 0%nat).
Proof.
  intros Ho X N D L n lbda q alpha Z_ U w L' Z' U' HZ HU HX TX HD Hn E. pose proof (row_step X N D L n lbda q alpha Z_ U w HZ HU Hn) as H. rewrite E in H.
  destruct H as (EL & _ & _ & _ & HR & Lz & Ez & _). rewrite (C68_lemma out lbda X N D L Z_ U n (dz w)) in Ez, HR, Lz by assumption.
  set (keep := filter (fun l => Nat.ltb 0 (used_by_others Z_ N n l)) (seq 0 L)) in *. exists keep. split; [apply keep_sorted|]. split; [apply keep_used|]. split; [lia|].
  intros i Hi. unfold at2 at 1, at1 at 1. rewrite HR. rewrite app_nth1 by (unfold vec in *; rewrite Lz; exact Hi). rewrite Ez. apply (nth_map2 (fun l => nth l (row (gibbs_row out lbda X N D L U n (dz w) Z_) n) 0%Z)). exact Hi.
Qed.

Lemma C70_row_lemma out : is_output OR AND out -> forall X N D L n lbda q alpha Z_ U w L' Z' U',
  okmat N L Z_ -> okmat D L U -> has_shape2 X N D -> tern2 X -> (Z.of_nat N <= 32767)%Z -> (n < N)%nat ->
  ibp_row X N D lbda q alpha (L, Z_, U) n w = (L', Z', U') ->
  exists keep k, StronglySorted lt keep /\ (forall l, In l keep <-> (l < L)%nat /\ used_elsewhere Z_ N n l) /\ L' = (List.length keep + k)%nat /\
    U' = gibbs_cells (fun U'' => lik2 out lbda X N D L' Z' U'') (du w) (flat_map (fun l => map (fun d => (d, l)) (seq 0 D)) (seq (List.length keep) k))
           (map (fun r => regroup keep r (repeat (-1)%Z k)) U).
Proof.
  intros Ho X N D L n lbda q alpha Z_ U w L' Z' U' HZ HU HX TX HN Hn E. pose proof (row_step X N D L n lbda q alpha Z_ U w HZ HU Hn) as H. rewrite E in H.
  destruct H as (EL & HZ' & HU' & _ & _ & _ & _ & _).
  set (keep := filter (fun l => Nat.ltb 0 (used_by_others Z_ N n l)) (seq 0 L)) in *. match type of EL with _ = (_ + ?k)%nat => set (kk := k) in * end.
  exists keep, kk. split; [apply keep_sorted|]. split; [apply keep_used|]. split; [exact EL|].
  unfold ibp_row in E. cbv zeta in E. fold keep in E. fold kk in E.
  assert (EM : forall k, map (fun r => r ++ repeat (-1)%Z k) (take_cols keep U) = map (fun r => regroup keep r (repeat (-1)%Z k)) U) by (intros k; unfold take_cols; rewrite map_map; reflexivity).
  destruct (Nat.ltb_spec 0 kk) as [Hk|Hk].
  - injection E as <- <- <-. rewrite EM. apply C70_lemma; try assumption; try lia.
    rewrite <- EM. destruct HU as [[H1 H2] H3]. assert (HU2 : okmat D (List.length keep) (take_cols keep U)). { apply (take_ok keep D L); [split; [split|]; assumption|]. intros l Hl. apply filter_In in Hl. apply in_seq0, Hl. }
    destruct HU2 as [[G1 G2] G3]. split; [split; [rewrite map_length; exact G1|]|].
    + apply Forall_map. eapply Forall_impl; [|exact G2]. intros r Hr. cbn. rewrite app_length, repeat_length. rewrite Hr. reflexivity.
    + unfold bin2. apply Forall_map. eapply Forall_impl; [|exact G3]. intros r Hr. apply Forall_app. split; [exact Hr|]. apply Forall_forall. intros y Hy. apply repeat_spec in Hy. subst y. unfold pm1. auto.
  - assert (E0 : kk = 0%nat) by lia. injection E as <- <- <-. rewrite E0. cbn [seq flat_map]. unfold gibbs_cells. cbn [fold_left]. rewrite <- EM. cbn [repeat]. symmetry. etransitivity; [|apply map_id]. apply map_ext. intros r. apply app_nil_r.
Qed.

Lemma gibbs_cells_ext (w w' : mat -> R) r cs D L : (forall Uc d l, okmat D L Uc -> In (d, l) cs -> w (set2 Uc d l 1) / (w (set2 Uc d l 1) + w (set2 Uc d l (-1))) = w' (set2 Uc d l 1) / (w' (set2 Uc d l 1) + w' (set2 Uc d l (-1)))) ->
  forall U, okmat D L U -> gibbs_cells w r cs U = gibbs_cells w' r cs U.
Proof.
  unfold gibbs_cells. induction cs as [|[d l] cs IH]; intros H U HU; [reflexivity|]. cbn [fold_left]. rewrite (H U d l HU (or_introl eq_refl)). apply IH; [intros; apply H; [assumption|right; assumption]|].
  apply okmat_set; [exact HU|]. destruct (Rltb _ _); unfold pm1; auto.
Qed.
Lemma prior_half D L U : prior (1 / 2) D L U = Rprod (fun _ => Rprod (fun _ => 1 / 2) (seq 0 L)) (seq 0 D).
Proof. unfold prior. apply Rprod_ext. intros d _. apply Rprod_ext. intros l _. destruct (_ =? 1)%Z; lra. Qed.
Lemma regroup_ok keep D L k U : okmat D L U -> (forall l, In l keep -> (l < L)%nat) -> okmat D (List.length keep + k) (map (fun r => regroup keep r (repeat (-1)%Z k)) U).
Proof.
  intros HU HK. destruct (take_ok keep D L U HU HK) as [[G1 G2] G3].
  replace (map (fun r => regroup keep r (repeat (-1)%Z k)) U) with (map (fun r => r ++ repeat (-1)%Z k) (take_cols keep U)) by (unfold take_cols; rewrite map_map; reflexivity).
  split; [split; [rewrite map_length; exact G1|]|].
  - apply Forall_map. eapply Forall_impl; [|exact G2]. intros r Hr. cbn. rewrite app_length, repeat_length. rewrite Hr. reflexivity.
  - unfold bin2. apply Forall_map. eapply Forall_impl; [|exact G3]. intros r Hr. apply Forall_app. split; [exact Hr|]. apply Forall_forall. intros y Hy. apply repeat_spec in Hy. subst y. unfold pm1. auto.
Qed.
Lemma C70_partial_lemma out : is_output OR AND out -> forall X N D L n lbda q alpha Z_ U w L' Z' U',
  okmat N L Z_ -> okmat D L U -> has_shape2 X N D -> tern2 X -> (Z.of_nat N <= 32767)%Z -> (n < N)%nat -> q = 1 / 2 ->
  ibp_row X N D lbda q alpha (L, Z_, U) n w = (L', Z', U') ->
  exists keep k, StronglySorted lt keep /\ (forall l, In l keep <-> (l < L)%nat /\ used_elsewhere Z_ N n l) /\ L' = (List.length keep + k)%nat /\
    U' = gibbs_cells (fun U'' => lik2 out lbda X N D L' Z' U'' * prior q D L' U'') (du w) (flat_map (fun l => map (fun d => (d, l)) (seq 0 D)) (seq (List.length keep) k))
           (map (fun r => regroup keep r (repeat (-1)%Z k)) U).
Proof.
  intros Ho X N D L n lbda q alpha Z_ U w L' Z' U' HZ HU HX TX HN Hn Hq E.
  destruct (C70_row_lemma out Ho X N D L n lbda q alpha Z_ U w L' Z' U' HZ HU HX TX HN Hn E) as (keep & k & H1 & H2 & H3 & H4). exists keep, k. split; [exact H1|]. split; [exact H2|]. split; [exact H3|].
  rewrite H4. apply (gibbs_cells_ext _ _ _ _ D L').
  - intros Uc d l _ _. subst q. rewrite !prior_half. set (c := Rprod _ _). assert (Hc : 0 < c) by (unfold c; apply Rprod_pos; intros; apply Rprod_pos; intros; lra).
    pose proof (lik2_pos out lbda X N D L' Z' (set2 Uc d l 1)). pose proof (lik2_pos out lbda X N D L' Z' (set2 Uc d l (-1))). field. repeat split; apply Rgt_not_eq; nra.
  - rewrite H3. apply (regroup_ok keep D L k U HU). intros l Hl. apply H2. exact Hl.
Qed.

(** One object, one feature, no observed data, prior 1/10: the draw 1/4 sets the new feature bit. *)
Lemma C70_refuted_lemma out : is_output OR AND out -> exists X Z_ U w,
  okmat 1 0 Z_ /\ okmat 1 0 U /\ has_shape2 X 1 1 /\ tern2 X /\ SpecR.is_draw (dk w) /\
  ibp_row X 1 1 1 (1 / 10) 1 (0%nat, Z_, U) 0 w = (1%nat, [[1%Z]], [[1%Z]]) /\
  gibbs_cells (fun U'' => lik2 out 1 X 1 1 1 [[1%Z]] U'' * prior (1 / 10) 1 1 U'') (du w) [(0%nat, 0%nat)] [[(-1)%Z]] = [[(-1)%Z]].
Proof.
  intros Ho. pose (w := {| dz := fun _ => 0; dk := 1 / 2; du := fun _ _ => 1 / 4 |}).
  exists [[0%Z]], [[]], [[]], w.
  assert (HZ : okmat 1 0 [[]]) by (split; [split; [reflexivity|repeat constructor]|unfold bin2, bin1, pm1; repeat (apply Forall_nil || apply Forall_cons); auto]).
  assert (HX : has_shape2 [[0%Z]] 1 1) by (split; [reflexivity|repeat constructor]).
  assert (TX : tern2 [[0%Z]]) by (unfold tern2, tern1, tern; repeat (apply Forall_nil || apply Forall_cons); auto).
  assert (HD : SpecR.is_draw (dk w)) by (unfold SpecR.is_draw; cbn; lra).
  assert (HL : forall U'', lik2 out 1 [[0%Z]] 1 1 1 [[1%Z]] U'' = 1 / 2).
  { intros U''. unfold lik2, Rprod. cbn [seq fold_right]. unfold at2, at1, row. cbn [nth]. rewrite Rmult_0_r, Rmult_0_l. unfold sigma. rewrite Ropp_0, exp_0. lra. }
  split; [exact HZ|]. split; [exact HZ|]. split; [exact HX|]. split; [exact TX|]. split; [exact HD|]. split.
  - destruct (ibp_row [[0%Z]] 1 1 1 (1 / 10) 1 (0%nat, [[]], [[]]) 0 w) as [[L' Z'] U'] eqn:E.
    destruct (C69_row_lemma _ 1 1 0 0 1 (1 / 10) 1 _ _ w L' Z' U' HZ HZ HX TX ltac:(lia) ltac:(lra) ltac:(lra) HD E) as (keep & zs & k & lw & HS & HK & EL & HZ' & HU' & _ & Lz & HR & _ & (c & _ & Hc) & Hsel).
    assert (EK : keep = []) by (destruct keep as [|a keep]; [reflexivity|]; destruct (proj1 (HK a) (or_introl eq_refl)); lia). subst keep. destruct zs; [|discriminate]. cbn [List.length Nat.add app] in *. subst L'.
    assert (Ek : k = 1%nat).
    { destruct Hsel as (K2 & S1 & S2). assert (W : forall j, poisson (1 / INR 1) j * lw j = exp (Ropp 1) * / INR (fact j)).
      { intros j. rewrite Hc. unfold Rprod, row. cbn [seq fold_right nth]. rewrite orb_true_r. unfold poisson. replace (1 / INR 1) with 1 by (cbn; lra). rewrite pow1. unfold Rdiv. ring. }
      rewrite !(Rsum_ext (fun j => poisson (1 / INR 1) j * lw j) (fun j => exp (Ropp 1) * / INR (fact j))) in S1, S2 by (intros; apply W). rewrite !Rsum_scale in S1, S2. pose proof (exp_pos (Ropp 1)) as EP. unfold w in S1, S2. cbn [dk] in *.
      assert (S1' : Rsum (fun i => / INR (fact i)) (seq 0 k) <= 1 / 2 * Rsum (fun i => / INR (fact i)) (seq 0 3)) by (apply (Rmult_le_reg_l (exp (Ropp 1))); [exact EP|lra]).
      assert (S2' : 1 / 2 * Rsum (fun i => / INR (fact i)) (seq 0 3) < Rsum (fun i => / INR (fact i)) (seq 0 (S k))) by (apply (Rmult_lt_reg_l (exp (Ropp 1))); [exact EP|lra]).
      clear - K2 S1' S2'. destruct k as [|[|[|k]]]; [|reflexivity| |lia]; unfold Rsum in *; cbn in S1', S2'; exfalso; lra. }
    subst k. destruct HZ' as [[HZl HZr] _]. destruct Z' as [|z0 [|]]; try discriminate. unfold row in HR. cbn in HR. subst z0.
    destruct (C70_row_lemma out Ho _ 1 1 0 0 1 (1 / 10) 1 _ _ w _ _ _ HZ HZ HX TX ltac:(cbn; lia) ltac:(lia) E) as (keep & k & _ & HK' & EL' & EU).
    assert (EK : keep = []) by (destruct keep as [|a keep]; [reflexivity|]; destruct (proj1 (HK' a) (or_introl eq_refl)); lia). subst keep. cbn [List.length Nat.add] in EL'. subst k.
    etransitivity; [exact E|]. f_equal. rewrite EU. unfold gibbs_cells, regroup. cbn [seq flat_map map app fold_left repeat List.length]. rewrite !HL. unfold w. cbn [du]. destruct (Rltb_spec (1 / 4) (1 / 2 / (1 / 2 + 1 / 2))) as [H|H]; [reflexivity|lra].
  - unfold gibbs_cells. cbn [fold_left]. rewrite !HL. unfold prior, Rprod, at2, at1, row, set2. cbn. destruct (Rltb_spec (1 / 4) (1 / 2 * (1 / 10 * 1 * 1) / (1 / 2 * (1 / 10 * 1 * 1) + 1 / 2 * ((1 - 1 / 10) * 1 * 1)))) as [H|H]; [lra|reflexivity].
Qed.

(** * C71 *)
Lemma p0_pos lg : 0 < p_L_new lg 0.
Proof. rewrite p_L_new_eq. pose proof (exp_pos (lg 0%nat)). pose proof (exp_pos (lg 1%nat)). pose proof (exp_pos (lg 2%nat)). apply Rdiv_lt_0_compat; lra. Qed.
Lemma C71_refuted_lemma X lbda q alpha w fA fB sf : dk (w 0%nat) = 0 -> IBP_sampler [[1%Z]] [[1%Z]] fA fB X sf lbda q alpha w = ([[]], [[]]).
Proof.
  intros H. unfold IBP_sampler, sample_2d_IBP. cbn [nrows List.length seq fold_left ncols hd]. unfold ibp_row. cbv zeta. rewrite H.
  match goal with |- context [choose_L_new (p_L_new ?lg) 0] => replace (choose_L_new (p_L_new lg) 0) with 0%nat end; [reflexivity|].
  unfold choose_L_new. destruct (Rltb_spec 0 (p_L_new (log_L_new lbda q (match alpha with Some a => a | None => 3 end) 1 0 (tn_count [] [[]] (row X 0) 1) (fn_count [] [[]] (row X 0) 1)) 0)) as [G|G]; [|pose proof (p0_pos (log_L_new lbda q (match alpha with Some a => a | None => 3 end) 1 0 (tn_count [] [[]] (row X 0) 1) (fn_count [] [[]] (row X 0) 1))); lra].
  match goal with |- _ = (if ?b then _ else _) => change b with (Rltb 0 (p_L_new (log_L_new lbda q (match alpha with Some a => a | None => 3 end) 1 0 (tn_count [] [[]] (row X 0) 1) (fn_count [] [[]] (row X 0) 1)) 0)) end.
  destruct (Rltb_spec 0 (p_L_new (log_L_new lbda q (match alpha with Some a => a | None => 3 end) 1 0 (tn_count [] [[]] (row X 0) 1) (fn_count [] [[]] (row X 0) 1)) 0)) as [G'|G']; [reflexivity|lra].
Qed.
