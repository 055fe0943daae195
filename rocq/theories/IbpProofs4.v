(** Proofs for C69: the number of new columns. *)
From Coq Require Import Lra String Sorted.
From Verif Require Import Base BaseLemmas BaseR BaseRLemmas Spec SpecR Outputs OutputsProofs Scores ScoresProofs Sampling SamplingProofs Lambda HelpersProofs QLProofs2 Ibp SpecIbp IbpProofs IbpProofs2 IbpProofs3.
Local Open Scope R_scope.

Lemma p_L_new_eq lg k : p_L_new lg k = exp (lg k) / (exp (lg 0%nat) + exp (lg 1%nat) + exp (lg 2%nat)).
Proof.
  unfold p_L_new. set (mx := Rmax _ _). unfold Rminus. rewrite !exp_plus. pose proof (exp_pos (- mx)). pose proof (exp_pos (lg 0%nat)). pose proof (exp_pos (lg 1%nat)). pose proof (exp_pos (lg 2%nat)).
  field. split; [lra|]. replace (exp (lg 0%nat) * exp (- mx) + exp (lg 1%nat) * exp (- mx) + exp (lg 2%nat) * exp (- mx)) with ((exp (lg 0%nat) + exp (lg 1%nat) + exp (lg 2%nat)) * exp (- mx)) by ring.
  apply Rgt_not_eq. apply Rmult_lt_0_compat; lra.
Qed.
Lemma choose_selects lg u : SpecR.is_draw u -> selects3 (fun k => exp (lg k)) u (choose_L_new (p_L_new lg) u).
Proof.
  intros [H0 H1]. unfold choose_L_new, selects3. rewrite !p_L_new_eq.
  pose proof (exp_pos (lg 0%nat)) as P0. pose proof (exp_pos (lg 1%nat)) as P1. pose proof (exp_pos (lg 2%nat)) as P2. set (a := exp (lg 0%nat)) in *. set (b := exp (lg 1%nat)) in *. set (c := exp (lg 2%nat)) in *.
  assert (D : forall x, u < x / (a + b + c) <-> u * (a + b + c) < x).
  { intros x. split; intros H.
    - apply (Rmult_lt_compat_r (a + b + c)) in H; [|lra]. unfold Rdiv in H. rewrite Rmult_assoc, Rinv_l in H by lra. lra.
    - apply (Rmult_lt_reg_r (a + b + c)); [lra|]. unfold Rdiv. rewrite Rmult_assoc, Rinv_l by lra. lra. }
  destruct (Rltb_spec u (a / (a + b + c))) as [H|H]; rewrite D in H.
  - split; [lia|]. unfold Rsum. cbn [seq fold_right]. fold a b c. rewrite !Rplus_0_r. split; [apply Rmult_le_pos; lra|lra].
  - replace (a / (a + b + c) + b / (a + b + c)) with ((a + b) / (a + b + c)) by (field; lra). destruct (Rltb_spec u ((a + b) / (a + b + c))) as [G|G]; rewrite D in G; (split; [lia|]); unfold Rsum; cbn [seq fold_right]; fold a b c; rewrite !Rplus_0_r.
    + lra.
    + split; [lra|]. rewrite <- (Rmult_1_l (a + (b + c))) at 2. apply Rmult_lt_compat_r; lra.
Qed.
Lemma selects3_ext w w' u k : (forall i, w i = w' i) -> selects3 w u k -> selects3 w' u k.
Proof. intros H (H1 & H2 & H3). split; [exact H1|]. rewrite <- !(Rsum_ext w w') by auto. auto. Qed.
Lemma selects3_scale c w u k : 0 < c -> selects3 (fun i => c * w i) u k -> selects3 w u k.
Proof. intros Hc (H1 & H2 & H3). split; [exact H1|]. rewrite !Rsum_scale in H2, H3. split; [apply (Rmult_le_reg_l c)|apply (Rmult_lt_reg_l c)]; lra. Qed.

Lemma count_prod (A B : nat -> bool) a b ls : (forall d, A d = true -> B d = false) ->
  Rprod (fun d => if A d then a else if B d then b else 1) ls = a ^ List.length (filter A ls) * b ^ List.length (filter B ls).
Proof.
  intros H. induction ls as [|d ls IH]; [cbn; lra|]. unfold Rprod in *. cbn [fold_right filter]. rewrite IH. destruct (A d) eqn:EA.
  - rewrite (H d EA). cbn [List.length pow]. ring.
  - destruct (B d); cbn [List.length pow]; ring.
Qed.
Lemma Rprod_ext {A} (f g : A -> R) ls : (forall i, In i ls -> f i = g i) -> Rprod f ls = Rprod g ls.
Proof. induction ls as [|a ls IH]; intros H; [reflexivity|]. unfold Rprod in *. cbn [fold_right]. rewrite (H a (or_introl eq_refl)), IH; [reflexivity|]. intros; apply H; right; assumption. Qed.

Section Weights.
  Context (lbda q alpha : R) (N D L2 : nat) (z : vec) (U : mat) (x : vec).
  Context (HU : has_shape2 U D L2) (Lz : List.length z = L2) (Hx : tern1 x) (Lx : List.length x = D) (Hq : 0 < q < 1) (Ha : 0 < alpha) (HN : (0 < N)%nat).
  Let c d := negb (at1 (OR_AND_single_n z U) d =? -1)%Z.
  Lemma single_at d : (d < D)%nat -> at1 (OR_AND_single_n z U) d = OR_AND_product z (row U d).
  Proof.
    intros Hd. unfold OR_AND_single_n, at1. rewrite (shape2_nrows _ _ _ HU). etransitivity; [exact (nth_map_lt (fun d => OR_AND_product z (row U d)) (seq 0 D) d 0%nat 0%Z ltac:(rewrite seq_length; exact Hd))|]. rewrite seq_nth by exact Hd. reflexivity.
  Qed.
  Lemma c_covered d : (d < D)%nat -> (c d = true <-> exists i, (i < L2)%nat /\ nth i z 0%Z = 1%Z /\ at2 U d i = 1%Z).
  Proof.
    intros Hd. unfold c. rewrite single_at by exact Hd. unfold OR_AND_product. rewrite any_loop_cnt. unfold vec in *. rewrite Lz.
    destruct (Nat.ltb_spec 0 (cnt (fun l => ((at1 z l =? 1) && (at1 (row U d) l =? 1))%Z) (seq 0 L2))) as [H|H].
    - apply cnt_pos in H. destruct H as (i & H1 & H2). apply in_seq0 in H1. apply andb_true_iff in H2. destruct H2 as [H2 H3]. split; [|reflexivity]. intros _. exists i. split; [exact H1|]. split; [apply Z.eqb_eq; exact H2|apply Z.eqb_eq; exact H3].
    - split; [discriminate|]. intros (i & H1 & H2 & H3). exfalso. apply (Nat.lt_irrefl 0). eapply Nat.lt_le_trans; [|exact H]. apply cnt_pos. exists i. split; [apply in_seq0; exact H1|]. unfold at1 at 1. rewrite H2. change (at1 (row U d) i) with (at2 U d i). rewrite H3. reflexivity.
  Qed.
  Lemma weights_eq k : exp (log_L_new lbda q alpha N L2 (tn_count z U x D) (fn_count z U x D) k) =
    poisson (alpha / INR N) (L2 + k) * Rprod (fun d => if c d || (nth d x 0 =? 0)%Z then 1 else marginal lbda (1 - q) k (nth d x 0%Z)) (seq 0 D).
  Proof.
    unfold log_L_new. destruct (C37_swapped_lemma lbda q k) as [-> ->]. rewrite C38_shifted_lemma by assumption. rewrite !exp_plus, Rmult_comm.
    assert (HP : 0 < poisson (alpha / INR N) (L2 + k)). { apply Rdiv_lt_0_compat; [|apply INR_fact_lt_0]. apply Rmult_lt_0_compat; [apply exp_pos|apply pow_lt]. apply Rdiv_lt_0_compat; [exact Ha|apply lt_0_INR; exact HN]. }
    rewrite exp_ln by exact HP. f_equal. pose proof (marginal_pos lbda (1 - q) k 1 ltac:(lra)) as M1. pose proof (marginal_pos lbda (1 - q) k (-1) ltac:(lra)) as M2.
    rewrite <- !ln_pow' by assumption. rewrite !exp_ln by (apply pow_lt; assumption).
    unfold tn_count, fn_count. rewrite <- count_prod.
    - apply Rprod_ext. intros d Hd. apply in_seq0 in Hd. unfold c.
      assert (Ht : tern (nth d x 0%Z)) by (unfold tern1 in Hx; rewrite Forall_forall in Hx; apply Hx; apply nth_In; unfold vec in *; lia).
      unfold at1 at 1 3. destruct (at1 (OR_AND_single_n z U) d =? -1)%Z; destruct Ht as [-> | [-> | ->]]; reflexivity.
    - intros d H. apply andb_true_iff in H. destruct H as [H1 H2]. apply Z.eqb_eq in H1. rewrite H1. reflexivity.
  Qed.
End Weights.

Lemma nth_map2 (f : nat -> Z) keep i : (i < List.length keep)%nat -> nth i (map f keep) 0%Z = f (nth i keep 0%nat).
Proof. intros H. exact (nth_map_lt f keep i 0%nat 0%Z H). Qed.

Lemma C69_row_lemma X N D L n lbda q alpha Z_ U w L' Z' U' :
  okmat N L Z_ -> okmat D L U -> has_shape2 X N D -> tern2 X -> (n < N)%nat -> 0 < q < 1 -> 0 < alpha -> SpecR.is_draw (dk w) ->
  ibp_row X N D lbda q alpha (L, Z_, U) n w = (L', Z', U') ->
  exists keep zs k lw,
    StronglySorted lt keep /\ (forall l, In l keep <-> (l < L)%nat /\ used_elsewhere Z_ N n l) /\
    L' = (List.length keep + k)%nat /\ okmat N L' Z' /\ okmat D L' U' /\
    (forall n', (n' < N)%nat -> n' <> n -> row Z' n' = regroup keep (row Z_ n') (repeat (-1)%Z k)) /\
    List.length zs = List.length keep /\ row Z' n = zs ++ repeat 1%Z k /\
    (forall d, (d < D)%nat -> exists us, List.length us = k /\ row U' d = regroup keep (row U d) us) /\
    new_columns_lik lbda (1 - q) (row X n) D (covered keep zs U) lw /\
    selects3 (fun j => poisson (alpha / INR N) (List.length keep + j) * lw j) (dk w) k.
Proof.
  intros HZ HU HX TX Hn Hq Ha Hd E. pose proof (row_step X N D L n lbda q alpha Z_ U w HZ HU Hn) as H. rewrite E in H.
  destruct H as (EL & HZ' & HU' & HO & HR & Lz & _ & HUr).
  set (keep := filter (fun l => Nat.ltb 0 (used_by_others Z_ N n l)) (seq 0 L)) in *.
  match type of HR with _ = ?a ++ repeat _ ?b => set (zs := a) in *; set (kk := b) in * end.
  assert (HU2 : has_shape2 (take_cols keep U) D (List.length keep)). { apply (take_ok keep D L U HU). intros l Hl. apply filter_In in Hl. apply in_seq0, Hl. }
  exists keep, zs, kk. eexists. split; [apply keep_sorted|]. split; [apply keep_used|]. split; [exact EL|]. split; [exact HZ'|]. split; [exact HU'|]. split; [exact HO|]. split; [exact Lz|]. split; [exact HR|]. split; [exact HUr|].
  assert (NU : List.length U = D) by apply HU. assert (NX : List.length X = N) by apply HX.
  split.
  - exists (fun d => negb (at1 (OR_AND_single_n zs (take_cols keep U)) d =? -1)%Z). split; [|intros j; reflexivity].
    intros d Hdd. rewrite (c_covered D (List.length keep) zs (take_cols keep U) HU2 Lz d Hdd). unfold covered.
    assert (RW : forall i, (i < List.length keep)%nat -> at2 (take_cols keep U) d i = at2 U d (nth i keep 0%nat)).
    { intros i Hi. unfold at2 at 1, at1 at 1. rewrite row_take by (unfold mat, vec in *; rewrite NU; exact Hdd). apply (nth_map2 (at1 (row U d))). exact Hi. }
    split; intros (i & H1 & H2 & H3); exists i; (split; [exact H1|]); (split; [exact H2|]); [rewrite <- RW by exact H1|rewrite RW by exact H1]; exact H3.
  - apply (selects3_ext (fun j => exp (log_L_new lbda q alpha N (List.length keep) (tn_count zs (take_cols keep U) (row X n) D) (fn_count zs (take_cols keep U) (row X n) D) j))).
    + intros j. apply weights_eq; try assumption; try lia.
      * unfold tern1. unfold tern2 in TX. rewrite Forall_forall in TX. apply TX. apply nth_In. unfold mat, vec in *. rewrite NX. exact Hn.
      * apply (shape2_row X N D n HX Hn).
    + apply choose_selects. exact Hd.
Qed.

Lemma C69_partial_lemma X N D L n lbda q alpha Z_ U w L' Z' U' :
  okmat N L Z_ -> okmat D L U -> has_shape2 X N D -> tern2 X -> (n < N)%nat -> q = 1 / 2 -> 0 < alpha -> SpecR.is_draw (dk w) ->
  (forall l, (l < L)%nat -> ~ used_elsewhere Z_ N n l) ->
  ibp_row X N D lbda q alpha (L, Z_, U) n w = (L', Z', U') ->
  exists lw, new_columns_lik lbda q (row X n) D (fun _ => False) lw /\ selects3 (fun j => poisson (alpha / INR N) j * lw j) (dk w) L'.
Proof.
  intros HZ HU HX TX Hn -> Ha Hd HNo E. destruct (C69_row_lemma X N D L n lbda (1 / 2) alpha Z_ U w L' Z' U' HZ HU HX TX Hn ltac:(lra) Ha Hd E) as (keep & zs & k & lw & _ & HK & EL & _ & _ & _ & _ & _ & _ & HL & HS).
  assert (EK : keep = []). { destruct keep as [|l keep]; [reflexivity|]. destruct (proj1 (HK l) (or_introl eq_refl)) as [H1 H2]. destruct (HNo l H1 H2). }
  subst keep. cbn [List.length Nat.add] in *. subst L'. exists lw. split; [|exact HS]. destruct HL as (c & H1 & H2). exists c. split.
  - intros d Hdd. rewrite (H1 d Hdd). split; [intros (i & Hi & _); cbn in Hi; lia|intros []].
  - intros j. rewrite H2. replace (1 - 1 / 2) with (1 / 2) by lra. reflexivity.
Qed.

(** Two rows sharing one column, no observed data, alpha = 2: with the draw 1/2 the IBP adds a column, the code none. *)
Lemma C69_refuted_lemma : exists X Z_ U w L' Z' U', okmat 2 1 Z_ /\ okmat 1 1 U /\ has_shape2 X 2 1 /\ tern2 X /\ (forall l, used_elsewhere Z_ 2 0 l <-> l = 0%nat) /\ SpecR.is_draw (dk w) /\
  ibp_row X 2 1 1 (1 / 2) 2 (1%nat, Z_, U) 0 w = (L', Z', U') /\
  (forall lw zs, new_columns_lik 1 (1 / 2) (row X 0) 1 (covered [0%nat] zs U) lw -> ~ selects3 (fun j => poisson (2 / INR 2) j * lw j) (dk w) (L' - 1)).
Proof.
  exists [[0%Z]; [0%Z]], [[1%Z]; [1%Z]], [[1%Z]], {| dz := fun _ => 0; dk := 1 / 2; du := fun _ _ => 0 |}.
  destruct (ibp_row [[0%Z]; [0%Z]] 2 1 1 (1 / 2) 2 (1%nat, [[1%Z]; [1%Z]], [[1%Z]]) 0 {| dz := fun _ => 0; dk := 1 / 2; du := fun _ _ => 0 |}) as [[L' Z'] U'] eqn:E.
  exists L', Z', U'.
  assert (HZ : okmat 2 1 [[1%Z]; [1%Z]]) by (split; [split; [reflexivity|repeat constructor]|unfold bin2, bin1, pm1; repeat (apply Forall_nil || apply Forall_cons); auto]).
  assert (HU : okmat 1 1 [[1%Z]]) by (split; [split; [reflexivity|repeat constructor]|unfold bin2, bin1, pm1; repeat (apply Forall_nil || apply Forall_cons); auto]).
  assert (HX : has_shape2 [[0%Z]; [0%Z]] 2 1) by (split; [reflexivity|repeat constructor]).
  assert (TX : tern2 [[0%Z]; [0%Z]]) by (unfold tern2, tern1, tern; repeat (apply Forall_nil || apply Forall_cons); auto).
  assert (HD : SpecR.is_draw (1 / 2)) by (unfold SpecR.is_draw; lra).
  assert (HUs : forall l, used_elsewhere [[1%Z]; [1%Z]] 2 0 l <-> l = 0%nat).
  { intros l. split; [intros (n' & H1 & H2 & H3); destruct n' as [|[|n']]; try lia; destruct l as [|l]; [reflexivity|]; unfold at2, at1, row in H3; cbn in H3; destruct l; discriminate|intros ->; exists 1%nat; repeat split; lia]. }
  split; [exact HZ|]. split; [exact HU|]. split; [exact HX|]. split; [exact TX|]. split; [exact HUs|]. split; [exact HD|]. split; [exact E|].
  destruct (C69_row_lemma _ 2 1 1 0 1 (1 / 2) 2 _ _ {| dz := fun _ => 0; dk := 1 / 2; du := fun _ _ => 0 |} L' Z' U' HZ HU HX TX ltac:(lia) ltac:(lra) ltac:(lra) HD E) as (keep & zs & k & lw & HS & HK & EL & _ & _ & _ & _ & _ & _ & HL & Hsel).
  assert (EK : keep = [0%nat]).
  { assert (HI : forall l, In l keep <-> l = 0%nat) by (intros l; rewrite HK, HUs; lia). destruct keep as [|a [|b keep]].
    - destruct (proj2 (HI 0%nat) eq_refl).
    - rewrite (proj1 (HI a) (or_introl eq_refl)). reflexivity.
    - exfalso. inversion HS as [|? ? _ HF]; subst. inversion HF; subst. rewrite (proj1 (HI a) (or_introl eq_refl)), (proj1 (HI b) (or_intror (or_introl eq_refl))) in H1. lia. }
  subst keep. cbn [List.length] in EL, Hsel. subst L'. replace (1 + k - 1)%nat with k by lia.
  assert (W1 : forall q cov lw', new_columns_lik 1 q (row [[0%Z]; [0%Z]] 0) 1 cov lw' -> forall j, lw' j = 1).
  { intros q cov lw' (c & _ & H) j. rewrite H. unfold Rprod, row. cbn [seq fold_right nth]. rewrite orb_true_r. lra. }
  intros lw' zs' HL' Hsel'.
  destruct Hsel as (K2 & S1 & S2). destruct Hsel' as (_ & T1 & T2).
  rewrite !(Rsum_ext (fun j => poisson (2 / INR 2) (1 + j) * lw j) (fun j => exp (Ropp 1) * / INR (fact (1 + j)))) in S1, S2 by (intros j _; rewrite (W1 _ _ _ HL j); unfold poisson; replace (2 / INR 2) with 1 by (cbn; lra); rewrite pow1; unfold Rdiv; ring).
  rewrite !(Rsum_ext (fun j => poisson (2 / INR 2) j * lw' j) (fun j => exp (Ropp 1) * / INR (fact j))) in T1, T2 by (intros j _; rewrite (W1 _ _ _ HL' j); unfold poisson; replace (2 / INR 2) with 1 by (cbn; lra); rewrite pow1; unfold Rdiv; ring).
  rewrite !Rsum_scale in S1, S2, T1, T2. pose proof (exp_pos (Ropp 1)) as EP. cbn [dk] in *.
  assert (S1' : Rsum (fun i => / INR (fact (1 + i))) (seq 0 k) <= 1 / 2 * Rsum (fun i => / INR (fact (1 + i))) (seq 0 3)) by (apply (Rmult_le_reg_l (exp (Ropp 1))); [exact EP|lra]).
  assert (T2' : 1 / 2 * Rsum (fun i => / INR (fact i)) (seq 0 3) < Rsum (fun i => / INR (fact i)) (seq 0 (S k))) by (apply (Rmult_lt_reg_l (exp (Ropp 1))); [exact EP|lra]).
  clear - K2 S1' T2'. destruct k as [|[|[|k]]]; [| | |lia]; unfold Rsum in *; cbn in S1', T2'; lra.
Qed.
