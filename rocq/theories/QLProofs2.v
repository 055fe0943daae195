(** Proofs for C67: the threshold update of the qL-AND model. *)
From Coq Require Import Lra.
From Verif Require Import Base BaseLemmas BaseR BaseRLemmas Spec SpecR Outputs OutputsProofs Scores ScoresProofs Sampling SamplingProofs LambdaProofs Helpers SpecHelpers HelpersProofs QL SpecQL QLProofs.
Local Open Scope R_scope.

Definition ones (N D : nat) : mat := repeat (repeat 1%Z D) N.
Lemma ones_at N D n d : (n < N)%nat -> (d < D)%nat -> at2 (ones N D) n d = 1%Z.
Proof. intros Hn Hd. unfold at2, at1, row, ones. rewrite (nth_indep _ [] (repeat 1%Z D)) by (rewrite repeat_length; exact Hn). rewrite nth_repeat. rewrite (nth_indep _ 0%Z 1%Z) by (rewrite repeat_length; exact Hd). apply nth_repeat. Qed.

Lemma dot_cnt (z u : nat -> Z) ls : (forall l, In l ls -> pm1 (z l) /\ pm1 (u l)) ->
  Rsum (fun l => (IZR (z l) + 1) / 2 * ((IZR (u l) + 1) / 2)) ls = INR (cnt (fun l => ((z l =? 1) && (u l =? 1))%Z) ls).
Proof.
  induction ls as [|l ls IH]; intros H; [reflexivity|]. rewrite Rsum_cons, cnt_cons, plus_INR, IH by (intros; apply H; right; assumption).
  destruct (H l (or_introl eq_refl)) as [[-> | ->] [-> | ->]]; cbn [Z.eqb Pos.eqb andb INR]; lra.
Qed.
Lemma true_predictions_spec Z_ U N D L d k : okmat N L Z_ -> okmat D L U -> (d < D)%nat ->
  true_predictions Z_ U d k = cnt (fun n => q_b (Z.of_nat k) (row Z_ n) (row U d) L) (seq 0 N).
Proof.
  intros [HZ BZ] [HU BU] Hd. unfold true_predictions, cnt. rewrite (shape2_nrows _ _ _ HZ). f_equal. apply filter_ext_in. intros n Hn. apply in_seq0 in Hn.
  rewrite (shape2_ncols _ _ _ HZ) by lia. rewrite (dot_cnt (at2 Z_ n) (at2 U d)).
  - unfold q_b, both. fold (at2 Z_ n). fold (at2 U d). unfold at2 at 1 2. set (c := cnt _ _).
    destruct (Rleb_spec (INR k) (INR c)) as [H|H]; symmetry; [apply Z.leb_le; apply INR_le in H; lia|apply Z.leb_gt; apply Rnot_le_lt, INR_lt in H; lia].
  - intros l Hl. apply in_seq0 in Hl. split; [eapply bin2_at; [exact HZ|exact BZ|exact Hn|exact Hl]|eapply bin2_at; [exact HU|exact BU|exact Hd|exact Hl]].
Qed.
Lemma ln_prod_count (b : nat -> bool) x y ls : 0 < x -> 0 < y ->
  Rsum (fun n => ln (if b n then x else y)) ls = INR (cnt b ls) * ln x + (INR (List.length ls) - INR (cnt b ls)) * ln y.
Proof.
  intros Hx Hy. induction ls as [|n ls IH]; [cbn; lra|]. rewrite Rsum_cons, cnt_cons, plus_INR, IH. cbn [List.length]. rewrite S_INR. destruct (b n); cbn [INR]; lra.
Qed.
Lemma q_weight_pos out lbda gamma X N L d A B k : 0 < gamma -> 0 < q_weight out lbda gamma X N L d A B k.
Proof.
  intros Hg. unfold q_weight. apply Rmult_lt_0_compat; [|apply Rprod_pos; intros; apply sigma_pos]. apply Rdiv_lt_0_compat; [|apply INR_fact_lt_0].
  apply Rmult_lt_0_compat; [apply exp_pos|apply pow_lt; exact Hg].
Qed.
Lemma ln_pow' x k : 0 < x -> ln (x ^ k) = INR k * ln x.
Proof. intros H. induction k as [|k IH]; [cbn; rewrite ln_1; lra|]. rewrite S_INR. cbn [pow]. rewrite ln_mult by (try apply pow_lt; exact H). rewrite IH. lra. Qed.
Lemma logcond_weight out Z_ U N D L d k lbda gamma : is_qout out -> okmat N L Z_ -> okmat D L U -> (d < D)%nat -> 0 < gamma ->
  qL_logconditional Z_ U N lbda gamma d k = ln (q_weight out lbda gamma (ones N D) N L d Z_ U (S k)) + INR N * (ln (1 + exp lbda) + ln (1 + exp (- lbda))).
Proof.
  intros Ho HZ HU Hd Hg. unfold qL_logconditional, q_weight. replace (k + 1)%nat with (S k) by lia. rewrite (true_predictions_spec Z_ U N D L d (S k) HZ HU Hd). set (t := cnt _ _).
  assert (HP : 0 < exp (- gamma) * gamma ^ S k) by (apply Rmult_lt_0_compat; [apply exp_pos|apply pow_lt; exact Hg]).
  rewrite ln_mult; [|apply Rdiv_lt_0_compat; [exact HP|apply INR_fact_lt_0]|apply Rprod_pos; intros; apply sigma_pos].
  rewrite ln_div by (try exact HP; apply INR_fact_lt_0). rewrite ln_mult by (try apply exp_pos; apply pow_lt; exact Hg). rewrite ln_exp, ln_pow' by exact Hg.
  rewrite ln_Rprod by (intros; apply sigma_pos).
  rewrite (Rsum_ext _ (fun n => ln (if q_b (Z.of_nat (S k)) (row Z_ n) (row U d) L then sigma lbda else sigma (- lbda)))).
  - rewrite ln_prod_count by apply sigma_pos. fold t. rewrite seq_length. unfold sigma. rewrite !ln_Rinv by apply sigma_den. rewrite Ropp_involutive. ring.
  - intros n Hn. apply in_seq0 in Hn. rewrite ones_at by assumption. rewrite (proj1 (q_output_b _ _ _ _ _) (Ho (Z.of_nat (S k)) (row Z_ n) (row U d) L)).
    f_equal. unfold sgn. destruct (q_b _ _ _ _); f_equal; ring.
Qed.
(** The normalised column. *)
Definition normal (w : nat -> R) : list R := map (fun k => w k / Rsum w (seq 1 5)) (seq 1 5).
Lemma normal_shift (lc : nat -> R) (w : nat -> R) C M : (forall k, 0 < w k) -> (forall k, lc k = ln (w (S k)) + C) ->
  let col := map (fun x => exp (x - M)) (map lc (seq 0 5)) in map (fun x => x / Rsum (fun x => x) col) col = normal w.
Proof.
  intros Hw Hl col. assert (E : forall k, exp (lc k - M) = exp (C - M) * w (S k)).
  { intros k. rewrite Hl. replace (ln (w (S k)) + C - M) with (C - M + ln (w (S k))) by ring. rewrite exp_plus, exp_ln by apply Hw. reflexivity. }
  subst col. unfold normal. cbn [seq map Rsum fold_right]. unfold Rsum. cbn [fold_right]. rewrite !E. pose proof (exp_pos (C - M)).
  pose proof (Hw 1%nat). pose proof (Hw 2%nat). pose proof (Hw 3%nat). pose proof (Hw 4%nat). pose proof (Hw 5%nat).
  repeat (f_equal; try (field; split; nra)).
Qed.
Lemma normal_select w u : (forall k, 0 < w k) -> 0 <= u < 1 -> exists k, random_choice (normal w) u = Z.of_nat k /\ selects w u k.
Proof.
  intros Hw Hu. assert (P := fun k => Hw k). set (W := Rsum w (seq 1 5)).
  assert (HW : 0 < W). { unfold W, Rsum. cbn [seq fold_right]. pose proof (Hw 1%nat). pose proof (Hw 2%nat). pose proof (Hw 3%nat). pose proof (Hw 4%nat). pose proof (Hw 5%nat). lra. }
  assert (HN : Forall (fun x => 0 <= x) (normal w)). { unfold normal. fold W. apply Forall_forall. intros x Hx. apply in_map_iff in Hx. destruct Hx as (k & <- & _). apply Rlt_le, Rdiv_lt_0_compat; auto. }
  assert (HC : forall k, (k <= 5)%nat -> cumulative (normal w) k * W = Rsum w (seq 1 k)).
  { intros k Hk. unfold cumulative, normal. fold W. do 6 (destruct k as [|k]; [cbn [seq map firstn]; unfold Rsum; cbn [fold_right]; field; lra|]). lia. }
  assert (HS : Rsum (fun x => x) (normal w) = 1). { specialize (HC 5%nat ltac:(lia)). unfold cumulative in HC. change (firstn 5 (normal w)) with (normal w) in HC. fold W in HC. apply (Rmult_eq_reg_r W); lra. }
  destruct (C45_lemma (normal w) u HN HS) as [(i & Hi & E) H2]; [cbn; lia|exact Hu|]. change (List.length (normal w)) with 5%nat in *. exists i. split; [exact E|]. split; [exact Hi|].
  destruct (H2 i Hi) as [_ H3]. apply H3 in E. fold W. rewrite <- !HC by lia. split; [apply Rmult_le_compat_r; lra|apply Rmult_lt_compat_r; lra].
Qed.
Lemma feature_q out Z_ U N D L lbda gamma rand cols q d : is_qout out -> okmat N L Z_ -> okmat D L U -> (d < D)%nat -> 0 < gamma ->
  snd (qL_feature Z_ U N lbda gamma rand (cols, q) d) = upd q d (random_choice (normal (q_weight out lbda gamma (ones N D) N L d Z_ U)) (rand d)).
Proof.
  intros Ho HZ HU Hd Hg. unfold qL_feature. cbn [snd]. do 2 f_equal.
  apply (normal_shift _ _ (INR N * (ln (1 + exp lbda) + ln (1 + exp (- lbda))))).
  - intros k. apply q_weight_pos. exact Hg.
  - intros k. apply (logcond_weight out Z_ U N D L d k lbda gamma); assumption.
Qed.
Lemma fold_upd (g : nat -> Z) ls : forall (q : vec) d, NoDup ls -> at1 (fold_left (fun q d => upd q d (g d)) ls q) d = if existsb (Nat.eqb d) ls && Nat.ltb d (List.length q) then g d else at1 q d.
Proof.
  induction ls as [|a ls IH]; intros q d HN; [reflexivity|]. inversion HN as [|? ? HA HN']; subst. cbn [fold_left existsb]. rewrite IH by exact HN'. rewrite upd_length, at1_upd.
  destruct (Nat.eqb_spec d a) as [->|Hne]; cbn [orb andb].
  - assert (E : existsb (Nat.eqb a) ls = false). { destruct (existsb (Nat.eqb a) ls) eqn:E; [|reflexivity]. apply existsb_exists in E. destruct E as (x & Hx & Ex). apply Nat.eqb_eq in Ex. subst. contradiction. }
    rewrite E. cbn [andb]. reflexivity.
  - reflexivity.
Qed.
Lemma fold_feature out Z_ U N D L lbda gamma rand : is_qout out -> okmat N L Z_ -> okmat D L U -> 0 < gamma -> forall ls cols q, (forall d, In d ls -> (d < D)%nat) ->
  snd (fold_left (qL_feature Z_ U N lbda gamma rand) ls (cols, q)) = fold_left (fun q d => upd q d (random_choice (normal (q_weight out lbda gamma (ones N D) N L d Z_ U)) (rand d))) ls q.
Proof.
  intros Ho HZ HU Hg. induction ls as [|d ls IH]; intros cols q HD; [reflexivity|]. cbn [fold_left].
  rewrite <- (feature_q out Z_ U N D L lbda gamma rand cols q d Ho HZ HU (HD d (or_introl eq_refl)) Hg).
  destruct (qL_feature Z_ U N lbda gamma rand (cols, q) d) as [c1 q1]. cbn [snd]. apply IH. intros; apply HD; right; assumption.
Qed.
Lemma fold_upd_length (g : nat -> Z) ls : forall q : vec, List.length (fold_left (fun q d => upd q d (g d)) ls q) = List.length q.
Proof. induction ls as [|a ls IH]; intros q; [reflexivity|]. cbn [fold_left]. rewrite IH. apply upd_length. Qed.

Lemma C67_lemma out Z_ U X q N D L lbda gamma rand : is_qout out -> okmat N L Z_ -> okmat D L U -> has_shape2 X N D -> (0 < N)%nat -> has_shape2 q 1 D -> 0 < gamma ->
  (forall d, (d < D)%nat -> SpecR.is_draw (rand d)) ->
  has_shape2 (sample_qL_q Z_ U X q lbda gamma rand) 1 D /\
  forall d, (d < D)%nat -> exists k, at2 (sample_qL_q Z_ U X q lbda gamma rand) 0 d = Z.of_nat k /\
    selects (q_weight out lbda gamma (map (map (fun _ => 1%Z)) X) N L d Z_ U) (rand d) k.
Proof.
  intros Ho HZ HU HX HN HQ Hg Hr. unfold sample_qL_q. rewrite (shape2_nrows _ _ _ HX), (shape2_ncols _ _ _ HX) by exact HN.
  pose proof (fold_feature out Z_ U N D L lbda gamma rand Ho HZ HU Hg (seq 0 D) (repeat (repeat 0 5) D) (row q 0) (fun d Hd => proj1 (in_seq0 d D) Hd)) as E.
  destruct (fold_left (qL_feature Z_ U N lbda gamma rand) (seq 0 D) (repeat (repeat 0 5) D, row q 0)) as [c q0]. cbn [snd] in E.
  assert (HL : List.length (row q 0) = D) by (apply (shape2_row q 1 D 0 HQ); lia).
  destruct q as [|q1 [|]]; try (destruct HQ as [C _]; cbn in C; discriminate). cbn [upd row nth] in *. split.
  - split; [reflexivity|]. repeat constructor. rewrite E, fold_upd_length. exact HL.
  - intros d Hd. destruct (normal_select (q_weight out lbda gamma (ones N D) N L d Z_ U) (rand d)) as (k & E1 & E2); [intros k; apply q_weight_pos; exact Hg|apply Hr; exact Hd|].
    exists k. split.
    + unfold at2. cbn [row nth]. rewrite E, fold_upd by apply seq_NoDup. replace (existsb (Nat.eqb d) (seq 0 D)) with true; [|symmetry; apply existsb_exists; exists d; split; [apply in_seq0; exact Hd|apply Nat.eqb_refl]].
      destruct (Nat.ltb_spec d (List.length q1)); [|lia]. cbn [andb]. exact E1.
    + assert (EX : map (map (fun _ => 1%Z)) X = ones N D).
      { destruct HX as [H1 H2]. unfold ones. clear - H1 H2. subst N. induction X as [|r X IH]; [reflexivity|]. inversion H2 as [|? ? Hr HX]; subst. cbn [map repeat List.length]. rewrite <- IH by assumption. f_equal.
        clear. induction r as [|x r IH]; [reflexivity|]. cbn [map repeat List.length]. rewrite <- IH. reflexivity. }
      rewrite EX. exact E2.
Qed.
(** One data point equal to -1, one active dimension: threshold 1 is much too likely. *)
Lemma C67_refuted_lemma out : is_qout out -> forall lbda gamma, 0 < lbda -> 0 < gamma ->
  exists u, SpecR.is_draw u /\ forall k, at2 (sample_qL_q [[1%Z]] [[1%Z]] [[(-1)%Z]] [[1%Z]] lbda gamma (fun _ => u)) 0 0 = Z.of_nat k ->
    ~ selects (q_weight out lbda gamma [[(-1)%Z]] 1 1 0 [[1%Z]] [[1%Z]]) u k.
Proof.
  intros Ho lbda gamma Hl Hg.
  set (p := fun k => exp (- gamma) * gamma ^ k / INR (fact k)).
  assert (Hp : forall k, 0 < p k). { intros k. apply Rdiv_lt_0_compat; [apply Rmult_lt_0_compat; [apply exp_pos|apply pow_lt; exact Hg]|apply INR_fact_lt_0]. }
  assert (HW : forall x k, (1 <= k)%nat -> q_weight out lbda gamma [[x]] 1 1 0 [[1%Z]] [[1%Z]] k = p k * sigma (lbda * IZR x * (if Nat.eqb k 1 then 1 else -1))).
  { intros x k Hk. unfold q_weight. fold (p k). cbn [seq Rprod fold_right]. unfold Rprod. cbn [fold_right]. rewrite Rmult_1_r. change (at2 [[x]] 0 0) with x.
    rewrite (proj1 (q_output_b _ _ _ _ _) (Ho (Z.of_nat k) (row [[1%Z]] 0) (row [[1%Z]] 0) 1%nat)). do 3 f_equal.
    change (q_b (Z.of_nat k) (row [[1%Z]] 0) (row [[1%Z]] 0) 1) with (Z.of_nat k <=? 1)%Z. destruct (Nat.eqb_spec k 1) as [->|]; [reflexivity|]. destruct (Z.leb_spec (Z.of_nat k) 1); [lia|reflexivity]. }
  set (s := sigma lbda). assert (Hs : 1 / 2 < s < 1). { split; [|apply sigma_lt1]. unfold s, sigma. assert (exp (- lbda) < 1) by (rewrite <- exp_0; apply exp_increasing; lra). pose proof (exp_pos (- lbda)). replace (1 / 2) with (/ 2) by lra. apply Rinv_lt_contravar; nra. }
  set (T := p 2%nat + (p 3%nat + (p 4%nat + p 5%nat))). assert (HT : 0 < T) by (unfold T; pose proof (Hp 2%nat); pose proof (Hp 3%nat); pose proof (Hp 4%nat); pose proof (Hp 5%nat); lra).
  pose proof (Hp 1%nat) as H1. set (P := p 1%nat) in *.
  (* correct cut between thresholds 1 and 2 *)
  set (u := P * (1 - s) / (P * (1 - s) + T * s)). assert (D1 : 0 < P * (1 - s)) by nra. assert (D2 : 0 < T * s) by nra.
  assert (Hu : 0 < u < 1). { unfold u. split; [apply Rdiv_lt_0_compat; lra|]. apply (Rmult_lt_reg_r (P * (1 - s) + T * s)); [lra|]. unfold Rdiv. rewrite Rmult_assoc, Rinv_l by lra. lra. }
  exists u. split; [split; lra|]. intros k Hk C.
  destruct (C67_lemma out [[1%Z]] [[1%Z]] [[(-1)%Z]] [[1%Z]] 1 1 1 lbda gamma (fun _ => u) Ho) as [_ HC];
    try (split; [split; [reflexivity|repeat constructor]|repeat constructor]); try (split; [reflexivity|repeat constructor]); try lia; try exact Hg; try (intros; split; lra).
  destruct (HC 0%nat ltac:(lia)) as (k' & E' & S'). rewrite Hk in E'. assert (k' = k) by lia. subst k'. cbn [map] in S'.
  assert (SO : sigma (lbda * 1 * 1) = s) by (unfold s; f_equal; ring). assert (SO' : sigma (lbda * 1 * -1) = 1 - s) by (unfold s; rewrite <- sigma_opp; f_equal; ring).
  assert (SN : sigma (lbda * -1 * 1) = 1 - s) by (unfold s; rewrite <- sigma_opp; f_equal; ring). assert (SN' : sigma (lbda * -1 * -1) = s) by (unfold s; f_equal; ring).
  assert (EU : u * (P * (1 - s) + T * s) = P * (1 - s)) by (unfold u; field; lra).
  destruct S' as [Hk5 [_ S2]]. destruct C as [_ [C1 C2]].
  (* the correct choice is at least 2 *)
  assert (W5 : Rsum (q_weight out lbda gamma [[(-1)%Z]] 1 1 0 [[1%Z]] [[1%Z]]) (seq 1 5) = P * (1 - s) + T * s).
  { unfold Rsum. cbn [seq fold_right]. rewrite !HW by lia. cbn [Nat.eqb]. rewrite SN, SN'. unfold T, P. ring. }
  rewrite W5, EU in C1, C2. destruct (Nat.eq_dec k 1) as [->|Hne].
  - unfold Rsum in C2. cbn [seq fold_right] in C2. rewrite HW in C2 by lia. cbn [Nat.eqb] in C2. rewrite SN in C2. unfold P in C2. lra.
  - (* the code picks 1 *)
    destruct (HC 0%nat ltac:(lia)) as (k' & E'' & [_ [S1 _]]). rewrite Hk in E''. assert (k' = k) by lia. subst k'. cbn [map] in S1.
    assert (W1 : Rsum (q_weight out lbda gamma [[1%Z]] 1 1 0 [[1%Z]] [[1%Z]]) (seq 1 5) = P * s + T * (1 - s)).
    { unfold Rsum. cbn [seq fold_right]. rewrite !HW by lia. cbn [Nat.eqb]. rewrite SO, SO'. unfold T, P. ring. }
    rewrite W1 in S1. assert (L1 : P * s <= u * (P * s + T * (1 - s))).
    { eapply Rle_trans; [|exact S1]. destruct k as [|[|k]]; [lia|lia|]. replace (S (S k) - 1)%nat with (S k) by lia. cbn [seq]. rewrite Rsum_cons, HW by lia. cbn [Nat.eqb]. rewrite SO. fold P.
      assert (0 <= Rsum (q_weight out lbda gamma [[1%Z]] 1 1 0 [[1%Z]] [[1%Z]]) (seq 2 k)); [|lra].
      generalize 2%nat as a. induction k as [|k IHk]; intros a; [cbn; lra|]. cbn [seq]. rewrite Rsum_cons. pose proof (q_weight_pos out lbda gamma [[1%Z]] 1 1 0 [[1%Z]] [[1%Z]] a Hg).
      assert (G : forall j b, 0 <= Rsum (q_weight out lbda gamma [[1%Z]] 1 1 0 [[1%Z]] [[1%Z]]) (seq b j)).
      { clear - Hg. induction j as [|j IHj]; intros b; [cbn; lra|]. cbn [seq]. rewrite Rsum_cons. pose proof (q_weight_pos out lbda gamma [[1%Z]] 1 1 0 [[1%Z]] [[1%Z]] b Hg). specialize (IHj (S b)). lra. }
      specialize (G k (S a)). lra. }
    (* u < P s / (P s + T (1-s)) because s > 1 - s *)
    assert (L2 : P * s * (P * (1 - s) + T * s) <= P * (1 - s) * (P * s + T * (1 - s))).
    { rewrite <- EU at 2. replace (u * (P * (1 - s) + T * s) * (P * s + T * (1 - s))) with (u * (P * s + T * (1 - s)) * (P * (1 - s) + T * s)) by ring. apply Rmult_le_compat_r; lra. }
    assert (0 < P * T) by nra. assert (P * T * (s * s) <= P * T * ((1 - s) * (1 - s))) by nra. assert (0 < s * s - (1 - s) * (1 - s)) by nra. nra.
Qed.
