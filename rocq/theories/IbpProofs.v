(** Proofs for C36, C37, C38, C68, C69. *)
From Coq Require Import Lra String Sorted.
From Verif Require Import Base BaseLemmas BaseR BaseRLemmas Spec SpecR Outputs OutputsProofs Scores ScoresProofs Sampling SamplingProofs Lambda HelpersProofs QLProofs2 Ibp SpecIbp.
Local Open Scope R_scope.

Lemma expit_sigma x : expit x = sigma x.
Proof. unfold expit, sigma. lra. Qed.

(** * C37 *)
Lemma marginal_gen q (g : bool -> R) k :
  Rsum (fun u => bits_prob q u * g (existsb (fun b => b) u)) (bit_lists k) = g true * (1 - (1 - q) ^ k) + g false * (1 - q) ^ k.
Proof.
  assert (T : forall k, Rsum (bits_prob q) (bit_lists k) = 1).
  { induction k0 as [|k0 IH]; [cbn; lra|]. cbn [bit_lists]. rewrite Rsum_app, !Rsum_map.
    change (Rsum (fun u => q * bits_prob q u) (bit_lists k0) + Rsum (fun u => (1 - q) * bits_prob q u) (bit_lists k0) = 1).
    rewrite !Rsum_scale, IH. lra. }
  induction k as [|k IH]; [cbn; lra|]. cbn [bit_lists]. rewrite Rsum_app, !Rsum_map. cbn [existsb orb].
  rewrite (Rsum_ext _ (fun u => (q * g true) * bits_prob q u)) by (intros u _; unfold bits_prob; cbn [Rprod fold_right]; unfold Rprod; ring). rewrite Rsum_scale, T.
  rewrite (Rsum_ext _ (fun u => (1 - q) * (bits_prob q u * g (existsb (fun b => b) u)))) by (intros u _; unfold bits_prob; cbn [Rprod fold_right]; unfold Rprod; ring).
  rewrite Rsum_scale, IH. cbn [pow]. ring.
Qed.
Lemma marginal_closed lbda q k x : marginal lbda q k x = sigma (lbda * IZR x) * (1 - (1 - q) ^ k) + sigma (- (lbda * IZR x)) * (1 - q) ^ k.
Proof.
  unfold marginal. rewrite (marginal_gen q (fun b => sigma (lbda * IZR x * (if b then 1 else -1)))). do 2 f_equal; f_equal; ring.
Qed.
Lemma C37_swapped_lemma lbda q k : FN_factor lbda q k = ln (marginal lbda (1 - q) k 1) /\ TN_factor lbda q k = ln (marginal lbda (1 - q) k (-1)).
Proof.
  unfold FN_factor, TN_factor. rewrite !marginal_closed, !expit_sigma. replace (1 - (1 - q)) with q by ring.
  replace (lbda * 1) with lbda by ring. replace (lbda * -1) with (- lbda) by ring. rewrite Ropp_involutive. rewrite !(sigma_opp lbda). split; f_equal; ring.
Qed.
Lemma C37_half_lemma lbda q k : q = 1 / 2 \/ k = 0%nat -> FN_factor lbda q k = ln (marginal lbda q k 1) /\ TN_factor lbda q k = ln (marginal lbda q k (-1)).
Proof.
  intros H. destruct (C37_swapped_lemma lbda q k) as [-> ->]. destruct H as [-> | ->].
  - replace (1 - 1 / 2) with (1 / 2) by lra. auto.
  - rewrite !marginal_closed. cbn [pow]. auto.
Qed.
Lemma marginal_pos lbda q k x : 0 < q < 1 -> 0 < marginal lbda q k x.
Proof.
  intros Hq. rewrite marginal_closed. pose proof (sigma_pos (lbda * IZR x)). pose proof (sigma_pos (- (lbda * IZR x))).
  assert (0 < (1 - q) ^ k) by (apply pow_lt; lra). assert ((1 - q) ^ k <= 1). { pose proof (pow_incr (1 - q) 1 k ltac:(lra)) as HI. rewrite pow1 in HI. exact HI. }
  apply Rplus_le_lt_0_compat; [apply Rmult_le_pos; lra|apply Rmult_lt_0_compat; assumption].
Qed.
Lemma pow_lt_mono a b k : 0 <= a < b -> (1 <= k)%nat -> a ^ k < b ^ k.
Proof.
  intros H Hk. destruct k as [|k]; [lia|]. clear Hk. induction k as [|k IH]; [cbn; lra|].
  change (a * a ^ S k < b * b ^ S k). assert (0 <= a ^ S k) by (apply pow_le; lra). nra.
Qed.
Lemma C37_refuted_lemma lbda q k : 0 < q < 1 -> q <> 1 / 2 -> lbda <> 0 -> (1 <= k)%nat ->
  FN_factor lbda q k <> ln (marginal lbda q k 1) /\ TN_factor lbda q k <> ln (marginal lbda q k (-1)).
Proof.
  intros Hq Hh Hl Hk. destruct (C37_swapped_lemma lbda q k) as [-> ->].
  assert (HS : sigma lbda <> sigma (- lbda)). { intros E. apply Hl. rewrite <- (ln_sigma_diff lbda). rewrite E. lra. }
  assert (HP : q ^ k <> (1 - q) ^ k). { destruct (Rtotal_order q (1 - q)) as [H|[H|H]]; [pose proof (pow_lt_mono q (1 - q) k ltac:(lra) Hk); lra|lra|pose proof (pow_lt_mono (1 - q) q k ltac:(lra) Hk); lra]. }
  split; intros E; apply ln_inv in E; try (apply marginal_pos; lra); rewrite !marginal_closed in E; replace (1 - (1 - q)) with q in E by ring;
    [replace (lbda * 1) with lbda in E by ring|replace (lbda * -1) with (- lbda) in E by ring; rewrite Ropp_involutive in E].
  - apply HP. apply (Rmult_eq_reg_l (sigma lbda - sigma (- lbda))); [|lra]. lra.
  - apply HP. apply (Rmult_eq_reg_l (sigma lbda - sigma (- lbda))); [|lra]. lra.
Qed.

(** * C38 *)
Lemma C38_shifted_lemma alpha N L k : 0 < alpha -> (0 < N)%nat -> prior_L_new alpha N L k = ln (poisson (alpha / INR N) (L + k)).
Proof.
  intros Ha HN. assert (Hm : 0 < alpha / INR N) by (apply Rdiv_lt_0_compat; [exact Ha|apply lt_0_INR; exact HN]). unfold prior_L_new, poisson. set (m := alpha / INR N) in *.
  assert (HP : 0 < exp (- m) * m ^ (L + k)) by (apply Rmult_lt_0_compat; [apply exp_pos|apply pow_lt; exact Hm]).
  rewrite ln_div by (try exact HP; apply INR_fact_lt_0). rewrite ln_mult by (try apply exp_pos; apply pow_lt; exact Hm). rewrite ln_exp, ln_pow' by exact Hm. rewrite (Nat.add_comm k L). lra.
Qed.
Lemma C38_refuted_lemma alpha N L : 0 < alpha -> (0 < N)%nat -> (0 < L)%nat ->
  ~ exists c, forall k, (k <= 2)%nat -> prior_L_new alpha N L k = ln (poisson (alpha / INR N) k) + c.
Proof.
  intros Ha HN HL [c Hc]. assert (Hm : 0 < alpha / INR N) by (apply Rdiv_lt_0_compat; [exact Ha|apply lt_0_INR; exact HN]).
  assert (HP : forall k, 0 < poisson (alpha / INR N) k). { intros k. apply Rdiv_lt_0_compat; [|apply INR_fact_lt_0]. apply Rmult_lt_0_compat; [apply exp_pos|apply pow_lt; exact Hm]. }
  pose proof (Hc 0%nat ltac:(lia)) as H0. pose proof (Hc 1%nat ltac:(lia)) as H1. rewrite !C38_shifted_lemma in H0, H1 by assumption.
  assert (E : forall k, ln (poisson (alpha / INR N) (S k)) = ln (poisson (alpha / INR N) k) + ln (alpha / INR N) - ln (INR (S k))).
  { intros k. rewrite <- ln_mult by auto. rewrite <- ln_div; [|apply Rmult_lt_0_compat; auto|apply lt_0_INR; lia]. f_equal. unfold poisson. rewrite fact_simpl, mult_INR. cbn [pow]. field.
    pose proof (INR_fact_lt_0 k). pose proof (lt_0_INR (S k) ltac:(lia)). pose proof (lt_0_INR N HN). repeat split; lra. }
  replace (L + 1)%nat with (S L) in H1 by lia. replace (L + 0)%nat with L in H0 by lia. rewrite !E in H1. change (INR 1) with 1 in H1. rewrite ln_1 in H1.
  assert (0 < ln (INR (S L))); [|lra]. rewrite <- ln_1. apply ln_increasing; [lra|]. change 1 with (INR 1). apply lt_INR. lia.
Qed.

(** * C36 *)
Lemma flip_gibbs_pm p r : pm1 (flip_gibbs_numba p r).
Proof. unfold flip_gibbs_numba. destruct (Rltb r p); unfold pm1; auto. Qed.
Lemma existing_ok Z_ U X N n lbda m rz ls : forall L, okmat N L Z_ -> (forall l, In l ls -> (l < L)%nat) -> 
  let Z' := fold_left (fun Zl l => if Nat.ltb 0 (m l) then set2 Zl n l (flip_gibbs_numba (expit (lbda * IZR (posterior_score_OR_AND_2D (row Zl n) U (row X n) l) + logit (INR (m l) / INR N))) (rz l)) else Zl) ls Z_ in
  okmat N L Z' /\ forall n', n' <> n -> row Z' n' = row Z_ n'.
Proof.
  revert Z_. induction ls as [|l ls IH]; intros Z_ L HZ Hl; cbn [fold_left]; [split; auto|].
  destruct (Nat.ltb 0 (m l)).
  - destruct (IH (set2 Z_ n l (flip_gibbs_numba (expit (lbda * IZR (posterior_score_OR_AND_2D (row Z_ n) U (row X n) l) + logit (INR (m l) / INR N))) (rz l))) L) as [H1 H2].
    + apply okmat_set; [exact HZ|apply flip_gibbs_pm].
    + intros; apply Hl; right; assumption.
    + split; [exact H1|]. intros n' Hn'. rewrite H2 by exact Hn'. apply row_set2_other. exact Hn'.
  - apply IH; [exact HZ|]. intros; apply Hl; right; assumption.
Qed.
Lemma row_take keep m n : (n < List.length m)%nat -> row (take_cols keep m) n = map (at1 (row m n)) keep.
Proof. intros H. unfold row, take_cols. exact (nth_map_lt (fun r => map (at1 r) keep) m n [] [] H). Qed.
Lemma take_ok keep N L m : okmat N L m -> (forall l, In l keep -> (l < L)%nat) -> okmat N (List.length keep) (take_cols keep m).
Proof.
  intros [[H1 H2] HB] HK. split; [split|].
  - unfold take_cols. rewrite map_length. exact H1.
  - unfold take_cols. apply Forall_map. apply Forall_forall. intros r _. apply map_length.
  - unfold take_cols, bin2. apply Forall_map. rewrite Forall_forall in H2 |- *. intros r Hr. apply Forall_map. apply Forall_forall. intros l Hl.
    unfold bin2 in HB. rewrite Forall_forall in HB. specialize (HB r Hr). apply bin1_at; [exact HB|]. unfold vec in *. rewrite (H2 r Hr). apply HK. exact Hl.
Qed.
Lemma features_ok Z_ X lbda D L0 M ru ds ls : forall U, okmat D (L0 + M) U -> (forall l, In l ls -> (L0 <= l)%nat) ->
  let U' := fold_left (fun Ul l => fold_left (fun Ud d => set2 Ud d l (flip_gibbs_numba (expit (lbda * IZR (posterior_score_OR_AND_2D (row Ud d) Z_ (map (fun r => at1 r d) X) l))) (ru l d))) ds Ul) ls U in
  okmat D (L0 + M) U' /\ forall d l, (l < L0)%nat -> at2 U' d l = at2 U d l.
Proof.
  induction ls as [|l ls IH]; intros U HU Hl; cbn [fold_left]; [split; auto|].
  assert (IN : forall ds U, okmat D (L0 + M) U -> okmat D (L0 + M) (fold_left (fun Ud d => set2 Ud d l (flip_gibbs_numba (expit (lbda * IZR (posterior_score_OR_AND_2D (row Ud d) Z_ (map (fun r => at1 r d) X) l))) (ru l d))) ds U) /\
     forall d' l', (l' < L0)%nat -> at2 (fold_left (fun Ud d => set2 Ud d l (flip_gibbs_numba (expit (lbda * IZR (posterior_score_OR_AND_2D (row Ud d) Z_ (map (fun r => at1 r d) X) l))) (ru l d))) ds U) d' l' = at2 U d' l').
  { clear - Hl. induction ds as [|d ds IHd]; intros U HU; cbn [fold_left]; [split; auto|].
    match goal with |- context [fold_left ?f ds ?U1] => destruct (IHd U1) as [H1 H2] end; [apply okmat_set; [exact HU|apply flip_gibbs_pm]|].
    split; [exact H1|]. intros d' l' Hl'. rewrite H2 by exact Hl'. apply at2_set2_other. intros E. injection E as -> ->. specialize (Hl l' (or_introl eq_refl)). lia. }
  destruct (IN ds U HU) as [H1 H2]. match goal with |- context [fold_left ?f ls ?U1] => destruct (IH U1 H1) as [H3 H4]; [intros; apply Hl; right; assumption|] end.
  split; [exact H3|]. intros d l' Hl'. rewrite H4 by exact Hl'. apply H2. exact Hl'.
Qed.
Lemma choose_le p u : (choose_L_new p u <= 2)%nat.
Proof. unfold choose_L_new. destruct (Rltb _ _); [lia|]. destruct (Rltb _ _); lia. Qed.
Lemma used_pos Z_ N n l : (0 < used_by_others Z_ N n l)%nat <-> used_elsewhere Z_ N n l.
Proof.
  unfold used_by_others, used_elsewhere. fold (cnt (fun n' => negb (Nat.eqb n' n) && (at2 Z_ n' l =? 1)%Z) (seq 0 N)). rewrite cnt_pos. split; intros (n' & H1 & H2).
  - apply in_seq0 in H1. apply andb_true_iff in H2. destruct H2 as [H2 H3]. exists n'. split; [exact H1|]. split; [intros ->; rewrite Nat.eqb_refl in H2; discriminate|apply Z.eqb_eq; exact H3].
  - destruct H2 as [H2 H3]. exists n'. split; [apply in_seq0; exact H1|]. rewrite H3. destruct (Nat.eqb_spec n' n); [contradiction|reflexivity].
Qed.
Lemma keep_sorted f L : StronglySorted lt (filter f (seq 0 L)).
Proof.
  assert (G : forall n a, StronglySorted lt (filter f (seq a n)) /\ Forall (fun x => (a <= x)%nat) (filter f (seq a n))).
  { induction n as [|n IH]; intros a; [split; constructor|]. cbn [seq filter]. destruct (IH (S a)) as [H1 H2]. assert (H3 : Forall (fun x => (a <= x)%nat) (filter f (seq (S a) n))) by (eapply Forall_impl; [|exact H2]; cbn; intros; lia).
    destruct (f a); [|split; assumption]. split; [constructor; [exact H1|eapply Forall_impl; [|exact H2]; cbn; intros; lia]|constructor; [lia|exact H3]]. }
  apply G.
Qed.
