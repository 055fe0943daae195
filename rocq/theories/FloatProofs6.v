(** Fuzzy outputs in double precision: means of traces, three factors refuted, statements against the specification. *)
From Coq Require Import Lra Psatz String ZifyBool.
From Verif Require Import Base BaseR Spec SpecF Fuzzy FuzzyProofs FloatFuzzy FloatProofs FloatProofs2 FloatProofs3 FloatProofs4 FloatProofs5.
From Flocq Require Import Core.
Local Open Scope R_scope.

Definition ones (xs : list Z) : nat := count_occ Z.eq_dec xs 1%Z.
Lemma zsum_ones xs : Forall (fun x => x = 1 \/ x = -1)%Z xs -> zsum xs = (2 * Z.of_nat (ones xs) - Z.of_nat (List.length xs))%Z.
Proof.
  unfold ones. induction 1 as [|x xs H _ IH]; cbn [zsum fold_right List.length count_occ]; [reflexivity|]. fold (zsum xs). rewrite IH. destruct (Z.eq_dec x 1); lia.
Qed.
Lemma ones_le xs : (ones xs <= List.length xs)%nat.
Proof. unfold ones. induction xs as [|x xs IH]; cbn [count_occ List.length]; [lia|]. destruct (Z.eq_dec x 1); lia. Qed.
Lemma rnd_eps : rnd eps = eps.
Proof. rewrite eps_val. apply round_generic; [apply valid_rnd_N|]. apply generic_format_bpow. unfold FLT_exp. lia. Qed.
Lemma rnd_opp x : rnd (- x) = - rnd x.
Proof. apply round_NE_opp. Qed.
Lemma eps_int n : (1 <= n <= 2 ^ 53)%Z -> eps <= / IZR n.
Proof. intros H. unfold eps. apply Rinv_le_contravar; [apply (IZR_lt 0); lia|apply IZR_le; lia]. Qed.
Lemma sample_mean_lemma xs T : List.length xs = T -> (1 <= Z.of_nat T <= 2 ^ 53)%Z -> Forall (fun x => x = 1 \/ x = -1)%Z xs ->
  let k := ones xs in
  Rabs (double_mean xs - (2 * INR k - INR T) / INR T) <= / IZR (2 ^ 53) /\ -1 <= double_mean xs <= 1 /\
  (0 < double_mean xs <-> (T < 2 * k)%nat) /\ (double_mean xs = 0 <-> (T = 2 * k)%nat) /\ (double_mean xs = 1 <-> k = T) /\ (double_mean xs = -1 <-> k = 0%nat).
Proof.
  intros HT HB H k. unfold double_mean. rewrite double_sum_exact by (try exact H; rewrite HT; lia). rewrite (zsum_ones _ H), HT. fold k.
  pose proof (ones_le xs) as HK. rewrite HT in HK. fold k in HK. rewrite !INR_IZR_INZ.
  set (N := Z.of_nat T) in *. set (m := Z.of_nat k). assert (Hm : (0 <= m <= N)%Z) by (unfold m, N; lia).
  replace (2 * IZR m - IZR N) with (IZR (2 * m - N)) by (rewrite minus_IZR, mult_IZR; reflexivity).
  assert (PN : 0 < IZR N) by (apply (IZR_lt 0); lia). set (x := IZR (2 * m - N) / IZR N).
  assert (X1 : x <= 1) by (unfold x; apply (Rmult_le_reg_r (IZR N)); [exact PN|unfold Rdiv; rewrite Rmult_assoc, Rinv_l, Rmult_1_r, Rmult_1_l by lra; apply IZR_le; lia]).
  assert (X2 : -1 <= x) by (unfold x; apply (Rmult_le_reg_r (IZR N)); [exact PN|unfold Rdiv; rewrite Rmult_assoc, Rinv_l, Rmult_1_r by lra; rewrite <- (mult_IZR (-1) N); apply IZR_le; lia]).
  pose proof (eps_int N ltac:(lia)) as EN. pose proof eps_pos as EP.
  assert (XP : forall c d, (c * N + d <= 2 * m - N)%Z -> (0 <= d)%Z -> IZR c + IZR d * eps <= x).
  { intros c d Hc Hd. unfold x. apply (Rmult_le_reg_r (IZR N)); [exact PN|]. unfold Rdiv. rewrite Rmult_assoc, Rinv_l, Rmult_1_r by lra.
    apply Rle_trans with (IZR c * IZR N + IZR d * 1); [|rewrite <- mult_IZR, Rmult_1_r, <- plus_IZR; apply IZR_le; lia]. rewrite Rmult_plus_distr_r. apply Rplus_le_compat_l. rewrite Rmult_assoc. apply Rmult_le_compat_l; [apply (IZR_le 0); exact Hd|]. apply Rle_trans with (/ IZR N * IZR N); [apply Rmult_le_compat_r; lra|rewrite Rinv_l; lra]. }
  assert (XM : forall c d, (2 * m - N <= c * N - d)%Z -> (0 <= d)%Z -> x <= IZR c - IZR d * eps).
  { intros c d Hc Hd. unfold x. apply (Rmult_le_reg_r (IZR N)); [exact PN|]. unfold Rdiv. rewrite Rmult_assoc, Rinv_l, Rmult_1_r by lra.
    apply Rle_trans with (IZR c * IZR N - IZR d * 1); [rewrite <- mult_IZR, Rmult_1_r, <- minus_IZR; apply IZR_le; lia|]. unfold Rminus. rewrite Rmult_plus_distr_r. apply Rplus_le_compat_l. rewrite Ropp_mult_distr_l_reverse. apply Ropp_le_contravar. rewrite Rmult_assoc. apply Rmult_le_compat_l; [apply (IZR_le 0); exact Hd|]. apply Rle_trans with (/ IZR N * IZR N); [apply Rmult_le_compat_r; lra|rewrite Rinv_l; lra]. }
  assert (R1 : forall y, y <= 1 - 2 * eps -> rnd y <= 1 - 2 * eps).
  { intros y Hy. rewrite <- (rnd_rnd y). assert (E : rnd (1 - 2 * eps) = 1 - 2 * eps).
    { replace (1 - 2 * eps) with (IZR (2 ^ 53 - 2) * bpow radix2 (0 - 53)). apply round_generic; [apply valid_rnd_N|]. apply generic_format_FLT. apply (FLT_spec _ _ _ _ (Float radix2 (2 ^ 53 - 2) (-53))); [reflexivity|reflexivity|cbn [Fexp]; lia].
      change (0 - 53)%Z with (-53)%Z. rewrite <- eps_val, minus_IZR, Rmult_minus_distr_r. pose proof eps_small. lra. }
    rewrite <- E. apply rnd_le. rewrite <- E. apply rnd_le. exact Hy. }
  assert (PosL : (1 <= 2 * m - N)%Z -> eps <= rnd x) by (intros HH; rewrite <- rnd_eps; apply rnd_le; pose proof (XP 0%Z 1%Z ltac:(lia) ltac:(lia)); lra).
  assert (NegL : (2 * m - N <= -1)%Z -> rnd x <= - eps) by (intros HH; rewrite <- rnd_eps, <- rnd_opp; apply rnd_le; pose proof (XM 0%Z 1%Z ltac:(lia) ltac:(lia)); lra).
  assert (ZeroL : (2 * m - N = 0)%Z -> rnd x = 0) by (intros HH; unfold x; rewrite HH; unfold Rdiv; rewrite Rmult_0_l; apply rnd_0).
  assert (OneL : (m < N)%Z -> rnd x <= 1 - 2 * eps) by (intros HH; apply R1; pose proof (XM 1%Z 2%Z ltac:(lia) ltac:(lia)); lra).
  assert (MOneL : (0 < m)%Z -> -1 + 2 * eps <= rnd x).
  { intros HH. pose proof (XP (-1)%Z 2%Z ltac:(lia) ltac:(lia)) as Q. pose proof (R1 (- x) ltac:(lra)) as Q'. rewrite rnd_opp in Q'. lra. }
  assert (Ra : Rabs x <= 1) by (apply Rabs_le; lra).
  split; [pose proof (rnd_err 1 x ltac:(lra) Ra) as E; unfold eps in E; lra|].
  split; [split; [rewrite <- (rnd_int (-1)) by lia; apply rnd_le; exact X2|rewrite <- rnd_1; apply rnd_le; exact X1]|].
  unfold m, N in *. split; [|split; [|split]]; split; intros HH.
  - destruct (lt_dec T (2 * k)); [assumption|exfalso]. destruct (Nat.eq_dec T (2 * k)); [rewrite ZeroL in HH by lia; lra|pose proof (NegL ltac:(lia)); lra].
  - pose proof (PosL ltac:(lia)). lra.
  - destruct (lt_eq_lt_dec T (2 * k)) as [[Q|Q]|Q]; [pose proof (PosL ltac:(lia)); lra|exact Q|pose proof (NegL ltac:(lia)); lra].
  - apply ZeroL. lia.
  - destruct (lt_dec k T); [pose proof (OneL ltac:(lia)); lra|lia].
  - unfold x. rewrite HH. replace (2 * Z.of_nat T - Z.of_nat T)%Z with (Z.of_nat T) by ring. unfold Rdiv. rewrite Rinv_r by lra. apply rnd_1.
  - destruct k as [|k']; [reflexivity|]. pose proof (MOneL ltac:(lia)). lra.
  - unfold x. rewrite HH. replace (2 * Z.of_nat 0 - Z.of_nat T)%Z with (- Z.of_nat T)%Z by lia. unfold Rdiv. rewrite opp_IZR, Ropp_mult_distr_l_reverse, Rinv_r by lra. rewrite rnd_opp, rnd_1. reflexivity.
Qed.
Lemma half_rnd x : in01 x -> rnd x = x -> rnd (x * (5 / 10)) <= 1.
Proof. intros (A & B) _. rewrite <- rnd_1. apply rnd_le. lra. Qed.
Lemma sample_prob_lemma xs T : List.length xs = T -> (1 <= Z.of_nat T <= 2 ^ 53)%Z -> Forall (fun x => x = 1 \/ x = -1)%Z xs ->
  0 <= double_prob xs <= 1 /\ rnd (double_prob xs) = double_prob xs /\ Rabs (double_prob xs - INR (ones xs) / INR T) <= 5 / 2 * / IZR (2 ^ 53) /\
  (ones xs = T -> double_prob xs = 1) /\ (ones xs = 0%nat -> double_prob xs = 0).
Proof.
  intros HT HB H. destruct (sample_mean_lemma xs T HT HB H) as (E & (M1 & M2) & _ & _ & O & Z0). unfold double_prob. set (d := double_mean xs) in *.
  assert (A1 : 0 <= rnd (d + 1) <= 2) by (split; [apply rnd_pos; lra|rewrite <- (rnd_int 2) by lia; apply rnd_le; lra]).
  assert (PT : 0 < INR T) by (apply (lt_INR 0); lia).
  split; [split; [apply rnd_pos; lra|apply (Rle_trans _ (rnd 1)); [apply rnd_le; lra|rewrite rnd_1; lra]]|]. split; [apply rnd_rnd|]. split; [|split].
  - pose proof (rnd_err 2 (d + 1) ltac:(lra) ltac:(rewrite Rabs_pos_eq; lra)) as E1. pose proof (rnd_err 1 (rnd (d + 1) * (5 / 10)) ltac:(lra) ltac:(rewrite Rabs_pos_eq; lra)) as E2. fold eps in *.
    replace ((2 * INR (ones xs) - INR T) / INR T) with (2 * (INR (ones xs) / INR T) - 1) in E by (field; lra). set (p := INR (ones xs) / INR T) in *.
    assert (AB : forall a b, Rabs a <= b -> - b <= a <= b) by (intros a b Q; pose proof (Rle_abs a); pose proof (Rle_abs (- a)) as Q2; rewrite Rabs_Ropp in Q2; lra). apply AB in E, E1, E2. apply Rabs_le. lra.
  - intros HH. apply O in HH. rewrite HH. replace (1 + 1) with 2 by lra. rewrite (rnd_int 2) by lia. replace (2 * (5 / 10)) with 1 by lra. apply rnd_1.
  - intros HH. apply Z0 in HH. rewrite HH. replace (-1 + 1) with 0 by lra. rewrite rnd_0, Rmult_0_l. apply rnd_0.
Qed.

(** ** Three factors: roundings traced in units of 2^-54 *)
Definition q : R := bpow radix2 (-54).
Lemma q_val : q * 18014398509481984 = 1.
Proof. unfold q. change (bpow radix2 (-54)) with (/ 18014398509481984). field. Qed.
Lemma q_pos : 0 < q. Proof. apply bpow_gt_0. Qed.
Lemma bp k : (0 <= k)%Z -> IZR (2 ^ k) = bpow radix2 k.
Proof. intros H. rewrite <- (IZR_Zpower radix2) by exact H. reflexivity. Qed.
Lemma rep m n j : m = (n * 2 ^ j)%Z -> (Z.abs n < 2 ^ 53)%Z -> (0 <= j)%Z -> rnd (IZR m * q) = IZR m * q.
Proof.
  intros -> Hn Hj. apply round_generic; [apply valid_rnd_N|]. apply generic_format_FLT. apply (FLT_spec _ _ _ _ (Float radix2 n (j - 54))); [|exact Hn|cbn [Fexp]; lia]. unfold F2R. cbn [Fnum Fexp]. unfold q. rewrite mult_IZR, bp by exact Hj. rewrite Rmult_assoc, <- bpow_plus. reflexivity.
Qed.
Lemma tie m n e : (0 <= e)%Z -> (2 ^ (53 + e) <= m < 2 ^ (54 + e))%Z -> Z.even n = true -> (Z.abs (m - n * 2 ^ (1 + e)) <= 2 ^ e)%Z -> rnd (IZR m * q) = IZR (n * 2 ^ (1 + e)) * q.
Proof.
  intros He (Hl & Hh) Hv Hd. rewrite (rnd_tie e n).
  - unfold q. rewrite mult_IZR, bp by lia. rewrite Rmult_assoc, <- bpow_plus. f_equal. f_equal. ring.
  - lia.
  - pose proof q_pos. assert (0 < m)%Z by (pose proof (Z.pow_pos_nonneg 2 (53 + e)); lia). rewrite Rabs_pos_eq by (apply Rmult_le_pos; [apply (IZR_le 0); lia|lra]). unfold q. split.
    + replace (e - 1)%Z with ((53 + e) + -54)%Z by ring. rewrite bpow_plus, <- (bp (53 + e)) by lia. apply Rmult_le_compat_r; [apply bpow_ge_0|apply IZR_le; lia].
    + replace e with ((54 + e) + -54)%Z by ring. rewrite bpow_plus, <- (bp (54 + e)) by lia. apply Rmult_lt_compat_r; [apply bpow_gt_0|apply IZR_lt; lia].
  - exact Hv.
  - unfold q. rewrite Rmult_assoc, <- bpow_plus. replace (-54 + (53 - e))%Z with (- (1 + e))%Z by ring. rewrite bpow_opp, <- bp by lia.
    assert (P : 0 < IZR (2 ^ (1 + e))) by (apply (IZR_lt 0); apply Z.pow_pos_nonneg; lia).
    replace (IZR m * / IZR (2 ^ (1 + e)) - IZR n) with (IZR (m - n * 2 ^ (1 + e)) * / IZR (2 ^ (1 + e))) by (rewrite minus_IZR, mult_IZR; field; lra).
    rewrite Rabs_mult, <- abs_IZR, (Rabs_pos_eq (/ _)) by (left; apply Rinv_0_lt_compat; exact P). apply (Rmult_le_reg_r (IZR (2 ^ (1 + e)))); [exact P|]. rewrite Rmult_assoc, Rinv_l, Rmult_1_r by lra.
    replace (IZR (2 ^ (1 + e))) with (2 * IZR (2 ^ e)) by (rewrite Z.pow_add_r by lia; rewrite mult_IZR; reflexivity). replace (/ 2 * (2 * IZR (2 ^ e))) with (IZR (2 ^ e)) by field. apply IZR_le. exact Hd.
Qed.
Ltac unit m x := replace x with (IZR m * q) by (pose proof q_val; lra).
Lemma third : double_prob [-1; -1; 1]%Z = IZR 6004799503160662 * q.
Proof.
  unfold double_prob, double_mean. rewrite double_sum_exact by (repeat constructor; cbn; lia). change (zsum [-1; -1; 1]%Z) with (-1)%Z. replace (INR (List.length [-1; -1; 1]%Z)) with 3 by (cbn; lra).
  replace (-1 / 3) with (- (1 / 3)) by lra. rewrite rnd_opp.
  assert (Q : bpow radix2 (53 - -1) = 18014398509481984) by reflexivity. assert (Q1 : bpow radix2 (-1 - 1) = / 4) by reflexivity. assert (Q2 : bpow radix2 (-1) = / 2) by reflexivity.
  rewrite (rnd_at (-1) 6004799503160661 (1 / 3)); [|lia|rewrite Q1, Q2, Rabs_pos_eq by lra; split; lra|rewrite Q; apply Rabs_def1; lra]. change (bpow radix2 (-1 - 53)) with q.
  unit 12009599006321323%Z (- (6004799503160661 * q) + 1). rewrite (tie _ 6004799503160662 0) by (try reflexivity; lia). change (6004799503160662 * 2 ^ (1 + 0))%Z with 12009599006321324%Z.
  unit 6004799503160662%Z (IZR 12009599006321324 * q * (5 / 10)). apply (rep _ 6004799503160662 0); [reflexivity|lia|lia].
Qed.
Lemma all_ones : double_prob [1; 1; 1]%Z = 1.
Proof. apply (sample_prob_lemma [1; 1; 1]%Z 3); [reflexivity|lia|repeat constructor; lia|reflexivity]. Qed.
Lemma p_negative : a_p_XOR double 1 1 (IZR 6004799503160662 * q) = IZR (-10) * q.
Proof.
  unfold a_p_XOR. cbn [aadd asub amul double]. rewrite !Rmult_1_r, !Rmult_1_l. rewrite (rnd_int 3), (rnd_int 3), (rnd_int 1) by lia. rewrite (rep 6004799503160662 6004799503160662 0) by (try reflexivity; lia).
  unit 18014398509481986%Z (3 * (IZR 6004799503160662 * q)). rewrite (tie _ 4503599627370496 1) by (try reflexivity; lia). change (4503599627370496 * 2 ^ (1 + 1))%Z with 18014398509481984%Z.
  unit 24019198012642646%Z (1 + IZR 6004799503160662 * q). rewrite (tie _ 6004799503160662 1) by (try reflexivity; lia). change (6004799503160662 * 2 ^ (1 + 1))%Z with 24019198012642648%Z.
  unit 30023997515803310%Z (IZR 24019198012642648 * q + IZR 6004799503160662 * q). rewrite (tie _ 7505999378950828 1) by (try reflexivity; lia). change (7505999378950828 * 2 ^ (1 + 1))%Z with 30023997515803312%Z.
  unit 60047995031606624%Z (2 * (IZR 30023997515803312 * q)). rewrite (rep 60047995031606624 7505999378950828 3) by (try reflexivity; lia).
  unit (-42033596522124640)%Z (IZR 18014398509481984 * q - IZR 60047995031606624 * q). rewrite (rep (-42033596522124640) (-5254199565265580) 3) by (try reflexivity; lia).
  unit (-24019198012642656)%Z (IZR (-42033596522124640) * q + 1). rewrite (rep (-24019198012642656) (-6004799503160664) 2) by (try reflexivity; lia).
  unit (-6004799503160672)%Z (IZR (-24019198012642656) * q + 1). rewrite (rep (-6004799503160672) (-6004799503160672) 0) by (try reflexivity; lia).
  unit (-10)%Z (IZR (-6004799503160672) * q + IZR 6004799503160662 * q). apply (rep (-10) (-10) 0); [reflexivity|lia|lia].
Qed.
Lemma negative_lemma : let z := [double_prob [1; 1; 1]%Z] in let v := [double_prob [-1; -1; 1]%Z] in
  exists f g, a_output_3d double "XOR-XOR" = Some f /\ a_output_3d double "XOR-NXOR" = Some g /\
  f z z v = - (5 * / IZR (2 ^ 53)) /\ g z z v = 1 + 4 * / IZR (2 ^ 53).
Proof.
  cbv zeta. rewrite all_ones, third. eexists. eexists. split; [reflexivity|]. split; [reflexivity|].
  assert (W : / IZR (2 ^ 53) = 2 * q) by (unfold q; change (bpow radix2 (-54)) with (/ 18014398509481984); change (2 ^ 53)%Z with 9007199254740992%Z; field).
  unfold a_XOR_XOR_3d, a_XOR_NXOR_3d, a_sum, a_skip. cbn [List.length seq fold_left Nat.eqb aadd amul double]. unfold rat. cbn [nth]. rewrite p_negative. split.
  - rewrite Rmult_1_l, Rplus_0_l. rewrite !(rep (-10) (-10) 0) by (try reflexivity; lia). lra.
  - cbn [asub double]. unit 18014398509481994%Z (1 - IZR (-10) * q). rewrite (tie _ 4503599627370498 1) by (try reflexivity; lia). change (4503599627370498 * 2 ^ (1 + 1))%Z with 18014398509481992%Z.
    rewrite Rmult_1_l, Rplus_0_l. rewrite !(rep 18014398509481992 4503599627370498 2) by (try reflexivity; lia). rewrite W. pose proof q_val. lra.
Qed.
