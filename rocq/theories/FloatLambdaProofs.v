(** The dispersion update in double precision. *)
From Coq Require Import Lra Psatz String.
From Verif Require Import Base BaseR BaseLemmas BaseRLemmas Spec SpecR Outputs Lambda LambdaProofs SamplingProofs SpecFloat FloatFuzzy FloatProofs FloatProofs7 Extended SpecFloatRun FloatLambda FloatSampleProofs FloatSampleProofs2 SpecQL LayerOutputProofs2.
Local Open Scope R_scope.

Lemma best_unique P ND a b x y : best_dispersion P ND a b x -> best_dispersion P ND a b y -> x = y.
Proof.
  intros (_ & H1 & _) (_ & H2 & _). destruct (Rtotal_order x y) as [H|[H|H]]; [|exact H|]; apply sigma_incr in H; rewrite H1, H2 in H; lra.
Qed.
Lemma abs_in x d : Rabs x <= d -> - d <= x <= d.
Proof. intros H. unfold Rabs in H. destruct (Rcase_abs x); lra. Qed.
(** The argument of the logarithm. *)
Lemma log_arg_err N p a b : 0 <= p <= N -> 1 <= a -> 0 < b -> let S := N + a + b in let T := p + a in
  Rabs (rnd (rnd (rnd (rnd (N + a) + b) / rnd (p + a)) - 1) - (S / T - 1)) <= 21 / 4 * eps * (S / T).
Proof.
  intros Hp Ha Hb S T. pose proof eps_pos as EP. pose proof eps_4 as E4.
  assert (HT : 1 <= T) by (unfold T; lra). assert (HS : T < S) by (unfold T, S; lra).
  assert (Q1 : 1 < S / T) by (apply (Rmult_lt_reg_r T); [lra|]; unfold Rdiv; rewrite Rmult_assoc, Rinv_l by lra; lra).
  pose proof (rnd_err (N + a) (N + a) ltac:(lra) ltac:(rewrite Rabs_right; lra)) as R1. apply abs_in in R1. set (s1 := rnd (N + a)) in *.
  assert (B1 : (N + a) * eps <= (N + a) * / 10000) by (apply Rmult_le_compat_l; lra).
  assert (P1 : 0 < s1) by lra.
  pose proof (rnd_err (1001 / 1000 * S) (s1 + b) ltac:(lra) ltac:(unfold S; rewrite Rabs_right; lra)) as R2. apply abs_in in R2. set (s := rnd (s1 + b)) in *.
  assert (ES : Rabs (s - S) <= 201 / 100 * eps * S).
  { assert ((N + a) * eps <= S * eps) by (apply Rmult_le_compat_r; unfold S; lra). apply Rabs_le. unfold S in *. split; nra. }
  pose proof (rnd_err T T HT ltac:(rewrite Rabs_right; lra)) as R3. apply abs_in in R3. fold T. set (t := rnd T) in *.
  assert (B3 : T * eps <= T * / 10000) by (apply Rmult_le_compat_l; lra).
  assert (Pt : 0 < t) by lra.
  set (q := S / T) in *. assert (Eq : S = q * T) by (unfold q; field; lra).
  (* s/t *)
  assert (ER : Rabs (s / t - q) <= 31 / 10 * eps * q).
  { replace (s / t - q) with ((s - S - q * (t - T)) / t) by (rewrite Eq; field; lra). unfold Rdiv at 1. rewrite Rabs_mult, (Rabs_right (/ t)) by (left; apply Rinv_0_lt_compat; lra).
    apply (Rmult_le_reg_r t); [exact Pt|]. rewrite Rmult_assoc, Rinv_l, Rmult_1_r by lra.
    apply Rle_trans with (301 / 100 * eps * S).
    - eapply Rle_trans; [unfold Rminus at 1; apply Rabs_triang|]. rewrite Rabs_Ropp, Rabs_mult, (Rabs_right q) by lra.
      assert (Rabs (t - T) <= T * eps) by (apply Rabs_le; lra). assert (q * Rabs (t - T) <= q * (T * eps)) by (apply Rmult_le_compat_l; lra). rewrite Eq in *. lra.
    - rewrite Eq. assert (E5 : 301 / 100 * T <= 31 / 10 * t) by lra. assert (0 <= eps * q) by nra. replace (301 / 100 * eps * (q * T)) with (eps * q * (301 / 100 * T)) by ring. replace (31 / 10 * eps * q * t) with (eps * q * (31 / 10 * t)) by ring. apply Rmult_le_compat_l; assumption. }
  apply abs_in in ER. assert (B4 : eps * q <= / 10000 * q) by (apply Rmult_le_compat_r; lra).
  assert (RB : Rabs (s / t) <= 1001 / 1000 * q) by (rewrite Rabs_right; lra).
  pose proof (rnd_err (1001 / 1000 * q) (s / t) ltac:(lra) RB) as R4. apply abs_in in R4. set (q' := rnd (s / t)) in *.
  assert (RB' : Rabs (q' - 1) <= 1001 / 1000 * q) by (apply Rabs_le; split; lra).
  pose proof (rnd_err (1001 / 1000 * q) (q' - 1) ltac:(lra) RB') as R5. apply abs_in in R5.
  apply Rabs_le. split; lra.
Qed.
Lemma ln_near x y r : 0 < x -> 0 <= r <= 1 / 3 -> Rabs (y - x) <= r * x -> 0 < y /\ Rabs (ln y - ln x) <= 3 / 2 * r.
Proof.
  intros Hx Hr H. apply abs_in in H. assert (r * x <= 1 / 3 * x) by (apply Rmult_le_compat_r; lra). assert (Hy : 0 < y) by lra. split; [exact Hy|].
  pose proof (ln_le_sub (y / x) ltac:(apply Rdiv_lt_0_compat; lra)) as L1. pose proof (ln_le_sub (x / y) ltac:(apply Rdiv_lt_0_compat; lra)) as L2.
  rewrite ln_div in L1, L2 by lra.
  assert (A1 : y / x - 1 <= r) by (apply (Rmult_le_reg_r x); [lra|]; replace ((y / x - 1) * x) with (y - x) by (field; lra); lra).
  assert (A2 : x / y - 1 <= 3 / 2 * r) by (apply (Rmult_le_reg_r y); [lra|]; replace ((x / y - 1) * y) with (x - y) by (field; lra); assert (r * (2 / 3 * x) <= r * y) by (apply Rmult_le_compat_l; lra); lra).
  apply Rabs_le. split; lra.
Qed.
Lemma Rmax0_lip x y : Rabs (Rmax x 0 - Rmax y 0) <= Rabs (x - y).
Proof. unfold Rmax. destruct (Rle_dec x 0), (Rle_dec y 0); unfold Rabs; repeat destruct (Rcase_abs _); lra. Qed.
Lemma C118_val_lemma lg P ND a b d : (P <= ND)%nat -> 1 <= a -> 0 < b -> good_log lg d (2 * (INR ND + a + b)) ->
  16 * (INR ND + a + b) * roundoff <= INR ND - INR P + b ->
  near_best P ND a b (d + 8 * roundoff * (INR ND + a + b) / (INR ND - INR P + b)) (double_lbda lg (Z.of_nat ND) (Z.of_nat P) a b).
Proof.
  intros HP Ha Hb Hlg Hc. destruct (C17_val_lemma P ND a b HP ltac:(lra) Hb) as [W0 BD].
  pose proof (le_INR _ _ HP) as HPI. pose proof (pos_INR P) as HP0. pose proof eps_pos as EP. change roundoff with eps in *.
  pose proof (log_arg_err (INR ND) (INR P) a b ltac:(lra) Ha Hb) as H. cbv zeta in H.
  unfold double_lbda, double_log_argument. unfold lbda_val, lbda_log_argument in W0, BD. rewrite <- !INR_IZR_INZ in *.
  set (w' := rnd (_ - 1)) in *. set (S := INR ND + a + b) in *. set (T := INR P + a) in *. set (D := INR ND - INR P + b) in *.
  assert (HT : 1 <= T) by (unfold T; lra). assert (HD : 0 < D) by (unfold D; lra). assert (SD : S = T + D) by (unfold S, T, D; ring).
  set (w := S / T - 1) in *. assert (Ew : w = D / T) by (unfold w; rewrite SD; field; lra).
  set (r := 21 / 4 * eps * (S / D)).
  assert (ED : eps * (S / D) <= / 16) by (apply (Rmult_le_reg_r D); [exact HD|]; replace (eps * (S / D) * D) with (S * eps) by (field; lra); lra).
  assert (E0 : 0 <= eps * (S / D)) by (apply Rmult_le_pos; [lra|left; apply Rdiv_lt_0_compat; lra]).
  assert (Hr : 0 <= r <= 1 / 3) by (unfold r; lra).
  assert (Hw : Rabs (w' - w) <= r * w) by (eapply Rle_trans; [exact H|]; right; unfold r; rewrite Ew; field; lra).
  destruct (ln_near w w' r W0 Hr Hw) as [W1 HL].
  destruct (Rltb_spec 0 w') as [_|C]; [|contradiction]. exists (Rmax (- lg w') 0). split; [reflexivity|]. split; [apply Rmax_r|].
  intros lam Hlam. rewrite (best_unique _ _ _ _ _ _ Hlam BD). eapply Rle_trans; [apply Rmax0_lip|]. replace (- lg w' - - ln w) with (- ((lg w' - ln w') + (ln w' - ln w))) by ring. rewrite Rabs_Ropp.
  eapply Rle_trans; [apply Rabs_triang|]. apply abs_in in Hw. assert (RW : r * w <= 1 / 3 * w) by (apply Rmult_le_compat_r; lra).
  assert (G : Rabs (lg w' - ln w') <= d).
  { apply Hlg. change roundoff with eps. assert (T1 : w * T = D) by (rewrite Ew; field; lra). assert (W : w <= D) by nra. split; [|lra].
    assert (16 * eps <= w) by (apply (Rmult_le_reg_r T); [lra|]; rewrite T1; apply Rle_trans with (16 * S * eps); [|lra]; assert (T * eps <= S * eps) by (apply Rmult_le_compat_r; lra); lra). lra. }
  apply Rplus_le_compat; [exact G|]. eapply Rle_trans; [exact HL|]. unfold r. replace (8 * eps * S / D) with (8 * (eps * (S / D))) by (field; lra). lra.
Qed.
Lemma C118_2_lemma lg o i : In (o, i) implemented -> forall out, is_output o i out -> forall A B X N D L a b d, okmat N L A -> okmat D L B -> has_shape2 X N D -> 1 <= a -> 0 < b ->
  let P := correct2 out X N D L A B in let ND := observed2 X N D in good_log lg d (2 * (INR ND + a + b)) -> 16 * (INR ND + a + b) * roundoff <= INR ND - INR P + b ->
  exists x, double_lbda_update_2d lg (model_name o i) A B X a b = Ok x /\ near_best P ND a b (d + 8 * roundoff * (INR ND + a + b) / (INR ND - INR P + b)) x.
Proof.
  intros Hin out Ho A B X N D L a b d HA HB HX Ha Hb P ND Hlg Hc. destruct (counter2_lemma o i out Hin Ho) as (f & Ef & Hf). unfold double_lbda_update_2d. rewrite Ef. cbn [bind].
  eexists. split; [reflexivity|]. rewrite (Hf A B X N D L) by assumption. rewrite (zero_points2 X N D HX). apply C118_val_lemma; try assumption. apply (correct2_le out o i), Ho.
Qed.
Lemma C118_3_lemma lg o i : In (o, i) implemented -> forall out, is_output o i out -> forall A B C X N D M L a b d, okmat N L A -> okmat D L B -> okmat M L C -> has_shape3 X N D M -> 1 <= a -> 0 < b ->
  let P := correct3 out X N D M L A B C in let ND := observed3 X N D M in good_log lg d (2 * (INR ND + a + b)) -> 16 * (INR ND + a + b) * roundoff <= INR ND - INR P + b ->
  exists x, double_lbda_update_3d lg (model_name o i) A B C X a b = Ok x /\ near_best P ND a b (d + 8 * roundoff * (INR ND + a + b) / (INR ND - INR P + b)) x.
Proof.
  intros Hin out Ho A B C X N D M L a b d HA HB HC HX Ha Hb P ND Hlg Hc. destruct (counter3_lemma o i out Hin Ho) as (f & Ef & Hf). unfold double_lbda_update_3d. rewrite Ef. cbn [bind].
  eexists. split; [reflexivity|]. rewrite (Hf A B C X N D M L) by assumption. rewrite (zero_points3 X N D M HX). apply C118_val_lemma; try assumption. apply (correct3_le out o i), Ho.
Qed.
(** With the default prior: any data with less than 2^48 points. *)
Lemma C118_default_lemma lg P ND d : (P <= ND)%nat -> (Z.of_nat ND < 2 ^ 48)%Z -> good_log lg d (IZR (2 ^ 50)) ->
  near_best P ND 1 1 (d + 8 * roundoff * (INR ND + 2)) (double_lbda lg (Z.of_nat ND) (Z.of_nat P) 1 1).
Proof.
  intros HP HN Hlg. pose proof (le_INR _ _ HP) as HPI. pose proof (pos_INR P) as HP0. apply IZR_lt in HN. rewrite <- INR_IZR_INZ in HN. pose proof eps_pos as EP.
  assert (T : IZR (2 ^ 48) * 16 * eps = / 2) by (unfold eps; replace (IZR (2 ^ 53)) with (IZR (2 ^ 48) * 32) by (rewrite <- mult_IZR; reflexivity); field; apply IZR_neq; discriminate).
  assert (T0 : 2 <= IZR (2 ^ 48)) by (apply IZR_le; vm_compute; discriminate).
  assert (T2 : IZR (2 ^ 50) = 4 * IZR (2 ^ 48)) by (rewrite <- mult_IZR; reflexivity).
  assert (C : 16 * (INR ND + 1 + 1) * roundoff <= INR ND - INR P + 1).
  { change roundoff with eps. apply Rle_trans with (16 * (2 * IZR (2 ^ 48)) * eps); [apply Rmult_le_compat_r; lra|]. replace (16 * (2 * IZR (2 ^ 48)) * eps) with (2 * (IZR (2 ^ 48) * 16 * eps)) by ring. rewrite T. lra. }
  destruct (C118_val_lemma lg P ND 1 1 d HP ltac:(lra) ltac:(lra)) as (v & V1 & V2 & V3); [intros x Hx; apply Hlg; rewrite T2; split; lra|exact C|].
  exists v. split; [exact V1|]. split; [exact V2|]. intros lam Hl. eapply Rle_trans; [apply V3, Hl|]. apply Rplus_le_compat_l. change roundoff with eps.
  replace (INR ND + 1 + 1) with (INR ND + 2) by ring. apply (Rmult_le_reg_r (INR ND - INR P + 1)); [lra|]. unfold Rdiv. rewrite Rmult_assoc, Rinv_l, Rmult_1_r by lra.
  rewrite <- (Rmult_1_r (8 * eps * (INR ND + 2))) at 1. apply Rmult_le_compat_l; [|lra]. apply Rmult_le_pos; lra.
Qed.
(** Never NaN. *)
Lemma C118_nan_lemma lg P ND a b : (P <= ND)%nat -> is_double a -> 0 < a -> 0 < b -> double_lbda lg (Z.of_nat ND) (Z.of_nat P) a b <> NaN /\ double_lbda lg (Z.of_nat ND) (Z.of_nat P) a b <> NInf.
Proof.
  intros HP Da Ha Hb. apply le_INR in HP. pose proof (pos_INR P) as HP0. unfold double_lbda, double_log_argument. rewrite <- !INR_IZR_INZ.
  assert (T : 0 < rnd (INR P + a)) by (apply Rlt_le_trans with a; [exact Ha|]; rewrite <- (proj2 (rnd_fix a) Da) at 1; apply rnd_le; lra).
  assert (S : rnd (INR P + a) <= rnd (rnd (INR ND + a) + b)).
  { rewrite <- rnd_rnd at 1. apply rnd_le. apply Rle_trans with (rnd (INR ND + a)); [apply rnd_le; lra|lra]. }
  assert (W : 0 <= rnd (rnd (rnd (rnd (INR ND + a) + b) / rnd (INR P + a)) - 1)).
  { apply rnd_pos. assert (1 <= rnd (rnd (rnd (INR ND + a) + b) / rnd (INR P + a))); [|lra]. rewrite <- rnd_1 at 1. apply rnd_le. apply (Rmult_le_reg_r (rnd (INR P + a))); [exact T|]. unfold Rdiv. rewrite Rmult_assoc, Rinv_l by lra. lra. }
  destruct (Rltb 0 _); [split; discriminate|]. destruct (Rleb_spec 0 (rnd (rnd (rnd (rnd (INR ND + a) + b) / rnd (INR P + a)) - 1))); [split; discriminate|contradiction].
Qed.
(** A weak prior is rounded away. *)
Lemma C118_refuted_lemma : let b := / IZR (2 ^ 60) in is_double b /\ 0 < b /\ (exists lam, best_dispersion 1 1 1 b lam) /\ forall lg, double_lbda lg 1 1 1 b = PInf.
Proof.
  cbv zeta. assert (B0 : 0 < / IZR (2 ^ 60)) by (apply Rinv_0_lt_compat, IZR_lt; reflexivity).
  split; [|split; [exact B0|split]].
  - exists 1%Z, (-60)%Z. split; [reflexivity|]. split; [lia|]. rewrite Rmult_1_l. unfold powerRZ. rewrite pow_IZR. reflexivity.
  - exists (lbda_val 1 1 1 (/ IZR (2 ^ 60))). apply (C17_val_lemma 1 1 1 (/ IZR (2 ^ 60))); [lia|lra|exact B0].
  - intros lg. unfold double_lbda, double_log_argument. replace (IZR 1 + 1) with (IZR 2) by lra. rewrite (rnd_int 2) by lia.
    assert (E : rnd (2 + / IZR (2 ^ 60)) = 2).
    { assert (I : IZR (2 ^ 51) * / IZR (2 ^ 60) = / 512) by (replace (IZR (2 ^ 60)) with (IZR (2 ^ 51) * 512) by (rewrite <- mult_IZR; reflexivity); field; apply IZR_neq; discriminate).
      assert (B1 : / IZR (2 ^ 60) <= 1) by (rewrite <- Rinv_1; apply Rinv_le_contravar; [lra|apply IZR_le; vm_compute; discriminate]).
      rewrite (rnd_at 2 (2 ^ 52)); [|lia|rewrite Rabs_right by lra; cbn; lra|].
      - change (IZR (2 ^ 52) * / IZR (2 ^ 51) = 2). replace (IZR (2 ^ 52)) with (2 * IZR (2 ^ 51)) by (rewrite <- mult_IZR; reflexivity). field. apply IZR_neq. discriminate.
      - change (Raux.bpow Zaux.radix2 (53 - 2)) with (IZR (2 ^ 51)). replace ((2 + / IZR (2 ^ 60)) * IZR (2 ^ 51) - IZR (2 ^ 52)) with (/ 512); [rewrite Rabs_right; lra|]. rewrite <- I. replace (IZR (2 ^ 52)) with (2 * IZR (2 ^ 51)) by (rewrite <- mult_IZR; reflexivity). ring. }
    rewrite E. replace (2 / 2) with 1 by lra. rewrite rnd_1. replace (1 - 1) with 0 by ring. rewrite rnd_0. destruct (Rltb_spec 0 0); [lra|]. destruct (Rleb_spec 0 0); [reflexivity|lra].
Qed.
Lemma C118_qL_lemma lg out A B X q N D L a b d : is_qout out -> has_shape2 A N L -> has_shape2 B D L -> has_shape2 X N D -> (forall d, (d < D)%nat -> 1 <= at2 q 0 d)%Z -> 1 <= a -> 0 < b ->
  let P := List.length (filter (fun '(n, d) => at2 X n d =? out (at2 q 0 d) (row A n) (row B d) L)%Z (cells N D)) in let ND := observed2 X N D in good_log lg d (2 * (INR ND + a + b)) -> 16 * (INR ND + a + b) * roundoff <= INR ND - INR P + b ->
  near_best P ND a b (d + 8 * roundoff * (INR ND + a + b) / (INR ND - INR P + b)) (double_lbda_update_qL lg A B X q a b).
Proof.
  intros Ho HA HB HX Hq Ha Hb P ND Hlg Hc. destruct (qL_counts out A B X q N D L Ho HA HB HX Hq) as [E1 E2]. unfold double_lbda_update_qL. rewrite E1, (zero_points2 X N D HX). apply C118_val_lemma; assumption.
Qed.
Lemma C118_example_lemma : okmat 1 1 [[1]]%Z /\ has_shape2 [[1]]%Z 1 1 /\ good_log ln 0 (2 * (INR 1 + 1 + 1)) /\ 16 * (INR 1 + 1 + 1) * roundoff <= INR 1 - INR 1 + 1 /\
  double_lbda ln 1 1 1 1 = Fin (ln 2).
Proof.
  split; [split; [split; [reflexivity|repeat constructor]|repeat constructor; left; reflexivity]|]. split; [split; [reflexivity|repeat constructor]|]. split; [intros x _; rewrite Rminus_diag_eq by reflexivity; rewrite Rabs_R0; lra|].
  split; [change roundoff with eps; pose proof eps_4; pose proof eps_pos; cbn [INR]; lra|].
  unfold double_lbda, double_log_argument. replace (IZR 1 + 1) with (IZR 2) by lra. rewrite (rnd_int 2) by lia. replace (IZR 2 + 1) with (IZR 3) by lra. rewrite (rnd_int 3) by lia.
  assert (E : rnd (3 / 2) = 3 / 2) by (apply rnd_fix; exists 3%Z, (-1)%Z; split; [reflexivity|]; split; [lia|]; replace (powerRZ 2 (-1)) with (/ 2) by (unfold powerRZ; change (Pos.to_nat 1) with 1%nat; rewrite pow_1; reflexivity); lra).
  rewrite E. assert (E2 : rnd (3 / 2 - 1) = 1 / 2) by (replace (3 / 2 - 1) with (1 / 2) by lra; apply rnd_fix; exists 1%Z, (-1)%Z; split; [reflexivity|]; split; [lia|]; replace (powerRZ 2 (-1)) with (/ 2) by (unfold powerRZ; change (Pos.to_nat 1) with 1%nat; rewrite pow_1; reflexivity); lra).
  rewrite E2. destruct (Rltb_spec 0 (1 / 2)); [|lra]. f_equal. replace (1 / 2) with (/ 2) by lra. rewrite ln_Rinv by lra. rewrite Ropp_involutive. apply Rmax_left. rewrite <- ln_1. left. apply ln_increasing; lra.
Qed.
