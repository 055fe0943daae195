(** Rounding to double precision: facts used for FloatFuzzy.v. *)
From Coq Require Import Lra Psatz.
From Verif Require Import Base BaseR Fuzzy FloatFuzzy.
From Flocq Require Import Core Relative.
Local Open Scope R_scope.

Local Notation fexp := (FLT_exp (-1074) 53).
#[local] Instance prec53 : Prec_gt_0 53.
Proof. reflexivity. Qed.
Definition eps : R := / IZR (2 ^ 53).
Lemma eps_val : eps = bpow radix2 (-53).
Proof. reflexivity. Qed.
Lemma eps_pos : 0 < eps.
Proof. rewrite eps_val. apply bpow_gt_0. Qed.
Lemma eps_small : eps * IZR (2 ^ 53) = 1.
Proof. unfold eps. apply Rinv_l. apply IZR_neq. discriminate. Qed.

Lemma rnd_le x y : x <= y -> rnd x <= rnd y.
Proof. apply round_le; typeclasses eauto. Qed.
Lemma rnd_rnd x : rnd (rnd x) = rnd x.
Proof. unfold rnd. apply round_generic; [typeclasses eauto|]. apply generic_format_round; typeclasses eauto. Qed.
Lemma rnd_int n : (Z.abs n <= 2 ^ 53)%Z -> rnd (IZR n) = IZR n.
Proof.
  intros H. destruct (Z.eq_dec (Z.abs n) (2 ^ 53)) as [E|E].
  - assert (G : generic_format radix2 fexp (IZR (2 ^ 53))) by (change (IZR (2 ^ 53)) with (bpow radix2 53); apply generic_format_bpow; cbn; lia).
    apply round_generic; [typeclasses eauto|]. destruct (Z.abs_eq_or_opp n) as [A|A]; rewrite A in E; [rewrite E; exact G|]. replace n with (- (2 ^ 53))%Z by lia. rewrite opp_IZR. apply generic_format_opp, G.
  - apply round_generic; [typeclasses eauto|]. apply generic_format_FLT. exists (Float radix2 n 0); [unfold F2R; cbn; ring|cbn [Fnum]; change (radix2 ^ 53)%Z with (2 ^ 53)%Z; lia|cbn [Fexp]; lia].
Qed.
Lemma rnd_0 : rnd 0 = 0. Proof. apply (rnd_int 0). lia. Qed.
Lemma rnd_1 : rnd 1 = 1. Proof. apply (rnd_int 1). lia. Qed.
Lemma rnd_err B x : 1 <= B -> Rabs x <= B -> Rabs (rnd x - x) <= B * eps.
Proof.
  intros HB Hx. destruct (error_N_FLT radix2 (-1074) 53 ltac:(lia) (fun x => negb (Z.even x)) x) as (e & h & He & Hh & H0 & E).
  change (round radix2 fexp (Znearest (fun x => negb (Z.even x))) x) with (rnd x) in E. rewrite E. replace (x * (1 + e) + h - x) with (x * e + h) by ring.
  assert (He' : Rabs e <= eps). { rewrite eps_val. replace (bpow radix2 (-53)) with (/ 2 * bpow radix2 (- (53) + 1)); [exact He|]. replace (/ 2) with (bpow radix2 (-1)) by reflexivity. rewrite <- bpow_plus. reflexivity. }
  assert (Hh' : Rabs h <= eps). { eapply Rle_trans; [exact Hh|]. rewrite eps_val. replace (/ 2) with (bpow radix2 (-1)) by reflexivity. rewrite <- bpow_plus. apply bpow_le. lia. }
  pose proof eps_pos as P. pose proof (Rabs_pos x) as X0. pose proof (Rabs_pos e) as E0. destruct (Rmult_integral _ _ H0) as [->| ->].
  - rewrite Rmult_0_r, Rplus_0_l. nra.
  - rewrite Rplus_0_r, Rabs_mult. nra.
Qed.
Lemma rnd_half_ulp x : Rabs x < 1 -> Rabs (rnd x - x) <= bpow radix2 (-54).
Proof.
  intros H. eapply Rle_trans; [apply error_le_half_ulp; typeclasses eauto|]. destruct (Req_dec x 0) as [->|N].
  - rewrite ulp_FLT_small; [|typeclasses eauto|rewrite Rabs_R0; apply bpow_gt_0]. replace (/ 2) with (bpow radix2 (-1)) by reflexivity. rewrite <- bpow_plus. apply bpow_le. lia.
  - rewrite ulp_neq_0 by exact N. replace (/ 2) with (bpow radix2 (-1)) by reflexivity. rewrite <- bpow_plus. apply bpow_le. unfold cexp, FLT_exp. assert (mag radix2 x <= 0)%Z by (apply mag_le_bpow; [exact N|exact H]). lia.
Qed.
(** The rounded value of a number of known magnitude. *)
Lemma rnd_at e n x : (-1021 <= e)%Z -> bpow radix2 (e - 1) <= Rabs x < bpow radix2 e -> Rabs (x * bpow radix2 (53 - e) - IZR n) < / 2 -> rnd x = IZR n * bpow radix2 (e - 53).
Proof.
  intros He Hm Hn. unfold rnd, round, scaled_mantissa, cexp. rewrite (mag_unique radix2 x e Hm). replace (fexp e) with (e - 53)%Z by (unfold FLT_exp; lia). replace (- (e - 53))%Z with (53 - e)%Z by lia. rewrite (Znearest_imp _ _ n Hn). reflexivity.
Qed.
Lemma rnd_above_one x : x <= 1 + bpow radix2 (-54) -> rnd x <= 1.
Proof.
  intros H. apply rnd_le in H. eapply Rle_trans; [exact H|]. apply Req_le. rewrite (rnd_at 1 (2 ^ 52)).
  - change (bpow radix2 (1 - 53)) with (/ IZR (2 ^ 52)). apply Rinv_r. apply IZR_neq. discriminate.
  - lia.
  - change (bpow radix2 (1 - 1)) with 1. change (bpow radix2 1) with 2. change (bpow radix2 (-54)) with (/ IZR (2 ^ 54)). pose proof (Rinv_0_lt_compat (IZR (2 ^ 54)) ltac:(apply IZR_lt; lia)). assert (/ IZR (2 ^ 54) < 1) by (rewrite <- Rinv_1; apply Rinv_lt_contravar; [rewrite Rmult_1_l; apply IZR_lt; lia|apply IZR_lt; lia]). rewrite Rabs_pos_eq by lra. lra.
  - change (bpow radix2 (-54)) with (/ IZR (2 ^ 54)). change (bpow radix2 (53 - 1)) with (IZR (2 ^ 52)). replace ((1 + / IZR (2 ^ 54)) * IZR (2 ^ 52) - IZR (2 ^ 52)) with (/ 4). { rewrite Rabs_pos_eq; lra. }
    replace (IZR (2 ^ 54)) with (4 * IZR (2 ^ 52)) by (rewrite <- mult_IZR; reflexivity). assert (IZR (2 ^ 52) <> 0) by (apply IZR_neq; discriminate). field. exact H0.
Qed.
Definition in01 (x : R) : Prop := 0 <= x <= 1.
Lemma rnd_01 x : in01 x -> in01 (rnd x).
Proof. intros (A & B). split; [rewrite <- rnd_0|rewrite <- rnd_1]; apply rnd_le; assumption. Qed.
Lemma rnd_pos x : 0 <= x -> 0 <= rnd x.
Proof. intros H. rewrite <- rnd_0. apply rnd_le, H. Qed.

(** ** Distances *)
Definition near (k x y : R) : Prop := Rabs (x - y) <= k * eps.
Lemma near_refl x : near 0 x x.
Proof. unfold near. rewrite Rminus_diag_eq by reflexivity. rewrite Rabs_R0. lra. Qed.
Lemma near_weaken k k' x y : k <= k' -> near k x y -> near k' x y.
Proof. unfold near. pose proof eps_pos. intros A B. nra. Qed.
Lemma near_rnd k B x y : near k x y -> 1 <= B -> Rabs x <= B -> near (k + B) (rnd x) y.
Proof.
  unfold near. intros H HB Hx. pose proof (rnd_err B x HB Hx) as E. replace (rnd x - y) with ((rnd x - x) + (x - y)) by ring. eapply Rle_trans; [apply Rabs_triang|]. lra.
Qed.
Lemma near_add k k' x y x' y' : near k x y -> near k' x' y' -> near (k + k') (x + x') (y + y').
Proof. unfold near. intros A B. replace (x + x' - (y + y')) with ((x - y) + (x' - y')) by ring. eapply Rle_trans; [apply Rabs_triang|]. lra. Qed.
Lemma near_sub k k' x y x' y' : near k x y -> near k' x' y' -> near (k + k') (x - x') (y - y').
Proof. unfold near. intros A B. replace (x - x' - (y - y')) with ((x - y) + (y' - x')) by ring. eapply Rle_trans; [apply Rabs_triang|]. rewrite (Rabs_minus_sym y' x'). lra. Qed.
Lemma near_mul k k' B B' x y x' y' : near k x y -> near k' x' y' -> Rabs x <= B -> Rabs y' <= B' -> near (B * k' + k * B') (x * x') (y * y').
Proof.
  unfold near. intros H H' HB HB'. replace (x * x' - y * y') with (x * (x' - y') + (x - y) * y') by ring. eapply Rle_trans; [apply Rabs_triang|]. rewrite !Rabs_mult.
  pose proof (Rabs_pos x). pose proof (Rabs_pos y'). pose proof (Rabs_pos (x' - y')). pose proof (Rabs_pos (x - y)). assert (Rabs x * Rabs (x' - y') <= B * (k' * eps)) by (apply Rmult_le_compat; assumption). assert (Rabs (x - y) * Rabs y' <= k * eps * B') by (apply Rmult_le_compat; assumption). lra.
Qed.
Lemma near_bound k x y c : near k x y -> in01 y -> k * eps <= c -> Rabs x <= 1 + c.
Proof. unfold near. intros H (A & B) C. replace x with ((x - y) + y) by ring. eapply Rle_trans; [apply Rabs_triang|]. rewrite (Rabs_pos_eq y) by exact A. lra. Qed.
Lemma in01_abs x : in01 x -> Rabs x <= 1.
Proof. intros (A & B). rewrite Rabs_pos_eq; assumption. Qed.
