(** Updates in double precision: all updates of a factor, near invariance of the posterior. *)
From Coq Require Import Lra Psatz ZifyBool String.
From Verif Require Import Base BaseR BaseLemmas BaseRLemmas Spec SpecR Outputs Scores Sampling SamplingProofs HierProofs SpecFloat Invariance InvarianceProofs UnbiasedProofs ErgodicProofs4 FloatFuzzy FloatProofs SpecFloatRun FloatSampling FloatSampleProofs FloatSampleProofs2.
Local Open Scope R_scope.

Lemma grid_inv : / INR draw_grid = roundoff.
Proof. unfold draw_grid, roundoff. rewrite INR_IZR_INZ, Z2Nat.id by (apply Z.pow_nonneg; lia). reflexivity. Qed.
Lemma grid_pos : (0 < draw_grid)%nat.
Proof. unfold draw_grid. apply Nat2Z.inj_lt. rewrite Z2Nat.id by (apply Z.pow_nonneg; lia). reflexivity. Qed.

Section One.
Context (ex : R -> R) (Hex : good_exp ex).
Definition dacc (y : R) (z : Z) : R := if ((z =? 1)%Z && Rleb y 0) || ((z =? -1)%Z && Rleb 0 y) then 1 else ex (IZR (- z) * y).
Lemma double_flip_dacc y z r : pm1 z -> 0 <= r < 1 -> double_flip ex y z r = if Rltb r (dacc y z) then (- z)%Z else z.
Proof.
  intros Hz Hr. unfold double_flip, dacc. assert (R1 : Rltb r 1 = true) by (destruct (Rltb_spec r 1); [reflexivity|lra]).
  destruct Hz as [-> | ->]; cbn [Z.eqb Pos.eqb andb orb Z.opp].
  - destruct (Rleb y 0); cbn [orb]; [rewrite R1|]; reflexivity.
  - destruct (Rleb 0 y); cbn [orb]; [rewrite R1|]; reflexivity.
Qed.
Lemma dacc_close y z : pm1 z -> Rabs (dacc y z - accept y z) <= 2 * roundoff.
Proof.
  intros Hz. pose proof eps_pos as EP. change eps with roundoff in EP. rewrite accept_gdec. unfold dacc.
  destruct Hz as [-> | ->]; cbn [Z.eqb Pos.eqb andb orb Z.opp].
  - rewrite orb_false_r. destruct (Rleb_spec y 0) as [Q|Q]; [rewrite gdec_low by lra; replace (1 - 1) with 0 by ring; rewrite Rabs_R0; lra|]. rewrite gdec_high by lra. replace (- (1 * y)) with (-1 * y) by ring. apply Hex. lra.
  - destruct (Rleb_spec 0 y) as [Q|Q]; [rewrite gdec_low by lra; replace (1 - 1) with 0 by ring; rewrite Rabs_R0; lra|]. rewrite gdec_high by lra. replace (- (-1 * y)) with (1 * y) by ring. apply Hex. lra.
Qed.
Lemma loops_close N L Z_ fixed (x y : mat -> nat -> nat -> R) c : okmat N L Z_ -> 0 <= c ->
  (forall m n l, okmat N L m -> (n < N)%nat -> (l < L)%nat -> Rabs (accept (y m n l) (at2 m n l) - accept (x m n l) (at2 m n l)) <= c) ->
  close_update (fun r => Ok (sample_loop x Z_ fixed r)) (fun r => Ok (double_loop ex y Z_ fixed r)) N L (INR (N * L) * (c + 3 * roundoff)).
Proof.
  intros HZ Hc H h Hh. pose proof eps_pos as EP. change eps with roundoff in EP.
  set (sx := fun (m : mat) n l r => if (at2 fixed n l =? 1)%Z then m else set2 m n l (flip_metropolised_gibbs_numba (x m n l) (at2 m n l) r)).
  set (sy := fun (m : mat) n l r => if (at2 fixed n l =? 1)%Z then m else set2 m n l (double_flip ex (y m n l) (at2 m n l) r)).
  assert (Sx : forall m n l r, okmat N L m -> (n < N)%nat -> (l < L)%nat -> 0 <= r < 1 -> sx m n l r = if (at2 fixed n l =? 1)%Z then m else if Rltb r (accept (x m n l) (at2 m n l)) then flip_cell n l m else m).
  { intros m n l r Hm Hn Hl Hr. unfold sx. destruct (_ =? 1)%Z; [reflexivity|]. rewrite flip_is_mg; [|eapply okmat_pm; eassumption|exact Hr]. unfold mg_flip. fold (accept (x m n l) (at2 m n l)). destruct (Rltb r _); [reflexivity|apply set2_at2]. }
  assert (Sy : forall m n l r, okmat N L m -> (n < N)%nat -> (l < L)%nat -> 0 <= r < 1 -> sy m n l r = if (at2 fixed n l =? 1)%Z then m else if Rltb r (dacc (y m n l) (at2 m n l)) then flip_cell n l m else m).
  { intros m n l r Hm Hn Hl Hr. unfold sy. destruct (_ =? 1)%Z; [reflexivity|]. rewrite double_flip_dacc; [|eapply okmat_pm; eassumption|exact Hr]. destruct (Rltb r _); [reflexivity|apply set2_at2]. }
  assert (Cx : forall rs, List.length rs = (N * L)%nat -> sample_loop x Z_ fixed (draws_of L rs) = crun sx (cells N L) rs Z_) by (intros rs Hl; rewrite (sample_loop_cells x Z_ fixed (draws_of L rs) N L (proj1 HZ)); rewrite <- (fold_crun sx N L rs Z_ Hl); reflexivity).
  assert (Cy : forall rs, List.length rs = (N * L)%nat -> double_loop ex y Z_ fixed (draws_of L rs) = crun sy (cells N L) rs Z_).
  { intros rs Hl. rewrite <- (fold_crun sy N L rs Z_ Hl). unfold double_loop. rewrite fold_prod. rewrite (shape2_nrows _ _ _ (proj1 HZ)). unfold cells. destruct N as [|N']; [reflexivity|]. rewrite (shape2_ncols _ _ _ (proj1 HZ)) by lia. reflexivity. }
  set (ax := fun (m : mat) n l => accept (x m n l) (at2 m n l)). set (ay := fun (m : mat) n l => dacc (y m n l) (at2 m n l)).
  exists (expect fixed h ax (cells N L) Z_). split.
  - rewrite <- (cells_length N L). apply (is_E_ext _ (fun rs => h (crun sx (cells N L) rs Z_))).
    + intros rs Hl _. rewrite cells_length in Hl. cbn [on_ok]. rewrite Cx by exact Hl. reflexivity.
    + apply (run_expect fixed N L h sx ax (cells N L) Z_); [intros; apply accept_range|exact Sx|exact HZ|auto].
  - assert (G : forall M k f g, (forall rs, List.length rs = k -> f rs = g rs) -> grid_mean M k f = grid_mean M k g).
    { intros M. induction k as [|k IH]; intros f g Q; cbn [grid_mean]; [apply Q; reflexivity|]. f_equal. apply Rsum_ext. intros j _. apply IH. intros rs Hl. apply Q. cbn. congruence. }
    unfold mean_of. rewrite (G draw_grid (N * L)%nat _ (fun rs => h (crun sy (cells N L) rs Z_))) by (intros rs Hl; cbn [on_ok]; rewrite Cy by exact Hl; reflexivity).
    rewrite <- (cells_length N L). rewrite (grid_expect fixed N L h draw_grid sy ay (cells N L) Z_ grid_pos Sy HZ (fun q Hq => Hq)).
    apply (expect_close fixed N L h Hh (fun m n l => grid_prob draw_grid (ay m n l)) ax (c + 3 * roundoff) (cells N L) Z_); [intros; apply grid_prob_range, grid_pos|intros; apply accept_range|lra| |exact HZ|auto].
    intros m n l Hm Hn Hl. unfold ax, ay. replace (c + 3 * roundoff) with ((2 * roundoff + c) + / INR draw_grid) by (rewrite grid_inv; ring). apply grid_prob_close; [exact grid_pos|apply accept_range|].
    apply (abs_tri3 _ (accept (y m n l) (at2 m n l)) _); [apply dacc_close; eapply okmat_pm; eassumption|apply H; assumption].
Qed.
(** One term for the data, one for the prior. *)
Lemma logit_close2 t lp lp' d z : pm1 z -> Rabs (lp - lp') <= d -> Rabs (accept (rnd (rnd t + lp)) z - accept (t + lp') z) <= (7 + 3 * Rabs lp) * roundoff + d.
Proof.
  intros Hz Hd. pose proof eps_pos as EP. pose proof (Rabs_pos lp) as P.
  apply Rle_trans with (eps * (101 / 100 * ((3 + 2 * Rabs lp) + 3)) + d).
  - apply (abs_tri3 _ (accept (t + lp) z) _); [apply (accept_close _ _ z (3 + 2 * Rabs lp) 3 Hz); [lra|lra|apply logit_err2]|]. eapply Rle_trans; [apply accept_lip, Hz|]. replace (t + lp - (t + lp')) with (lp - lp') by ring. exact Hd.
  - change roundoff with eps. apply Rplus_le_compat_r. rewrite (Rmult_comm _ eps). apply Rmult_le_compat_l; lra.
Qed.
Lemma logit_close3 t t2 lp lp' d z : pm1 z -> Rabs (lp - lp') <= d -> Rabs (accept (rnd (rnd (rnd t + rnd t2) + lp)) z - accept (t + t2 + lp') z) <= (10 + 4 * (Rabs t2 + Rabs lp)) * roundoff + d.
Proof.
  intros Hz Hd. pose proof eps_pos as EP. pose proof (Rabs_pos lp) as P. pose proof (Rabs_pos t2) as P2.
  apply Rle_trans with (eps * (101 / 100 * ((5 + 3 * (Rabs t2 + Rabs lp)) + 4)) + d).
  - apply (abs_tri3 _ (accept (t + t2 + lp) z) _); [apply (accept_close _ _ z (5 + 3 * (Rabs t2 + Rabs lp)) 4 Hz); [lra|lra|apply logit_err3]|]. eapply Rle_trans; [apply accept_lip, Hz|]. replace (t + t2 + lp - (t + t2 + lp')) with (lp - lp') by ring. exact Hd.
  - change roundoff with eps. apply Rplus_le_compat_r. rewrite (Rmult_comm _ eps). apply Rmult_le_compat_l; lra.
Qed.
Lemma logit_close4 t t2 t3 lp lp' d z : pm1 z -> Rabs (lp - lp') <= d -> Rabs (accept (rnd (rnd (rnd (rnd t + rnd t2) + rnd t3) + lp)) z - accept (t + t2 + t3 + lp') z) <= (13 + 5 * (Rabs t2 + Rabs t3 + Rabs lp)) * roundoff + d.
Proof.
  intros Hz Hd. pose proof eps_pos as EP. pose proof (Rabs_pos lp) as P. pose proof (Rabs_pos t2) as P2. pose proof (Rabs_pos t3) as P3.
  apply Rle_trans with (eps * (101 / 100 * ((7 + 4 * (Rabs t2 + Rabs t3 + Rabs lp)) + 5)) + d).
  - apply (abs_tri3 _ (accept (t + t2 + t3 + lp) z) _); [apply (accept_close _ _ z (7 + 4 * (Rabs t2 + Rabs t3 + Rabs lp)) 5 Hz); [lra|lra|apply logit_err4]|]. eapply Rle_trans; [apply accept_lip, Hz|]. replace (t + t2 + t3 + lp - (t + t2 + t3 + lp')) with (lp - lp') by ring. exact Hd.
  - change roundoff with eps. apply Rplus_le_compat_r. rewrite (Rmult_comm _ eps). apply Rmult_le_compat_l; lra.
Qed.
Lemma is_E_unique k f u v : is_E k f u -> is_E k f v -> u = v.
Proof. intros H1 H2. pose proof (is_E_lin k 1 (-1) f f u v H1 H2) as H. apply (is_E_only k _ _ 0) in H; [lra|]. intros; ring. Qed.
(** Close updates of an invariant distribution. *)
Lemma close_invariant (S S' : mat -> (nat -> nat -> R) -> res mat) w states N L b : invariant S w states N L -> (forall m, In m states -> 0 <= w m) ->
  (forall m, In m states -> close_update (S m) (S' m) N L b) -> nearly_invariant S' w states N L b.
Proof.
  intros HI Hw HC h Hh. destruct (HI h) as (E & H1 & H2). rewrite <- H2.
  assert (G : forall l, (forall m, In m l -> In m states) -> Rabs (Rsum (fun m => w m * mean_of (N * L) (fun rs => on_ok h (S' m (draws_of L rs)))) l - Rsum (fun m => w m * E m) l) <= b * Rsum w l).
  { induction l as [|m l IH]; intros Hin; [cbn; rewrite Rminus_diag_eq by reflexivity; rewrite Rabs_R0; lra|]. rewrite !Rsum_cons. specialize (IH (fun q Hq => Hin q (or_intror Hq))). pose proof (Hin m (or_introl eq_refl)) as Hm.
    destruct (HC m Hm h Hh) as (v & V1 & V2). rewrite (is_E_unique _ _ _ _ V1 (H1 m Hm)) in V2. set (g := mean_of _ _) in *. specialize (Hw m Hm).
    assert (B : Rabs (w m * g - w m * E m) <= b * w m) by (rewrite <- Rmult_minus_distr_l, Rabs_mult, (Rabs_right (w m)) by lra; rewrite Rmult_comm; apply Rmult_le_compat_r; assumption).
    eapply Rle_trans; [|eapply Rle_trans; [apply (Rplus_le_compat _ _ _ _ B IH)|right; ring]]. match goal with |- Rabs ?x <= Rabs ?y + Rabs ?z => replace x with (y + z) by ring end. apply Rabs_triang. }
  apply G. auto.
Qed.
End One.
