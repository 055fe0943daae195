(** Updates in double precision: acceptance probabilities, updates, near invariance. *)
From Coq Require Import Lra Psatz ZifyBool String.
From Verif Require Import Base BaseR BaseLemmas BaseRLemmas Spec SpecR Outputs Scores Sampling SamplingProofs SpecFloat Invariance InvarianceProofs FloatFuzzy FloatProofs SpecFloatRun FloatSampling FloatSampleProofs.
Local Open Scope R_scope.

Definition accept (x : R) (z : Z) : R := Rmin 1 (exp (- IZR z * x)).
Lemma accept_range x z : 0 <= accept x z <= 1.
Proof. unfold accept. split; [|apply Rmin_l]. apply Rmin_glb; [lra|]. left; apply exp_pos. Qed.
Definition gdec (t : R) : R := Rmin 1 (exp (- t)).
Lemma gdec_low t : t <= 0 -> gdec t = 1.
Proof. intros H. unfold gdec. apply Rmin_left. pose proof (exp_ineq1_le (- t)). lra. Qed.
Lemma gdec_high t : 0 <= t -> gdec t = exp (- t).
Proof. intros H. unfold gdec. apply Rmin_right. rewrite <- exp_0. destruct H as [H|H]; [left; apply exp_increasing; lra|right; f_equal; lra]. Qed.
Lemma exp_le1 s : 0 <= s -> exp (- s) <= 1.
Proof. intros H. rewrite <- exp_0. destruct H as [H|H]; [left; apply exp_increasing; lra|right; f_equal; lra]. Qed.
Lemma exp_lin s : 0 <= s -> s * exp (- s) <= 1.
Proof. intros H. rewrite exp_Ropp. pose proof (exp_pos s). pose proof (exp_ineq1_le s). apply Rmult_le_reg_r with (exp s); [assumption|]. field_simplify; lra. Qed.
(** For [s <= u]. *)
Lemma gdec_diff s u : s <= u -> 0 <= gdec s - gdec u <= exp (- Rmax 0 s) * (u - s).
Proof.
  intros H. destruct (Rle_dec u 0) as [Q|Q].
  - rewrite !gdec_low by lra. pose proof (exp_pos (- Rmax 0 s)). split; [lra|]. nra.
  - assert (G : gdec s = exp (- Rmax 0 s)).
    { destruct (Rle_dec s 0) as [S|S]; [rewrite gdec_low, Rmax_left, Ropp_0, exp_0 by lra; reflexivity|rewrite gdec_high, Rmax_right by lra; reflexivity]. }
    rewrite G. rewrite gdec_high by lra. set (m := Rmax 0 s) in *. assert (M1 : 0 <= m) by apply Rmax_l. assert (M2 : s <= m) by apply Rmax_r. assert (M3 : m <= u) by (apply Rmax_lub; lra).
    replace (exp (- u)) with (exp (- m) * exp (- (u - m))) by (rewrite <- exp_plus; f_equal; ring). pose proof (exp_pos (- m)) as E1. pose proof (exp_ineq1_le (- (u - m))) as E2. pose proof (exp_le1 (u - m) ltac:(lra)) as E3.
    replace (exp (- m) - exp (- m) * exp (- (u - m))) with (exp (- m) * (1 - exp (- (u - m)))) by ring. split; [apply Rmult_le_pos; lra|]. apply Rmult_le_compat_l; lra.
Qed.
Lemma gdec_close t t' K b : 0 <= K -> 0 <= b <= 16 -> Rabs (t' - t) <= eps * (K + b * Rabs t) -> Rabs (gdec t' - gdec t) <= eps * (101 / 100 * (K + b)).
Proof.
  intros HK Hb H. pose proof eps_pos as EP. assert (ES : eps <= / 10000) by (unfold eps; apply Rinv_le_contravar; [lra|apply IZR_le; lia]).
  set (s := Rmin t t'). set (u := Rmax t t'). set (D := Rabs (t' - t)) in *. set (m := Rmax 0 s).
  assert (SU : u - s = D /\ s <= u /\ Rabs (gdec t' - gdec t) = gdec s - gdec u).
  { unfold s, u, D. destruct (Rle_dec t t') as [Q|Q].
    - rewrite Rmin_left, Rmax_right by lra. pose proof (gdec_diff t t' Q). split; [rewrite Rabs_right; lra|]. split; [exact Q|]. rewrite Rabs_left1; lra.
    - rewrite Rmin_right, Rmax_left by lra. pose proof (gdec_diff t' t ltac:(lra)). split; [rewrite Rabs_left; lra|]. split; [lra|]. rewrite Rabs_right; lra. }
  destruct SU as (E1 & E2 & E3). rewrite E3. pose proof (gdec_diff s u E2) as (_ & G). rewrite E1 in G. fold m in G.
  assert (M1 : 0 <= m) by apply Rmax_l. assert (M2 : s <= m) by apply Rmax_r.
  destruct (Rle_dec u 0) as [U|U].
  { rewrite !gdec_low by lra. replace (1 - 1) with 0 by ring. apply Rmult_le_pos; [lra|]. apply Rmult_le_pos; lra. }
  assert (T : Rabs t <= m + D).
  { assert (s <= t <= u) by (unfold s, u; split; [apply Rmin_l|apply Rmax_l]). destruct (Rle_dec 0 t) as [Q|Q]; [rewrite Rabs_right by lra; lra|]. rewrite Rabs_left by lra. lra. }
  assert (B1 : D * (1 - b * eps) <= eps * (K + b * m)).
  { assert (b * Rabs t <= b * (m + D)) by (apply Rmult_le_compat_l; lra). assert (eps * (K + b * Rabs t) <= eps * (K + b * (m + D))) by (apply Rmult_le_compat_l; lra). lra. }
  assert (B2 : 0 <= b * eps <= 16 / 10000) by (split; nra).
  assert (B3 : 0 <= D) by apply Rabs_pos. assert (B4 : 0 <= eps * (K + b * m)) by (apply Rmult_le_pos; [lra|]; nra).
  assert (B5 : D <= 101 / 100 * (eps * (K + b * m))).
  { set (k := b * eps) in *. assert (D * k <= D * (16 / 10000)) by (apply Rmult_le_compat_l; lra). lra. }
  pose proof (exp_pos (- m)) as X1. pose proof (exp_le1 m M1) as X2. pose proof (exp_lin m M1) as X3.
  eapply Rle_trans; [exact G|]. apply Rle_trans with (exp (- m) * (101 / 100 * (eps * (K + b * m)))); [apply Rmult_le_compat_l; lra|].
  replace (exp (- m) * (101 / 100 * (eps * (K + b * m)))) with (eps * (101 / 100 * (exp (- m) * K + b * (m * exp (- m))))) by ring.
  apply Rmult_le_compat_l; [lra|]. assert (exp (- m) * K <= K) by nra. assert (b * (m * exp (- m)) <= b) by nra. lra.
Qed.
Lemma accept_gdec x z : accept x z = gdec (IZR z * x).
Proof. unfold accept, gdec. f_equal. f_equal. ring. Qed.
Lemma accept_close x y z K b : pm1 z -> 0 <= K -> 0 <= b <= 16 -> Rabs (y - x) <= eps * (K + b * Rabs x) -> Rabs (accept y z - accept x z) <= eps * (101 / 100 * (K + b)).
Proof.
  intros Hz HK Hb H. rewrite !accept_gdec. apply gdec_close; try assumption. rewrite <- Rmult_minus_distr_l, !Rabs_mult. replace (Rabs (IZR z)) with 1; [rewrite !Rmult_1_l; exact H|]. destruct Hz as [-> | ->]; rewrite ?Rabs_R1; [reflexivity|]. rewrite Rabs_left; lra.
Qed.
Lemma accept_lip x y z : pm1 z -> Rabs (accept y z - accept x z) <= Rabs (y - x).
Proof.
  intros Hz. rewrite !accept_gdec. assert (E : Rabs (IZR z * y - IZR z * x) = Rabs (y - x)).
  { rewrite <- Rmult_minus_distr_l, Rabs_mult. replace (Rabs (IZR z)) with 1; [apply Rmult_1_l|]. destruct Hz as [-> | ->]; rewrite ?Rabs_R1; [reflexivity|]. rewrite Rabs_left; lra. }
  rewrite <- E. generalize (IZR z * y) (IZR z * x). intros t' t.
  assert (G : forall s u, s <= u -> gdec s - gdec u <= u - s) by (intros s u Q; destruct (gdec_diff s u Q) as (_ & G); pose proof (exp_le1 (Rmax 0 s) (Rmax_l _ _)); pose proof (exp_pos (- Rmax 0 s)); nra).
  assert (G0 : forall s u, s <= u -> 0 <= gdec s - gdec u) by (intros s u Q; apply (gdec_diff s u Q)).
  destruct (Rle_dec t t') as [Q|Q].
  - specialize (G t t' Q). specialize (G0 t t' Q). rewrite (Rabs_right (t' - t)) by lra. apply Rabs_le'. lra.
  - specialize (G t' t ltac:(lra)). specialize (G0 t' t ltac:(lra)). rewrite (Rabs_left (t' - t)) by lra. apply Rabs_le'. lra.
Qed.

(** ** Errors of the log-odds *)
Lemma rnd_err1 x : Rabs (rnd x - x) <= (1 + Rabs x) * eps.
Proof. apply rnd_err; pose proof (Rabs_pos x); lra. Qed.
Lemma abs_split a b c : Rabs (a - b) <= c -> Rabs a <= Rabs b + c.
Proof. intros H. replace a with (b + (a - b)) by ring. eapply Rle_trans; [apply Rabs_triang|]. lra. Qed.
Lemma abs_tri3 a b c d e : Rabs (a - b) <= d -> Rabs (b - c) <= e -> Rabs (a - c) <= d + e.
Proof. intros H1 H2. replace (a - c) with ((a - b) + (b - c)) by ring. eapply Rle_trans; [apply Rabs_triang|]. lra. Qed.
Lemma eps_4 : eps <= / 10000.
Proof. unfold eps; apply Rinv_le_contravar; [lra|apply IZR_le; lia]. Qed.
Lemma logit_err2 t lp : Rabs (rnd (rnd t + lp) - (t + lp)) <= eps * ((3 + 2 * Rabs lp) + 3 * Rabs (t + lp)).
Proof.
  pose proof eps_pos as EP. pose proof eps_4 as ES. pose proof (rnd_err1 t) as E1. pose proof (rnd_err1 (rnd t + lp)) as E2.
  assert (E3 : Rabs ((rnd t + lp) - (t + lp)) <= (1 + Rabs t) * eps) by (replace ((rnd t + lp) - (t + lp)) with (rnd t - t) by ring; exact E1).
  pose proof (abs_split _ _ _ E3) as B. pose proof (abs_tri3 _ _ _ _ _ E2 E3) as T.
  assert (A : Rabs t <= Rabs (t + lp) + Rabs lp) by (replace t with ((t + lp) + - lp) at 1 by ring; eapply Rle_trans; [apply Rabs_triang|]; rewrite Rabs_Ropp; lra).
  eapply Rle_trans; [exact T|]. pose proof (Rabs_pos t). pose proof (Rabs_pos lp). pose proof (Rabs_pos (t + lp)).
  set (a := Rabs t) in *. set (b := Rabs lp) in *. set (c := Rabs (t + lp)) in *. assert ((1 + a) * eps <= (1 + a) * / 10000) by nra.
  replace ((1 + Rabs (rnd t + lp)) * eps + (1 + a) * eps) with (eps * (2 + a + Rabs (rnd t + lp))) by ring. apply Rmult_le_compat_l; lra.
Qed.
Lemma logit_err3 t t2 lp : Rabs (rnd (rnd (rnd t + rnd t2) + lp) - (t + t2 + lp)) <= eps * ((5 + 3 * (Rabs t2 + Rabs lp)) + 4 * Rabs (t + t2 + lp)).
Proof.
  pose proof eps_pos as EP. pose proof eps_4 as ES. pose proof (rnd_err1 t) as E1. pose proof (rnd_err1 t2) as E1'. pose proof (rnd_err1 (rnd t + rnd t2)) as E2. pose proof (rnd_err1 (rnd (rnd t + rnd t2) + lp)) as E4.
  assert (E3 : Rabs ((rnd t + rnd t2) - (t + t2)) <= (2 + Rabs t + Rabs t2) * eps) by (replace ((rnd t + rnd t2) - (t + t2)) with ((rnd t - t) + (rnd t2 - t2)) by ring; eapply Rle_trans; [apply Rabs_triang|]; lra).
  pose proof (abs_split _ _ _ E3) as B. pose proof (abs_tri3 _ _ _ _ _ E2 E3) as T.
  assert (T' : Rabs ((rnd (rnd t + rnd t2) + lp) - (t + t2 + lp)) <= (1 + Rabs (rnd t + rnd t2)) * eps + (2 + Rabs t + Rabs t2) * eps) by (replace ((rnd (rnd t + rnd t2) + lp) - (t + t2 + lp)) with (rnd (rnd t + rnd t2) - (t + t2)) by ring; exact T).
  pose proof (abs_split _ _ _ T') as B'. pose proof (abs_tri3 _ _ _ _ _ E4 T') as T2. eapply Rle_trans; [exact T2|].
  assert (A : Rabs t <= Rabs (t + t2 + lp) + Rabs t2 + Rabs lp) by (replace t with ((t + t2 + lp) + (- t2 + - lp)) at 1 by ring; eapply Rle_trans; [apply Rabs_triang|]; pose proof (Rabs_triang (- t2) (- lp)) as Q; rewrite !Rabs_Ropp in Q; lra).
  assert (A2 : Rabs (t + t2) <= Rabs (t + t2 + lp) + Rabs lp) by (replace (t + t2) with ((t + t2 + lp) + - lp) at 1 by ring; eapply Rle_trans; [apply Rabs_triang|]; rewrite Rabs_Ropp; lra).
  pose proof (Rabs_pos t). pose proof (Rabs_pos t2). pose proof (Rabs_pos lp). pose proof (Rabs_pos (t + t2 + lp)).
  set (a := Rabs t) in *. set (a2 := Rabs t2) in *. set (b := Rabs lp) in *. set (c := Rabs (t + t2 + lp)) in *. set (s := Rabs (rnd t + rnd t2)) in *. set (s' := Rabs (rnd (rnd t + rnd t2) + lp)) in *. set (q := Rabs (t + t2)) in *.
  assert ((2 + a + a2) * eps <= (2 + a + a2) * / 10000) by nra. assert (0 <= s) by apply Rabs_pos. assert ((1 + s) * eps <= (1 + s) * / 10000) by nra.
  replace ((1 + s') * eps + ((1 + s) * eps + (2 + a + a2) * eps)) with (eps * (4 + s' + s + a + a2)) by ring. apply Rmult_le_compat_l; lra.
Qed.
Lemma logit_err4 t t2 t3 lp : Rabs (rnd (rnd (rnd (rnd t + rnd t2) + rnd t3) + lp) - (t + t2 + t3 + lp)) <= eps * ((7 + 4 * (Rabs t2 + Rabs t3 + Rabs lp)) + 5 * Rabs (t + t2 + t3 + lp)).
Proof.
  pose proof eps_pos as EP. pose proof eps_4 as ES. pose proof (rnd_err1 t) as E1. pose proof (rnd_err1 t2) as E2. pose proof (rnd_err1 t3) as E3.
  pose proof (rnd_err1 (rnd t + rnd t2)) as G1. pose proof (rnd_err1 (rnd (rnd t + rnd t2) + rnd t3)) as G2. pose proof (rnd_err1 (rnd (rnd (rnd t + rnd t2) + rnd t3) + lp)) as G3.
  assert (D1 : Rabs ((rnd t + rnd t2) - (t + t2)) <= (2 + Rabs t + Rabs t2) * eps) by (replace ((rnd t + rnd t2) - (t + t2)) with ((rnd t - t) + (rnd t2 - t2)) by ring; eapply Rle_trans; [apply Rabs_triang|]; lra).
  pose proof (abs_split _ _ _ D1) as B1. pose proof (abs_tri3 _ _ _ _ _ G1 D1) as T1.
  set (u1 := rnd (rnd t + rnd t2)) in *. set (s1 := Rabs (rnd t + rnd t2)) in *.
  assert (D2 : Rabs ((u1 + rnd t3) - (t + t2 + t3)) <= ((1 + s1) * eps + (2 + Rabs t + Rabs t2) * eps) + (1 + Rabs t3) * eps) by (replace ((u1 + rnd t3) - (t + t2 + t3)) with ((u1 - (t + t2)) + (rnd t3 - t3)) by ring; eapply Rle_trans; [apply Rabs_triang|]; lra).
  pose proof (abs_split _ _ _ D2) as B2. pose proof (abs_tri3 _ _ _ _ _ G2 D2) as T2.
  set (u2 := rnd (u1 + rnd t3)) in *. set (s2 := Rabs (u1 + rnd t3)) in *.
  assert (D3 : Rabs ((u2 + lp) - (t + t2 + t3 + lp)) <= (1 + s2) * eps + (((1 + s1) * eps + (2 + Rabs t + Rabs t2) * eps) + (1 + Rabs t3) * eps)) by (replace ((u2 + lp) - (t + t2 + t3 + lp)) with (u2 - (t + t2 + t3)) by ring; exact T2).
  pose proof (abs_split _ _ _ D3) as B3. pose proof (abs_tri3 _ _ _ _ _ G3 D3) as T3. eapply Rle_trans; [exact T3|].
  set (c := Rabs (t + t2 + t3 + lp)) in *.
  assert (A1 : Rabs t <= c + Rabs t2 + Rabs t3 + Rabs lp) by (unfold c; replace t with ((t + t2 + t3 + lp) + (- t2 + (- t3 + - lp))) at 1 by ring; eapply Rle_trans; [apply Rabs_triang|]; pose proof (Rabs_triang (- t2) (- t3 + - lp)) as Q; pose proof (Rabs_triang (- t3) (- lp)) as Q'; rewrite !Rabs_Ropp in *; lra).
  assert (A2 : Rabs (t + t2) <= c + Rabs t3 + Rabs lp) by (unfold c; replace (t + t2) with ((t + t2 + t3 + lp) + (- t3 + - lp)) at 1 by ring; eapply Rle_trans; [apply Rabs_triang|]; pose proof (Rabs_triang (- t3) (- lp)) as Q'; rewrite !Rabs_Ropp in *; lra).
  assert (A3 : Rabs (t + t2 + t3) <= c + Rabs lp) by (unfold c; replace (t + t2 + t3) with ((t + t2 + t3 + lp) + - lp) at 1 by ring; eapply Rle_trans; [apply Rabs_triang|]; rewrite Rabs_Ropp; lra).
  pose proof (Rabs_pos t). pose proof (Rabs_pos t2). pose proof (Rabs_pos t3). pose proof (Rabs_pos lp). assert (0 <= c) by apply Rabs_pos. assert (0 <= s1) by apply Rabs_pos. assert (0 <= s2) by apply Rabs_pos.
  set (a := Rabs t) in *. set (a2 := Rabs t2) in *. set (a3 := Rabs t3) in *. set (b := Rabs lp) in *. set (q := Rabs (t + t2)) in *. set (q' := Rabs (t + t2 + t3)) in *. set (s3 := Rabs (u2 + lp)) in *.
  assert (SM : forall y, 0 <= y -> y * eps <= y * / 10000) by (intros y Hy; apply Rmult_le_compat_l; lra).
  assert (M1 : (2 + a + a2) * eps <= (2 + a + a2) * / 10000) by (apply SM; lra). assert (M2 : (1 + s1) * eps <= (1 + s1) * / 10000) by (apply SM; lra). assert (M3 : (1 + s2) * eps <= (1 + s2) * / 10000) by (apply SM; lra). assert (M4 : (1 + a3) * eps <= (1 + a3) * / 10000) by (apply SM; lra).
  assert (F1 : s1 <= q + (2 + a + a2) * / 10000) by lra. assert (F2 : s2 <= q' + (1 + s1) * / 10000 + (2 + a + a2) * / 10000 + (1 + a3) * / 10000) by lra.
  assert (F3 : s3 <= c + (1 + s2) * / 10000 + (1 + s1) * / 10000 + (2 + a + a2) * / 10000 + (1 + a3) * / 10000) by lra.
  match goal with |- ?x <= _ => replace x with (eps * (6 + s3 + s2 + s1 + a + a2 + a3)) by ring end. apply Rmult_le_compat_l; [lra|].
  clear - F1 F2 F3 A1 A2 A3 H H0 H1 H2 H3 H4 H5. lra.
Qed.
