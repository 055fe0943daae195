(** Updates in double precision: rounds of updates, well-formed results, rare events. *)
From Coq Require Import Lra Psatz ZifyBool String.
From Verif Require Import Base BaseR BaseLemmas BaseRLemmas Spec SpecR Outputs Scores ScoresProofs Sampling SamplingProofs HierProofs SpecFloat Invariance InvarianceProofs FloatFuzzy FloatProofs SpecFloatRun FloatSampling FloatSampleProofs FloatSampleProofs2 FloatSampleProofs3 FloatSampleProofs4.
Local Open Scope R_scope.

Lemma Rsum_range {T} (f : T -> R) ls : (forall x, 0 <= f x <= 1) -> 0 <= Rsum f ls <= INR (List.length ls).
Proof. intros H. induction ls as [|x ls IH]; [cbn; lra|]. rewrite Rsum_cons. cbn [List.length]. rewrite S_INR. specialize (H x). lra. Qed.
Lemma grid_mean_range M k : (0 < M)%nat -> forall f, (forall rs, 0 <= f rs <= 1) -> 0 <= grid_mean M k f <= 1.
Proof.
  intros HM. apply lt_0_INR in HM. induction k as [|k IH]; intros f H; cbn [grid_mean]; [apply H|].
  destruct (Rsum_range (fun j => grid_mean M k (fun rs => f (INR j / INR M :: rs))) (seq 0 M)) as [A B]; [intros j; apply IH; intros rs; apply H|]. rewrite seq_length in B.
  split; [apply Rmult_le_pos; [exact A|left; apply Rinv_0_lt_compat, HM]|]. apply (Rmult_le_reg_r (INR M)); [exact HM|]. unfold Rdiv. rewrite Rmult_assoc, Rinv_l, Rmult_1_r, Rmult_1_l by lra. exact B.
Qed.
Lemma mean_range k f : (forall rs, 0 <= f rs <= 1) -> 0 <= mean_of k f <= 1.
Proof. apply grid_mean_range, grid_pos. Qed.
Lemma on_ok_range h x : (forall m, 0 <= h m <= 1) -> 0 <= on_ok h x <= 1.
Proof. intros H. destruct x; cbn; [apply H|lra]. Qed.

Section Rounds.
Context (SA SB : mat -> mat -> (nat -> nat -> R) -> res mat) (N D L : nat) (w : mat -> mat -> R) (sa sb : list mat) (ba bb : R).
Context (HA : forall B, In B sb -> nearly_invariant (fun A => SA A B) (fun A => w A B) sa N L ba).
Context (HB : forall A, In A sa -> nearly_invariant (fun B => SB A B) (fun B => w A B) sb D L bb).
Lemma rounds_range T h A B : (forall A B, 0 <= h A B <= 1) -> 0 <= rounds_mean SA SB N D L T h A B <= 1.
Proof.
  intros Hh. revert A B. induction T as [|T IH]; intros A B; [apply Hh|]. cbn [rounds_mean]. apply mean_range. intros rs. apply on_ok_range. intros A'. apply mean_range. intros rs'. apply on_ok_range. intros B'. apply IH.
Qed.
Lemma Rsum_abs {T} (f g b : T -> R) ls : (forall x, In x ls -> Rabs (f x - g x) <= b x) -> Rabs (Rsum f ls - Rsum g ls) <= Rsum b ls.
Proof.
  induction ls as [|x ls IH]; intros H; [cbn; rewrite Rminus_diag_eq by reflexivity; rewrite Rabs_R0; lra|]. rewrite !Rsum_cons. specialize (IH (fun y Hy => H y (or_intror Hy))). specialize (H x (or_introl eq_refl)).
  replace (f x + Rsum f ls - (g x + Rsum g ls)) with ((f x - g x) + (Rsum f ls - Rsum g ls)) by ring. eapply Rle_trans; [apply Rabs_triang|]. lra.
Qed.
Lemma Rsum_scale {T} c (f : T -> R) ls : Rsum (fun x => c * f x) ls = c * Rsum f ls.
Proof. induction ls as [|x ls IH]; [cbn; ring|]. rewrite !Rsum_cons, IH. ring. Qed.
Lemma rounds_close T h : (forall A B, 0 <= h A B <= 1) ->
  Rabs (Rsum (fun A => Rsum (fun B => w A B * rounds_mean SA SB N D L T h A B) sb) sa - Rsum (fun A => Rsum (fun B => w A B * h A B) sb) sa)
    <= INR T * (ba + bb) * Rsum (fun A => Rsum (w A) sb) sa.
Proof.
  intros Hh. induction T as [|T IH]; [cbn [rounds_mean INR]; rewrite Rminus_diag_eq by reflexivity; rewrite Rabs_R0; lra|].
  set (g := rounds_mean SA SB N D L T h) in *. set (k := fun A B => mean_of (D * L) (fun rs' => on_ok (fun B' => g A B') (SB A B (draws_of L rs')))).
  assert (Hg : forall A B, 0 <= g A B <= 1) by (intros; apply rounds_range, Hh).
  assert (Hk : forall A B, 0 <= k A B <= 1) by (intros; apply mean_range; intros; apply on_ok_range; intros; apply Hg).
  assert (H1 : Rabs (Rsum (fun B => Rsum (fun A => w A B * mean_of (N * L) (fun rs => on_ok (fun A' => k A' B) (SA A B (draws_of L rs)))) sa) sb - Rsum (fun B => Rsum (fun A => w A B * k A B) sa) sb) <= ba * Rsum (fun A => Rsum (w A) sb) sa).
  { eapply Rle_trans; [apply Rsum_abs; intros B Hi; apply (HA B Hi (fun A' => k A' B)); intros; apply Hk|]. rewrite Rsum_scale. right. f_equal. symmetry. apply Rsum_swap. }
  assert (H2 : Rabs (Rsum (fun A => Rsum (fun B => w A B * k A B) sb) sa - Rsum (fun A => Rsum (fun B => w A B * g A B) sb) sa) <= bb * Rsum (fun A => Rsum (w A) sb) sa).
  { eapply Rle_trans; [eapply (Rsum_abs _ _ (fun A => bb * Rsum (w A) sb)); intros A Hi; apply (HB A Hi (fun B1 => g A B1)); intros; apply Hg|]. rewrite Rsum_scale. lra. }
  rewrite <- (Rsum_swap (fun A B => w A B * k A B) sa sb), <- (Rsum_swap (fun A B => w A B * mean_of (N * L) (fun rs => on_ok (fun A' => k A' B) (SA A B (draws_of L rs)))) sa sb) in H1.
  cbn [rounds_mean]. fold g. change (Rabs (Rsum (fun A => Rsum (fun B => w A B * mean_of (N * L) (fun rs => on_ok (fun A' => k A' B) (SA A B (draws_of L rs)))) sb) sa - Rsum (fun A => Rsum (fun B => w A B * h A B) sb) sa) <= INR (S T) * (ba + bb) * Rsum (fun A => Rsum (w A) sb) sa).
  rewrite S_INR. eapply Rle_trans; [exact (abs_tri3 _ _ _ _ _ H1 (abs_tri3 _ _ _ _ _ H2 IH))|]. right. ring.
Qed.
End Rounds.

Lemma C116_rounds_lemma ex : good_exp ex -> forall o i, In (o, i) implemented -> forall out, is_output o i out -> forall N D L A0 B0 FA FB X lbda pA pB lpA lpB d T h,
  okmat N L A0 -> okmat D L B0 -> has_shape2 X N D -> tern2 X -> 0 < pA < 1 -> 0 < pB < 1 -> (Z.of_nat D <= 32767)%Z -> (Z.of_nat N <= 32767)%Z ->
  Rabs (lpA - logit pA) <= d -> Rabs (lpB - logit pB) <= d -> (forall A B, 0 <= h A B <= 1) ->
  let states_A := filter (agrees FA A0 N L) (all_mats N L) in let states_B := filter (agrees FB B0 D L) (all_mats D L) in
  let mean f := Rsum (fun A => Rsum (fun B => post2 out lbda X N D L pA pB A B * f A B) states_B) states_A in
  Rabs (mean (rounds_mean (fun A B => double_sampler_2d ex (model_name o i) 0 A B FA X lbda lpA) (fun A B => double_sampler_2d ex (model_name o i) 1 A B FB X lbda lpB) N D L T h) - mean h)
    <= INR T * (INR (N * L) * ((10 + 3 * Rabs lpA) * roundoff + d) + INR (D * L) * ((10 + 3 * Rabs lpB) * roundoff + d)) * mean (fun _ _ => 1).
Proof.
  intros Hex o i Hin out Ho N D L A0 B0 FA FB X lbda pA pB lpA lpB d T h HA HB HX TX H1 H2 HD HN Hd1 Hd2 Hh. cbv zeta beta.
  match goal with |- Rabs (_ - _) <= _ * Rsum ?f ?s => replace (Rsum f s) with (Rsum (fun A => Rsum (post2 out lbda X N D L pA pB A) (filter (agrees FB B0 D L) (all_mats D L))) s) by (apply Rsum_ext; intros A _; apply Rsum_ext; intros B _; ring) end.
  apply rounds_close; [| |exact Hh].
  - intros B Hb. apply (C116_inv2_lemma ex Hex o i Hin out Ho N D L A0 B FA X lbda pA pB lpA d); try assumption. eapply states_ok; eassumption.
  - intros A Ha. apply (C116_inv2_lemma ex Hex o i Hin out Ho N D L A B0 FB X lbda pA pB lpB d); try assumption. eapply states_ok; eassumption.
Qed.

(** Whatever the exponential function and the draws: entries stay -1 or 1, fixed entries stay what they are. *)
Lemma double_loop_ok ex lo Z_ F r N L : okmat N L Z_ -> okmat N L (double_loop ex lo Z_ F r) /\
  (forall n l, (n < N)%nat -> (l < L)%nat -> at2 F n l = 1%Z -> at2 (double_loop ex lo Z_ F r) n l = at2 Z_ n l).
Proof.
  intros HZ. unfold double_loop. rewrite fold_prod.
  assert (G : forall cs m, okmat N L m -> (forall n l, In (n, l) cs -> (n < N)%nat /\ (l < L)%nat) ->
    okmat N L (fold_left (fun a '(n, l) => double_cell ex lo F r a n l) cs m) /\
    (forall n l, (n < N)%nat -> (l < L)%nat -> at2 F n l = 1%Z -> at2 (fold_left (fun a '(n, l) => double_cell ex lo F r a n l) cs m) n l = at2 m n l)).
  { induction cs as [|[n l] cs IH]; intros m Hm Hc; [split; [exact Hm|reflexivity]|]. cbn [fold_left]. destruct (Hc n l (or_introl eq_refl)) as [Hn Hl].
    assert (P : pm1 (double_flip ex (lo m n l) (at2 m n l) (r n l))) by (pose proof (okmat_pm _ _ _ _ _ Hm Hn Hl) as [E|E]; rewrite E; unfold double_flip; cbn [Z.eqb Pos.eqb andb Z.opp]; destruct (Rleb _ _); try destruct (Rltb _ _); (left; reflexivity) || (right; reflexivity)).
    assert (K : okmat N L (double_cell ex lo F r m n l)) by (unfold double_cell; destruct (_ =? 1)%Z; [exact Hm|apply okmat_set; assumption]).
    destruct (IH _ K (fun a b Hi => Hc a b (or_intror Hi))) as [I1 I2]. split; [exact I1|]. intros n' l' Hn' Hl' HF. rewrite I2 by assumption. unfold double_cell. destruct (at2 F n l =? 1)%Z eqn:E; [reflexivity|].
    apply at2_set2_other. intros Q. injection Q as -> ->. rewrite HF in E. discriminate. }
  apply G; [exact HZ|]. intros n l Hi. apply in_prod_iff in Hi. rewrite !in_seq in Hi. destruct HZ as [HZ _]. rewrite (shape2_nrows _ _ _ HZ) in Hi. destruct N as [|N']; [lia|]. rewrite (shape2_ncols _ _ _ HZ) in Hi by lia. lia.
Qed.

Lemma C116_safe2_lemma ex o i : In (o, i) implemented -> forall P L A B F X lbda lp ax r, let Z_ := match ax with O => A | _ => B end in okmat P L Z_ ->
  exists Z', double_sampler_2d ex (model_name o i) ax A B F X lbda lp r = Ok Z' /\ okmat P L Z' /\ (forall n l, (n < P)%nat -> (l < L)%nat -> at2 F n l = 1%Z -> at2 Z' n l = at2 Z_ n l).
Proof.
  intros Hin P L A B F X lbda lp ax r Z_ HZ. destruct (C07_lemma o i Hin) as (f & Ef & _). unfold double_sampler_2d. rewrite Ef. cbn [bind]. eexists. split; [reflexivity|].
  destruct ax as [|ax]; apply double_loop_ok; exact HZ.
Qed.
Lemma C116_safe3_lemma ex o i : In (o, i) implemented -> forall P L A B C F X lbda lp ax r, let Z_ := match ax with O => A | 1%nat => B | _ => C end in okmat P L Z_ ->
  exists Z', double_sampler_3d ex (model_name o i) ax A B C F X lbda lp r = Ok Z' /\ okmat P L Z' /\ (forall n l, (n < P)%nat -> (l < L)%nat -> at2 F n l = 1%Z -> at2 Z' n l = at2 Z_ n l).
Proof.
  intros Hin P L A B C F X lbda lp ax r Z_ HZ. destruct (C08_lemma o i Hin) as (f & Ef & _). unfold double_sampler_3d. rewrite Ef. cbn [bind]. eexists. split; [reflexivity|].
  destruct ax as [|[|ax]]; apply double_loop_ok; exact HZ.
Qed.

(** Rare events: one entry, one data point, dispersion 100. *)
Lemma grid_first M (f : list R -> R) : (0 < M)%nat -> (forall rs, 0 <= f rs) -> f [0] = 1 -> / INR M <= grid_mean M 1 f.
Proof.
  intros HM H0 H1. cbn [grid_mean]. destruct M as [|M]; [lia|]. cbn [seq]. rewrite Rsum_cons. apply lt_0_INR in HM. unfold Rdiv. replace (0%R) with (INR 0 * / INR (S M)) in H1 at 1 by (cbn [INR]; ring). 
  assert (E : f [INR 0 / INR (S M)] = 1) by exact H1. unfold Rdiv in E. rewrite E.
  assert (S0 : forall ls, 0 <= Rsum (fun j => f [INR j * / INR (S M)]) ls) by (induction ls as [|x ls IH]; [cbn; lra|rewrite Rsum_cons; pose proof (H0 [INR x * / INR (S M)]); lra]).
  specialize (S0 (seq 1 M)). pose proof (Rinv_0_lt_compat _ HM). rewrite <- (Rmult_1_l (/ INR (S M))) at 1. apply Rmult_le_compat_r; lra.
Qed.
Lemma exp_100 : exp 100 = exp 1 ^ 100.
Proof. assert (G : forall k, exp 1 ^ k = exp (INR k)) by (induction k as [|k IH]; [cbn; symmetry; apply exp_0|rewrite S_INR, exp_plus, <- IH; cbn [pow]; ring]). rewrite G, INR_IZR_INZ. reflexivity. Qed.
Lemma rare_exp : 10 ^ 14 * exp (-100) <= roundoff.
Proof.
  unfold roundoff. assert (E2 : 2 <= exp 1) by (pose proof (exp_ineq1 1 ltac:(lra)); lra).
  replace (exp (-100)) with (/ exp 100) by (rewrite <- exp_Ropp; f_equal; lra). pose proof (exp_pos 100) as EP. assert (T : 0 < IZR (2 ^ 53)) by (apply IZR_lt; reflexivity).
  apply (Rmult_le_reg_r (exp 100)); [exact EP|]. rewrite Rmult_assoc, Rinv_l, Rmult_1_r by lra. apply (Rmult_le_reg_l (IZR (2 ^ 53))); [exact T|]. rewrite <- Rmult_assoc, Rinv_r, Rmult_1_l by lra. rewrite exp_100.
  apply Rle_trans with (2 ^ 100); [|apply pow_incr; lra]. rewrite !pow_IZR, <- mult_IZR. apply IZR_le. vm_compute. discriminate.
Qed.
Lemma C117_refuted_lemma : let A := [[1]]%Z in let X := [[1]]%Z in let change := fun m => if (at2 m 0 0 =? 1)%Z then 0 else 1 in
  okmat 1 1 A /\ Rabs (0 - logit (1 / 2)) <= 0 /\
  exists v, is_E 1 (fun rs => on_ok change (LOM_sampler_2d "OR-AND" 0 A A [[0]]%Z X 100 (1 / 2) (draws_of 1 rs))) v /\ 0 < v /\
  forall ex, good_exp ex -> (forall x, -700 <= x <= 0 -> 0 < ex x) ->
    10 ^ 14 * v <= mean_of 1 (fun rs => on_ok change (double_sampler_2d ex "OR-AND" 0 A A [[0]]%Z X 100 0 (draws_of 1 rs))).
Proof.
  cbv zeta. assert (L0 : logit (1 / 2) = 0) by (unfold logit; replace (1 / 2 / (1 - 1 / 2)) with 1 by lra; apply ln_1).
  split; [split; [split; [reflexivity|repeat constructor]|repeat constructor; left; reflexivity]|]. split; [rewrite L0, Rminus_0_r, Rabs_R0; lra|].
  exists (exp (-100)). split; [|split; [apply exp_pos|]].
  - exists (fun r => if Rltb r (exp (-100)) then 1 else 0). split; [|assert (RI : 0 <= exp (-100) <= 1) by (split; [left; apply exp_pos|rewrite <- exp_0; left; apply exp_increasing; lra]); apply (is_RInt_step _ 1 0) in RI; rewrite Rmult_0_r, Rplus_0_r, Rmult_1_r in RI; exact RI].
    intros r Hr. change (on_ok (fun m => if (at2 m 0 0 =? 1)%Z then 0 else 1) (Ok [[flip_metropolised_gibbs_numba (100 * IZR 1 + logit (1 / 2)) 1 r]]) = if Rltb r (exp (-100)) then 1 else 0).
    rewrite flip_is_mg; [|left; reflexivity|split; lra]. unfold mg_flip. rewrite L0. replace (- (1) * (100 * 1 + 0)) with (-100) by ring. rewrite Rmin_right by (rewrite <- exp_0; left; apply exp_increasing; lra). destruct (Rltb r _); reflexivity.
  - intros ex _ Hp. apply Rle_trans with (/ INR draw_grid); [rewrite grid_inv; pose proof rare_exp; lra|]. apply grid_first; [exact grid_pos| |].
    + intros rs. apply on_ok_range. intros m. destruct (_ =? 1)%Z; lra.
    + change (on_ok (fun m => if (at2 m 0 0 =? 1)%Z then 0 else 1) (Ok [[double_flip ex (rnd (rnd (100 * IZR 1) + 0)) 1 0]]) = 1).
      replace (100 * 1) with (IZR 100) by ring. rewrite (rnd_int 100) by lia. rewrite Rplus_0_r, (rnd_int 100) by lia. unfold double_flip. cbn [Z.eqb Pos.eqb andb Z.opp]. destruct (Rleb _ _); [reflexivity|].
      specialize (Hp (-1 * 100) ltac:(lra)). destruct (Rltb_spec 0 (ex (-1 * 100))); [reflexivity|contradiction].
Qed.
(** A correctly rounded exponential function is good enough. *)
Lemma C116_exp_lemma : good_exp (fun x => rnd (exp x)) /\ good_exp exp.
Proof.
  pose proof eps_pos as EP. split; intros x Hx.
  - assert (0 < exp x <= 1) by (split; [apply exp_pos|apply exp_le_1, Hx]). eapply Rle_trans; [apply rnd_err1|]. rewrite Rabs_right by lra. change roundoff with eps. apply Rle_trans with ((1 + 1) * eps); [apply Rmult_le_compat_r; lra|lra].
  - rewrite Rminus_diag_eq by reflexivity. rewrite Rabs_R0. change roundoff with eps. lra.
Qed.
Lemma C116_example_lemma : In (OR, AND) implemented /\ okmat 2 1 [[1]; [-1]]%Z /\ okmat 2 1 [[1]; [1]]%Z /\ okmat 1 1 [[-1]]%Z /\ has_shape2 [[1; 0]; [-1; 1]]%Z 2 2 /\ tern2 [[1; 0]; [-1; 1]]%Z /\
  Rabs (0 - logit (1 / 2)) <= 0 /\ INR (2 * 1) * ((10 + 3 * Rabs 0) * roundoff + 0) = 20 * roundoff.
Proof.
  split; [left; reflexivity|]. repeat match goal with |- okmat _ _ _ /\ _ => split; [split; [split; [reflexivity|repeat constructor]|repeat constructor; (left; reflexivity) || (right; reflexivity)]|] end.
  split; [split; [reflexivity|repeat constructor]|]. split; [repeat (constructor; [repeat (constructor; [unfold tern; tauto || lia|]); constructor|]); constructor|]. split.
  - assert (L0 : logit (1 / 2) = 0) by (unfold logit; replace (1 / 2 / (1 - 1 / 2)) with 1 by lra; apply ln_1). rewrite L0, Rminus_0_r, Rabs_R0. lra.
  - rewrite Rabs_R0. cbn [Nat.mul Nat.add INR]. ring.
Qed.
