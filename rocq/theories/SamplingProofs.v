(** Lemmas for C10-C15: flips, log-odds, sweeps. *)
From Coq Require Import String Lra Permutation.
From Verif Require Import Base BaseLemmas BaseR BaseRLemmas Spec SpecR Outputs OutputsProofs Scores ScoresProofs Sampling.
Local Open Scope R_scope.

(** * The logistic function *)
Lemma sigma_den x : 0 < 1 + exp (- x).
Proof. pose proof (exp_pos (- x)). lra. Qed.
Lemma sigma_pos x : 0 < sigma x.
Proof. apply Rinv_0_lt_compat, sigma_den. Qed.
Lemma sigma_lt1 x : sigma x < 1.
Proof.
  unfold sigma. rewrite <- Rinv_1 at 2. apply Rinv_lt_contravar; [rewrite Rmult_1_l; apply sigma_den|].
  pose proof (exp_pos (- x)). lra.
Qed.
Lemma sigma_opp x : sigma (- x) = 1 - sigma x.
Proof.
  unfold sigma. rewrite Ropp_involutive.
  assert (E : exp x * exp (- x) = 1) by (rewrite <- exp_plus, Rplus_opp_r; apply exp_0).
  pose proof (exp_pos x). pose proof (exp_pos (- x)). field_simplify_eq; [|lra]. nra.
Qed.
Lemma sigma_ratio x : (1 - sigma x) / sigma x = exp (- x).
Proof. unfold sigma. pose proof (exp_pos (- x)). field. lra. Qed.
Lemma sigma_ratio' x : sigma x / (1 - sigma x) = exp x.
Proof.
  rewrite <- sigma_opp. replace (sigma x) with (1 - sigma (- x)) by (rewrite sigma_opp; ring).
  rewrite sigma_ratio. f_equal. ring.
Qed.
Lemma ln_sigma_diff t : ln (sigma t) - ln (sigma (- t)) = t.
Proof.
  rewrite <- ln_div by apply sigma_pos. rewrite sigma_opp.
  change (sigma t / (1 - sigma t)) with (sigma t * / (1 - sigma t)).
  fold (sigma t / (1 - sigma t)). rewrite sigma_ratio'. apply ln_exp.
Qed.
Lemma exp_le_1 x : exp x <= 1 <-> x <= 0.
Proof.
  rewrite <- exp_0. split; intros H.
  - destruct (Rle_lt_dec x 0) as [|C]; [assumption|]. apply exp_increasing in C. lra.
  - destruct H as [H| ->]; [left; apply exp_increasing, H|right; reflexivity].
Qed.

(** * Single flips *)
Lemma flip_is_mg lo z r : pm1 z -> is_draw r ->
  flip_metropolised_gibbs_numba lo z r = mg_flip lo z r.
Proof.
  intros Hz [Hr0 Hr1]. unfold flip_metropolised_gibbs_numba, flip_metropolised_branch, mg_flip.
  destruct Hz as [-> | ->]; cbn [Z.eqb Pos.eqb andb Z.opp].
  - destruct (Rleb_spec lo 0) as [H|H].
    + rewrite Rmin_left; [|rewrite <- exp_0 at 1; destruct H as [H| ->];
        [left; apply exp_increasing; lra|right; f_equal; ring]].
      destruct (Rltb_spec r 1); [reflexivity|lra].
    + rewrite Rmin_right by (apply exp_le_1; lra). reflexivity.
  - destruct (Rleb_spec 0 lo) as [H|H].
    + rewrite Rmin_left; [|rewrite <- exp_0 at 1; destruct H as [H| <-];
        [left; apply exp_increasing; lra|right; f_equal; ring]].
      destruct (Rltb_spec r 1); [reflexivity|lra].
    + replace (- (-1) * lo) with (1 * lo) by ring.
      rewrite Rmin_right by (apply exp_le_1; lra). reflexivity.
Qed.

Lemma mg_flip_pm lo z r : pm1 z -> pm1 (mg_flip lo z r).
Proof. intros [-> | ->]; unfold mg_flip; destruct (Rltb _ _); unfold pm1; auto. Qed.

Lemma flip_pm lo z r : pm1 z -> pm1 (flip_metropolised_gibbs_numba lo z r).
Proof.
  intros Hz. unfold flip_metropolised_gibbs_numba, flip_metropolised_branch.
  destruct Hz as [-> | ->]; cbn [Z.eqb Pos.eqb andb Z.opp];
  [destruct (Rleb lo 0)|destruct (Rleb 0 lo)]; try destruct (Rltb _ _); unfold pm1; auto.
Qed.

Lemma branch_nonpos lo z e : pm1 z -> flip_metropolised_branch lo z = CompareExp e -> e <= 0.
Proof.
  unfold flip_metropolised_branch. intros [-> | ->]; cbn [Z.eqb Pos.eqb andb Z.opp].
  - destruct (Rleb_spec lo 0); [discriminate|]. intros E; injection E as <-. lra.
  - destruct (Rleb_spec 0 lo); [discriminate|]. intros E; injection E as <-. lra.
Qed.

Lemma classic_same lo z r : pm1 z -> is_draw r ->
  flip_metropolised_gibbs_numba_classic (sigma lo) z r = flip_metropolised_gibbs_numba lo z r.
Proof.
  intros Hz [Hr0 Hr1].
  assert (HS : sigma lo <= 1 / 2 <-> lo <= 0).
  { unfold sigma. pose proof (sigma_den lo) as HD. replace (1 / 2) with (/ 2) by lra. split; intros H.
    - destruct (Rle_lt_dec lo 0) as [|C]; [assumption|].
      assert (exp (- lo) < 1) by (rewrite <- exp_0; apply exp_increasing; lra).
      assert (/ 2 < / (1 + exp (- lo))) by (apply Rinv_lt_contravar; nra). lra.
    - assert (1 <= exp (- lo)).
      { rewrite <- exp_0. destruct H as [H | ->]; [left; apply exp_increasing; lra|right; f_equal; ring]. }
      apply Rinv_le_contravar; lra. }
  assert (HS' : 1 / 2 <= sigma lo <-> 0 <= lo).
  { unfold sigma. pose proof (sigma_den lo) as HD. replace (1 / 2) with (/ 2) by lra. split; intros H.
    - destruct (Rle_lt_dec 0 lo) as [|C]; [assumption|].
      assert (1 < exp (- lo)) by (rewrite <- exp_0; apply exp_increasing; lra).
      assert (/ (1 + exp (- lo)) < / 2) by (apply Rinv_lt_contravar; nra). lra.
    - assert (exp (- lo) <= 1) by (apply exp_le_1; lra).
      apply Rinv_le_contravar; lra. }
  unfold flip_metropolised_gibbs_numba_classic, flip_metropolised_gibbs_numba, flip_metropolised_branch.
  destruct Hz as [-> | ->]; cbn [Z.eqb Pos.eqb andb Z.opp].
  - destruct (Rleb_spec (sigma lo) (1 / 2)) as [H|H], (Rleb_spec lo 0) as [H'|H'];
      try (exfalso; tauto); [reflexivity|].
    rewrite sigma_ratio. replace (-1 * lo) with (- lo) by ring. reflexivity.
  - destruct (Rleb_spec (1 / 2) (sigma lo)) as [H|H], (Rleb_spec 0 lo) as [H'|H'];
      try (exfalso; tauto); [reflexivity|].
    rewrite sigma_ratio'. replace (1 * lo) with lo by ring. reflexivity.
Qed.

(** * Sweeps as a fold over cells *)
Lemma fold_prod {A} (f : A -> nat -> nat -> A) ls ls' a :
  fold_left (fun a n => fold_left (fun a l => f a n l) ls' a) ls a =
  fold_left (fun a '(n, l) => f a n l) (list_prod ls ls') a.
Proof.
  revert a. induction ls as [|n ls IH]; intros a; [reflexivity|]. simpl fold_left. rewrite IH.
  simpl list_prod. rewrite fold_left_app. f_equal. clear IH. revert a.
  induction ls' as [|l ls' IH]; intros a; [reflexivity|]. simpl. apply IH.
Qed.

Lemma sample_loop_cells logit Z_ fixed rand N L : has_shape2 Z_ N L ->
  sample_loop logit Z_ fixed rand =
  fold_left (fun Zc '(n, l) => sample_cell logit fixed rand Zc n l) (cells N L) Z_.
Proof.
  intros HZ. unfold sample_loop. rewrite fold_prod. rewrite (shape2_nrows _ _ _ HZ).
  unfold cells. destruct N as [|N]; [reflexivity|]. rewrite (shape2_ncols _ _ _ HZ) by lia. reflexivity.
Qed.

Lemma in_cells n l N L : In (n, l) (cells N L) <-> (n < N)%nat /\ (l < L)%nat.
Proof. unfold cells. rewrite in_prod_iff, !in_seq0. reflexivity. Qed.


Lemma okmat_pm N L Z_ n l : okmat N L Z_ -> (n < N)%nat -> (l < L)%nat -> pm1 (at2 Z_ n l).
Proof. intros [H B] Hn Hl. eapply bin2_at; eassumption. Qed.

Lemma okmat_set N L Z_ n l x : okmat N L Z_ -> pm1 x -> okmat N L (set2 Z_ n l x).
Proof. intros [H B] Hx. split; [apply set2_shape, H|apply set2_bin; assumption]. Qed.

Lemma cell_ok logit fixed rand N L Z_ n l : okmat N L Z_ -> (n < N)%nat -> (l < L)%nat ->
  okmat N L (sample_cell logit fixed rand Z_ n l).
Proof.
  intros H Hn Hl. unfold sample_cell. destruct (_ =? 1)%Z; [exact H|].
  apply okmat_set; [exact H|]. apply flip_pm. eapply okmat_pm; eassumption.
Qed.

Lemma fold_ok logit fixed rand N L cs Z_ : okmat N L Z_ -> (forall c, In c cs -> In c (cells N L)) ->
  okmat N L (fold_left (fun Zc '(n, l) => sample_cell logit fixed rand Zc n l) cs Z_).
Proof.
  revert Z_. induction cs as [|[n l] cs IH]; intros Z_ H Hc; [exact H|]. simpl. apply IH.
  - destruct (proj1 (in_cells n l N L) (Hc _ (or_introl eq_refl))). apply cell_ok; assumption.
  - intros c Hi. apply Hc. right; exact Hi.
Qed.

Lemma sample_loop_ok logit Z_ fixed rand N L : okmat N L Z_ ->
  okmat N L (sample_loop logit Z_ fixed rand).
Proof. intros H. rewrite (sample_loop_cells _ _ _ _ N L) by apply H. apply fold_ok; auto. Qed.

Lemma at2_set2_other Z_ n l x n' l' : (n, l) <> (n', l') -> at2 (set2 Z_ n l x) n' l' = at2 Z_ n' l'.
Proof.
  intros H. unfold set2, at2, row. destruct (Nat.eq_dec n n') as [<-|Hn].
  - destruct (Nat.lt_ge_cases n (List.length Z_)).
    + rewrite nth_upd_same by assumption. unfold at1. rewrite nth_upd_other; [reflexivity|congruence].
    + rewrite upd_oob by assumption. reflexivity.
  - rewrite nth_upd_other by congruence. reflexivity.
Qed.

(** Fixed cells never change, whatever the logits and draws. *)
Lemma fold_fixed logit fixed rand cs Z_ n l : at2 fixed n l = 1%Z ->
  at2 (fold_left (fun Zc '(n, l) => sample_cell logit fixed rand Zc n l) cs Z_) n l = at2 Z_ n l.
Proof.
  intros Hf. revert Z_. induction cs as [|[n' l'] cs IH]; intros Z_; [reflexivity|]. simpl. rewrite IH.
  unfold sample_cell. destruct (Z.eqb_spec (at2 fixed n' l') 1) as [|Hn]; [reflexivity|].
  apply at2_set2_other. intros E. injection E as -> ->. contradiction.
Qed.

Lemma sample_loop_fixed logit Z_ fixed rand n l : at2 fixed n l = 1%Z ->
  at2 (sample_loop logit Z_ fixed rand) n l = at2 Z_ n l.
Proof. intros Hf. unfold sample_loop. rewrite fold_prod. apply fold_fixed, Hf. Qed.

Lemma sample_loop_ref w logit Z_ fixed rand N L :
  okmat N L Z_ ->
  (forall n l, (n < N)%nat -> (l < L)%nat -> is_draw (rand n l)) ->
  (forall Zc n l, okmat N L Zc -> (n < N)%nat -> (l < L)%nat -> logit Zc n l = log_odds w Zc n l) ->
  sample_loop logit Z_ fixed rand = ref_sweep w fixed rand N L Z_.
Proof.
  intros HZ Hr Hlo. rewrite (sample_loop_cells _ _ _ _ N L) by apply HZ. unfold ref_sweep.
  assert (G : forall cs Zc, okmat N L Zc -> (forall c, In c cs -> In c (cells N L)) ->
     fold_left (fun Zc '(n, l) => sample_cell logit fixed rand Zc n l) cs Zc =
     fold_left (fun Zc '(n, l) => if (at2 fixed n l =? 1)%Z then Zc
       else set2 Zc n l (mg_flip (log_odds w Zc n l) (at2 Zc n l) (rand n l))) cs Zc).
  { induction cs as [|[n l] cs IH]; intros Zc HZc Hc; [reflexivity|]. simpl.
    destruct (proj1 (in_cells n l N L) (Hc _ (or_introl eq_refl))) as [Hn Hl].
    assert (E : sample_cell logit fixed rand Zc n l =
      if (at2 fixed n l =? 1)%Z then Zc
      else set2 Zc n l (mg_flip (log_odds w Zc n l) (at2 Zc n l) (rand n l))).
    { unfold sample_cell. destruct (_ =? 1)%Z; [reflexivity|].
      rewrite Hlo, flip_is_mg; [reflexivity| | | | |]; auto. eapply okmat_pm; eassumption. }
    rewrite <- E. apply IH; [apply cell_ok; assumption|]. intros c Hi; apply Hc; right; exact Hi. }
  apply G; auto.
Qed.

(** * Log-odds of row-wise products *)
Definition row_weight (F : nat -> vec -> R) (N : nat) (Z_ : mat) : R := Rprod (fun n => F n (row Z_ n)) (seq 0 N).

Lemma log_odds_row F N L Z_ n l : has_shape2 Z_ N L -> (n < N)%nat ->
  (forall k r, 0 < F k r) ->
  log_odds (row_weight F N) Z_ n l = ln (F n (upd (row Z_ n) l 1%Z)) - ln (F n (upd (row Z_ n) l (-1)%Z)).
Proof.
  intros HZ Hn HF. unfold log_odds, row_weight. rewrite !ln_Rprod by (intros; apply HF).
  rewrite <- Rsum_sub. rewrite (Rsum_single _ n) by
    (try exact Hn; intros k Hk Hne; rewrite !row_set2_other by congruence; lra).
  rewrite !row_set2_same by (rewrite (proj1 HZ); exact Hn). reflexivity.
Qed.

Lemma log_odds_mul a b Z_ n l : (forall Zc, 0 < a Zc) -> (forall Zc, 0 < b Zc) ->
  log_odds (fun Zc => a Zc * b Zc) Z_ n l = log_odds a Z_ n l + log_odds b Z_ n l.
Proof. intros Ha Hb. unfold log_odds. rewrite !ln_mult by auto. lra. Qed.
Lemma log_odds_const k Z_ n l : log_odds (fun _ => k) Z_ n l = 0.
Proof. unfold log_odds. lra. Qed.
Lemma log_odds_ext a b Z_ n l N L : okmat N L Z_ ->
  (forall Zc, okmat N L Zc -> a Zc = b Zc) -> log_odds a Z_ n l = log_odds b Z_ n l.
Proof.
  intros HZ H. unfold log_odds.
  rewrite !H by (apply okmat_set; [exact HZ|unfold pm1; auto]). reflexivity.
Qed.

Lemma ln_sigma_pm t y y' : pm1 y -> pm1 y' ->
  ln (sigma (t * IZR y)) - ln (sigma (t * IZR y')) = t * IZR (y - y') / 2.
Proof.
  intros [-> | ->] [-> | ->]; cbn [Z.sub Z.opp Z.add Z.pos_sub Pos.add].
  - simpl. lra.
  - replace (t * IZR (-1)) with (- t) by ring. replace (t * 1) with t by ring. rewrite ln_sigma_diff. simpl. lra.
  - replace (t * IZR (-1)) with (- t) by ring. replace (t * 1) with t by ring.
    pose proof (ln_sigma_diff t). simpl. lra.
  - simpl. lra.
Qed.

Lemma out_pm o i out rows L : is_output o i out -> pm1 (out rows L).
Proof. intros H. destruct (H rows L) as [[-> _]|[-> _]]; unfold pm1; auto. Qed.

Lemma Rsum_half {A} (f : A -> R) ls : Rsum (fun i => f i / 2) ls = Rsum f ls / 2.
Proof. induction ls as [|a ls IH]; [simpl; lra|]. rewrite !Rsum_cons, IH. lra. Qed.

(** Likelihood part, two factors. *)
Lemma lik2_pos out lbda X N D L A B : 0 < lik2 out lbda X N D L A B.
Proof. apply Rprod_pos. intros. apply Rprod_pos. intros. apply sigma_pos. Qed.
Lemma lik3_pos out lbda X N D M L A B C : 0 < lik3 out lbda X N D M L A B C.
Proof. repeat (apply Rprod_pos; intros). apply sigma_pos. Qed.
Lemma prior_pos p N L A : 0 < p < 1 -> 0 < prior p N L A.
Proof. intros Hp. repeat (apply Rprod_pos; intros). destruct (_ =? 1)%Z; lra. Qed.
Lemma parent_lik_pos out lbda pa1 pa2 N L K A : 0 < parent_lik out lbda pa1 pa2 N L K A.
Proof. repeat (apply Rprod_pos; intros). apply sigma_pos. Qed.

Lemma log_odds_lik2 o i out lbda X N D L A B n l s : is_output o i out ->
  has_shape2 A N L -> (n < N)%nat ->
  explained2 o i (row A n) B (row X n) l D L s ->
  log_odds (fun A => lik2 out lbda X N D L A B) A n l = lbda * IZR s.
Proof.
  intros Ho HA Hn (up & down & Hud & Es).
  pose (F := fun n r => Rprod (fun d => sigma (lbda * IZR (at2 X n d) * IZR (out [r; row B d] L))) (seq 0 D)).
  change (fun A => lik2 out lbda X N D L A B) with (row_weight F N).
  assert (HF : forall k r, 0 < F k r) by (intros; apply Rprod_pos; intros; apply sigma_pos).
  rewrite (log_odds_row F N L) by assumption. unfold F.
  rewrite !ln_Rprod by (intros; apply sigma_pos). rewrite <- Rsum_sub.
  rewrite (Rsum_ext _ (fun d => lbda * IZR (nth d (row X n) 0%Z * (up d - down d))%Z / 2)).
  - rewrite Rsum_half, Rsum_scale, Rsum_IZR, <- Es, mult_IZR. lra.
  - intros d Hd. apply in_seq0 in Hd. destruct (Hud d Hd) as [Hu Hw].
    rewrite (lom_output_unique _ _ _ _ _ _ Hu (Ho _ _)), (lom_output_unique _ _ _ _ _ _ Hw (Ho _ _)).
    rewrite ln_sigma_pm by (eapply out_pm; exact Ho).
    rewrite mult_IZR. unfold at2, at1, vec. field.
Qed.

Lemma log_odds_lik3 o i out lbda X N D M L A B C n l s : is_output o i out ->
  has_shape2 A N L -> (n < N)%nat ->
  explained3 o i (row A n) B C (slab X n) l D M L s ->
  log_odds (fun A => lik3 out lbda X N D M L A B C) A n l = lbda * IZR s.
Proof.
  intros Ho HA Hn (up & down & Hud & Es).
  pose (F := fun n r => Rprod (fun d => Rprod (fun m =>
     sigma (lbda * IZR (at3 X n d m) * IZR (out [r; row B d; row C m] L))) (seq 0 M)) (seq 0 D)).
  change (fun A => lik3 out lbda X N D M L A B C) with (row_weight F N).
  assert (HF : forall k r, 0 < F k r) by (intros; repeat (apply Rprod_pos; intros); apply sigma_pos).
  rewrite (log_odds_row F N L) by assumption. unfold F.
  rewrite !ln_Rprod by (intros; repeat (apply Rprod_pos; intros); apply sigma_pos). rewrite <- Rsum_sub.
  rewrite (Rsum_ext _ (fun d => lbda * IZR (Zsum (fun m => nth m (nth d (slab X n) []) 0%Z * (up d m - down d m))%Z (seq 0 M)) / 2)).
  - rewrite Rsum_half, Rsum_scale, Rsum_IZR, <- Es, mult_IZR. lra.
  - intros d Hd. apply in_seq0 in Hd.
    rewrite !ln_Rprod by (intros; apply sigma_pos). rewrite <- Rsum_sub.
    rewrite (Rsum_ext _ (fun m => lbda * IZR (nth m (nth d (slab X n) []) 0%Z * (up d m - down d m))%Z / 2)).
    + rewrite Rsum_half, Rsum_scale, Rsum_IZR. lra.
    + intros m Hm. apply in_seq0 in Hm. destruct (Hud d m Hd Hm) as [Hu Hw].
      rewrite (lom_output_unique _ _ _ _ _ _ Hu (Ho _ _)), (lom_output_unique _ _ _ _ _ _ Hw (Ho _ _)).
      rewrite ln_sigma_pm by (eapply out_pm; exact Ho).
      rewrite mult_IZR. unfold at3, at2, at1, row, vec. field.
Qed.

Lemma log_odds_prior p N L A n l : 0 < p < 1 -> has_shape2 A N L -> (n < N)%nat -> (l < L)%nat ->
  log_odds (prior p N L) A n l = logit p.
Proof.
  intros Hp HA Hn Hl.
  pose (F := fun (_ : nat) r => Rprod (fun l => if (at1 r l =? 1)%Z then p else 1 - p) (seq 0 L)).
  change (prior p N L) with (row_weight F N).
  assert (HF : forall k r, 0 < F k r) by (intros; apply Rprod_pos; intros j _; destruct (_ =? 1)%Z; lra).
  rewrite (log_odds_row F N L) by assumption. unfold F.
  rewrite !ln_Rprod by (intros j _; destruct (_ =? 1)%Z; lra). rewrite <- Rsum_sub.
  assert (HL : List.length (row A n) = L) by (apply (shape2_row A N L n HA Hn)).
  rewrite (Rsum_single _ l) by
    (try exact Hl; intros j Hj Hne; unfold at1; rewrite !nth_upd_other by congruence; lra).
  unfold at1. rewrite !nth_upd_same by (unfold vec in *; lia). simpl.
  unfold logit. rewrite ln_div; lra.
Qed.

Lemma log_odds_parent o i out lbda pa1 pa2 N L K A n l : is_output o i out ->
  has_shape2 A N L -> (n < N)%nat -> (l < L)%nat ->
  log_odds (parent_lik out lbda pa1 pa2 N L K) A n l = lbda * IZR (out [row pa1 n; row pa2 l] K).
Proof.
  intros Ho HA Hn Hl.
  pose (F := fun n r => Rprod (fun l => sigma (lbda * IZR (at1 r l) * IZR (out [row pa1 n; row pa2 l] K))) (seq 0 L)).
  change (parent_lik out lbda pa1 pa2 N L K) with (row_weight F N).
  assert (HF : forall k r, 0 < F k r) by (intros; apply Rprod_pos; intros j _; apply sigma_pos).
  rewrite (log_odds_row F N L) by assumption. unfold F.
  rewrite !ln_Rprod by (intros j _; apply sigma_pos). rewrite <- Rsum_sub.
  assert (HL : List.length (row A n) = L) by (apply (shape2_row A N L n HA Hn)).
  rewrite (Rsum_single _ l) by
    (try exact Hl; intros j Hj Hne; unfold at1; rewrite !nth_upd_other by congruence; lra).
  unfold at1. rewrite !nth_upd_same by (unfold vec in *; lia).
  set (y := out [row pa1 n; row pa2 l] K).
  replace (lbda * 1 * IZR y) with (lbda * IZR y * 1) by ring.
  replace (lbda * -1 * IZR y) with (lbda * IZR y * -1) by ring.
  change 1 with (IZR 1) at 1. change (-1) with (IZR (-1)).
  rewrite ln_sigma_pm by (unfold pm1; auto). simpl. lra.
Qed.

(** * Order of factors does not matter *)
Lemma out_swap2 o i out a b L : is_output o i out -> out [a; b] L = out [b; a] L.
Proof.
  intros Ho. eapply lom_output_unique; [apply Ho|]. apply lom_output_b.
  pose proof (proj1 (lom_output_b _ _ _ _ _) (Ho [b; a] L)) as E. rewrite E.
  assert (Hb : lom_b o i [b; a] L = lom_b o i [a; b] L); [|rewrite Hb; reflexivity].
  unfold lom_b. f_equal. apply cnt_ext. intros l _. rewrite !inner_b_2. f_equal. lia.
Qed.
Lemma out_perm3 o i out a b c a' b' c' L : is_output o i out -> Permutation [a; b; c] [a'; b'; c'] ->
  out [a; b; c] L = out [a'; b'; c'] L.
Proof.
  intros Ho HP. eapply lom_output_unique; [apply Ho|]. apply lom_output_b.
  rewrite (proj1 (lom_output_b _ _ _ _ _) (Ho [a'; b'; c'] L)).
  assert (Hb : lom_b o i [a'; b'; c'] L = lom_b o i [a; b; c] L); [|rewrite Hb; reflexivity].
  unfold lom_b. f_equal. apply cnt_ext. intros l _. rewrite !inner_b_3. f_equal.
  assert (G : forall l1 l2 : list vec, Permutation l1 l2 ->
    fold_right (fun r acc => b2n (at1 r l =? 1)%Z + acc)%nat 0%nat l1 =
    fold_right (fun r acc => b2n (at1 r l =? 1)%Z + acc)%nat 0%nat l2).
  { induction 1; simpl; try lia. }
  pose proof (G _ _ HP) as E. simpl in E. lia.
Qed.

Lemma lik2_swap o i out lbda X N D L A B : is_output o i out -> has_shape2 X N D ->
  lik2 out lbda X N D L A B = lik2 out lbda (transpose X) D N L B A.
Proof.
  intros Ho HX. unfold lik2. rewrite Rprod_swap. apply Rprod_ext. intros d Hd. apply Rprod_ext. intros n Hn.
  apply in_seq0 in Hd, Hn. rewrite (at2_transpose X N D) by (try assumption; lia).
  rewrite (out_swap2 o i out _ _ L Ho). reflexivity.
Qed.

(** * Three-way transposition *)
Lemma shape3_dims t N D M : has_shape3 t N D M -> (0 < N)%nat -> (0 < D)%nat ->
  dim3 t 0 = N /\ dim3 t 1 = D /\ dim3 t 2 = M.
Proof.
  intros [H1 H2] HN HD. destruct t as [|s t]; [simpl in H1; lia|]. inversion H2 as [|? ? Hs Ht]; subst.
  destruct Hs as [Hs1 Hs2]. destruct s as [|r s]; [simpl in Hs1; lia|]. inversion Hs2; subst.
  simpl in *. auto.
Qed.
Lemma at3_map3 f P Q S i j k : (i < P)%nat -> (j < Q)%nat -> (k < S)%nat ->
  at3 (map (fun i => map (fun j => map (fun k => f i j k) (seq 0 S)) (seq 0 Q)) (seq 0 P)) i j k = f i j k.
Proof.
  intros Hi Hj Hk. unfold at3, at2, at1, slab, row. rewrite nth_map_seq by exact Hi.
  rewrite nth_map_seq by exact Hj. rewrite nth_map_seq by exact Hk. reflexivity.
Qed.
Lemma at3_transpose3_012 t N D M i j k : has_shape3 t N D M -> (i < N)%nat -> (j < D)%nat -> (k < M)%nat ->
  at3 (transpose3 0 1 2 t) i j k = at3 t i j k.
Proof.
  intros H Hi Hj Hk. destruct (shape3_dims t N D M H) as (E0 & E1 & E2); try lia.
  unfold transpose3. rewrite E0, E1, E2. rewrite at3_map3 by assumption. reflexivity.
Qed.
Lemma at3_transpose3_102 t N D M i j k : has_shape3 t N D M -> (i < D)%nat -> (j < N)%nat -> (k < M)%nat ->
  at3 (transpose3 1 0 2 t) i j k = at3 t j i k.
Proof.
  intros H Hi Hj Hk. destruct (shape3_dims t N D M H) as (E0 & E1 & E2); try lia.
  unfold transpose3. rewrite E0, E1, E2. rewrite at3_map3 by assumption. reflexivity.
Qed.
Lemma at3_transpose3_201 t N D M i j k : has_shape3 t N D M -> (i < M)%nat -> (j < N)%nat -> (k < D)%nat ->
  at3 (transpose3 2 0 1 t) i j k = at3 t j k i.
Proof.
  intros H Hi Hj Hk. destruct (shape3_dims t N D M H) as (E0 & E1 & E2); try lia.
  unfold transpose3. rewrite E0, E1, E2. rewrite at3_map3 by assumption. reflexivity.
Qed.

Lemma lik3_012 out lbda X N D M L A B C : has_shape3 X N D M ->
  lik3 out lbda X N D M L A B C = lik3 out lbda (transpose3 0 1 2 X) N D M L A B C.
Proof.
  intros HX. unfold lik3. apply Rprod_ext. intros n Hn. apply Rprod_ext. intros d Hd. apply Rprod_ext. intros m Hm.
  apply in_seq0 in Hn, Hd, Hm. rewrite (at3_transpose3_012 X N D M) by assumption. reflexivity.
Qed.
Lemma lik3_102 o i out lbda X N D M L A B C : is_output o i out -> has_shape3 X N D M ->
  lik3 out lbda X N D M L A B C = lik3 out lbda (transpose3 1 0 2 X) D N M L B A C.
Proof.
  intros Ho HX. unfold lik3. rewrite Rprod_swap.
  apply Rprod_ext. intros d Hd. apply Rprod_ext. intros n Hn. apply Rprod_ext. intros m Hm.
  apply in_seq0 in Hn, Hd, Hm. rewrite (at3_transpose3_102 X N D M) by assumption.
  rewrite (out_perm3 o i out _ _ _ (row B d) (row A n) (row C m) L Ho); [reflexivity|constructor].
Qed.
Lemma lik3_201 o i out lbda X N D M L A B C : is_output o i out -> has_shape3 X N D M ->
  lik3 out lbda X N D M L A B C = lik3 out lbda (transpose3 2 0 1 X) M N D L C A B.
Proof.
  intros Ho HX. unfold lik3.
  transitivity (Rprod (fun n => Rprod (fun m => Rprod (fun d =>
    sigma (lbda * IZR (at3 X n d m) * IZR (out [row A n; row B d; row C m] L))) (seq 0 D)) (seq 0 M)) (seq 0 N)).
  { apply Rprod_ext. intros n _. apply Rprod_swap. }
  rewrite Rprod_swap.
  apply Rprod_ext. intros m Hm. apply Rprod_ext. intros n Hn. apply Rprod_ext. intros d Hd.
  apply in_seq0 in Hn, Hd, Hm. rewrite (at3_transpose3_201 X N D M) by assumption.
  rewrite (out_perm3 o i out _ _ _ (row C m) (row A n) (row B d) L Ho); [reflexivity|].
  apply Permutation_sym. apply (Permutation_cons_app [row A n; row B d] [] (row C m)). simpl. apply Permutation_refl.
Qed.

(** * The samplers are reference sweeps *)
Lemma tern2_row m n : tern2 m -> tern1 (row m n).
Proof.
  intros H. unfold row. destruct (Nat.lt_ge_cases n (List.length m)).
  - apply (Forall_nth' _ m n [] H). assumption.
  - rewrite nth_overflow by assumption. constructor.
Qed.
Lemma transpose_tern X N D : has_shape2 X N D -> tern2 X -> tern2 (transpose X).
Proof.
  intros HX T. unfold transpose, tern2, tern1. apply Forall_forall. intros r Hr.
  apply in_map_iff in Hr. destruct Hr as (j & <- & Hj). apply Forall_forall. intros x Hx.
  apply in_map_iff in Hx. destruct Hx as (k & <- & Hk). pose proof (tern2_row X k T) as HT.
  unfold at2, at1. destruct (Nat.lt_ge_cases j (List.length (row X k))).
  - apply (Forall_nth' _ _ j 0%Z HT). assumption.
  - rewrite nth_overflow by assumption. unfold tern. auto.
Qed.

Section Exact2.
  Variables (o i : lop) (Hin : In (o, i) implemented) (out : list vec -> nat -> Z) (Ho : is_output o i out).
  Variable f : vec -> mat -> vec -> nat -> Z.
  Hypothesis Hf : forall z U x l D L,
      has_shape2 U D L -> bin2 U -> bin1 z -> List.length z = L -> (l < L)%nat ->
      exists s, explained2 o i z U x l D L s /\ f z U x l = wrap16 s /\
        (tern1 x -> (Z.of_nat D <= 32767)%Z -> f z U x l = s).

  Lemma score_log_odds N D L A B X lbda n l : okmat N L A -> okmat D L B -> tern2 X ->
    (Z.of_nat D <= 32767)%Z -> (n < N)%nat -> (l < L)%nat ->
    lbda * IZR (f (row A n) B (row X n) l) = log_odds (fun A => lik2 out lbda X N D L A B) A n l.
  Proof.
    intros [HA bA] [HB bB] TX HD Hn Hl.
    destruct (Hf (row A n) B (row X n) l D L HB bB) as (s & Hs & _ & E).
    - apply bin2_row; exact bA.
    - apply (shape2_row A N L n HA Hn).
    - exact Hl.
    - rewrite E by (try apply tern2_row; assumption).
      symmetry. apply (log_odds_lik2 o i out lbda X N D L A B n l s); assumption.
  Qed.

  (** Axis 1: the transposed data and swapped factors. *)
  Lemma score_log_odds_T N D L A B X lbda d l : okmat N L A -> okmat D L B -> tern2 X -> has_shape2 X N D ->
    (Z.of_nat N <= 32767)%Z -> (d < D)%nat -> (l < L)%nat ->
    lbda * IZR (f (row B d) A (row (transpose X) d) l) = log_odds (fun B => lik2 out lbda X N D L A B) B d l.
  Proof.
    intros HA HB TX HX HN Hd Hl.
    rewrite (score_log_odds D N L B A (transpose X)) by (try assumption; apply (transpose_tern X N D HX TX)).
    unfold log_odds. rewrite !(lik2_swap o i out lbda X N D L A) by assumption. reflexivity.
  Qed.
End Exact2.

Lemma post2_log_odds_A out lbda X N D L pA pB A B n l : okmat N L A -> (n < N)%nat -> (l < L)%nat ->
  0 < pA < 1 -> 0 < pB < 1 ->
  log_odds (fun A => post2 out lbda X N D L pA pB A B) A n l =
  log_odds (fun A => lik2 out lbda X N D L A B) A n l + logit pA.
Proof.
  intros [HA bA] Hn Hl HpA HpB. unfold post2.
  rewrite (log_odds_mul (fun A => lik2 out lbda X N D L A B * prior pA N L A) (fun _ => prior pB D L B)).
  - rewrite log_odds_const.
    rewrite (log_odds_mul (fun A => lik2 out lbda X N D L A B) (prior pA N L)).
    + rewrite (log_odds_prior pA N L A n l) by assumption. lra.
    + intros; apply lik2_pos.
    + intros; apply prior_pos; assumption.
  - intros. apply Rmult_lt_0_compat; [apply lik2_pos|apply prior_pos; assumption].
  - intros. apply prior_pos; assumption.
Qed.
Lemma post2_log_odds_B out lbda X N D L pA pB A B n l : okmat D L B -> (n < D)%nat -> (l < L)%nat ->
  0 < pA < 1 -> 0 < pB < 1 ->
  log_odds (fun B => post2 out lbda X N D L pA pB A B) B n l =
  log_odds (fun B => lik2 out lbda X N D L A B) B n l + logit pB.
Proof.
  intros [HB bB] Hn Hl HpA HpB. unfold post2.
  rewrite (log_odds_mul (fun B => lik2 out lbda X N D L A B * prior pA N L A) (prior pB D L)).
  - rewrite (log_odds_prior pB D L B n l) by assumption.
    rewrite (log_odds_mul (fun B => lik2 out lbda X N D L A B) (fun _ => prior pA N L A)).
    + rewrite log_odds_const. lra.
    + intros; apply lik2_pos.
    + intros; apply prior_pos; assumption.
  - intros. apply Rmult_lt_0_compat; [apply lik2_pos|apply prior_pos; assumption].
  - intros. apply prior_pos; assumption.
Qed.
Lemma post2_pos out lbda X N D L pA pB A B : 0 < pA < 1 -> 0 < pB < 1 -> 0 < post2 out lbda X N D L pA pB A B.
Proof.
  intros. unfold post2. repeat apply Rmult_lt_0_compat; [apply lik2_pos|apply prior_pos|apply prior_pos]; assumption.
Qed.


Lemma C10_2_lemma : forall o i, In (o, i) implemented -> forall out, is_output o i out ->
  forall N D L (A B fixed X : mat) lbda pA pB r,
    has_shape2 A N L -> bin2 A -> has_shape2 B D L -> bin2 B -> has_shape2 X N D -> tern2 X ->
    0 < pA < 1 -> 0 < pB < 1 ->
    ((Z.of_nat D <= 32767)%Z -> draws_ok r N L ->
      LOM_sampler_2d (model_name o i) 0 A B fixed X lbda pA r =
      Ok (ref_sweep (fun A' => post2 out lbda X N D L pA pB A' B) fixed r N L A)) /\
    ((Z.of_nat N <= 32767)%Z -> draws_ok r D L ->
      LOM_sampler_2d (model_name o i) 1 A B fixed X lbda pB r =
      Ok (ref_sweep (fun B' => post2 out lbda X N D L pA pB A B') fixed r D L B)).
Proof.
  intros o i Hin out Ho N D L A B fixed X lbda pA pB r HA bA HB bB HX TX HpA HpB.
  destruct (C07_lemma o i Hin) as (f & Ef & Hf).
  assert (kA : okmat N L A) by (split; assumption). assert (kB : okmat D L B) by (split; assumption).
  unfold LOM_sampler_2d, sampling_fct_onechild_2d. rewrite Ef. cbn [bind]. split.
  - intros HD Hr. f_equal. apply sample_loop_ref; [exact kA|exact Hr|].
    intros Zc n l HZ Hn Hl. unfold logit_onechild_2d.
    rewrite post2_log_odds_A by assumption.
    rewrite (score_log_odds o i out Ho f Hf N D L Zc B X lbda n l) by assumption. reflexivity.
  - intros HN Hr. f_equal. apply sample_loop_ref; [exact kB|exact Hr|].
    intros Zc n l HZ Hn Hl. unfold logit_onechild_2d.
    rewrite post2_log_odds_B by assumption.
    rewrite (score_log_odds_T o i out Ho f Hf N D L A Zc X lbda n l) by assumption. reflexivity.
Qed.

(** Three factors. *)
Lemma log_odds_mul4 (a b c d : mat -> R) Z_ n l :
  (forall Zc, 0 < a Zc) -> (forall Zc, 0 < b Zc) -> (forall Zc, 0 < c Zc) -> (forall Zc, 0 < d Zc) ->
  log_odds (fun Zc => a Zc * b Zc * c Zc * d Zc) Z_ n l =
  log_odds a Z_ n l + log_odds b Z_ n l + log_odds c Z_ n l + log_odds d Z_ n l.
Proof.
  intros Ha Hb Hc Hd.
  rewrite (log_odds_mul (fun Zc => a Zc * b Zc * c Zc) d) by (auto; intros; repeat apply Rmult_lt_0_compat; auto).
  rewrite (log_odds_mul (fun Zc => a Zc * b Zc) c) by (auto; intros; repeat apply Rmult_lt_0_compat; auto).
  rewrite (log_odds_mul a b) by auto. reflexivity.
Qed.

Section Exact3.
  Variables (o i : lop) (out : list vec -> nat -> Z) (Ho : is_output o i out).
  Variable f : vec -> mat -> mat -> mat -> nat -> Z.
  Hypothesis Hf : forall z U V x l D M L,
      has_shape2 U D L -> has_shape2 V M L -> bin2 U -> bin2 V -> bin1 z -> List.length z = L -> (l < L)%nat ->
      explained3 o i z U V x l D M L (f z U V x l).
  Lemma score3_log_odds N D M L A B C X lbda n l : okmat N L A -> okmat D L B -> okmat M L C ->
    (n < N)%nat -> (l < L)%nat ->
    lbda * IZR (f (row A n) B C (slab X n) l) = log_odds (fun A => lik3 out lbda X N D M L A B C) A n l.
  Proof.
    intros [HA bA] [HB bB] [HC bC] Hn Hl. symmetry.
    apply (log_odds_lik3 o i out lbda X N D M L A B C n l); try assumption.
    apply Hf; try assumption; [apply bin2_row; exact bA|apply (shape2_row A N L n HA Hn)].
  Qed.
End Exact3.

Lemma C10_3_lemma : forall o i, In (o, i) implemented -> forall out, is_output o i out ->
  forall N D M L (A B C fixed : mat) (X : ten) lbda pA pB pC r,
    has_shape2 A N L -> bin2 A -> has_shape2 B D L -> bin2 B -> has_shape2 C M L -> bin2 C ->
    has_shape3 X N D M ->
    0 < pA < 1 -> 0 < pB < 1 -> 0 < pC < 1 ->
    (draws_ok r N L ->
      LOM_sampler_3d (model_name o i) 0 A B C fixed X lbda pA r =
      Ok (ref_sweep (fun A' => post3 out lbda X N D M L pA pB pC A' B C) fixed r N L A)) /\
    (draws_ok r D L ->
      LOM_sampler_3d (model_name o i) 1 A B C fixed X lbda pB r =
      Ok (ref_sweep (fun B' => post3 out lbda X N D M L pA pB pC A B' C) fixed r D L B)) /\
    (draws_ok r M L ->
      LOM_sampler_3d (model_name o i) 2 A B C fixed X lbda pC r =
      Ok (ref_sweep (fun C' => post3 out lbda X N D M L pA pB pC A B C') fixed r M L C)).
Proof.
  intros o i Hin out Ho N D M L A B C fixed X lbda pA pB pC r HA bA HB bB HC bC HX HpA HpB HpC.
  destruct (C08_lemma o i Hin) as (f & Ef & Hf).
  assert (kA : okmat N L A) by (split; assumption). assert (kB : okmat D L B) by (split; assumption).
  assert (kC : okmat M L C) by (split; assumption).
  unfold LOM_sampler_3d, sampling_fct_onechild_3d. rewrite Ef. cbn [bind].
  split; [|split]; intros Hr; f_equal; (apply sample_loop_ref; [assumption|exact Hr|]);
    intros Zc n l HZ Hn Hl; unfold logit_onechild_3d, post3.
  - rewrite (log_odds_mul4 (fun A' => lik3 out lbda X N D M L A' B C) (prior pA N L)
      (fun _ => prior pB D L B) (fun _ => prior pC M L C));
      try (intros; first [apply lik3_pos|apply prior_pos; assumption]).
    rewrite !log_odds_const, (log_odds_prior pA N L Zc n l) by (try assumption; apply HZ).
    rewrite (score3_log_odds o i out Ho f Hf N D M L Zc B C _ lbda n l) by assumption.
    unfold log_odds. rewrite <- !lik3_012 by assumption. lra.
  - rewrite (log_odds_mul4 (fun B' => lik3 out lbda X N D M L A B' C) (fun _ => prior pA N L A)
      (prior pB D L) (fun _ => prior pC M L C));
      try (intros; first [apply lik3_pos|apply prior_pos; assumption]).
    rewrite !log_odds_const, (log_odds_prior pB D L Zc n l) by (try assumption; apply HZ).
    rewrite (score3_log_odds o i out Ho f Hf D N M L Zc A C _ lbda n l) by assumption.
    unfold log_odds. rewrite <- !(lik3_102 o i) by assumption. lra.
  - rewrite (log_odds_mul4 (fun C' => lik3 out lbda X N D M L A B C') (fun _ => prior pA N L A)
      (fun _ => prior pB D L B) (prior pC M L));
      try (intros; first [apply lik3_pos|apply prior_pos; assumption]).
    rewrite !log_odds_const, (log_odds_prior pC M L Zc n l) by (try assumption; apply HZ).
    rewrite (score3_log_odds o i out Ho f Hf M N D L Zc A B _ lbda n l) by assumption.
    unfold log_odds. rewrite <- !(lik3_201 o i) by assumption. lra.
Qed.
