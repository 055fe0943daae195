(** Proofs for C43, C44, C67. *)
From Coq Require Import Lra ZifyBool.
From Verif Require Import Base BaseLemmas BaseR BaseRLemmas Spec SpecR Outputs OutputsProofs Scores ScoresProofs Sampling SamplingProofs LambdaProofs Helpers SpecHelpers HelpersProofs QL SpecQL.
Local Open Scope R_scope.

Definition both (z u : vec) (l : nat) : bool := ((at1 z l =? 1) && (at1 u l =? 1))%Z.
Definition q_b (q : Z) (z u : vec) (L : nat) : bool := (q <=? Z.of_nat (cnt (both z u) (seq 0 L)))%Z.
Lemma q_active_b q z u L : q_active q z u L <-> q_b q z u L = true.
Proof.
  unfold q_active, q_b. split.
  - intros (ls & Hn & Hlen & Hls). apply Z.leb_le. assert (List.length ls <= cnt (both z u) (seq 0 L))%nat; [|lia].
    apply NoDup_incl_length; [exact Hn|]. intros l Hl. destruct (Hls l Hl) as (H1 & H2 & H3).
    apply filter_In. split; [apply in_seq; lia|]. unfold both, at1. rewrite H2, H3. reflexivity.
  - intros H. apply Z.leb_le in H. exists (filter (both z u) (seq 0 L)). split; [apply NoDup_filter, seq_NoDup|]. split; [exact H|].
    intros l Hl. apply filter_In in Hl. destruct Hl as [Hl Hc]. apply in_seq in Hl. unfold both, at1 in Hc.
    apply andb_true_iff in Hc. destruct Hc as [H1 H2]. apply Z.eqb_eq in H1, H2. split; [lia|auto].
Qed.
Lemma q_output_b q z u L x : q_output q z u L x <-> x = sgn (q_b q z u L).
Proof.
  unfold q_output, sgn. rewrite q_active_b. destruct (q_b q z u L); intuition congruence.
Qed.
Lemma qL_count_spec c ls q k : (k < q)%Z -> qL_count c ls q k = Z.min q (k + Z.of_nat (cnt c ls))%Z.
Proof.
  revert k. induction ls as [|l ls IH]; intros k Hk; cbn [qL_count].
  - rewrite cnt_nil. lia.
  - rewrite cnt_cons. destruct (c l).
    + destruct (Z.eqb_spec (k + 1) q); [lia|]. rewrite IH by lia. lia.
    + destruct (Z.eqb_spec k q); [lia|]. rewrite IH by lia. lia.
Qed.
Definition others (z u : vec) (l L : nat) : nat := cnt (fun l' => both z u l' && negb (Nat.eqb l' l)) (seq 0 L).
Lemma q_b_upd q z u l v L : List.length z = L -> (l < L)%nat -> pm1 v ->
  q_b q (upd z l v) u L = (q <=? Z.of_nat ((if ((v =? 1) && (at1 u l =? 1))%Z then 1 else 0) + others z u l L))%Z.
Proof.
  intros Hz Hl Hv. unfold q_b. f_equal. f_equal. rewrite (cnt_split _ l) by (try apply seq_NoDup; apply in_seq0; exact Hl). f_equal.
  - unfold both. rewrite at1_upd, Nat.eqb_refl. unfold vec in *. rewrite Hz. destruct (Nat.ltb_spec l L); [|lia]. reflexivity.
  - apply cnt_ext. intros l' _. unfold both. rewrite at1_upd. destruct (Nat.eqb_spec l' l); [rewrite !andb_false_r; reflexivity|]. reflexivity.
Qed.
(** Change of the output at one data point. *)
Lemma q_gain q z u l L : (1 <= q)%Z -> List.length z = L -> (l < L)%nat ->
  (sgn (q_b q (upd z l 1%Z) u L) - sgn (q_b q (upd z l (-1)%Z) u L) =
   2 * (if (at1 u l =? 1) && (Z.min q (Z.of_nat (others z u l L)) =? q - 1) then 1 else 0))%Z.
Proof.
  intros Hq Hz Hl. rewrite !q_b_upd by (unfold pm1; auto). cbn [Z.eqb Pos.eqb andb]. unfold sgn. set (k := others z u l L).
  destruct (Z.eqb_spec (at1 u l) 1); cbn [andb]; repeat match goal with |- context [(?a <=? ?b)%Z] => destruct (Z.leb_spec a b) end; try destruct (Z.eqb_spec (Z.min q (Z.of_nat k)) (q - 1)); lia.
Qed.
Definition q_exact (q : nat -> Z) (z : vec) (U : mat) (x : vec) (l D L : nat) : Z :=
  Zsum (fun d => if (at2 U d l =? 1)%Z && (Z.min (q d) (Z.of_nat (others z (row U d) l L)) =? q d - 1)%Z then at1 x d else 0%Z) (seq 0 D).
Lemma q_exact_explained q z U x l D L : (forall d, (d < D)%nat -> (1 <= q d)%Z) -> List.length z = L -> (l < L)%nat -> q_explained q z U x l D L (q_exact q z U x l D L).
Proof.
  intros Hq Hz Hl. exists (fun d => sgn (q_b (q d) (upd z l 1%Z) (row U d) L)), (fun d => sgn (q_b (q d) (upd z l (-1)%Z) (row U d) L)). split.
  - intros d Hd. split; apply q_output_b; reflexivity.
  - unfold q_exact. rewrite <- Zsum_scale. apply Zsum_ext. intros d Hd. apply in_seq0 in Hd. rewrite q_gain by auto. fold (at1 x d). fold (at2 U d l).
    destruct (_ && _)%bool; lia.
Qed.
Lemma q_exact_bound q z U x l D L : tern1 x -> (Z.of_nat D <= 32767)%Z -> wrap16 (q_exact q z U x l D L) = q_exact q z U x l D L.
Proof.
  intros T HD. apply wrap16_id. unfold q_exact. match goal with |- (_ <= ?Z < _)%Z => assert (HB : (Z.abs Z <= 1 * Z.of_nat (List.length (seq 0 D)))%Z) end.
  - apply (Zsum_abs_bound _ _ 1). intros d _. destruct (_ && _)%bool; [|lia].
    unfold at1. destruct (Nat.lt_ge_cases d (List.length x)) as [H|H]; [|rewrite nth_overflow by exact H; lia].
    destruct (Forall_nth' _ x d 0%Z T H) as [E|[E|E]]; rewrite E; lia.
  - rewrite seq_length in HB. lia.
Qed.
Lemma score_Z_exact z U x l D L q : has_shape2 U D L -> (forall d, (d < D)%nat -> (1 <= at2 q 0 d)%Z) ->
  posterior_score_fct_qL_Z z U x l q = wrap16 (q_exact (fun d => at2 q 0 d) z U x l D L).
Proof.
  intros HU Hq. unfold posterior_score_fct_qL_Z. f_equal. rewrite (shape2_nrows _ _ _ HU).
  destruct D as [|D]; [reflexivity|]. rewrite (shape2_ncols _ _ _ HU) by lia.
  erewrite fold_left_sum; [apply Z.add_0_l|]. intros s d Hd. apply in_seq0 in Hd. cbv beta. unfold others, both.
  destruct (at2 U d l =? 1)%Z; cbn [negb andb]; [|lia]. rewrite qL_count_spec by (specialize (Hq d Hd); lia). rewrite Z.add_0_l. fold (at2 U d).
  unfold at2 at 1. destruct (Z.min _ _ =? _)%Z; lia.
Qed.
Lemma score_U_exact u Z_ x l N L qd : has_shape2 Z_ N L -> (1 <= qd)%Z ->
  posterior_score_fct_qL_U u Z_ x l qd = wrap16 (q_exact (fun _ => qd) u Z_ x l N L).
Proof.
  intros HU Hq. unfold posterior_score_fct_qL_U. f_equal. rewrite (shape2_nrows _ _ _ HU).
  destruct N as [|N]; [reflexivity|]. rewrite (shape2_ncols _ _ _ HU) by lia.
  erewrite fold_left_sum; [apply Z.add_0_l|]. intros s d Hd. apply in_seq0 in Hd. cbv beta. unfold others, both.
  destruct (at2 Z_ d l =? 1)%Z; cbn [negb andb]; [|lia]. rewrite qL_count_spec by lia. rewrite Z.add_0_l. 
  unfold at2 at 1. destruct (Z.min _ _ =? _)%Z; lia.
Qed.
Lemma C43_lemma :
  (forall z U x l D L q, has_shape2 U D L -> List.length z = L -> (l < L)%nat -> (forall d, (d < D)%nat -> (1 <= at2 q 0 d)%Z) ->
     exists s, q_explained (fun d => at2 q 0 d) z U x l D L s /\ posterior_score_fct_qL_Z z U x l q = wrap16 s /\
       (tern1 x -> (Z.of_nat D <= 32767)%Z -> posterior_score_fct_qL_Z z U x l q = s)) /\
  (forall u Z_ x l N L qd, has_shape2 Z_ N L -> List.length u = L -> (l < L)%nat -> (1 <= qd)%Z ->
     exists s, q_explained (fun _ => qd) u Z_ x l N L s /\ posterior_score_fct_qL_U u Z_ x l qd = wrap16 s /\
       (tern1 x -> (Z.of_nat N <= 32767)%Z -> posterior_score_fct_qL_U u Z_ x l qd = s)).
Proof.
  split.
  - intros z U x l D L q HU Hz Hl Hq. exists (q_exact (fun d => at2 q 0 d) z U x l D L). rewrite (score_Z_exact z U x l D L q HU Hq).
    split; [apply q_exact_explained; assumption|]. split; [reflexivity|]. intros T HD. apply q_exact_bound; assumption.
  - intros u Z_ x l N L qd HU Hz Hl Hq. exists (q_exact (fun _ => qd) u Z_ x l N L). rewrite (score_U_exact u Z_ x l N L qd HU Hq).
    split; [apply q_exact_explained; auto|]. split; [reflexivity|]. intros T HD. apply q_exact_bound; assumption.
Qed.

(** * Updates *)
Lemma at2_nil n l : at2 [] n l = 0%Z.
Proof. unfold at2, at1, row. destruct n; destruct l; reflexivity. Qed.
Lemma fold_cell_nil (lg : mat -> nat -> nat -> R) rand ls ls' Z_ :
  fold_left (fun Zn n => fold_left (fun Zl l => set2 Zl n l (flip_metropolised_gibbs_numba (lg Zl n l) (at2 Zl n l) (rand n l))) ls' Zn) ls Z_ =
  fold_left (fun Zn n => fold_left (fun Zl l => sample_cell lg [] rand Zl n l) ls' Zn) ls Z_.
Proof.
  revert Z_. induction ls as [|n ls IH]; intros Z_; [reflexivity|]. cbn [fold_left]. rewrite IH. f_equal. clear IH.
  revert Z_. induction ls' as [|l ls' IH]; intros Z_; [reflexivity|]. cbn [fold_left]. rewrite IH. f_equal. unfold sample_cell. rewrite at2_nil. reflexivity.
Qed.
Lemma sample_Z_loop Z_ U X q lbda rand :
  sample_qL_factors_Z Z_ U X q lbda rand = sample_loop (fun Zc n l => IZR (posterior_score_fct_qL_Z (row Zc n) U (row X n) l q)) Z_ [] rand.
Proof. apply (fold_cell_nil (fun Zc n l => IZR (posterior_score_fct_qL_Z (row Zc n) U (row X n) l q))). Qed.
Lemma sample_U_loop U Z_ X q lbda rand :
  sample_qL_factors_U U Z_ X q lbda rand = sample_loop (fun Uc d l => IZR (posterior_score_fct_qL_U (row Uc d) Z_ (row X d) l (at2 q 0 d))) U [] rand.
Proof. apply (fold_cell_nil (fun Uc d l => IZR (posterior_score_fct_qL_U (row Uc d) Z_ (row X d) l (at2 q 0 d)))). Qed.

Lemma q_output_unique q z u L x y : q_output q z u L x -> q_output q z u L y -> x = y.
Proof. rewrite !q_output_b. congruence. Qed.
Lemma qout_pm out q z u L : is_qout out -> pm1 (out q z u L).
Proof. intros H. destruct (H q z u L) as [[-> _]|[-> _]]; unfold pm1; auto. Qed.
Lemma qout_swap out q a b L : is_qout out -> out q a b L = out q b a L.
Proof.
  intros Ho. eapply q_output_unique; [apply Ho|]. apply q_output_b. rewrite (proj1 (q_output_b _ _ _ _ _) (Ho q b a L)).
  f_equal. unfold q_b. f_equal. f_equal. apply cnt_ext. intros l _. unfold both. apply andb_comm.
Qed.
(** Log-odds of a cell of a matrix of weights given row by row. *)
Lemma log_odds_q (t : nat -> nat -> R) (qq : nat -> nat -> Z) out N D L A B n l s X : is_qout out -> has_shape2 A N L -> (n < N)%nat ->
  q_explained (qq n) (row A n) B (row X n) l D L s -> forall lbda,
  log_odds (fun A' => Rprod (fun n => Rprod (fun d => sigma (lbda * IZR (at2 X n d) * IZR (out (qq n d) (row A' n) (row B d) L))) (seq 0 D)) (seq 0 N)) A n l = lbda * IZR s.
Proof.
  intros Ho HA Hn (up & down & Hud & Es) lbda.
  pose (F := fun n r => Rprod (fun d => sigma (lbda * IZR (at2 X n d) * IZR (out (qq n d) r (row B d) L))) (seq 0 D)).
  assert (HF : forall k r, 0 < F k r) by (intros; apply Rprod_pos; intros; apply sigma_pos).
  etransitivity; [exact (log_odds_row F N L A n l HA Hn HF)|]. unfold F.
  rewrite !ln_Rprod by (intros; apply sigma_pos). rewrite <- Rsum_sub.
  rewrite (Rsum_ext _ (fun d => lbda * IZR (nth d (row X n) 0%Z * (up d - down d))%Z / 2)).
  - rewrite Rsum_half, Rsum_scale, Rsum_IZR, <- Es, mult_IZR. lra.
  - intros d Hd. apply in_seq0 in Hd. destruct (Hud d Hd) as [Hu Hw].
    rewrite (q_output_unique _ _ _ _ _ _ Hu (Ho _ _ _ _)), (q_output_unique _ _ _ _ _ _ Hw (Ho _ _ _ _)).
    rewrite ln_sigma_pm by (apply qout_pm; exact Ho).
    rewrite mult_IZR. unfold at2, at1, vec. field.
Qed.
Lemma q_lik_pos out q lbda X N D L A B : 0 < q_lik out q lbda X N D L A B.
Proof. repeat (apply Rprod_pos; intros). apply sigma_pos. Qed.
Lemma q_lik_swap out q lbda X N D L A B : is_qout out -> has_shape2 X N D ->
  q_lik out q lbda X N D L A B = Rprod (fun d => Rprod (fun n => sigma (lbda * IZR (at2 (transpose X) d n) * IZR (out (q d) (row B d) (row A n) L))) (seq 0 N)) (seq 0 D).
Proof.
  intros Ho HX. unfold q_lik. rewrite Rprod_swap. apply Rprod_ext. intros d Hd. apply Rprod_ext. intros n Hn.
  apply in_seq0 in Hd, Hn. rewrite (at2_transpose X N D) by (try assumption; lia).
  rewrite (qout_swap out _ _ _ L Ho). reflexivity.
Qed.
Lemma logit_half : logit (1 / 2) = 0.
Proof. unfold logit. replace (1 / 2 / (1 - 1 / 2)) with 1 by lra. apply ln_1. Qed.

(** The log-odds of a cell of either factor under the posterior. *)
Lemma q_odds_A out q lbda X N D L pA pB A B n l : is_qout out -> has_shape2 A N L -> (n < N)%nat -> (l < L)%nat -> 0 < pA < 1 -> 0 < pB < 1 ->
  (forall d, (d < D)%nat -> (1 <= q d)%Z) ->
  log_odds (fun A' => q_post out q lbda X N D L pA pB A' B) A n l = lbda * IZR (q_exact q (row A n) B (row X n) l D L) + logit pA.
Proof.
  intros Ho HA Hn Hl HpA HpB Hq. unfold q_post.
  rewrite (log_odds_mul (fun A' => q_lik out q lbda X N D L A' B * prior pA N L A')) by (intros; try apply Rmult_lt_0_compat; try apply q_lik_pos; apply prior_pos; assumption).
  rewrite (log_odds_mul (fun A' => q_lik out q lbda X N D L A' B)) by (intros; try apply q_lik_pos; apply prior_pos; assumption).
  rewrite log_odds_const, Rplus_0_r. f_equal; [|apply log_odds_prior; assumption].
  apply (log_odds_q (fun _ _ => 0) (fun _ => q)); try assumption.
  apply q_exact_explained; auto. apply (shape2_row A N L n HA Hn).
Qed.
Lemma q_odds_B out q lbda X N D L pA pB A B d l : is_qout out -> has_shape2 X N D -> has_shape2 B D L -> (d < D)%nat -> (l < L)%nat -> 0 < pA < 1 -> 0 < pB < 1 ->
  (forall d, (d < D)%nat -> (1 <= q d)%Z) ->
  log_odds (fun B' => q_post out q lbda X N D L pA pB A B') B d l = lbda * IZR (q_exact (fun _ => q d) (row B d) A (row (transpose X) d) l N L) + logit pB.
Proof.
  intros Ho HX HB Hd Hl HpA HpB Hq. unfold q_post.
  rewrite (log_odds_mul (fun B' => q_lik out q lbda X N D L A B' * prior pA N L A)) by (intros; try apply Rmult_lt_0_compat; try apply q_lik_pos; apply prior_pos; assumption).
  rewrite (log_odds_mul (fun B' => q_lik out q lbda X N D L A B')) by (intros; try apply q_lik_pos; apply prior_pos; assumption).
  rewrite log_odds_const, Rplus_0_r. f_equal; [|apply log_odds_prior; assumption].
  transitivity (log_odds (fun B' => Rprod (fun d => Rprod (fun n => sigma (lbda * IZR (at2 (transpose X) d n) * IZR (out (q d) (row B' d) (row A n) L))) (seq 0 N)) (seq 0 D)) B d l).
  { unfold log_odds. rewrite !(q_lik_swap out q lbda X N D L A) by assumption. reflexivity. }
  apply (log_odds_q (fun _ _ => 0) (fun d _ => q d)); try assumption.
  apply q_exact_explained; auto. apply (shape2_row B D L d HB Hd).
Qed.
Lemma C44_lemma out : is_qout out -> forall N D L A B fixed X q pB r,
  okmat N L A -> okmat D L B -> has_shape2 X N D -> tern2 X -> (forall d, (d < D)%nat -> (1 <= at2 q 0 d)%Z) -> 0 < pB < 1 ->
  (forall n l, at2 fixed n l <> 1%Z) ->
  let Q := fun d => at2 q 0 d in
  ((Z.of_nat D <= 32767)%Z -> draws_ok r N L ->
    qL_sampler 0 A B fixed X q 1 (1/2) r = ref_sweep (fun A' => q_post out Q 1 X N D L (1/2) pB A' B) fixed r N L A) /\
  ((Z.of_nat N <= 32767)%Z -> draws_ok r D L ->
    qL_sampler 1 A B fixed X q 1 (1/2) r = ref_sweep (fun B' => q_post out Q 1 X N D L pB (1/2) A B') fixed r D L B).
Proof.
  intros Ho N D L A B fixed X q pB r HA HB HX TX Hq HpB HF Q.
  assert (NF : forall w P M m, ref_sweep w fixed r P M m = ref_sweep w [] r P M m).
  { intros w P M m. unfold ref_sweep. generalize (cells P M). intros cs. revert m. induction cs as [|[n l] cs IH]; intros m; [reflexivity|].
    cbn [fold_left]. rewrite at2_nil. cbn [Z.eqb]. destruct (Z.eqb_spec (at2 fixed n l) 1) as [E|_]; [destruct (HF n l E)|]. apply IH. }
  split; intros HS Hr; rewrite NF; cbn [qL_sampler].
  - rewrite sample_Z_loop. apply sample_loop_ref; [exact HA|exact Hr|]. intros Zc n l [HZ BZ] Hn Hl.
    rewrite q_odds_A by (try assumption; lra). rewrite logit_half, Rplus_0_r, Rmult_1_l. f_equal.
    rewrite (score_Z_exact _ _ _ _ D L) by (try exact (proj1 HB); exact Hq). apply q_exact_bound; [apply tern2_row; exact TX|exact HS].
  - rewrite sample_U_loop. apply sample_loop_ref; [exact HB|exact Hr|]. intros Uc d l [HU BU] Hd Hl.
    rewrite q_odds_B by (try assumption; lra). rewrite logit_half, Rplus_0_r, Rmult_1_l. f_equal.
    rewrite (score_U_exact _ _ _ _ N L) by (try exact (proj1 HA); apply Hq; exact Hd). apply q_exact_bound; [apply tern2_row; eapply transpose_tern; eassumption|exact HS].
Qed.
(** Independence of lambda, prior and fixed entries. *)
Lemma C44_ignored_lemma axis A B X q r fixed fixed' lbda lbda' p p' : qL_sampler axis A B fixed X q lbda p r = qL_sampler axis A B fixed' X q lbda' p' r.
Proof. destruct axis; reflexivity. Qed.
Lemma C44_refuted_lemma out : is_qout out -> 
  (forall lbda p, 0 < p < 1 -> lbda + ln (p / (1 - p)) <> 1 ->
   exists r, SpecR.is_draw r /\ qL_sampler 0 [[1%Z]] [[1%Z]] [[0%Z]] [[1%Z]] [[1%Z]] lbda p (fun _ _ => r) <>
     ref_sweep (fun A' => q_post out (fun _ => 1%Z) lbda [[1%Z]] 1 1 1 p (1/2) A' [[1%Z]]) [[0%Z]] (fun _ _ => r) 1 1 [[1%Z]]) /\
  (forall lbda p, qL_sampler 0 [[1%Z]] [[1%Z]] [[1%Z]] [[1%Z]] [[1%Z]] lbda p (fun _ _ => 0) = [[(-1)%Z]]).
Proof.
  intros Ho. assert (ES : forall lbda p r, qL_sampler 0 [[1%Z]] [[1%Z]] [[0%Z]] [[1%Z]] [[1%Z]] lbda p (fun _ _ => r) = [[if Rltb r (exp (-1)) then (-1)%Z else 1%Z]]).
  { intros lbda p r. unfold qL_sampler, sample_qL_factors_Z. cbn [seq nrows ncols List.length hd fold_left]. change (posterior_score_fct_qL_Z (row [[1%Z]] 0) [[1%Z]] (row [[1%Z]] 0) 0 [[1%Z]]) with 1%Z.
    unfold flip_metropolised_gibbs_numba, flip_metropolised_branch. cbn [at2 at1 row nth Z.eqb Pos.eqb andb].
    destruct (Rleb_spec 1 0); [lra|]. cbn [Z.opp]. replace (-1 * 1) with (-1) by ring. destruct (Rltb r (exp (-1))); reflexivity. }
  split.
  - intros lbda p Hp Hne. set (lo := lbda + ln (p / (1 - p))).
    assert (ER : forall r, ref_sweep (fun A' => q_post out (fun _ => 1%Z) lbda [[1%Z]] 1 1 1 p (1/2) A' [[1%Z]]) [[0%Z]] (fun _ _ => r) 1 1 [[1%Z]] = [[if Rltb r (Rmin 1 (exp (- lo))) then (-1)%Z else 1%Z]]).
    { intros r. unfold ref_sweep. change (cells 1 1) with [(0%nat, 0%nat)]. cbn [fold_left]. change (at2 [[0%Z]] 0 0 =? 1)%Z with false. cbv iota.
      rewrite q_odds_A by (first [exact Ho|split; [reflexivity|repeat constructor]|lia|lra|idtac]). change (q_exact (fun _ => 1%Z) (row [[1%Z]] 0) [[1%Z]] (row [[1%Z]] 0) 0 1 1) with 1%Z.
      unfold mg_flip. change (at2 [[1%Z]] 0 0) with 1%Z. replace (- (1) * (lbda * 1 + logit p)) with (- lo) by (unfold lo, logit; ring). destruct (Rltb r _); reflexivity. }
    assert (E1 : exp (-1) < 1) by (rewrite <- exp_0; apply exp_increasing; lra). pose proof (exp_pos (-1)) as P1. pose proof (exp_pos (- lo)) as P2.
    destruct (Rlt_le_dec 1 lo) as [H|H].
    + assert (exp (- lo) < exp (-1)) by (apply exp_increasing; lra). exists (exp (- lo)). split; [split; lra|]. rewrite ES, ER.
      destruct (Rltb_spec (exp (- lo)) (exp (-1))) as [K|K]; [|lra]. destruct (Rltb_spec (exp (- lo)) (Rmin 1 (exp (- lo)))) as [K2|K2]; [|discriminate]. rewrite Rmin_right in K2 by lra. lra.
    + assert (Hlt : lo < 1) by (unfold lo in *; lra). assert (exp (-1) < exp (- lo)) by (apply exp_increasing; lra). exists (exp (-1)). split; [split; lra|]. rewrite ES, ER.
      destruct (Rltb_spec (exp (-1)) (exp (-1))) as [K|K]; [lra|]. destruct (Rltb_spec (exp (-1)) (Rmin 1 (exp (- lo)))) as [K2|K2]; [discriminate|].
      unfold Rmin in K2. destruct (Rle_dec 1 (exp (- lo))); lra.
  - intros lbda p. rewrite (C44_ignored_lemma 0 _ _ _ _ _ _ [[0%Z]] lbda lbda p p), ES. destruct (Rltb_spec 0 (exp (-1))) as [K|K]; [reflexivity|]. pose proof (exp_pos (-1)). lra.
Qed.
