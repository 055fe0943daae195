(** Proofs for C36, C68 - C70: the whole update. *)
From Coq Require Import Lra String Sorted.
From Verif Require Import Base BaseLemmas BaseR BaseRLemmas Spec SpecR Outputs OutputsProofs Scores ScoresProofs Sampling SamplingProofs Lambda HelpersProofs QLProofs2 Ibp SpecIbp IbpProofs IbpProofs2.
Local Open Scope R_scope.

Lemma filter_length_le' {A} (f : A -> bool) s : (List.length (filter f s) <= List.length s)%nat.
Proof. induction s as [|a s IH]; cbn; [lia|]. destruct (f a); cbn; lia. Qed.
Lemma row_active X N D L n lbda q alpha Z_ U w : okmat N L Z_ -> okmat D L U -> (n < N)%nat ->
  let '(L', Z', U') := ibp_row X N D lbda q alpha (L, Z_, U) n w in
  okmat N L' Z' /\ okmat D L' U' /\ (L' <= L + 2)%nat /\ forall l, (l < L')%nat -> used Z' N l.
Proof.
  intros HZ HU Hn. pose proof (row_step X N D L n lbda q alpha Z_ U w HZ HU Hn) as H. destruct (ibp_row X N D lbda q alpha (L, Z_, U) n w) as [[L' Z'] U'].
  destruct H as (EL & HZ' & HU' & HO & HR & Lz & _ & _). split; [exact HZ'|]. split; [exact HU'|].
  set (keep := filter (fun l => Nat.ltb 0 (used_by_others Z_ N n l)) (seq 0 L)) in *.
  match type of EL with _ = (_ + ?k)%nat => set (kk := k) in * end.
  assert (Hk : (kk <= 2)%nat) by apply choose_le.
  assert (HK : (List.length keep <= L)%nat). { unfold keep. etransitivity; [apply filter_length_le'|]. rewrite seq_length. lia. }
  split; [lia|]. intros l Hl. destruct (Nat.lt_ge_cases l (List.length keep)) as [H1|H1].
  - assert (HI : In (nth l keep 0%nat) keep) by (apply nth_In; exact H1). apply (keep_used N L n Z_) in HI. destruct HI as [HlL (n' & Hn' & Hne & E)].
    exists n'. split; [exact Hn'|]. unfold at2, at1. rewrite (HO n' Hn' Hne). unfold regroup. rewrite app_nth1 by (rewrite map_length; exact H1).
    etransitivity; [exact (nth_map_lt (fun l => nth l (row Z_ n') 0%Z) keep l 0%nat 0%Z H1)|]. exact E.
  - exists n. split; [exact Hn|]. unfold at2, at1. rewrite HR. rewrite app_nth2 by (unfold vec in *; lia).
    assert (HE : (l - List.length keep < kk)%nat) by lia. unfold vec in *. rewrite Lz. clear - HE. revert HE. generalize (l - List.length keep)%nat. generalize kk. induction kk0 as [|k IH]; intros i Hi; [lia|]. destruct i; [reflexivity|]. cbn [repeat nth]. apply IH. lia.
Qed.

Lemma C36_lemma N L D Z_ U X lbda q alpha w : okmat N L Z_ -> okmat D L U -> (0 < N)%nat ->
  exists L', let '(Z', U') := sample_2d_IBP Z_ U X lbda q alpha w in
  okmat N L' Z' /\ okmat D L' U' /\ (L' <= L + 2 * N)%nat /\ forall l, (l < L')%nat -> used Z' N l.
Proof.
  intros HZ HU HN. unfold sample_2d_IBP. assert (EN : nrows Z_ = N) by (apply (shape2_nrows _ _ _ (proj1 HZ))). assert (ED : nrows U = D) by (apply (shape2_nrows _ _ _ (proj1 HU))).
  assert (EL : ncols Z_ = L) by (apply (shape2_ncols _ N _ (proj1 HZ) HN)). rewrite EN, ED, EL.
  assert (G : forall ns L Z_ U, okmat N L Z_ -> okmat D L U -> (forall n, In n ns -> (n < N)%nat) -> (ns <> [] \/ forall l, (l < L)%nat -> used Z_ N l) ->
     let '(L', Z', U') := fold_left (fun s n => ibp_row X N D lbda q alpha s n (w n)) ns (L, Z_, U) in
     okmat N L' Z' /\ okmat D L' U' /\ (L' <= L + 2 * List.length ns)%nat /\ forall l, (l < L')%nat -> used Z' N l).
  { clear. induction ns as [|n ns IH]; intros L Z_ U HZ HU Hns HA; cbn [fold_left].
    - destruct HA as [HA|HA]; [contradiction|]. cbn [List.length]. repeat split; auto; try apply HZ; try apply HU. lia.
    - pose proof (row_active X N D L n lbda q alpha Z_ U (w n) HZ HU (Hns n (or_introl eq_refl))) as H. destruct (ibp_row X N D lbda q alpha (L, Z_, U) n (w n)) as [[L1 Z1] U1].
      destruct H as (H1 & H2 & H3 & H4). specialize (IH L1 Z1 U1 H1 H2 (fun k Hk => Hns k (or_intror Hk)) (or_intror H4)).
      destruct (fold_left _ ns _) as [[L' Z'] U']. cbn [List.length]. destruct IH as (I1 & I2 & I3 & I4). repeat split; auto; try apply I1; try apply I2. lia. }
  specialize (G (seq 0 N) L Z_ U HZ HU (fun n Hn => proj1 (in_seq0 n N) Hn)). rewrite seq_length in G. destruct (fold_left _ _ _) as [[L' Z'] U']. exists L'. apply G. left. destruct N; [lia|discriminate].
Qed.

(** * C68 *)
Lemma sigma_ln a b : 0 < a -> 0 < b -> sigma (ln a - ln b) = a / (a + b).
Proof.
  intros Ha Hb. unfold sigma. replace (- (ln a - ln b)) with (ln b + - ln a) by ring. rewrite exp_plus, exp_Ropp, !exp_ln by assumption. field. split; lra.
Qed.
Lemma popularity_row N n l Zc Z_ : (forall n', n' <> n -> row Zc n' = row Z_ n') -> popularity Zc N n l = popularity Z_ N n l.
Proof.
  intros H. unfold popularity. f_equal. apply filter_ext. intros n'. destruct (Nat.eqb_spec n' n) as [->|Hne]; [reflexivity|]. unfold at2. rewrite H by exact Hne. reflexivity.
Qed.
Lemma popularity_lt Z_ N n l : (n < N)%nat -> (popularity Z_ N n l < N)%nat.
Proof.
  intros Hn. unfold popularity. set (f := fun n' => negb (Nat.eqb n' n) && (at2 Z_ n' l =? 1)%Z).
  assert (H : forall s, In n s -> (List.length (filter f s) < List.length s)%nat).
  { induction s as [|a s IH]; intros Hs; [destruct Hs|]. cbn [filter List.length]. destruct (Nat.eq_dec a n) as [->|Hne].
    - unfold f at 1. rewrite Nat.eqb_refl. cbn [negb andb]. pose proof (filter_length_le' f s). lia.
    - destruct Hs as [Hs|Hs]; [congruence|]. specialize (IH Hs). destruct (f a); cbn [List.length]; lia. }
  specialize (H (seq 0 N) (proj2 (in_seq0 n N) Hn)). rewrite seq_length in H. exact H.
Qed.
Lemma lik2_pos out lbda X N D L A B : 0 < lik2 out lbda X N D L A B.
Proof. unfold lik2. repeat (apply Rprod_pos; intros). apply sigma_pos. Qed.
Lemma score_lo out lbda X N D L A B n l : is_output OR AND out -> okmat N L A -> okmat D L B -> has_shape2 X N D -> tern2 X -> (Z.of_nat D <= 32767)%Z -> (n < N)%nat -> (l < L)%nat ->
  lbda * IZR (posterior_score_OR_AND_2D (row A n) B (row X n) l) = log_odds (fun A => lik2 out lbda X N D L A B) A n l.
Proof.
  intros Ho HA HB HX TX HD Hn Hl. destruct (C07_lemma OR AND ltac:(cbn; tauto)) as (f & Ef & Hf). cbn in Ef. injection Ef as <-.
  apply (score_log_odds OR AND out Ho _ Hf N D L A B X lbda n l); assumption.
Qed.
Lemma map_seq_nth {A B} (f : A -> B) l d : map (fun i => f (nth i l d)) (seq 0 (List.length l)) = map f l.
Proof. induction l as [|a l IH]; [reflexivity|]. cbn [List.length seq map nth]. f_equal. rewrite <- seq_shift, map_map. exact IH. Qed.
Lemma transpose_row X N D d : has_shape2 X N D -> (0 < N)%nat -> (d < D)%nat -> row (transpose X) d = map (fun r => at1 r d) X.
Proof.
  intros HX HN Hd. unfold transpose, row at 1. rewrite (shape2_ncols X N D HX HN).
  etransitivity; [exact (nth_map_lt (fun j => map (fun i => at2 X i j) (seq 0 (nrows X))) (seq 0 D) d 0%nat [] ltac:(rewrite seq_length; exact Hd))|].
  rewrite seq_nth by exact Hd. exact (map_seq_nth (fun r => at1 r d) X []).
Qed.
Lemma score_lo_T out lbda X N D L A B d l : is_output OR AND out -> okmat N L A -> okmat D L B -> has_shape2 X N D -> tern2 X -> (Z.of_nat N <= 32767)%Z -> (0 < N)%nat -> (d < D)%nat -> (l < L)%nat ->
  lbda * IZR (posterior_score_OR_AND_2D (row B d) A (map (fun r => at1 r d) X) l) = log_odds (fun B => lik2 out lbda X N D L A B) B d l.
Proof.
  intros Ho HA HB HX TX HD HN Hn Hl. destruct (C07_lemma OR AND ltac:(cbn; tauto)) as (f & Ef & Hf). cbn in Ef. injection Ef as <-.
  rewrite <- (score_log_odds_T OR AND out Ho _ Hf N D L A B X lbda d l) by assumption. do 3 f_equal. symmetry. apply (transpose_row X N D); assumption.
Qed.
Lemma flip_gibbs_eq p r : flip_gibbs_numba p r = if Rltb r p then 1%Z else (-1)%Z.
Proof. reflexivity. Qed.
Lemma C68_lemma out lbda X N D L Z_ U n r : is_output OR AND out -> okmat N L Z_ -> okmat D L U -> has_shape2 X N D -> tern2 X -> (Z.of_nat D <= 32767)%Z -> (n < N)%nat ->
  ibp_existing Z_ U X N n lbda (used_by_others Z_ N n) r L = gibbs_row out lbda X N D L U n r Z_.
Proof.
  intros Ho HZ HU HX TX HD Hn. unfold ibp_existing, gibbs_row.
  assert (G : forall ls Zc, okmat N L Zc -> (forall n', n' <> n -> row Zc n' = row Z_ n') -> (forall l, In l ls -> (l < L)%nat) ->
    fold_left (fun Zl l => if Nat.ltb 0 (used_by_others Z_ N n l) then set2 Zl n l (flip_gibbs_numba (expit (lbda * IZR (posterior_score_OR_AND_2D (row Zl n) U (row X n) l) + logit (INR (used_by_others Z_ N n l) / INR N))) (r l)) else Zl) ls Zc =
    fold_left (fun Zl l => if Nat.ltb 0 (popularity Z_ N n l) then let w := ibp_weight out lbda X N D L Zl U n l in set2 Zl n l (if Rltb (r l) (w 1%Z / (w 1%Z + w (-1)%Z)) then 1%Z else (-1)%Z) else Zl) ls Zc).
  { induction ls as [|l ls IH]; intros Zc HZc HR Hls; cbn [fold_left]; [reflexivity|].
    assert (E : (if Nat.ltb 0 (used_by_others Z_ N n l) then set2 Zc n l (flip_gibbs_numba (expit (lbda * IZR (posterior_score_OR_AND_2D (row Zc n) U (row X n) l) + logit (INR (used_by_others Z_ N n l) / INR N))) (r l)) else Zc) =
       (if Nat.ltb 0 (popularity Z_ N n l) then let w := ibp_weight out lbda X N D L Zc U n l in set2 Zc n l (if Rltb (r l) (w 1%Z / (w 1%Z + w (-1)%Z)) then 1%Z else (-1)%Z) else Zc)).
    { change (used_by_others Z_ N n l) with (popularity Z_ N n l). destruct (Nat.ltb_spec 0 (popularity Z_ N n l)) as [Hm|Hm]; [|reflexivity]. cbv zeta. f_equal. rewrite flip_gibbs_eq.
      assert (Hl : (l < L)%nat) by (apply Hls; left; reflexivity).
      rewrite (score_lo out lbda X N D L) by assumption. unfold ibp_weight. rewrite (popularity_row N n l Zc Z_ HR). cbn [Z.eqb Pos.eqb].
      set (p := INR (popularity Z_ N n l) / INR N).
      assert (Hp : 0 < p < 1).
      { pose proof (popularity_lt Z_ N n l Hn) as HL. apply lt_INR in HL. pose proof (lt_0_INR _ Hm) as HM. unfold p. split; [apply Rdiv_lt_0_compat; lra|]. apply (Rmult_lt_reg_r (INR N)); [lra|]. unfold Rdiv. rewrite Rmult_assoc, Rinv_l by lra. lra. }
      rewrite expit_sigma. pose proof (lik2_pos out lbda X N D L (set2 Zc n l 1) U). pose proof (lik2_pos out lbda X N D L (set2 Zc n l (-1)) U).
      rewrite <- sigma_ln by (apply Rmult_lt_0_compat; lra).
      match goal with |- context [sigma (log_odds ?f Zc n l + logit p)] => replace (log_odds f Zc n l + logit p) with (ln (p * lik2 out lbda X N D L (set2 Zc n l 1) U) - ln ((1 - p) * lik2 out lbda X N D L (set2 Zc n l (-1)) U)); [reflexivity|] end.
      unfold log_odds, logit. rewrite !ln_mult by lra. rewrite ln_div by lra. lra. }
    etransitivity; [|refine (f_equal (fold_left _ ls) E)]. apply IH.
    - destruct (Nat.ltb _ _); [apply okmat_set; [exact HZc|apply flip_gibbs_pm]|exact HZc].
    - intros n' Hn'. destruct (Nat.ltb _ _); [rewrite row_set2_other by exact Hn'|]; apply HR; exact Hn'.
    - intros k Hk. apply Hls. right. exact Hk. }
  apply G; auto. intros l Hl. apply in_seq0. exact Hl.
Qed.

(** * C70 *)
Lemma fold_left_flat {A B C} (f : A -> B -> C -> A) (g : B -> list C) ls : forall a,
  fold_left (fun a b => fold_left (fun a c => f a b c) (g b) a) ls a = fold_left (fun a '(c, b) => f a b c) (flat_map (fun b => map (fun c => (c, b)) (g b)) ls) a.
Proof.
  induction ls as [|b ls IH]; intros a; [reflexivity|]. cbn [fold_left flat_map]. rewrite fold_left_app, IH. f_equal.
  generalize (g b). clear. intros l. revert a. induction l as [|c l IH]; intros a; [reflexivity|]. cbn [map fold_left]. apply IH.
Qed.
Lemma C70_lemma out lbda X N D L k Z_ U r : is_output OR AND out -> okmat N (L + k) Z_ -> okmat D (L + k) U -> has_shape2 X N D -> tern2 X -> (Z.of_nat N <= 32767)%Z -> (0 < N)%nat ->
  ibp_new_features Z_ U X lbda D L k r =
  gibbs_cells (fun U' => lik2 out lbda X N D (L + k) Z_ U') r (flat_map (fun l => map (fun d => (d, l)) (seq 0 D)) (seq L k)) U.
Proof.
  intros Ho HZ HU HX TX HN HN0. unfold ibp_new_features, gibbs_cells. rewrite (fold_left_flat (fun Ud l d => set2 Ud d l (flip_gibbs_numba (expit (lbda * IZR (posterior_score_OR_AND_2D (row Ud d) Z_ (map (fun r0 => at1 r0 d) X) l))) (r l d))) (fun _ => seq 0 D)).
  assert (G : forall cs Uc, okmat D (L + k) Uc -> (forall d l, In (d, l) cs -> (d < D)%nat /\ (l < L + k)%nat) ->
    fold_left (fun Uc '(d, l) => set2 Uc d l (flip_gibbs_numba (expit (lbda * IZR (posterior_score_OR_AND_2D (row Uc d) Z_ (map (fun r0 => at1 r0 d) X) l))) (r l d))) cs Uc =
    fold_left (fun Uc '(d, l) => set2 Uc d l (if Rltb (r l d) (lik2 out lbda X N D (L + k) Z_ (set2 Uc d l 1) / (lik2 out lbda X N D (L + k) Z_ (set2 Uc d l 1) + lik2 out lbda X N D (L + k) Z_ (set2 Uc d l (-1)))) then 1%Z else (-1)%Z)) cs Uc).
  { induction cs as [|[d l] cs IH]; intros Uc HUc Hcs; [reflexivity|]. cbn [fold_left]. destruct (Hcs d l (or_introl eq_refl)) as [Hd Hl].
    rewrite flip_gibbs_eq. rewrite (score_lo_T out lbda X N D (L + k)) by assumption. unfold log_odds. rewrite expit_sigma, sigma_ln by apply lik2_pos. apply IH.
    - apply okmat_set; [exact HUc|]. destruct (Rltb _ _); unfold pm1; auto.
    - intros d' l' H. apply Hcs. right. exact H. }
  apply G; [exact HU|]. intros d l H. apply in_flat_map in H. destruct H as (l' & Hl' & H). apply in_map_iff in H. destruct H as (d' & E & Hd'). injection E as -> ->. apply in_seq in Hl'. apply in_seq0 in Hd'. lia.
Qed.
