(** Lemmas for C108. *)
From Coq Require Import String Lra.
From Verif Require Import Base BaseR BaseLemmas BaseRLemmas Spec SpecR Fuzzy SpecMax HierProofs LambdaProofs MaxFuzzyProofs ToolsProofs Relevance SpecRelevance.
Local Open Scope R_scope.

(** * One sample *)
Lemma above_spec z u alpha L l n d : predicted_above z u alpha L l n d = true <->
  exists l', (l' < L)%nat /\ nth l alpha 0 < nth l' alpha 0 /\ predicts z u l' n d = true.
Proof.
  unfold predicted_above.
  assert (G : forall ls b, fold_left (fun b l_alt => if Rltb (rat alpha l) (rat alpha l_alt) then b || predicts z u l_alt n d else b) ls b = true <->
    b = true \/ exists l', In l' ls /\ nth l alpha 0 < nth l' alpha 0 /\ predicts z u l' n d = true).
  { induction ls as [|a ls IH]; intros b; cbn [fold_left].
    - split; [intros ->; left; reflexivity|intros [H|(l' & [] & _)]; exact H].
    - rewrite IH. unfold rat. destruct (Rltb_spec (nth l alpha 0) (nth a alpha 0)) as [H|H].
      + rewrite Bool.orb_true_iff. split.
        * intros [[Hb|Hp]|(l' & Hi & Hr)]; [left; exact Hb|right; exists a; split; [left; reflexivity|auto]|right; exists l'; split; [right; exact Hi|exact Hr]].
        * intros [Hb|(l' & [<-|Hi] & Hr)]; [left; left; exact Hb|left; right; apply Hr|right; exists l'; split; [exact Hi|exact Hr]].
      + split.
        * intros [Hb|(l' & Hi & Hr)]; [left; exact Hb|right; exists l'; split; [right; exact Hi|exact Hr]].
        * intros [Hb|(l' & [<-|Hi] & Hr)]; [left; exact Hb|destruct Hr as [Hr _]; contradiction|right; exists l'; split; [exact Hi|exact Hr]]. }
  rewrite G. split.
  - intros [H|(l' & Hi & Hr)]; [discriminate H|]. apply in_seq in Hi. exists l'. split; [lia|exact Hr].
  - intros (l' & Hi & Hr). right. exists l'. split; [apply in_seq; lia|exact Hr].
Qed.
Lemma predicts_active z u l n d : predicts z u l n d = true <-> active (row z n) (row u d) l.
Proof. unfold predicts, active, at2, at1. rewrite Bool.andb_true_iff, !Z.eqb_eq. reflexivity. Qed.
Definition strongest_b (z u : mat) (alpha : list R) (L l n d : nat) : bool := predicts z u l n d && negb (predicted_above z u alpha L l n d).
Lemma strongest_spec z u alpha L l n d : strongest_b z u alpha L l n d = true <-> strongest alpha z u L n d l.
Proof.
  unfold strongest_b, strongest. rewrite Bool.andb_true_iff, Bool.negb_true_iff, predicts_active. split; intros [H1 H2]; (split; [exact H1|]).
  - intros l' Hl' Ha. destruct (Rle_or_lt (nth l' alpha 0) (nth l alpha 0)) as [H|H]; [exact H|]. exfalso.
    assert (E : predicted_above z u alpha L l n d = true); [|congruence]. apply above_spec. exists l'. rewrite predicts_active. auto.
  - destruct (predicted_above z u alpha L l n d) eqn:E; [|reflexivity]. apply above_spec in E. destruct E as (l' & Hl' & Hlt & Hp).
    apply predicts_active in Hp. specialize (H2 l' Hl' Hp). lra.
Qed.

Lemma filter_and {A} (f g : A -> bool) l : filter (fun x => (f x && g x)%bool) l = filter f (filter g l).
Proof. induction l as [|a l IH]; [reflexivity|]. cbn [filter]. destruct (g a); cbn [filter]; destruct (f a); cbn [andb]; rewrite IH; reflexivity. Qed.

Lemma step_spec x z u alpha L e : List.length e = S L -> List.length alpha = S L ->
  List.length (relevance_step x z u alpha L e) = S L /\
  (forall l, (l < L)%nat -> nth l (relevance_step x z u alpha L e) 0 = nth l e 0 + nth l alpha 0 * INR (ones_credited x z u alpha L l)) /\
  nth L (relevance_step x z u alpha L e) 0 = nth L e 0 + nth L alpha 0.
Proof.
  intros He Ha.
  set (f := fun (e : rvec) l => upd e l (rat e l + rat alpha l * INR (ones_credited x z u alpha L l))).
  assert (G : forall k, (k <= L)%nat -> List.length (fold_left f (seq 0 k) e) = S L /\
    (forall l, (l < k)%nat -> nth l (fold_left f (seq 0 k) e) 0 = nth l e 0 + nth l alpha 0 * INR (ones_credited x z u alpha L l)) /\
    (forall l, (k <= l)%nat -> nth l (fold_left f (seq 0 k) e) 0 = nth l e 0)).
  { induction k as [|k IH]; intros Hk; [cbn; split; [exact He|split; [lia|reflexivity]]|].
    destruct (IH ltac:(lia)) as (I1 & I2 & I3). rewrite seq_S, fold_left_app. cbn [fold_left Nat.add]. unfold f at 1 3 5. rewrite upd_length.
    split; [exact I1|]. split.
    - intros l Hl. destruct (Nat.eq_dec l k) as [->|Hne].
      + rewrite nth_upd_same by lia. unfold rat. rewrite I3 by lia. reflexivity.
      + rewrite nth_upd_other by exact Hne. apply I2. lia.
    - intros l Hl. rewrite nth_upd_other by lia. apply I3. lia. }
  destruct (G L (le_n L)) as (G1 & G2 & G3). set (e1 := fold_left f (seq 0 L) e) in *.
  change (relevance_step x z u alpha L e) with (upd e1 (List.length e1 - 1) (last e1 0 + last alpha 0)).
  assert (La : forall v : list R, List.length v = S L -> last v 0 = nth L v 0).
  { intros v Hv. apply last_nth', Hv. }
  rewrite upd_length. split; [exact G1|]. rewrite G1. replace (S L - 1)%nat with L by lia. split.
  - intros l Hl. rewrite nth_upd_other by lia. apply G2. exact Hl.
  - rewrite nth_upd_same by lia. rewrite !La by assumption. rewrite G3 by lia. reflexivity.
Qed.

(** * All samples *)
Lemma cells_eq N D : list_prod (seq 0 N) (seq 0 D) = cells N D.
Proof. reflexivity. Qed.
Lemma credited_sum x z u alpha N D L l : has_shape2 z N L -> has_shape2 u D L ->
  nth l alpha 0 * INR (ones_credited x z u alpha L l) =
  Rsum (fun c => if strongest_b z u alpha L l (fst c) (snd c) then nth l alpha 0 else 0) (ones x N D).
Proof.
  intros [Hz _] [Hu _]. rewrite Rsum_if, Rmult_comm. f_equal. f_equal. unfold ones_credited, ones.
  rewrite (filter_and (fun c => predicts z u l (fst c) (snd c) && negb (predicted_above z u alpha L l (fst c) (snd c)))%bool (fun c => (at2 x (fst c) (snd c) =? 1)%Z)).
  change (nrows z) with (@List.length vec z). change (nrows u) with (@List.length vec u). rewrite Hz, Hu, cells_eq. reflexivity.
Qed.

Section Runs.
Context (alphas : list (list R)) (As Bs : list mat) (x : mat) (T N D L : nat).
Hypothesis HS : samples_ok alphas As Bs T N D L.

Definition credit (l t : nat) (c : nat * nat) : R :=
  if strongest_b (nth t As []) (nth t Bs []) (nth t alphas []) L l (fst c) (snd c) then nth l (nth t alphas []) 0 else 0.

Lemma runs_spec : let e k := fold_left (fun e t => relevance_step x (nth t As []) (nth t Bs []) (nth t alphas []) L e) (seq 0 k) (repeat 0 (S L)) in
  forall k, (k <= T)%nat -> List.length (e k) = S L /\
  (forall l, (l < L)%nat -> nth l (e k) 0 = Rsum (fun t => Rsum (credit l t) (ones x N D)) (seq 0 k)) /\
  nth L (e k) 0 = Rsum (fun t => nth L (nth t alphas []) 0) (seq 0 k).
Proof.
  intros e. destruct HS as (_ & _ & _ & HT). induction k as [|k IH]; intros Hk.
  - unfold e. cbn [seq fold_left]. rewrite repeat_length. split; [reflexivity|]. split; [intros l _|]; rewrite nth_repeat; reflexivity.
  - destruct (IH ltac:(lia)) as (I1 & I2 & I3). destruct (HT k ltac:(lia)) as (Ha & HA & HB).
    assert (E : e (S k) = relevance_step x (nth k As []) (nth k Bs []) (nth k alphas []) L (e k)).
    { unfold e. rewrite seq_S, fold_left_app. reflexivity. }
    rewrite E. destruct (step_spec x (nth k As []) (nth k Bs []) (nth k alphas []) L (e k) I1 Ha) as (S1 & S2 & S3).
    split; [exact S1|]. rewrite seq_S. cbn [Nat.add]. split.
    + intros l Hl. rewrite S2 by exact Hl. rewrite Rsum_app. rewrite <- I2 by exact Hl. rewrite (credited_sum x _ _ _ N D L l HA HB). cbn [Rsum fold_right]. unfold credit. cbn. lra.
    + rewrite S3, Rsum_app, <- I3. cbn. lra.
Qed.

Hypothesis HX : has_shape2 x N D.
Hypothesis HO : ones x N D <> [].
Hypothesis HT0 : (0 < T)%nat.

Lemma dims_pos : (0 < N)%nat /\ (0 < D)%nat.
Proof.
  unfold ones in HO. destruct (cells N D) as [|c cs] eqn:E; [contradiction HO; reflexivity|].
  assert (H : In c (cells N D)) by (rewrite E; left; reflexivity). destruct c as [n d]. unfold cells in H. apply in_prod_iff in H. rewrite !in_seq in H. lia.
Qed.
Lemma mcmc_spec : let e := relevance_mcmc alphas As Bs x in
  List.length e = S L /\
  (forall l, (l < L)%nat -> nth l e 0 = mean_over_ones x T N D (fun t n d => credit l t (n, d))) /\
  nth L e 0 = Rsum (fun t => nth L (nth t alphas []) 0) (seq 0 T) / (INR T * INR (List.length (ones x N D))).
Proof.
  intros e. pose proof HS as HS'. destruct HS' as (La & LA & LB & HT). destruct dims_pos as [PN PD].
  assert (E : e = map (fun v => v / (INR T * INR (List.length (ones x N D))))
    (fold_left (fun e t => relevance_step x (nth t As []) (nth t Bs []) (nth t alphas []) L e) (seq 0 T) (repeat 0 (S L)))).
  { unfold e, relevance_mcmc. rewrite LB. destruct (HT 0%nat HT0) as (Ha & _ & HB). rewrite (shape2_ncols _ _ _ HB PD). change (@List.length R (@nth rvec 0 alphas [])) with (@List.length R (@nth (list R) 0 alphas [])). rewrite Ha.
    destruct HX as [HX1 HX2]. change (nrows x) with (@List.length vec x). rewrite HX1, (shape2_ncols x N D HX PN). reflexivity. }
  destruct (runs_spec T (le_n T)) as (R1 & R2 & R3). cbv zeta in R1, R2, R3.
  set (w := fold_left (fun e t => relevance_step x (nth t As []) (nth t Bs []) (nth t alphas []) L e) (seq 0 T) (repeat 0 (S L))) in *.
  rewrite E, map_length. split; [exact R1|].
  assert (ND : forall l, (l < S L)%nat -> nth l (map (fun v => v / (INR T * INR (List.length (ones x N D)))) w) 0 = nth l w 0 / (INR T * INR (List.length (ones x N D)))).
  { intros l Hl. rewrite (nth_indep _ 0 (0 / (INR T * INR (List.length (ones x N D))))) by (rewrite map_length; lia).
    exact (map_nth (fun v => v / (INR T * INR (List.length (ones x N D)))) w 0 l). }
  split.
  - intros l Hl. rewrite ND by lia. rewrite R2 by exact Hl. reflexivity.
  - rewrite ND by lia. rewrite R3. reflexivity.
Qed.
End Runs.

Lemma C108_value_lemma : forall alphas As Bs x T N D L, samples_ok alphas As Bs T N D L -> has_shape2 x N D -> ones x N D <> [] -> (0 < T)%nat ->
  exists e, maxmachine_relevance (RL (Some None) (Some alphas) (Some As) (Some Bs) x) "mcmc" = Ok (e, RL (Some (Some e)) (Some alphas) (Some As) (Some Bs) x) /\
  List.length e = S L /\ forall l, (l < L)%nat -> is_relevance alphas As Bs x T N D L l (nth l e 0).
Proof.
  intros alphas As Bs x T N D L HS HX HO HT. exists (relevance_mcmc alphas As Bs x). split; [reflexivity|].
  destruct (mcmc_spec alphas As Bs x T N D L HS HX HO HT) as (E1 & E2 & _). split; [exact E1|].
  intros l Hl. exists (fun t n d => credit alphas As Bs L l t (n, d)). split; [|apply E2, Hl].
  intros t n d _ _ _. unfold credit. cbn [fst snd]. split; intros H.
  - apply strongest_spec in H. rewrite H. reflexivity.
  - destruct (strongest_b _ _ _ _ _ _ _) eqn:E; [|reflexivity]. apply strongest_spec in E. contradiction.
Qed.

Lemma mean_ext x T N D r r' : (forall t n d, (t < T)%nat -> (n < N)%nat -> (d < D)%nat -> r t n d = r' t n d) -> mean_over_ones x T N D r = mean_over_ones x T N D r'.
Proof.
  intros H. unfold mean_over_ones. f_equal. apply Rsum_ext. intros t Ht. apply in_seq in Ht. apply Rsum_ext. intros [n d] Hc.
  unfold ones in Hc. apply filter_In in Hc. destruct Hc as [Hc _]. unfold cells in Hc. apply in_prod_iff in Hc. rewrite !in_seq in Hc. apply H; cbn; lia.
Qed.
Lemma mean_sum x T N D L (r : nat -> nat -> nat -> nat -> R) :
  Rsum (fun l => mean_over_ones x T N D (r l)) (seq 0 L) = mean_over_ones x T N D (fun t n d => Rsum (fun l => r l t n d) (seq 0 L)).
Proof.
  unfold mean_over_ones. unfold Rdiv. 
  rewrite (Rsum_ext _ (fun l => / (INR T * INR (List.length (ones x N D))) * Rsum (fun t => Rsum (fun c => r l t (fst c) (snd c)) (ones x N D)) (seq 0 T))) by (intros; ring).
  rewrite Rsum_scale, Rmult_comm. f_equal. rewrite Rsum_swap. apply Rsum_ext. intros t _. rewrite Rsum_swap. reflexivity.
Qed.

Lemma best_exists alpha z u L : none_active z u L \/ exists l, (l < L)%nat /\ active z u l /\ forall l', (l' < L)%nat -> active z u l' -> nth l' alpha 0 <= nth l alpha 0.
Proof.
  induction L as [|L IH]; [left; intros l Hl; lia|].
  assert (D : active z u L \/ ~ active z u L).
  { unfold active. destruct (Z.eq_dec (nth L z 0%Z) 1), (Z.eq_dec (nth L u 0%Z) 1); tauto. }
  destruct IH as [IH|(l & Hl & Ha & Hm)]; destruct D as [D|D].
  - right. exists L. split; [lia|]. split; [exact D|]. intros l' Hl' Ha'. destruct (Nat.eq_dec l' L) as [->|Hne]; [lra|]. exfalso. apply (IH l'); [lia|exact Ha'].
  - left. intros l' Hl' Ha'. destruct (Nat.eq_dec l' L) as [->|Hne]; [contradiction|]. apply (IH l'); [lia|exact Ha'].
  - destruct (Rle_or_lt (nth L alpha 0) (nth l alpha 0)) as [H|H].
    + right. exists l. split; [lia|]. split; [exact Ha|]. intros l' Hl' Ha'. destruct (Nat.eq_dec l' L) as [->|Hne]; [exact H|]. apply Hm; [lia|exact Ha'].
    + right. exists L. split; [lia|]. split; [exact D|]. intros l' Hl' Ha'. destruct (Nat.eq_dec l' L) as [->|Hne]; [lra|]. specialize (Hm l' ltac:(lia) Ha'). lra.
  - right. exists l. split; [lia|]. split; [exact Ha|]. intros l' Hl' Ha'. destruct (Nat.eq_dec l' L) as [->|Hne]; [contradiction|]. apply Hm; [lia|exact Ha'].
Qed.

Lemma C108_total_lemma : forall alphas As Bs x T N D L s e s', samples_ok alphas As Bs T N D L -> has_shape2 x N D -> ones x N D <> [] -> (0 < T)%nat ->
  distinct_dispersions alphas T L -> s = RL (Some None) (Some alphas) (Some As) (Some Bs) x -> maxmachine_relevance s "mcmc" = Ok (e, s') ->
  is_latent_total alphas As Bs x T N D L (Rsum (fun l => nth l e 0) (seq 0 L)).
Proof.
  intros alphas As Bs x T N D L s e s' HS HX HO HT HD -> E. cbn in E. injection E as <- _.
  destruct (mcmc_spec alphas As Bs x T N D L HS HX HO HT) as (_ & E2 & _).
  exists (fun t n d => Rsum (fun l => credit alphas As Bs L l t (n, d)) (seq 0 L)). split.
  - intros t n d Ht Hn Hd. destruct (best_exists (nth t alphas []) (row (nth t As []) n) (row (nth t Bs []) d) L) as [H|(l & Hl & Ha & Hm)].
    + right. split; [exact H|]. apply Rsum_zero. intros l Hl. apply in_seq in Hl. unfold credit. cbn [fst snd]. destruct (strongest_b _ _ _ _ _ _ _) eqn:E; [|reflexivity].
      apply strongest_spec in E. destruct E as [E _]. exfalso. apply (H l); [lia|exact E].
    + left. assert (V : Rsum (fun l => credit alphas As Bs L l t (n, d)) (seq 0 L) = nth l (nth t alphas []) 0).
      { rewrite (Rsum_only _ _ l).
        - unfold credit. cbn [fst snd]. assert (E : strongest_b (nth t As []) (nth t Bs []) (nth t alphas []) L l n d = true) by (apply strongest_spec; split; assumption). rewrite E. reflexivity.
        - apply seq_NoDup.
        - apply in_seq. lia.
        - intros b Hb Hne. apply in_seq in Hb. unfold credit. cbn [fst snd]. destruct (strongest_b _ _ _ _ _ _ _) eqn:E; [|reflexivity].
          apply strongest_spec in E. destruct E as [Eb Em]. exfalso. apply Hne. apply (HD t b l); [exact Ht|lia|exact Hl|]. specialize (Em l Hl Ha). specialize (Hm b ltac:(lia) Eb). lra. }
      rewrite V. split; [exists l; auto|exact Hm].
  - rewrite <- mean_sum. apply Rsum_ext. intros l Hl. apply in_seq in Hl. apply E2. lia.
Qed.

(** * What is wrong *)
Lemma C108_clamped_lemma : forall alphas As Bs x T N D L s e s', samples_ok alphas As Bs T N D L -> has_shape2 x N D -> ones x N D <> [] -> (0 < T)%nat ->
  s = RL (Some None) (Some alphas) (Some As) (Some Bs) x -> maxmachine_relevance s "mcmc" = Ok (e, s') ->
  nth L e 0 = Rsum (fun t => nth L (nth t alphas []) 0) (seq 0 T) / INR T / INR (List.length (ones x N D)).
Proof.
  intros alphas As Bs x T N D L s e s' HS HX HO HT -> E. cbn in E. injection E as <- _.
  destruct (mcmc_spec alphas As Bs x T N D L HS HX HO HT) as (_ & _ & E3). rewrite E3.
  assert (H1 : INR (List.length (ones x N D)) <> 0) by (destruct (ones x N D) as [|c cs]; [contradiction HO; reflexivity|]; apply not_0_INR; cbn [List.length]; lia).
  assert (H2 : INR T <> 0) by (apply not_0_INR; lia). field. split; assumption.
Qed.
Lemma C108_fresh_lemma : forall x m, maxmachine_relevance (constructed x) m = Err AttributeError.
Proof. reflexivity. Qed.
Lemma C108_cached_lemma : forall s e s' m, maxmachine_relevance s m = Ok (e, s') ->
  forall a z u x m', maxmachine_relevance (RL (eigenvals s') a z u x) m' = Ok (e, RL (eigenvals s') a z u x).
Proof.
  intros s e s' m E a z u x m'. unfold maxmachine_relevance in E |- *. cbn [eigenvals].
  destruct (eigenvals s) as [[v|]|] eqn:Es; [|  |discriminate].
  - injection E as <- <-. rewrite Es. reflexivity.
  - destruct (String.eqb m "plugin"); [discriminate|]. destruct (String.eqb m "mcmc"); [|discriminate].
    destruct (lbda_trace s), (z_trace s), (u_trace s); try discriminate. injection E as <- <-. cbn [eigenvals]. reflexivity.
Qed.
Lemma C108_types_lemma : forall s m, eigenvals s = Some None -> m <> "mcmc"%string ->
  maxmachine_relevance s m = Err (if String.eqb m "plugin" then TypeError else UnboundLocalError).
Proof.
  intros s m E Hm. unfold maxmachine_relevance. rewrite E. destruct (String.eqb m "plugin"); [reflexivity|].
  destruct (String.eqb_spec m "mcmc"); [contradiction|reflexivity].
Qed.
