(** Proofs about pictures of matrices. *)
From Coq Require Import String Lra.
From Verif Require Import Base BaseLemmas BaseR BaseRLemmas Spec Lops Fuzzy MaxMachine LayerOutput LayerOutputProofs HelpersProofs Show SpecOut SpecShow.
Local Open Scope R_scope.

Lemma pictures_build N L p q : (forall n l, (n < N)%nat -> (l < L)%nat -> p n l = q n l) -> pictures (map (fun n => map (p n) (seq 0 L)) (seq 0 N)) N L q.
Proof.
  intros H. split; [rewrite map_length; apply seq_length|]. split.
  - apply Forall_forall. intros r Hr. apply in_map_iff in Hr. destruct Hr as (n & <- & _). rewrite map_length. apply seq_length.
  - intros n l Hn Hl. rewrite (nth_map_seq (fun n => map (p n) (seq 0 L)) N n [] Hn). rewrite (nth_map_seq (p n) L l 0 Hl). apply H; assumption.
Qed.
Lemma map_build N L (p : nat -> nat -> R) (g : R -> R) : map (map g) (map (fun n => map (p n) (seq 0 L)) (seq 0 N)) = map (fun n => map (fun l => g (p n l)) (seq 0 L)) (seq 0 N).
Proof. rewrite map_map. apply map_ext. intros n. rewrite map_map. reflexivity. Qed.
Lemma neg_build N L (p : nat -> nat -> R) : existsb (existsb (fun x => Rltb x 0)) (map (fun n => map (p n) (seq 0 L)) (seq 0 N)) = true <->
  exists n l, (n < N)%nat /\ (l < L)%nat /\ p n l < 0.
Proof.
  rewrite existsb_exists. split.
  - intros (r & Hr & K). apply in_map_iff in Hr. destruct Hr as (n & <- & Hn). apply in_seq in Hn. apply existsb_exists in K. destruct K as (x & Hx & K).
    apply in_map_iff in Hx. destruct Hx as (l & <- & Hl). apply in_seq in Hl. exists n, l. split; [lia|]. split; [lia|].
    unfold Rltb in K. destruct (Rlt_dec (p n l) 0); [assumption|discriminate].
  - intros (n & l & Hn & Hl & K). exists (map (p n) (seq 0 L)). split; [apply in_map_iff; exists n; split; [reflexivity|apply in_seq; lia]|].
    apply existsb_exists. exists (p n l). split; [apply in_map_iff; exists l; split; [reflexivity|apply in_seq; lia]|]. apply Rltb_true. exact K.
Qed.
Lemma mean_freq L T f : factor_ok L T f -> (1 <= T)%nat -> exists p, factor_mean f = map (fun n => map (p n) (seq 0 L)) (seq 0 (List.length (f_val f))) /\
  forall n l, (n < List.length (f_val f))%nat -> (l < L)%nat -> p n l = 2 * frequency f n l - 1.
Proof.
  intros HF HT. destruct (mean_build L T f HF HT) as (tr & E & Hne & EM & Hpm). exists (mean_at tr). split; [exact EM|].
  intros n l Hn Hl. unfold mean_at, frequency. rewrite E. rewrite pm_sum by (intros m Hm; apply Hpm; assumption).
  assert (0 < INR (List.length tr)) by (apply lt_0_INR; destruct tr; [congruence|cbn; lia]). field. lra.
Qed.
Lemma C110_mean_lemma L T f : factor_ok L T f -> (1 <= T)%nat -> exists m, show f "mean" = Ok m /\
  ((exists n l, (n < List.length (f_val f))%nat /\ (l < L)%nat /\ frequency f n l < 1 / 2) -> pictures m (List.length (f_val f)) L (frequency f)) /\
  ((forall n l, (n < List.length (f_val f))%nat -> (l < L)%nat -> 1 / 2 <= frequency f n l) -> pictures m (List.length (f_val f)) L (fun n l => 2 * frequency f n l - 1)).
Proof.
  intros HF HT. destruct (mean_freq L T f HF HT) as (p & E & H). eexists. split; [reflexivity|]. rewrite E. unfold plot_matrix.
  destruct (existsb _ _) eqn:EN.
  - apply (neg_build (List.length (f_val f)) L p) in EN. destruct EN as (n & l & Hn & Hl & K). split.
    + intros _. rewrite map_build. apply pictures_build. intros a b Ha Hb. rewrite (H a b Ha Hb). lra.
    + intros G. specialize (G n l Hn Hl). rewrite (H n l Hn Hl) in K. lra.
  - split.
    + intros (n & l & Hn & Hl & K). exfalso. assert (X : false = true); [|discriminate]. rewrite <- EN. apply (neg_build (List.length (f_val f)) L p).
      exists n, l. split; [assumption|]. split; [assumption|]. rewrite (H n l Hn Hl). lra.
    + intros _. apply pictures_build. exact H.
Qed.
Lemma C110_map_lemma L T f : factor_ok L T f -> (1 <= T)%nat -> exists m, show f "map" = Ok m /\
  pictures m (List.length (f_val f)) L (fun n l => if Rlt_dec (3 / 4) (frequency f n l) then 1 else 0).
Proof.
  intros HF HT. destruct (mean_freq L T f HF HT) as (p & E & H). eexists. split; [reflexivity|]. rewrite E, map_build. unfold plot_matrix.
  destruct (existsb _ _) eqn:EN.
  - apply (neg_build (List.length (f_val f)) L (fun n l => if Rltb (5 / 10) (p n l) then 1 else 0)) in EN. destruct EN as (n & l & _ & _ & K).
    destruct (Rltb (5 / 10) (p n l)); lra.
  - apply (pictures_build (List.length (f_val f)) L (fun n l => if Rltb (5 / 10) (p n l) then 1 else 0)). intros n l Hn Hl. unfold Rltb. pose proof (H n l Hn Hl).
    destruct (Rlt_dec (5 / 10) (p n l)), (Rlt_dec (3 / 4) (frequency f n l)); try reflexivity; lra.
Qed.
Lemma rebuild (m : mat) N L : List.length m = N -> has_cols m L -> map (map IZR) m = map (fun n => map (fun l => IZR (at2 m n l)) (seq 0 L)) (seq 0 N).
Proof.
  intros E H. apply (nth_ext _ _ [] []).
  - rewrite !map_length, seq_length. exact E.
  - intros n Hn. rewrite map_length in Hn. change (@List.length (list Z) m) with (@List.length vec m) in Hn.
    rewrite (nth_map_lt _ m n [] []) by exact Hn. rewrite (nth_map_seq (fun n => map (fun l => IZR (at2 m n l)) (seq 0 L)) N n []) by lia.
    assert (EL : List.length (nth n m []) = L) by (unfold has_cols in H; rewrite Forall_forall in H; apply H; apply nth_In; exact Hn).
    apply (nth_ext _ _ 0 0); [rewrite !map_length, seq_length; exact EL|]. intros l Hl. rewrite map_length in Hl.
    rewrite (nth_map_lt _ (nth n m []) l 0%Z 0) by exact Hl. rewrite (nth_map_seq (fun l => IZR (at2 m n l)) L l 0) by lia. reflexivity.
Qed.
Lemma C110_state_lemma L f : has_cols (f_val f) L -> bin2 (f_val f) -> exists m, show f "state" = Ok m /\
  pictures m (List.length (f_val f)) L (fun n l => if (nth l (nth n (f_val f) []) 0 =? 1)%Z then 1 else 0).
Proof.
  intros HC HB. eexists. split; [reflexivity|]. rewrite (rebuild (f_val f) _ L eq_refl HC). unfold plot_matrix.
  assert (HE : forall n l, (n < List.length (f_val f))%nat -> (l < L)%nat -> pm1 (at2 (f_val f) n l)).
  { intros n l Hn Hl. apply (bin2_at (f_val f) (List.length (f_val f)) L); try assumption. split; [reflexivity|exact HC]. }
  destruct (existsb _ _) eqn:EN.
  - rewrite map_build. apply pictures_build. intros n l Hn Hl. change (nth l (nth n (f_val f) []) 0%Z) with (at2 (f_val f) n l).
    destruct (HE n l Hn Hl) as [E|E]; rewrite E; cbn [Z.eqb Pos.eqb]; lra.
  - apply pictures_build. intros n l Hn Hl. change (nth l (nth n (f_val f) []) 0%Z) with (at2 (f_val f) n l).
    destruct (HE n l Hn Hl) as [E|E]; rewrite E; cbn [Z.eqb Pos.eqb]; [lra|]. exfalso.
    assert (X : false = true); [|discriminate]. rewrite <- EN. apply (neg_build (List.length (f_val f)) L (fun n l => IZR (at2 (f_val f) n l))).
    exists n, l. split; [assumption|]. split; [assumption|]. rewrite E. lra.
Qed.
Lemma C110_other_lemma f technique : show f technique = Err ValueError <-> ~ In technique ["mean"; "map"; "state"]%string.
Proof.
  unfold show. destruct (String.eqb_spec technique "mean") as [->|H1]; [split; [discriminate|intros H; exfalso; apply H; cbn; tauto]|].
  destruct (String.eqb_spec technique "map") as [->|H2]; [split; [discriminate|intros H; exfalso; apply H; cbn; tauto]|].
  destruct (String.eqb_spec technique "state") as [->|H3]; [split; [discriminate|intros H; exfalso; apply H; cbn; tauto]|].
  split; [intros _ [H|[H|[H|[]]]]; congruence|reflexivity].
Qed.
(** Data with missing entries: shown half-way only if some entry is -1. *)
Lemma C110_missing_lemma L f : has_cols (f_val f) L -> tern2 (f_val f) -> exists m, show f "state" = Ok m /\
  ((exists n l, (n < List.length (f_val f))%nat /\ (l < L)%nat /\ nth l (nth n (f_val f) []) 0%Z = (-1)%Z) ->
    pictures m (List.length (f_val f)) L (fun n l => match nth l (nth n (f_val f) []) 0%Z with 1%Z => 1 | 0%Z => 1 / 2 | _ => 0 end)) /\
  ((forall n l, (n < List.length (f_val f))%nat -> (l < L)%nat -> nth l (nth n (f_val f) []) 0%Z <> (-1)%Z) ->
    pictures m (List.length (f_val f)) L (fun n l => match nth l (nth n (f_val f) []) 0%Z with 1%Z => 1 | _ => 0 end)).
Proof.
  intros HC HB. eexists. split; [reflexivity|]. rewrite (rebuild (f_val f) _ L eq_refl HC). unfold plot_matrix.
  assert (HE : forall n l, (n < List.length (f_val f))%nat -> (l < L)%nat -> tern (at2 (f_val f) n l)).
  { intros n l Hn Hl. unfold tern2, tern1 in HB. rewrite Forall_forall in HB. assert (I : In (nth n (f_val f) []) (f_val f)) by (apply nth_In; exact Hn).
    specialize (HB _ I). rewrite Forall_forall in HB. apply HB. apply nth_In. unfold has_cols in HC. rewrite Forall_forall in HC. rewrite (HC _ I). exact Hl. }
  destruct (existsb _ _) eqn:EN.
  - apply (neg_build (List.length (f_val f)) L (fun n l => IZR (at2 (f_val f) n l))) in EN. destruct EN as (a & b & Ha & Hb & K). split.
    + intros _. rewrite map_build. apply pictures_build. intros n l Hn Hl. change (nth l (nth n (f_val f) []) 0%Z) with (at2 (f_val f) n l).
      destruct (HE n l Hn Hl) as [E|[E|E]]; rewrite E; lra.
    + intros G. specialize (G a b Ha Hb). change (nth b (nth a (f_val f) []) 0%Z) with (at2 (f_val f) a b) in G.
      destruct (HE a b Ha Hb) as [E|[E|E]]; rewrite E in G, K; try lra. congruence.
  - split.
    + intros (a & b & Ha & Hb & K). exfalso. assert (X : false = true); [|discriminate]. rewrite <- EN.
      apply (neg_build (List.length (f_val f)) L (fun n l => IZR (at2 (f_val f) n l))). exists a, b. split; [assumption|]. split; [assumption|].
      change (nth b (nth a (f_val f) []) 0%Z) with (at2 (f_val f) a b) in K. rewrite K. lra.
    + intros G. apply pictures_build. intros n l Hn Hl. specialize (G n l Hn Hl). change (nth l (nth n (f_val f) []) 0%Z) with (at2 (f_val f) n l) in *.
      destruct (HE n l Hn Hl) as [E|[E|E]]; rewrite E in *; try reflexivity. congruence.
Qed.
