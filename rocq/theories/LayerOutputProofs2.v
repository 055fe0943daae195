(** Proofs for the layer outputs in C39, C42 and C82. *)
From Coq Require Import String Lra.
From Verif Require Import Base BaseLemmas BaseR BaseRLemmas Spec SpecF SpecR SpecMax SpecMaxF SpecOut SpecQL Outputs OutputsProofs Lops LopsProofs
  Fuzzy FuzzyProofs Lambda LambdaProofs MaxMachine MaxMachineProofs MaxFuzzyProofs LayerOutput LayerOutputProofs SamplingProofs.
Local Open Scope R_scope.

Lemma max_and_least argsort A B lam N D L : (forall v, is_argsort v (argsort v)) -> has_shape2 A N L -> has_shape2 B D L -> is_disp L lam ->
  exists out F, max_and argsort [A; B] lam = Ok out /\ valued out [N; D] F /\ forall idx, Forall2 lt idx [N; D] -> least lam (selected [A; B] idx) L (F idx).
Proof.
  intros HS HA HB [HL HD]. unfold max_and. eexists.
  assert (E : exists f, MAX_AND_product_2d argsort A B lam = rmat_build N D f).
  { unfold MAX_AND_product_2d. replace (nrows A) with N by (symmetry; apply HA). replace (nrows B) with D by (symmetry; apply HB).
    apply (fold_build (fun l_idx => rmat_build N D (fun n d => rat lam l_idx * IZR (at2 (OR_AND_product_expand (col A l_idx) (col B l_idx)) n d)))).
    eexists. reflexivity. }
  destruct E as [f E].
  exists (fun idx => f (nth 0 idx 0%nat) (nth 1 idx 0%nat)). split; [reflexivity|]. split; [rewrite E; apply ndR_of_rmat_valued|].
  intros idx Hi. inversion Hi as [|n ? ? ? Hn Hr]; subst. inversion Hr as [|d ? ? ? Hd Hr']; subst. inversion Hr'; subst. cbn [nth selected map combine fst snd].
  assert (Ef : f n d = rat2 (MAX_AND_product_2d argsort A B lam) n d) by (rewrite E; symmetry; apply rat2_build; assumption).
  rewrite Ef. apply (C39_min_lemma argsort A B lam N D L HS HA HB HL); try assumption.
  intros l Hl. rewrite Forall_forall in HD. apply HD. apply nth_In. lia.
Qed.
Lemma pick_functions {A} (P : nat -> A -> Prop) T (d : A) : (forall t, (t < T)%nat -> exists a, P t a) -> exists f : nat -> A, forall t, (t < T)%nat -> P t (f t).
Proof.
  induction T as [|T IH]; intros H; [exists (fun _ => d); intros; lia|]. destruct IH as [f Hf]; [intros; apply H; lia|]. destruct (H T ltac:(lia)) as [a Ha].
  exists (fun t => if Nat.eqb t T then a else f t). intros t Ht. destruct (Nat.eqb_spec t T); [subst; exact Ha|apply Hf; lia].
Qed.

Lemma C39_layer_lemma argsort s L T noisy tr : (forall v, is_argsort v (argsort v)) -> sampled s L T -> l_model s = "MAX-AND"%string ->
  List.length (l_factors s) = 2%nat -> is_disp L (l_lbda s) -> l_lbda_trace s = Some tr -> Forall (is_disp L) tr ->
  (exists out, snd (output argsort "point_estimate" noisy false true s) = Ok out /\
     all_entries out (sizes s) (fun idx x => least (l_lbda s) (selected (map f_val (l_factors s)) idx) L x)) /\
  (exists out ms, snd (output argsort "factor_map" noisy false true s) = Ok out /\ Forall2 (fun f m => majority_of f m L) (l_factors s) ms /\
     all_entries out (sizes s) (fun idx x => least (l_lbda s) (selected ms idx) L x)) /\
  (exists out, snd (output argsort "mc" noisy false true s) = Ok out /\
     all_entries out (sizes s) (fun idx x => exists y : nat -> R, (forall t, (t < T)%nat -> least (nth t tr []) (selected (sample s t) idx) L (y t)) /\ x = Rsum y (seq 0 T) / INR T)).
Proof.
  intros HS (Hne & HF & HT & tr' & Etr' & HTr) HM HK HD Etr HDt. rewrite !output_max by assumption. rewrite Etr in Etr'. injection Etr' as <-.
  unfold max_and_output, sizes. pose proof (samples_ok s L T) as Es. pose proof (sample_ok s L T) as Hs. unfold sizes, sample in *.
  destruct (l_factors s) as [|z [|u [|? ?]]]; try discriminate. pose proof HF as HF0. inversion HF as [|? ? Hz HF']; subst. inversion HF' as [|? ? Hu _]; subst.
  cbn [String.eqb Ascii.eqb Bool.eqb map]. split; [|split].
  - destruct (max_and_least argsort (f_val z) (f_val u) (l_lbda s) (List.length (f_val z)) (List.length (f_val u)) L) as (out & F & E & V & H);
      [assumption|split; [reflexivity|apply Hz]|split; [reflexivity|apply Hu]|assumption|].
    exists out. split; [exact E|]. apply (valued_all _ _ _ _ V). exact H.
  - destruct (threshold_ok _ _ z Hz HT) as [Zm _]. destruct (threshold_ok _ _ u Hu HT) as [Um _].
    destruct (max_and_least argsort (threshold (factor_mean z)) (threshold (factor_mean u)) (l_lbda s) (List.length (f_val z)) (List.length (f_val u)) L) as (out & F & E & V & H);
      [assumption|split; apply Zm|split; apply Um|assumption|].
    exists out, [threshold (factor_mean z); threshold (factor_mean u)]. split; [exact E|]. split; [constructor; [exact Zm|constructor; [exact Um|constructor]]|]. apply (valued_all _ _ _ _ V). exact H.
  - rewrite Etr.
    destruct (pick_functions (fun t G => exists o, max_and argsort (map (fun f => match f_trace f with Some tr => nth t tr [] | None => [] end) [z; u]) (nth t tr []) = Ok o /\
        valued o [List.length (f_val z); List.length (f_val u)] G /\
        forall idx, Forall2 lt idx [List.length (f_val z); List.length (f_val u)] -> least (nth t tr []) (selected (map (fun f => match f_trace f with Some tr => nth t tr [] | None => [] end) [z; u]) idx) L (G idx)) (List.length tr) (fun _ => 0)) as [GG HG].
    { intros t Hl. destruct (Hs t HF0 Hl) as (S1 & _ & S2). cbn [map] in *. inversion S1 as [|? ? Sz S1']; subst. inversion S1' as [|? ? Su _]; subst. injection S2 as S3 S4.
      destruct (max_and_least argsort (match f_trace z with Some tr => nth t tr [] | None => [] end) (match f_trace u with Some tr => nth t tr [] | None => [] end)
        (nth t tr []) (List.length (f_val z)) (List.length (f_val u)) L) as (out & F & E & V & H);
        [assumption|split; assumption|split; assumption|apply Forall_nth'; assumption|].
      exists F, out. split; [exact E|]. split; assumption. }
    destruct (mc_valued (fun t ms => max_and argsort ms (nth t tr [])) [z; u] [List.length (f_val z); List.length (f_val u)] GG
      (fun t => map (fun f => match f_trace f with Some tr => nth t tr [] | None => [] end) [z; u]) (seq 0 (List.length tr))
      (ndR_build (map (fun f => nrows (f_val f)) [z; u]) (fun _ => 0)) (fun _ => 0)) as (out & E & V).
    + intros t Ht. apply in_seq in Ht. split; [apply Es; [exact HF0|lia]|]. destruct (HG t ltac:(lia)) as (o & O1 & O2 & _). exists o. split; assumption.
    + apply valued_build.
    + cbn [map] in E. rewrite E. cbn [bind]. eexists. split; [reflexivity|].
      apply (valued_all _ _ _ _ (ndR_map_valued (fun x => x / INR (List.length tr)) out _ _ V)). intros idx Hi. cbv beta.
      exists (fun t => GG t idx). split; [intros t Ht; destruct (HG t Ht) as (o & _ & _ & H1); apply H1; assumption|]. rewrite Rplus_0_l. reflexivity.
Qed.

(** ** factor_mean of MAX-AND *)
Lemma expected_top_ext lam L p q none v : (forall k l, (k < 2)%nat -> (l < L)%nat -> p k l = q k l) -> is_expected_top lam L p none v -> is_expected_top lam L q none v.
Proof.
  intros E H val Hval. rewrite <- (H val Hval). apply Rsum_ext. intros t _. f_equal. unfold table_weight. apply Rprod_ext. intros l Hl. apply in_seq in Hl.
  apply Rprod_ext. intros k Hk. apply in_seq in Hk. rewrite E by lia. reflexivity.
Qed.
Lemma C82_cell Z_ U lam N D L n d : List.length Z_ = N -> Forall (fun r => List.length r = L) Z_ -> List.length U = D -> Forall (fun r => List.length r = L) U ->
  Forall probs Z_ -> Forall probs U -> (n < N)%nat -> (d < D)%nat -> distinct lam L -> same_order lam L (fun l => nth l (nth n Z_ []) 0 * nth l (nth d U []) 0) ->
  is_expected_top lam L (fun k l => nth l (nth k [nth n Z_ []; nth d U []] []) 0) 0 (rat2 (MAX_AND_product_fuzzy Z_ U lam) n d).
Proof.
  intros HN HL HD HL' PZ PU Hn Hd Hdist Hord. unfold MAX_AND_product_fuzzy. replace (ncols Z_) with L.
  2:{ destruct Z_ as [|r Z_]; [cbn in HN; lia|]. inversion HL; subst. reflexivity. }
  rewrite rat2_build by (unfold nrows; lia). eapply expected_top_ext; [|apply (fuzzy_cell lam L (fun l => rat2 Z_ n l) (fun l => rat2 U d l) Hdist)].
  - intros k l Hk Hl. destruct k as [|[|k]]; [reflexivity|reflexivity|lia].
  - intros l Hl. assert (A : 0 <= rat2 Z_ n l <= 1).
    { unfold rat2. apply nth_probs; [apply (Forall_nth' probs Z_ n []); [assumption|rewrite HN; exact Hn]|]. rewrite (Forall_nth' _ Z_ n [] HL) by (rewrite HN; exact Hn). exact Hl. }
    assert (B : 0 <= rat2 U d l <= 1).
    { unfold rat2. apply nth_probs; [apply (Forall_nth' probs U d []); [assumption|rewrite HD; exact Hd]|]. rewrite (Forall_nth' _ U d [] HL') by (rewrite HD; exact Hd). exact Hl. }
    apply Rmult_le_pos; lra.
  - exact Hord.
Qed.

(** The layer, after T samples. *)
Lemma freq_mean' L T f : factor_ok L T f -> (1 <= T)%nat ->
  map (map (fun m => 5 / 10 * (m + 1))) (factor_mean f) = map (fun n => map (fun l => frequency f n l) (seq 0 L)) (seq 0 (List.length (f_val f))).
Proof. intros HF HT. rewrite <- (freq_mean L T f HF HT). apply map_ext. intros r. apply map_ext. intros m. ring. Qed.
Lemma freq_len f L n l : (l < L)%nat -> nth l (map (fun l => frequency f n l) (seq 0 L)) 0 = frequency f n l.
Proof. intros H. rewrite nth_indep with (d' := frequency f n 0%nat) by (rewrite map_length, seq_length; exact H). rewrite (map_nth (fun l => frequency f n l)). rewrite seq_nth by exact H. reflexivity. Qed.
Lemma C82_layer_lemma argsort s L T noisy tr lam : sampled s L T -> l_model s = "MAX-AND"%string -> List.length (l_factors s) = 2%nat ->
  l_lbda_trace s = Some tr -> Forall (is_disp L) tr ->
  List.length lam = S L -> (forall l, (l < S L)%nat -> nth l lam 0 = Rsum (fun v => nth l v 0) tr / INR T) -> distinct lam L ->
  (forall idx, Forall2 lt idx (sizes s) -> same_order lam L (fun l =>
     frequency (nth 0 (l_factors s) {| f_val := []; f_trace := None |}) (nth 0 idx 0%nat) l *
     frequency (nth 1 (l_factors s) {| f_val := []; f_trace := None |}) (nth 1 idx 0%nat) l)) ->
  exists out, snd (output argsort "factor_mean" noisy false true s) = Ok out /\
    all_entries out (sizes s) (fun idx x => is_expected_top lam L
      (fun k l => frequency (nth k (l_factors s) {| f_val := []; f_trace := None |}) (nth k idx 0%nat) l) 0 x).
Proof.
  intros (Hne & HF & HT & tr' & Etr' & HTr) HM HK Etr HD Ll Hl Hdist Hord. rewrite output_max by assumption. rewrite Etr in Etr'. injection Etr' as <-.
  unfold max_and_output, sizes in *. destruct (l_factors s) as [|z [|u [|? ?]]]; try discriminate. inversion HF as [|? ? Hz HF']; subst. inversion HF' as [|? ? Hu _]; subst.
  cbn [String.eqb Ascii.eqb Bool.eqb map nth] in *. eexists. split; [reflexivity|].
  assert (E : lbda_mean s = lam).
  { unfold lbda_mean. rewrite Etr. assert (Lh : List.length (hd [] tr) = S L) by (destruct tr as [|v tr]; [cbn in HT; lia|inversion HD as [|? ? [H1 _] _]; subst; exact H1]).
    rewrite Lh. apply (nth_ext _ _ 0 0); [rewrite map_length, seq_length; auto|]. intros k Hk. rewrite map_length, seq_length in Hk.
    rewrite nth_indep with (d' := Rsum (fun v => rat v 0) tr / INR (List.length tr)) by (rewrite map_length, seq_length; exact Hk).
    rewrite (map_nth (fun k => Rsum (fun v => rat v k) tr / INR (List.length tr))). rewrite seq_nth by exact Hk. cbn [plus]. rewrite Hl by exact Hk. reflexivity. }
  rewrite E, (freq_mean' L _ z Hz HT), (freq_mean' L _ u Hu HT).
  set (Zf := map (fun n => map (fun l => frequency z n l) (seq 0 L)) (seq 0 (List.length (f_val z)))).
  set (Uf := map (fun n => map (fun l => frequency u n l) (seq 0 L)) (seq 0 (List.length (f_val u)))).
  assert (LZ : List.length Zf = List.length (f_val z)) by (unfold Zf; rewrite map_length, seq_length; reflexivity).
  assert (LU : List.length Uf = List.length (f_val u)) by (unfold Uf; rewrite map_length, seq_length; reflexivity).
  assert (B : exists f, MAX_AND_product_fuzzy Zf Uf lam = rmat_build (List.length (f_val z)) (List.length (f_val u)) f).
  { eexists. unfold MAX_AND_product_fuzzy, nrows. rewrite LZ, LU. reflexivity. }
  destruct B as [f B]. rewrite B.
  apply (valued_all _ _ _ _ (ndR_of_rmat_valued _ _ f)). intros idx Hi. pose proof (Hord idx Hi) as Ho. inversion Hi as [|n ? ? ? Hn Hr]; subst. inversion Hr as [|d ? ? ? Hd Hr']; subst. inversion Hr'; subst. cbn [nth] in *.
  replace (f n d) with (rat2 (MAX_AND_product_fuzzy Zf Uf (lbda_mean s)) n d) by (rewrite B; apply rat2_build; assumption).
  pose proof (freq_row z L n (List.length (f_val z)) Hn) as Rz. pose proof (freq_row u L d (List.length (f_val u)) Hd) as Ru. fold Zf in Rz. fold Uf in Ru.
  eapply expected_top_ext; [|apply (C82_cell Zf Uf (lbda_mean s) (List.length (f_val z)) (List.length (f_val u)) L n d LZ)].
  - intros k l Hk Hl'. rewrite Rz, Ru. destruct k as [|[|k]]; [cbn [nth]; apply freq_len; exact Hl'|cbn [nth]; apply freq_len; exact Hl'|lia].
  - unfold Zf. apply Forall_map, Forall_forall. intros. rewrite map_length, seq_length. reflexivity.
  - exact LU.
  - unfold Uf. apply Forall_map, Forall_forall. intros. rewrite map_length, seq_length. reflexivity.
  - unfold Zf. apply Forall_map, Forall_forall. intros. eapply freq_probs; eassumption.
  - unfold Uf. apply Forall_map, Forall_forall. intros. eapply freq_probs; eassumption.
  - exact Hn.
  - exact Hd.
  - exact Hdist.
  - rewrite Rz, Ru. intros a b Ha Hb Hab. rewrite !freq_len by assumption. apply Ho; assumption.
Qed.

(** ** qL-AND *)
Lemma qL_value z u q L : (1 <= q)%Z -> List.length u = L -> q_output q z u L (qL_AND_product u z q).
Proof.
  intros Hq <-. destruct (C42_lemma u z q Hq) as [H1 H2]. unfold q_output, q_active.
  destruct H1 as [H1|H1]; [left|right]; split; try exact H1.
  - apply H2 in H1. destruct H1 as (ls & A & B & C). exists ls. split; [exact A|]. split; [exact B|]. intros l Hl. destruct (C l Hl) as (C1 & C2 & C3). auto.
  - intros (ls & A & B & C). assert (qL_AND_product u z q = 1%Z); [|congruence]. apply H2. exists ls. split; [exact A|]. split; [exact B|]. intros l Hl. destruct (C l Hl) as (C1 & C2 & C3). auto.
Qed.
Lemma output_qL argsort technique noisy s : l_model s = "qL-AND"%string -> snd (output argsort technique noisy false true s) = qL_output s.
Proof.
  intros H. unfold output. rewrite H. cbn [String.eqb Ascii.eqb Bool.eqb]. rewrite H. cbn [String.eqb Ascii.eqb Bool.eqb].
  destruct (l_prediction s), (qL_output s); reflexivity.
Qed.
Lemma C42_layer_lemma argsort technique noisy s z u rest N D L : l_model s = "qL-AND"%string -> l_factors s = z :: u :: rest -> nd_shape (l_child s) = [N; D] ->
  has_shape2 (f_val z) N L -> has_shape2 (f_val u) D L -> (forall d, (d < D)%nat -> 1 <= at2 (l_q s) 0 d)%Z ->
  exists out, snd (output argsort technique noisy false true s) = Ok out /\
    all_entries out [N; D] (fun idx x => exists b, x = IZR b /\
      q_output (at2 (l_q s) 0 (nth 1 idx 0%nat)) (row (f_val z) (nth 0 idx 0%nat)) (row (f_val u) (nth 1 idx 0%nat)) L b).
Proof.
  intros HM HF HS HZ HU Hq. rewrite output_qL by assumption. unfold qL_output. rewrite HS, HF. eexists. split; [reflexivity|].
  apply (valued_all _ _ _ _ (valued_build _ _)). intros idx Hi. inversion Hi as [|n ? ? ? Hn Hr]; subst. inversion Hr as [|d ? ? ? Hd Hr']; subst. inversion Hr'; subst. cbn [nth].
  eexists. split; [reflexivity|]. apply qL_value; [apply Hq; exact Hd|]. destruct HU as [H1 H2]. unfold row. apply (Forall_nth' _ _ d [] H2). unfold vec in *. rewrite H1. exact Hd.
Qed.
Lemma qL_counts out A B X q N D L : is_qout out -> has_shape2 A N L -> has_shape2 B D L -> has_shape2 X N D -> (forall d, (d < D)%nat -> 1 <= at2 q 0 d)%Z ->
  counter_qL A B X (row q 0) = Z.of_nat (List.length (filter (fun '(n, d) => at2 X n d =? out (at2 q 0 d) (row A n) (row B d) L)%Z (cells N D))) /\ (List.length (filter (fun '(n, d) => at2 X n d =? out (at2 q 0 d) (row A n) (row B d) L)%Z (cells N D)) <= observed2 X N D)%nat.
Proof.
  intros Ho HA HB HX Hq. rewrite (C42_counter_lemma A B X (row q 0) N D HX).
  assert (E : forall n d, (n < N)%nat -> (d < D)%nat -> qL_AND_product (row A n) (row B d) (at1 (row q 0) d) = out (at2 q 0 d) (row A n) (row B d) L).
  { intros n d Hn Hd. change (at1 (row q 0) d) with (at2 q 0 d).
    assert (LA : List.length (row A n) = L) by (destruct HA as [H1 H2]; unfold row; apply (Forall_nth' _ _ n [] H2); unfold vec in *; rewrite H1; exact Hn).
    pose proof (qL_value (row B d) (row A n) (at2 q 0 d) L (Hq d Hd) LA) as K. pose proof (Ho (at2 q 0 d) (row A n) (row B d) L) as K'.
    assert (Sy : q_active (at2 q 0 d) (row B d) (row A n) L <-> q_active (at2 q 0 d) (row A n) (row B d) L).
    { unfold q_active. split; intros (ls & P1 & P2 & P3); exists ls; (split; [exact P1|]; split; [exact P2|]; intros l Hl; destruct (P3 l Hl) as (Q1 & Q2 & Q3); auto). }
    unfold q_output in *. destruct K as [[K1 K2]|[K1 K2]], K' as [[K3 K4]|[K3 K4]]; rewrite K1, K3; try reflexivity; tauto. }
  assert (EL : List.length (filter (fun '(n, d) => qL_AND_product (row A n) (row B d) (at1 (row q 0) d) =? at2 X n d)%Z (cells N D)) =
    List.length (filter (fun '(n, d) => at2 X n d =? out (at2 q 0 d) (row A n) (row B d) L)%Z (cells N D))).
  { apply filter_length_ext. intros [n d] Hin. apply in_prod_iff in Hin. rewrite !in_seq in Hin. rewrite E by lia. apply Z.eqb_sym. }
  split; [rewrite EL; reflexivity|].
  unfold observed2. assert (G : forall l, (forall p, In p l -> (fst p < N /\ snd p < D)%nat) -> (List.length (filter (fun '(n, d) => at2 X n d =? out (at2 q 0 d) (row A n) (row B d) L)%Z l) <= List.length (filter (fun '(n, d) => negb (at2 X n d =? 0)%Z) l))%nat).
  { induction l as [|[n d] l IH]; intros H; [apply le_n|]. specialize (IH (fun p Hp => H p (or_intror Hp))). cbn [filter].
    destruct (at2 X n d =? out (at2 q 0 d) (row A n) (row B d) L)%Z eqn:E1; destruct (at2 X n d =? 0)%Z eqn:E2; cbn [negb List.length]; try lia.
    apply Z.eqb_eq in E1, E2. pose proof (Ho (at2 q 0 d) (row A n) (row B d) L) as K. unfold q_output in K. lia. }
  apply G. intros [n d] Hin. apply in_prod_iff in Hin. rewrite !in_seq in Hin. cbn. lia.
Qed.
Lemma C17_qL_lemma out A B X q N D L alpha beta : is_qout out -> has_shape2 A N L -> has_shape2 B D L -> has_shape2 X N D -> (forall d, (d < D)%nat -> 1 <= at2 q 0 d)%Z -> 0 < alpha -> 0 < beta ->
  best_dispersion (List.length (filter (fun '(n, d) => at2 X n d =? out (at2 q 0 d) (row A n) (row B d) L)%Z (cells N D))) (observed2 X N D) alpha beta (lbda_update_qL A B X q alpha beta).
Proof.
  intros Ho HA HB HX Hq Ha Hb. destruct (qL_counts out A B X q N D L Ho HA HB HX Hq) as [E1 E2]. unfold lbda_update_qL. rewrite E1, (zero_points2 X N D HX). apply C17_val_lemma; assumption.
Qed.


(** ** Errors of the mc technique *)
Lemma samples_at_ok fs t ms : samples_at fs t = Ok ms -> Forall (fun f => exists tr, f_trace f = Some tr /\ (t < List.length tr)%nat) fs.
Proof.
  revert ms. induction fs as [|f fs IH]; intros ms H; [constructor|]. cbn [samples_at] in H. destruct (f_trace f) as [tr|] eqn:E; [|discriminate].
  destruct (nth_error tr t) as [m|] eqn:E2; [|discriminate]. destruct (samples_at fs t) as [ms'|] eqn:E3; [|discriminate].
  constructor; [exists tr; split; [exact E|]; apply nth_error_Some; congruence|apply (IH ms'); reflexivity].
Qed.
Lemma mc_loop_ok gen fs ts : forall out o, mc_loop gen fs ts out = Ok o -> forall t, In t ts -> exists ms, samples_at fs t = Ok ms.
Proof.
  induction ts as [|t0 ts IH]; intros out o H t Ht; [destruct Ht|]. cbn [mc_loop] in H. destruct (samples_at fs t0) as [ms|] eqn:E; [|discriminate]. cbn [bind] in H.
  destruct (gen t0 ms) as [o'|]; [|discriminate]. cbn [bind] in H. destruct Ht as [<-|Ht]; [exists ms; exact E|eapply IH; eassumption].
Qed.
Lemma mc_ok gen fs T out o : mc_loop gen fs (seq 0 T) out = Ok o -> (1 <= T)%nat -> Forall (fun f => exists tr, f_trace f = Some tr /\ (T <= List.length tr)%nat) fs.
Proof.
  intros H HT. destruct (mc_loop_ok _ _ _ _ _ H (T - 1)%nat) as [ms E]; [apply in_seq; lia|]. apply samples_at_ok in E. eapply Forall_impl; [|exact E]. cbv beta. intros f (tr & E1 & E2). exists tr. split; [exact E1|lia].
Qed.
Lemma samples_at_attr pre f post : Forall (fun g => exists tr, f_trace g = Some tr /\ tr <> []) pre -> f_trace f = None -> samples_at (pre ++ f :: post) 0 = Err AttributeError.
Proof.
  intros H Hf. induction pre as [|g pre IH]; cbn [app samples_at]; [rewrite Hf; reflexivity|]. inversion H as [|? ? (tr & E & Hne) H']; subst. rewrite E. destruct tr as [|m tr]; [contradiction|]. cbn [nth_error]. rewrite IH by assumption. reflexivity.
Qed.
Lemma output_mc argsort noisy s : l_model s <> "qL-AND"%string ->
  exists gen post, snd (output argsort "mc" noisy false true s) =
    match l_lbda_trace s with
    | None => Err AttributeError
    | Some tr => bind (mc_loop (gen tr) (l_factors s) (seq 0 (List.length tr)) (ndR_build (map (fun f => nrows (f_val f)) (l_factors s)) (fun _ => 0))) (fun out => Ok (post tr out))
    end.
Proof.
  intros Hm. unfold output. set (s1 := if String.eqb (l_model s) "OR-AND-IBP" then set_model s "OR-AND" else s).
  assert (E1 : l_lbda_trace s1 = l_lbda_trace s) by (unfold s1; destruct (String.eqb (l_model s) "OR-AND-IBP"); reflexivity).
  assert (E2 : l_factors s1 = l_factors s) by (unfold s1; destruct (String.eqb (l_model s) "OR-AND-IBP"); reflexivity).
  assert (E3 : (String.eqb (l_model s1) "qL-AND") = false).
  { unfold s1. destruct (String.eqb (l_model s) "OR-AND-IBP"); [reflexivity|]. apply String.eqb_neq. exact Hm. }
  assert (G : forall (o : res ndR), snd (match l_prediction s, false with Some p, true => (s, Ok p) | _, _ => match o with Err e => (s1, Err e) | Ok o0 =>
      (let s2 := set_prediction s1 o0 in let s3 := if String.eqb (l_model s) "OR-AND-IBP" then set_model s2 "OR-AND-IBP" else s2 in (s3, Ok (if true then o0 else ndR_map (fun x => 2 * x - 1) o0))) end end) = o).
  { intros o. destruct (l_prediction s), o; reflexivity. }
  cbv zeta. rewrite E3. rewrite G. destruct (String.eqb (l_model s1) "MAX-AND").
  - unfold max_and_output. cbn [String.eqb Ascii.eqb Bool.eqb]. rewrite E1, E2.
    exists (fun tr t ms => max_and argsort ms (nth t tr [])), (fun tr => ndR_map (fun x => x / INR (List.length tr))). reflexivity.
  - unfold lom_branch, lom_technique. cbn [String.eqb Ascii.eqb Bool.eqb]. rewrite E1, E2.
    exists (fun tr t ms => bind (lom_generate_data_fast ms (l_model s1)) (fun o => Ok (nd_mapR IZR o))),
      (fun tr out => if noisy then ndR_map (fun x => noisy_emission x (rat (lbda_mean s1) 0)) (ndR_map (fun x => (1 + x / INR (List.length tr)) * (5 / 10)) out) else ndR_map (fun x => (1 + x / INR (List.length tr)) * (5 / 10)) out).
    destruct (l_lbda_trace s) as [tr|]; [|reflexivity]. destruct (mc_loop _ _ _ _) as [o|e]; destruct noisy; reflexivity.
Qed.
Lemma C23_mc_lemma argsort noisy s : l_model s <> "qL-AND"%string ->
  (forall out, snd (output argsort "mc" noisy false true s) = Ok out -> exists tr, l_lbda_trace s = Some tr /\
     (tr <> [] -> Forall (fun f => exists ms, f_trace f = Some ms /\ (List.length tr <= List.length ms)%nat) (l_factors s))) /\
  (l_lbda_trace s = None -> snd (output argsort "mc" noisy false true s) = Err AttributeError) /\
  (forall tr pre f post, l_lbda_trace s = Some tr -> tr <> [] -> l_factors s = pre ++ f :: post ->
     Forall (fun g => exists ms, f_trace g = Some ms /\ ms <> []) pre -> f_trace f = None -> snd (output argsort "mc" noisy false true s) = Err AttributeError).
Proof.
  intros Hm. destruct (output_mc argsort noisy s Hm) as (gen & post & E). rewrite E. clear E. split; [|split].
  - intros out H. destruct (l_lbda_trace s) as [tr|]; [|discriminate]. exists tr. split; [reflexivity|]. intros Hne.
    destruct (mc_loop _ _ _ _) as [o|] eqn:E; [|discriminate]. eapply mc_ok; [exact E|]. destruct tr; [contradiction|cbn; lia].
  - intros ->. reflexivity.
  - intros tr pre f post' Et Hne Ef Hpre Hf. rewrite Et. destruct tr as [|v tr]; [contradiction|]. cbn [List.length seq mc_loop]. rewrite Ef, samples_at_attr by assumption. reflexivity.
Qed.

(** ** Examples: two saved samples, two latent dimensions *)
Definition max_ex : lstate :=
  {| l_model := "MAX-AND"; l_factors := [ {| f_val := [[1; 1]; [-1; 1]]%Z; f_trace := Some [[[1; 1]; [-1; 1]]; [[1; -1]; [-1; 1]]]%Z |};
                                          {| f_val := [[1; 1]]%Z; f_trace := Some [[[1; 1]]; [[1; 1]]]%Z |} ];
     l_lbda := [9 / 10; 4 / 10; 1 / 10]; l_lbda_trace := Some [[9 / 10; 4 / 10; 1 / 10]; [7 / 10; 2 / 10; 1 / 10]];
     l_child := Node [Node [Leaf 1]; Node [Leaf (-1)]]; l_q := [[1%Z]]; l_prediction := None |}.
Ltac pms := repeat match goal with
  | |- Forall _ [] => constructor
  | |- Forall _ (_ :: _) => constructor
  | |- _ /\ _ => split
  | |- has_cols _ _ => unfold has_cols
  | |- bin2 _ => unfold bin2
  | |- bin1 _ => unfold bin1
  | |- pm1 _ => unfold pm1; first [left; reflexivity|right; reflexivity]
  | |- @eq nat _ _ => reflexivity
  end.
Lemma max_ex_sampled : sampled max_ex 2 2.
Proof.
  split; [discriminate|]. split; [|split; [lia|eexists; split; reflexivity]]. unfold max_ex. cbn [l_factors].
  constructor; [|constructor; [|constructor]]; (split; [cbn [f_val]; pms|split; [cbn [f_val]; pms|]]); eexists; (split; [reflexivity|]); cbn [f_val]; pms.
Qed.
Lemma max_ex_disp : is_disp 2 (l_lbda max_ex) /\ exists tr, l_lbda_trace max_ex = Some tr /\ Forall (is_disp 2) tr.
Proof.
  split; [split; [reflexivity|repeat constructor; lra]|]. eexists. split; [reflexivity|]. repeat constructor; cbn; lra.
Qed.
Lemma max_ex_means : distinct [8 / 10; 3 / 10; 1 / 10] 2 /\
  (forall l, (l < 3)%nat -> nth l [8 / 10; 3 / 10; 1 / 10] 0 = Rsum (fun v => nth l v 0) [[9 / 10; 4 / 10; 1 / 10]; [7 / 10; 2 / 10; 1 / 10]] / INR 2) /\
  (forall idx, Forall2 lt idx (sizes max_ex) -> same_order [8 / 10; 3 / 10; 1 / 10] 2 (fun l =>
     frequency (nth 0 (l_factors max_ex) {| f_val := []; f_trace := None |}) (nth 0 idx 0%nat) l *
     frequency (nth 1 (l_factors max_ex) {| f_val := []; f_trace := None |}) (nth 1 idx 0%nat) l)).
Proof.
  split; [intros [|[|?]] [|[|?]] H1 H2 H3; try lia; cbn; lra|]. split.
  - intros [|[|[|?]]] H; try lia; unfold Rsum; cbn; lra.
  - intros idx Hi. inversion Hi as [|n ? ? ? Hn Hr]; subst. inversion Hr as [|d ? ? ? Hd Hr']; subst. inversion Hr'; subst. cbn [nth].
    cbn in Hn, Hd. destruct d as [|d]; [|lia].
    intros [|[|?]] [|[|?]] H1 H2 H3; try lia; destruct n as [|[|n]]; try lia; unfold frequency; cbn; lra.
Qed.
Lemma qL_ex : nd_shape (l_child max_ex) = [2; 1]%nat /\ has_shape2 (f_val (nth 0 (l_factors max_ex) {| f_val := []; f_trace := None |})) 2 2 /\
  has_shape2 (f_val (nth 1 (l_factors max_ex) {| f_val := []; f_trace := None |})) 1 2 /\ (forall d, (d < 1)%nat -> 1 <= at2 (l_q max_ex) 0 d)%Z.
Proof. split; [reflexivity|]. split; [split; [reflexivity|repeat constructor]|]. split; [split; [reflexivity|repeat constructor]|]. intros [|d] H; [cbn; lia|lia]. Qed.
