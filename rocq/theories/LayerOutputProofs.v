(** Proofs for C22, C23, C60, C61. *)
From Coq Require Import String Lra.
From Verif Require Import Base BaseLemmas BaseR BaseRLemmas Spec SpecF SpecR SpecMax SpecOut Outputs OutputsProofs Lops LopsProofs
  Fuzzy FuzzyProofs Lambda LambdaProofs MaxMachine MaxMachineProofs LayerOutput SamplingProofs.
Local Open Scope R_scope.

(** * Arrays *)
Definition valued (a : ndR) (sh : list nat) (F : list nat -> R) : Prop :=
  ndR_has_shape a sh /\ forall idx, Forall2 lt idx sh -> ndR_get a idx = Some (F idx).
Lemma nd_mapR_get f a idx : ndR_get (nd_mapR f a) idx = option_map f (nd_get a idx).
Proof.
  revert a. induction idx as [|i idx IH]; intros [x|l]; cbn; try reflexivity.
  rewrite nth_error_map. destruct (nth_error l i); [apply IH|reflexivity].
Qed.
Lemma nd_mapR_shape f sh : forall a, nd_has_shape a sh -> ndR_has_shape (nd_mapR f a) sh.
Proof.
  induction sh as [|n sh IH]; intros a H; cbn in *.
  - destruct H as [x ->]. eexists. reflexivity.
  - destruct H as (l & -> & H1 & H2). eexists. split; [reflexivity|]. split; [rewrite map_length; assumption|].
    apply Forall_forall. intros b Hb. apply in_map_iff in Hb. destruct Hb as (c & <- & Hc). apply IH.
    rewrite Forall_forall in H2. apply H2. assumption.
Qed.
Lemma ndR_map_valued f a sh F : valued a sh F -> valued (ndR_map f a) sh (fun idx => f (F idx)).
Proof.
  intros [H1 H2]. split.
  - clear H2. revert a H1. induction sh as [|n sh IH]; intros a H; cbn in *.
    + destruct H as [x ->]. eexists. reflexivity.
    + destruct H as (l & -> & H1 & H2). eexists. split; [reflexivity|]. split; [rewrite map_length; assumption|].
      apply Forall_forall. intros b Hb. apply in_map_iff in Hb. destruct Hb as (c & <- & Hc). apply IH.
      rewrite Forall_forall in H2. apply H2. assumption.
  - intros idx Hi. specialize (H2 idx Hi). clear H1 Hi.
    assert (E : forall idx a, ndR_get (ndR_map f a) idx = option_map f (ndR_get a idx)).
    { clear. induction idx as [|i idx IH]; intros [x|l]; cbn; try reflexivity.
      rewrite nth_error_map. destruct (nth_error l i); [apply IH|reflexivity]. }
    rewrite E, H2. reflexivity.
Qed.
Fixpoint zipadd (p q : list ndR) : list ndR := match p, q with x :: p', y :: q' => ndR_add x y :: zipadd p' q' | _, _ => [] end.
Lemma ndR_add_node l l' : ndR_add (NodeR l) (NodeR l') = NodeR (zipadd l l').
Proof. reflexivity. Qed.
Lemma zipadd_nth l l' i x y : nth_error l i = Some x -> nth_error l' i = Some y -> nth_error (zipadd l l') i = Some (ndR_add x y).
Proof.
  revert l l'. induction i as [|i IH]; intros [|a l] [|b l'] H1 H2; cbn in *; try discriminate.
  - congruence.
  - apply IH; assumption.
Qed.
Lemma zipadd_length l l' : List.length l = List.length l' -> List.length (zipadd l l') = List.length l.
Proof. revert l'. induction l as [|x l IH]; intros [|y l'] H; cbn in *; try lia. rewrite IH; lia. Qed.
Lemma ndR_add_valued sh : forall a b F G, valued a sh F -> valued b sh G -> valued (ndR_add a b) sh (fun idx => F idx + G idx).
Proof.
  induction sh as [|n sh IH]; intros a b F G [A1 A2] [B1 B2].
  - cbn in A1, B1. destruct A1 as [x ->], B1 as [y ->]. split; [eexists; reflexivity|]. intros idx Hi. inversion Hi; subst.
    specialize (A2 [] Hi). specialize (B2 [] Hi). cbn in *. congruence.
  - cbn in A1, B1. destruct A1 as (l & -> & L1 & L2), B1 as (l' & -> & L1' & L2'). rewrite ndR_add_node.
    assert (K : forall i x y, nth_error l i = Some x -> nth_error l' i = Some y ->
      valued (ndR_add x y) sh (fun idx => F (i :: idx) + G (i :: idx))).
    { intros i x y Hx Hy. apply (IH x y (fun idx => F (i :: idx)) (fun idx => G (i :: idx))).
      - split; [rewrite Forall_forall in L2; apply L2; eapply nth_error_In; eassumption|].
        intros idx Hi. assert (Hl : (i < n)%nat) by (rewrite <- L1; apply nth_error_Some; congruence).
        specialize (A2 (i :: idx) (Forall2_cons _ _ Hl Hi)). cbn in A2. rewrite Hx in A2. exact A2.
      - split; [rewrite Forall_forall in L2'; apply L2'; eapply nth_error_In; eassumption|].
        intros idx Hi. assert (Hl : (i < n)%nat) by (rewrite <- L1; apply nth_error_Some; congruence).
        specialize (B2 (i :: idx) (Forall2_cons _ _ Hl Hi)). cbn in B2. rewrite Hy in B2. exact B2. }
    split.
    + eexists. split; [reflexivity|]. split; [rewrite zipadd_length; lia|]. apply Forall_forall. intros c Hc.
      destruct (In_nth_error _ _ Hc) as [i Hi].
      assert (Hl : (i < n)%nat). { rewrite <- L1. rewrite <- (zipadd_length l l') by lia. apply nth_error_Some. congruence. }
      destruct (nth_error l i) as [x|] eqn:Ex; [|apply nth_error_None in Ex; lia].
      destruct (nth_error l' i) as [y|] eqn:Ey; [|apply nth_error_None in Ey; lia].
      rewrite (zipadd_nth l l' i x y Ex Ey) in Hi. injection Hi as <-. apply (K i x y Ex Ey).
    + intros idx Hi. inversion Hi as [|i m idx' sh' Hl Hr]; subst. cbn [ndR_get].
      destruct (nth_error l i) as [x|] eqn:Ex; [|apply nth_error_None in Ex; lia].
      destruct (nth_error l' i) as [y|] eqn:Ey; [|apply nth_error_None in Ey; lia].
      rewrite (zipadd_nth l l' i x y Ex Ey). apply (K i x y Ex Ey). assumption.
Qed.
Lemma valued_build sh F : valued (ndR_build sh F) sh F.
Proof. split; [apply ndR_build_shape|apply ndR_build_get]. Qed.
Lemma valued_ext a sh F G : (forall idx, Forall2 lt idx sh -> F idx = G idx) -> valued a sh F -> valued a sh G.
Proof. intros E [H1 H2]. split; [exact H1|]. intros idx Hi. rewrite <- E by assumption. apply H2. assumption. Qed.
Lemma valued_all a sh F (P : list nat -> R -> Prop) : valued a sh F -> (forall idx, Forall2 lt idx sh -> P idx (F idx)) -> all_entries a sh P.
Proof. intros [H1 H2] H. split; [exact H1|]. intros idx Hi. exists (F idx). split; [apply H2|apply H]; assumption. Qed.
Lemma ndR_of_rmat_valued N D f : valued (ndR_of_rmat (rmat_build N D f)) [N; D] (fun idx => f (nth 0 idx 0%nat) (nth 1 idx 0%nat)).
Proof.
  assert (E : ndR_of_rmat (rmat_build N D f) = ndR_build [N; D] (fun idx => f (nth 0 idx 0%nat) (nth 1 idx 0%nat))).
  { unfold ndR_of_rmat, rmat_build. cbn [ndR_build]. f_equal. rewrite map_map. apply map_ext. intros n. f_equal. rewrite map_map. reflexivity. }
  rewrite E. apply valued_build.
Qed.

(** * Crisp generation *)
Definition outz (o i : lop) (rows : list vec) (L : nat) : Z := if lom_b o i rows L then 1%Z else (-1)%Z.
Lemma outz_output o i rows L : lom_output o i rows L (outz o i rows L).
Proof. apply lom_output_b. reflexivity. Qed.
Lemma selected_rel fs index : Forall2 (fun (p : mat * nat) (r : vec) => r = nth (snd p) (fst p) []) (combine fs index) (selected fs index).
Proof. unfold selected. induction (combine fs index) as [|p l IH]; cbn; constructor; [reflexivity|exact IH]. Qed.
Lemma fast_valued o i factors L f : factors <> [] -> Forall (fun m => has_cols m L) factors -> Forall bin2 factors ->
  exists out, lom_generate_data_fast factors (model_name o i) = Ok out /\
    valued (nd_mapR f out) (map (fun m => List.length m) factors) (fun idx => f (outz o i (selected factors idx) L)).
Proof.
  intros Hne HL HB. destruct (C03_lemma o i factors L Hne HL) as (out & E & S1 & S2). exists out.
  split; [rewrite (C04_lemma _ _ _ HL HB); exact E|]. split; [apply nd_mapR_shape; exact S1|].
  intros idx Hi. rewrite nd_mapR_get. destruct (S2 idx (selected factors idx) Hi (selected_rel _ _)) as (x & -> & Hx).
  cbn. f_equal. f_equal. apply (lom_output_unique o i (selected factors idx) L); [exact Hx|apply outz_output].
Qed.

(** * Traces *)
Lemma samples_ok s L T t : Forall (factor_ok L T) (l_factors s) -> (t < T)%nat -> samples_at (l_factors s) t = Ok (sample s t).
Proof.
  intros H Ht. unfold sample. induction (l_factors s) as [|f fs IH]; [reflexivity|]. inversion H as [|? ? H1 H2]; subst.
  destruct H1 as (_ & _ & tr & E & HT & _). cbn [samples_at map]. rewrite E.
  rewrite (nth_error_nth' tr []) by lia. rewrite IH by assumption. reflexivity.
Qed.
Lemma sample_ok s L T t : Forall (factor_ok L T) (l_factors s) -> (t < T)%nat ->
  Forall (fun m => has_cols m L) (sample s t) /\ Forall bin2 (sample s t) /\ map (fun m => List.length m) (sample s t) = sizes s.
Proof.
  intros H Ht. unfold sample, sizes. induction (l_factors s) as [|f fs IH]; [cbn; auto|]. inversion H as [|? ? H1 H2]; subst.
  destruct (IH H2) as (I1 & I2 & I3). destruct H1 as (_ & _ & tr & E & HT & HF). cbn [map]. rewrite E.
  assert (K := Forall_nth' _ tr t [] HF ltac:(lia)). destruct K as (K1 & K2 & K3).
  split; [constructor; assumption|]. split; [constructor; assumption|]. f_equal; assumption.
Qed.
Lemma mc_valued gen fs sh (G : nat -> list nat -> R) (ms : nat -> list mat) : forall ts out F,
  (forall t, In t ts -> samples_at fs t = Ok (ms t) /\ exists o, gen t (ms t) = Ok o /\ valued o sh (G t)) ->
  valued out sh F -> exists out', mc_loop gen fs ts out = Ok out' /\ valued out' sh (fun idx => F idx + Rsum (fun t => G t idx) ts).
Proof.
  induction ts as [|t ts IH]; intros out F H HV.
  - exists out. split; [reflexivity|]. eapply valued_ext; [|exact HV]. intros idx _. cbn. lra.
  - destruct (H t (or_introl eq_refl)) as (E1 & o & E2 & V). cbn [mc_loop]. rewrite E1. cbn [bind]. rewrite E2. cbn [bind].
    destruct (IH (ndR_add out o) (fun idx => F idx + G t idx)) as (out' & O1 & O2).
    + intros t' Ht'. apply H. right. assumption.
    + apply ndR_add_valued; assumption.
    + exists out'. split; [exact O1|]. eapply valued_ext; [|exact O2]. intros idx _. cbn [Rsum fold_right]. unfold Rsum. lra.
Qed.

(** * Means and majorities *)
Lemma pm_sum tr n l : (forall m, In m tr -> pm1 (at2 m n l)) ->
  Rsum (fun m => IZR (at2 m n l)) tr = 2 * INR (List.length (filter (fun m => at2 m n l =? 1)%Z tr)) - INR (List.length tr).
Proof.
  induction tr as [|m tr IH]; intros H; [cbn; lra|]. cbn [Rsum fold_right filter List.length]. rewrite S_INR.
  unfold Rsum in IH. rewrite IH by (intros m' Hm'; apply H; right; assumption).
  destruct (H m (or_introl eq_refl)) as [E|E]; rewrite E; cbn [Z.eqb Pos.eqb]; [cbn [List.length]; rewrite S_INR|]; lra.
Qed.
Lemma mean_majority tr n l : tr <> [] -> (forall m, In m tr -> pm1 (at2 m n l)) -> Rltb 0 (mean_at tr n l) = majority tr n l.
Proof.
  intros Hne H. unfold mean_at, majority. rewrite pm_sum by assumption.
  assert (HT : 0 < INR (List.length tr)) by (apply lt_0_INR; destruct tr; [congruence|cbn; lia]).
  set (k := List.length (filter _ tr)). destruct (Nat.ltb_spec (List.length tr) (2 * k)) as [G|G].
  - apply Rltb_true. apply Rdiv_lt_0_compat; [|assumption]. apply lt_INR in G. rewrite mult_INR in G. cbn [INR] in G. lra.
  - apply Rltb_false. apply le_INR in G. rewrite mult_INR in G. cbn [INR] in G.
    apply (Rmult_le_reg_r (INR (List.length tr))); [assumption|]. unfold Rdiv. rewrite Rmult_assoc, Rinv_l by lra. lra.
Qed.
Lemma mean_range tr n l : tr <> [] -> (forall m, In m tr -> pm1 (at2 m n l)) -> -1 <= mean_at tr n l <= 1.
Proof.
  intros Hne H. unfold mean_at. rewrite pm_sum by assumption.
  assert (HT : 0 < INR (List.length tr)) by (apply lt_0_INR; destruct tr; [congruence|cbn; lia]).
  set (k := List.length (filter _ tr)).
  assert (Hk : (k <= List.length tr)%nat).
  { unfold k. etransitivity; [apply (filter_length_le _ (fun _ => true)); reflexivity|]. clear. induction tr; cbn; lia. }
  apply le_INR in Hk. pose proof (pos_INR k).
  split; apply (Rmult_le_reg_r (INR (List.length tr))); try assumption; unfold Rdiv; rewrite Rmult_assoc, Rinv_l by lra; lra.
Qed.
Lemma ncols_cols (m : mat) L : has_cols m L -> m <> [] -> ncols m = L.
Proof. intros H Hne. destruct m as [|r m]; [congruence|]. inversion H; subst. reflexivity. Qed.
Lemma rmat_build_row N D f n : (n < N)%nat -> nth n (rmat_build N D f) [] = map (f n) (seq 0 D).
Proof. intros H. unfold rmat_build. exact (nth_map_seq (fun n => map (f n) (seq 0 D)) N n [] H). Qed.

Lemma mean_build L T f : factor_ok L T f -> (1 <= T)%nat ->
  exists tr, f_trace f = Some tr /\ tr <> [] /\
    factor_mean f = rmat_build (List.length (f_val f)) L (mean_at tr) /\
    forall n l m, (n < List.length (f_val f))%nat -> (l < L)%nat -> In m tr -> pm1 (at2 m n l).
Proof.
  intros (H1 & H2 & tr & E & HT & HF) HT1. exists tr. split; [exact E|].
  assert (Hne : tr <> []) by (intros ->; cbn in HT; lia). split; [exact Hne|]. split.
  - unfold factor_mean. rewrite E. destruct tr as [|m0 tr]; [congruence|]. cbn [hd].
    inversion HF as [|? ? (K1 & K2 & K3) _]; subst. replace (nrows m0) with (List.length (f_val f)) by (symmetry; exact K1).
    destruct (f_val f) as [|r v] eqn:Ev; [reflexivity|]. rewrite (ncols_cols m0 L K2); [reflexivity|].
    intros ->. cbn in K1. lia.
  - intros n l m Hn Hl Hm. rewrite Forall_forall in HF. destruct (HF m Hm) as (K1 & K2 & K3).
    apply (bin2_at m (List.length (f_val f)) L); try assumption. split; assumption.
Qed.
Lemma threshold_ok L T f : factor_ok L T f -> (1 <= T)%nat ->
  majority_of f (threshold (factor_mean f)) L /\ bin2 (threshold (factor_mean f)).
Proof.
  intros HF HT. destruct (mean_build L T f HF HT) as (tr & E & Hne & EM & Hpm). rewrite EM. unfold majority_of. rewrite E.
  assert (Et : threshold (rmat_build (List.length (f_val f)) L (mean_at tr)) =
    map (fun n => map (fun l => (2 * (if Rltb 0 (mean_at tr n l) then 1 else 0) - 1)%Z) (seq 0 L)) (seq 0 (List.length (f_val f)))).
  { unfold threshold, rmat_build. rewrite map_map. apply map_ext. intros n. rewrite map_map. reflexivity. }
  rewrite Et. destruct (map_shape2 (fun n l => (2 * (if Rltb 0 (mean_at tr n l) then 1 else 0) - 1)%Z) (List.length (f_val f)) L) as [S1 S2].
  split; [split; [exact S1|split; [exact S2|]]|].
  - intros n l Hn Hl. rewrite at2_map by assumption.
    rewrite mean_majority by (assumption || (intros m Hm; apply Hpm; assumption)). destruct (majority tr n l); reflexivity.
  - apply Forall_forall. intros r Hr. apply in_map_iff in Hr. destruct Hr as (n & <- & _).
    apply Forall_forall. intros x Hx. apply in_map_iff in Hx. destruct Hx as (l & <- & _).
    destruct (Rltb 0 (mean_at tr n l)); [left|right]; reflexivity.
Qed.
Lemma set_to_map_threshold f : f_val (set_to_map f) = threshold (factor_mean f).
Proof.
  unfold set_to_map, threshold. cbn [f_val]. rewrite map_map. apply map_ext. intros r. rewrite map_map. apply map_ext. intros x.
  destruct (Rltb 0 x); reflexivity.
Qed.

(** * The branch taken *)
Lemma output_branch argsort technique noisy s o i : is_model s o i ->
  snd (output argsort technique noisy false true s) = lom_branch technique (model_name o i) noisy s.
Proof.
  intros H. unfold output. assert (E : forall x : option ndR, match x, false with Some p, true => (s, Ok p) | _, _ =>
    (let is_ibp := String.eqb (l_model s) "OR-AND-IBP" in
      let s1 := if is_ibp then set_model s "OR-AND" else s in
      let out :=
        if String.eqb (l_model s1) "MAX-AND" then max_and_output argsort technique s1
        else if String.eqb (l_model s1) "qL-AND" then qL_output s1
        else lom_branch technique (l_model s1) noisy s1 in
      match out with
      | Err e => (s1, Err e)
      | Ok o =>
          let s2 := set_prediction s1 o in
          let s3 := if is_ibp then set_model s2 "OR-AND-IBP" else s2 in
          (s3, Ok (if true then o else ndR_map (fun x => 2 * x - 1) o))
      end) end = 
    (let is_ibp := String.eqb (l_model s) "OR-AND-IBP" in
      let s1 := if is_ibp then set_model s "OR-AND" else s in
      let out :=
        if String.eqb (l_model s1) "MAX-AND" then max_and_output argsort technique s1
        else if String.eqb (l_model s1) "qL-AND" then qL_output s1
        else lom_branch technique (l_model s1) noisy s1 in
      match out with
      | Err e => (s1, Err e)
      | Ok o =>
          let s2 := set_prediction s1 o in
          let s3 := if is_ibp then set_model s2 "OR-AND-IBP" else s2 in
          (s3, Ok (if true then o else ndR_map (fun x => 2 * x - 1) o))
      end)) by (intros [x|]; reflexivity).
  rewrite E. clear E. destruct H as [H|(H & -> & ->)].
  - assert (E1 : String.eqb (l_model s) "OR-AND-IBP" = false) by (rewrite H; destruct o, i; reflexivity).
    assert (E2 : String.eqb (l_model s) "MAX-AND" = false) by (rewrite H; destruct o, i; reflexivity).
    assert (E3 : String.eqb (l_model s) "qL-AND" = false) by (rewrite H; destruct o, i; reflexivity).
    cbv zeta. rewrite E1, E2, E3, H. destruct (lom_branch technique (model_name o i) noisy s); reflexivity.
  - cbv zeta. rewrite H. cbn [String.eqb Ascii.eqb Bool.eqb]. cbn [l_model set_model].
    change (String.eqb "OR-AND" "MAX-AND") with false. change (String.eqb "OR-AND" "qL-AND") with false. cbv iota.
    change (lom_branch technique "OR-AND" noisy (set_model s "OR-AND")) with (lom_branch technique (model_name OR AND) noisy s).
    destruct (lom_branch technique (model_name OR AND) noisy s); reflexivity.
Qed.
Lemma branch_noise technique model noisy s out sh F : lom_technique technique model s = Ok out -> valued out sh F ->
  exists out', lom_branch technique model noisy s = Ok out' /\
    valued out' sh (fun idx => if noisy then noisy_emission (F idx) (rat (lbda_mean s) 0) else F idx).
Proof.
  intros E V. unfold lom_branch. rewrite E. cbn [bind]. destruct noisy; eexists; (split; [reflexivity|]).
  - exact (ndR_map_valued (fun x => noisy_emission x (rat (lbda_mean s) 0)) out sh F V).
  - exact V.
Qed.

(** * C23 *)
Definition truth (o i : lop) (rows : list vec) (L : nat) : R := if lom_b o i rows L then 1 else 0.
Lemma technique_pe s o i L T : sampled s L T -> exists out, lom_technique "point_estimate" (model_name o i) s = Ok out /\
  valued out (sizes s) (fun idx => truth o i (selected (map f_val (l_factors s)) idx) L).
Proof.
  intros (Hne & HF & HT & _). unfold lom_technique. cbn [String.eqb Ascii.eqb Bool.eqb].
  destruct (fast_valued o i (map f_val (l_factors s)) L (fun x => (1 + IZR x) * (5 / 10))) as (out & E & V).
  - destruct (l_factors s); [congruence|discriminate].
  - apply Forall_map. eapply Forall_impl; [|exact HF]. intros f H. apply H.
  - apply Forall_map. eapply Forall_impl; [|exact HF]. intros f H. apply H.
  - rewrite E. cbn [bind]. eexists. split; [reflexivity|]. rewrite map_map in V. eapply valued_ext; [|exact V].
    intros idx _. unfold outz, truth. destruct (lom_b _ _ _ _); lra.
Qed.
Lemma technique_map s o i L T : sampled s L T -> exists out, lom_technique "factor_map" (model_name o i) s = Ok out /\
  valued out (sizes s) (fun idx => truth o i (selected (map (fun f => threshold (factor_mean f)) (l_factors s)) idx) L).
Proof.
  intros (Hne & HF & HT & _). unfold lom_technique. cbn [String.eqb Ascii.eqb Bool.eqb].
  destruct (fast_valued o i (map (fun f => threshold (factor_mean f)) (l_factors s)) L (fun x => if (x =? 1)%Z then 1 else 0)) as (out & E & V).
  - destruct (l_factors s); [congruence|discriminate].
  - apply Forall_map. eapply Forall_impl; [|exact HF]. intros f H. apply (threshold_ok L T f H HT).
  - apply Forall_map. eapply Forall_impl; [|exact HF]. intros f H. apply (threshold_ok L T f H HT).
  - rewrite E. cbn [bind]. eexists. split; [reflexivity|]. rewrite map_map in V.
    assert (Es : map (fun f => List.length (threshold (factor_mean f))) (l_factors s) = sizes s).
    { unfold sizes. apply map_ext_in. intros f Hf. rewrite Forall_forall in HF. destruct (threshold_ok L T f (HF f Hf) HT) as [[K _] _]. exact K. }
    assert (V' : valued (nd_mapR (fun x => if (x =? 1)%Z then 1 else 0) out) (sizes s)
      (fun idx => if (outz o i (selected (map (fun f => threshold (factor_mean f)) (l_factors s)) idx) L =? 1)%Z then 1 else 0)).
    { rewrite <- Es. exact V. }
    eapply valued_ext; [|exact V']. intros idx _. cbv beta. unfold outz, truth. destruct (lom_b _ _ _ _); reflexivity.
Qed.
Lemma mc_count (p : nat -> bool) ts : Rsum (fun t => if p t then 1 else -1) ts = 2 * INR (List.length (filter p ts)) - INR (List.length ts).
Proof.
  induction ts as [|t ts IH]; [cbn; lra|]. cbn [Rsum fold_right filter List.length]. unfold Rsum in IH. rewrite IH, S_INR.
  destruct (p t); [cbn [List.length]; rewrite S_INR|]; lra.
Qed.
Lemma technique_mc s o i L T : sampled s L T -> exists out, lom_technique "mc" (model_name o i) s = Ok out /\
  valued out (sizes s) (fun idx => INR (List.length (filter (fun t => lom_b o i (selected (sample s t) idx) L) (seq 0 T))) / INR T).
Proof.
  intros (Hne & HF & HT & tr & Etr & HTr). unfold lom_technique. cbn [String.eqb Ascii.eqb Bool.eqb]. rewrite Etr, HTr.
  destruct (mc_valued (fun _ ms => bind (lom_generate_data_fast ms (model_name o i)) (fun o => Ok (nd_mapR IZR o)))
    (l_factors s) (sizes s) (fun t idx => IZR (outz o i (selected (sample s t) idx) L)) (sample s) (seq 0 T)
    (ndR_build (map (fun f => nrows (f_val f)) (l_factors s)) (fun _ => 0)) (fun _ => 0)) as (out & E & V).
  - intros t Ht. apply in_seq in Ht. split; [apply (samples_ok s L T); [assumption|lia]|].
    destruct (sample_ok s L T t HF ltac:(lia)) as (S1 & S2 & S3).
    destruct (fast_valued o i (sample s t) L IZR) as (o' & E & V); [|assumption|assumption|].
    { unfold sample. destruct (l_factors s); [congruence|discriminate]. }
    rewrite E. cbn [bind]. eexists. split; [reflexivity|]. rewrite <- S3. exact V.
  - apply valued_build.
  - change (map (fun f => nrows (f_val f)) (l_factors s)) with (sizes s) in E |- *. rewrite E. cbn [bind].
    eexists. split; [reflexivity|].
    eapply valued_ext; [|exact (ndR_map_valued (fun x => (1 + x / INR T) * (5 / 10)) out (sizes s) _ V)].
    intros idx _. cbv beta.
    assert (HTp : 0 < INR T) by (apply lt_0_INR; lia).
    replace (Rsum (fun t => IZR (outz o i (selected (sample s t) idx) L)) (seq 0 T))
      with (Rsum (fun t => if lom_b o i (selected (sample s t) idx) L then 1 else -1) (seq 0 T)).
    + rewrite mc_count, seq_length. field. lra.
    + apply Rsum_ext. intros t _. unfold outz. destruct (lom_b _ _ _ _); reflexivity.
Qed.
Lemma truth_spec o i rows L : (lom_true o i rows L -> truth o i rows L = 1) /\ (~ lom_true o i rows L -> truth o i rows L = 0).
Proof.
  unfold truth. pose proof (lom_true_b o i rows L) as H. destruct (lom_b o i rows L); split; intros K; try reflexivity.
  - exfalso. apply K. apply H. reflexivity.
  - apply H in K. discriminate.
Qed.
Lemma C23_lemma argsort s o i L T : sampled s L T -> is_model s o i ->
  (exists out, snd (output argsort "mc" false false true s) = Ok out /\
     all_entries out (sizes s) (fun idx x => exists p : nat -> bool,
       (forall t, p t = true <-> lom_true o i (selected (sample s t) idx) L) /\
       x = INR (List.length (filter p (seq 0 T))) / INR T)) /\
  (exists out, snd (output argsort "point_estimate" false false true s) = Ok out /\
     all_entries out (sizes s) (fun idx x =>
       (lom_true o i (selected (map f_val (l_factors s)) idx) L -> x = 1) /\
       (~ lom_true o i (selected (map f_val (l_factors s)) idx) L -> x = 0))) /\
  (exists out ms, snd (output argsort "factor_map" false false true s) = Ok out /\
     Forall2 (fun f m => majority_of f m L) (l_factors s) ms /\
     all_entries out (sizes s) (fun idx x =>
       (lom_true o i (selected ms idx) L -> x = 1) /\ (~ lom_true o i (selected ms idx) L -> x = 0))) /\
  (forall f, In f (l_factors s) -> majority_of f (f_val (set_to_map f)) L /\ f_trace (set_to_map f) = f_trace f).
Proof.
  intros HS HM. rewrite !(output_branch _ _ _ _ o i HM). split; [|split; [|split]].
  - destruct (technique_mc s o i L T HS) as (out & E & V). destruct (branch_noise _ _ false s out _ _ E V) as (out' & E' & V').
    exists out'. split; [exact E'|]. apply (valued_all _ _ _ _ V'). intros idx _. cbv beta iota.
    exists (fun t => lom_b o i (selected (sample s t) idx) L). split; [|reflexivity]. intros t. symmetry. apply lom_true_b.
  - destruct (technique_pe s o i L T HS) as (out & E & V). destruct (branch_noise _ _ false s out _ _ E V) as (out' & E' & V').
    exists out'. split; [exact E'|]. apply (valued_all _ _ _ _ V'). intros idx _. apply truth_spec.
  - destruct (technique_map s o i L T HS) as (out & E & V). destruct (branch_noise _ _ false s out _ _ E V) as (out' & E' & V').
    exists out', (map (fun f => threshold (factor_mean f)) (l_factors s)). split; [exact E'|]. split.
    + destruct HS as (_ & HF & HT & _). clear - HF HT. induction HF; cbn; constructor; [apply (threshold_ok L T); assumption|assumption].
    + apply (valued_all _ _ _ _ V'). intros idx _. apply truth_spec.
  - intros f Hf. destruct HS as (_ & HF & HT & _). rewrite Forall_forall in HF. rewrite set_to_map_threshold.
    split; [apply (threshold_ok L T f (HF f Hf) HT)|reflexivity].
Qed.

(** * C22 *)
Lemma ratio_range a b : 0 <= a <= b -> 0 < b -> 0 <= a / b <= 1.
Proof. intros H Hb. split; apply (Rmult_le_reg_r b); try assumption; unfold Rdiv; rewrite Rmult_assoc, Rinv_l by lra; lra. Qed.
Lemma is_expect_ext o i K L p q hi lo v : (forall k l, (k < K)%nat -> (l < L)%nat -> p k l = q k l) ->
  is_expect o i K L p hi lo v -> is_expect o i K L q hi lo v.
Proof.
  intros E H val Hv. rewrite <- (H val Hv). apply Rsum_ext. intros t _. f_equal. unfold table_weight.
  apply Rprod_ext. intros l Hl. apply in_seq in Hl. apply Rprod_ext. intros k Hk. apply in_seq in Hk.
  rewrite E by lia. reflexivity.
Qed.
Lemma freq_mean L T f : factor_ok L T f -> (1 <= T)%nat ->
  map (map (fun m => (m + 1) * (5 / 10))) (factor_mean f) =
    map (fun n => map (fun l => frequency f n l) (seq 0 L)) (seq 0 (List.length (f_val f))).
Proof.
  intros HF HT. destruct (mean_build L T f HF HT) as (tr & E & Hne & EM & Hpm). rewrite EM. unfold rmat_build, frequency. rewrite E.
  rewrite map_map. apply map_ext_in. intros n Hn. apply in_seq in Hn. rewrite map_map. apply map_ext_in. intros l Hl. apply in_seq in Hl.
  unfold mean_at. rewrite pm_sum by (intros m Hm; apply Hpm; [lia|lia|assumption]). 
  assert (0 < INR (List.length tr)) by (apply lt_0_INR; destruct tr; [congruence|cbn; lia]). field. lra.
Qed.
Lemma frequency_range f n l : (exists tr, f_trace f = Some tr /\ tr <> []) -> 0 <= frequency f n l <= 1.
Proof.
  intros (tr & E & Hne). unfold frequency. rewrite E.
  assert (0 < INR (List.length tr)) by (apply lt_0_INR; destruct tr; [congruence|cbn; lia]).
  set (k := List.length (filter _ tr)).
  assert (Hk : (k <= List.length tr)%nat).
  { unfold k. etransitivity; [apply (filter_length_le _ (fun _ => true)); reflexivity|]. clear. induction tr; cbn; lia. }
  apply le_INR in Hk. pose proof (pos_INR k).
  split; apply (Rmult_le_reg_r (INR (List.length tr))); try assumption; unfold Rdiv; rewrite Rmult_assoc, Rinv_l by lra; lra.
Qed.
Lemma factor_ok_traced L T f : factor_ok L T f -> (1 <= T)%nat -> exists tr, f_trace f = Some tr /\ tr <> [].
Proof. intros (_ & _ & tr & E & HT & _) H. exists tr. split; [exact E|]. intros ->. cbn in HT. lia. Qed.
Lemma freq_row f L n N : (n < N)%nat ->
  nth n (map (fun n => map (fun l => frequency f n l) (seq 0 L)) (seq 0 N)) [] = map (fun l => frequency f n l) (seq 0 L).
Proof. intros H. exact (nth_map_seq (fun n => map (fun l => frequency f n l) (seq 0 L)) N n [] H). Qed.
Lemma freq_probs L T f n : factor_ok L T f -> (1 <= T)%nat -> probs (map (fun l => frequency f n l) (seq 0 L)).
Proof.
  intros H HT. apply Forall_map. apply Forall_forall. intros l _. apply frequency_range. apply (factor_ok_traced L T); assumption.
Qed.
Lemma technique_mean s o i L T : sampled s L T -> fuzzy_supported s o i ->
  exists out F, lom_technique "factor_mean" (model_name o i) s = Ok out /\ valued out (sizes s) F /\
    forall idx, Forall2 lt idx (sizes s) -> 0 <= F idx <= 1 /\
      is_prob o i (List.length (l_factors s)) L
        (fun k l => frequency (nth k (l_factors s) {| f_val := []; f_trace := None |}) (nth k idx 0%nat) l) (F idx).
Proof.
  intros (Hne & HF & HT & _) [[HK HI]|[HK HI]]; unfold lom_technique; cbn [String.eqb Ascii.eqb Bool.eqb]; unfold sizes.
  - destruct (l_factors s) as [|z [|u [|? ?]]]; try discriminate. inversion HF as [|? ? Hz HF']; subst. inversion HF' as [|? ? Hu _]; subst.
    cbn [map]. rewrite (freq_mean L T z Hz HT), (freq_mean L T u Hu HT).
    destruct (C19_lemma o i HI) as (f & Ef & Hf & _).
    assert (EI : existsb (String.eqb (model_name o i)) implemented_loms = true).
    { clear - HI. cbn [implemented In] in HI. repeat (destruct HI as [HI|HI]; [injection HI as <- <-; reflexivity|]). contradiction. }
    unfold lom_generate_data_fast_fuzzy. rewrite EI. cbn [negb]. rewrite Ef. eexists. eexists. split; [reflexivity|].
    unfold output_function_2d_fuzzy. unfold nrows. rewrite !map_length, !seq_length. split; [apply valued_build|].
    intros idx Hi. inversion Hi as [|a ? ? ? Ha Hr]; subst. inversion Hr as [|b ? ? ? Hb Hr']; subst. inversion Hr'; subst.
    cbn [nth]. rewrite !freq_row by assumption.
    destruct (Hf (map (fun l => frequency z a l) (seq 0 L)) (map (fun l => frequency u b l) (seq 0 L)) L) as [P1 P2];
      [rewrite map_length, seq_length; reflexivity|rewrite map_length, seq_length; reflexivity|].
    split; [apply P2; eapply freq_probs; eassumption|]. cbn [List.length]. eapply is_expect_ext; [|exact P1].
    intros k l Hk Hl. destruct k as [|[|k]]; [| |lia]; cbn [nth];
      [exact (nth_map_seq (fun l => frequency z a l) L l 0 Hl)|exact (nth_map_seq (fun l => frequency u b l) L l 0 Hl)].
  - injection HI as -> ->. destruct (l_factors s) as [|z [|u [|v [|? ?]]]]; try discriminate. inversion HF as [|? ? Hz HF']; subst.
    inversion HF' as [|? ? Hu HF'']; subst. inversion HF'' as [|? ? Hv _]; subst.
    cbn [map]. rewrite (freq_mean L T z Hz HT), (freq_mean L T u Hu HT), (freq_mean L T v Hv HT).
    destruct (C20_lemma OR AND) as (f & Ef & Hf & _); [cbn; auto|discriminate|].
    unfold lom_generate_data_fast_fuzzy. change (existsb (String.eqb (model_name OR AND)) implemented_loms) with true. cbn [negb].
    change (String.eqb (model_name OR AND) "OR-AND") with true. cbv iota. rewrite Ef. eexists. eexists. split; [reflexivity|].
    unfold output_function_3d_fuzzy. unfold nrows. rewrite !map_length, !seq_length. split; [apply valued_build|].
    intros idx Hi. inversion Hi as [|a ? ? ? Ha Hr]; subst. inversion Hr as [|b ? ? ? Hb Hr']; subst. inversion Hr' as [|c ? ? ? Hc Hr'']; subst.
    inversion Hr''; subst. cbn [nth]. rewrite !freq_row by assumption.
    destruct (Hf (map (fun l => frequency z a l) (seq 0 L)) (map (fun l => frequency u b l) (seq 0 L)) (map (fun l => frequency v c l) (seq 0 L)) L) as [P1 P2];
      [rewrite map_length, seq_length; reflexivity|rewrite map_length, seq_length; reflexivity|rewrite map_length, seq_length; reflexivity|].
    split; [apply P2; eapply freq_probs; eassumption|]. cbn [List.length]. eapply is_expect_ext; [|exact P1].
    intros k l Hk Hl. destruct k as [|[|[|k]]]; [| | |lia]; cbn [nth];
      [exact (nth_map_seq (fun l => frequency z a l) L l 0 Hl)|exact (nth_map_seq (fun l => frequency u b l) L l 0 Hl)|
       exact (nth_map_seq (fun l => frequency v c l) L l 0 Hl)].
Qed.
Lemma noisy_range (noisy : bool) x lam : 0 <= x <= 1 -> 0 <= (if noisy then noisy_emission x lam else x) <= 1.
Proof.
  intros H. destruct noisy; [|exact H]. destruct C24_lemma as [K _]. destruct (K x lam H) as [[K1 K2] _].
  pose proof (sigma_pos (- Rabs lam)). pose proof (sigma_lt1 (Rabs lam)). lra.
Qed.
Lemma truth_range o i rows L : 0 <= truth o i rows L <= 1.
Proof. unfold truth. destruct (lom_b _ _ _ _); lra. Qed.
Lemma C22_lemma argsort s o i L T technique noisy : sampled s L T -> is_model s o i ->
  (technique = "point_estimate" \/ technique = "factor_map" \/ technique = "mc" \/ (technique = "factor_mean" /\ fuzzy_supported s o i))%string ->
  exists out, snd (output argsort technique noisy false true s) = Ok out /\ all_entries out (sizes s) (fun _ x => 0 <= x <= 1).
Proof.
  intros HS HM HT. rewrite (output_branch _ _ _ _ o i HM).
  assert (K : exists out F, lom_technique technique (model_name o i) s = Ok out /\ valued out (sizes s) F /\
    forall idx, Forall2 lt idx (sizes s) -> 0 <= F idx <= 1).
  { destruct HT as [->|[->|[->|[-> HU]]]].
    - destruct (technique_pe s o i L T HS) as (out & E & V). do 2 eexists. split; [exact E|]. split; [exact V|]. intros. apply truth_range.
    - destruct (technique_map s o i L T HS) as (out & E & V). do 2 eexists. split; [exact E|]. split; [exact V|]. intros. apply truth_range.
    - destruct (technique_mc s o i L T HS) as (out & E & V). do 2 eexists. split; [exact E|]. split; [exact V|]. intros idx _.
      assert (HTT : (1 <= T)%nat) by apply HS. assert (0 < INR T) by (apply lt_0_INR; lia).
      set (k := List.length (filter (fun t => lom_b o i (selected (sample s t) idx) L) (seq 0 T))).
      assert (Hk : (k <= T)%nat).
      { unfold k. rewrite <- (seq_length T 0) at 2. generalize (seq 0 T). intros l. etransitivity; [apply (filter_length_le _ (fun _ => true)); reflexivity|]. clear. induction l; cbn; lia. }
      apply le_INR in Hk. pose proof (pos_INR k).
      apply ratio_range; [split; assumption|assumption].
    - destruct (technique_mean s o i L T HS HU) as (out & F & E & V & H). do 2 eexists. split; [exact E|]. split; [exact V|]. intros. apply H; assumption. }
  destruct K as (out & F & E & V & H). destruct (branch_noise _ _ noisy s out _ _ E V) as (out' & E' & V').
  exists out'. split; [exact E'|]. apply (valued_all _ _ _ _ V'). intros idx Hi. apply noisy_range. apply H. assumption.
Qed.
Lemma C22_mean_lemma argsort s o i L T : sampled s L T -> is_model s o i -> fuzzy_supported s o i ->
  exists out, snd (output argsort "factor_mean" false false true s) = Ok out /\
    all_entries out (sizes s) (fun idx x =>
      is_prob o i (List.length (l_factors s)) L
        (fun k l => frequency (nth k (l_factors s) {| f_val := []; f_trace := None |}) (nth k idx 0%nat) l) x).
Proof.
  intros HS HM HU. rewrite (output_branch _ _ _ _ o i HM). destruct (technique_mean s o i L T HS HU) as (out & F & E & V & H).
  destruct (branch_noise _ _ false s out _ _ E V) as (out' & E' & V'). exists out'. split; [exact E'|].
  apply (valued_all _ _ _ _ V'). intros idx Hi. apply H. assumption.
Qed.

(** MAX-AND *)
Lemma fold_build (argstep : nat -> rmat) ls N D : forall out, (exists f, out = rmat_build N D f) ->
  exists f, fold_left (fun out l => fill_zeros out (argstep l) N D) ls out = rmat_build N D f.
Proof. induction ls as [|l ls IH]; intros out H; [exact H|]. cbn [fold_left]. apply IH. eexists. reflexivity. Qed.
Lemma max_and_valued argsort A B lam N D L : (forall v, is_argsort v (argsort v)) -> has_shape2 A N L -> has_shape2 B D L -> is_disp L lam ->
  exists out F, max_and argsort [A; B] lam = Ok out /\ valued out [N; D] F /\ forall idx, Forall2 lt idx [N; D] -> 0 <= F idx <= 1.
Proof.
  intros HS HA HB [HL HD]. unfold max_and. eexists.
  assert (E : exists f, MAX_AND_product_2d argsort A B lam = rmat_build N D f).
  { unfold MAX_AND_product_2d. replace (nrows A) with N by (symmetry; apply HA). replace (nrows B) with D by (symmetry; apply HB).
    apply (fold_build (fun l_idx => rmat_build N D (fun n d => rat lam l_idx * IZR (at2 (OR_AND_product_expand (col A l_idx) (col B l_idx)) n d)))).
    eexists. reflexivity. }
  destruct E as [f E].
  exists (fun idx => f (nth 0 idx 0%nat) (nth 1 idx 0%nat)). split; [reflexivity|]. split; [rewrite E; apply ndR_of_rmat_valued|].
  intros idx Hi. inversion Hi as [|n ? ? ? Hn Hr]; subst. inversion Hr as [|d ? ? ? Hd Hr']; subst. inversion Hr'; subst. cbn [nth].
  assert (Ef : f n d = rat2 (MAX_AND_product_2d argsort A B lam) n d) by (rewrite E; symmetry; apply rat2_build; assumption).
  rewrite Ef. destruct (C39_min_lemma argsort A B lam N D L HS HA HB HL) with (n := n) (d := d) as [[(l & Hl & _ & El) _]|[_ ->]]; try assumption; [| |lra].
  - intros l Hl. rewrite Forall_forall in HD. apply HD. apply nth_In. lia.
  - rewrite <- El. rewrite Forall_forall in HD. assert (K := HD (nth l lam 0) ltac:(apply nth_In; lia)). lra.
Qed.
Lemma output_max argsort technique noisy s : l_model s = "MAX-AND"%string ->
  snd (output argsort technique noisy false true s) = max_and_output argsort technique s.
Proof.
  intros H. unfold output. rewrite H. cbn [String.eqb Ascii.eqb Bool.eqb]. rewrite H. cbn [String.eqb Ascii.eqb Bool.eqb].
  destruct (l_prediction s), (max_and_output argsort technique s); reflexivity.
Qed.
Lemma C22_max_lemma argsort s L T technique noisy : (forall v, is_argsort v (argsort v)) -> sampled s L T -> l_model s = "MAX-AND"%string ->
  List.length (l_factors s) = 2%nat -> is_disp L (l_lbda s) -> (forall tr, l_lbda_trace s = Some tr -> Forall (is_disp L) tr) ->
  (technique = "point_estimate" \/ technique = "factor_map" \/ technique = "mc")%string ->
  exists out, snd (output argsort technique noisy false true s) = Ok out /\ all_entries out (sizes s) (fun _ x => 0 <= x <= 1).
Proof.
  intros HS (Hne & HF & HT & tr & Etr & HTr) HM HK HD HDt Ht. rewrite output_max by assumption.
  specialize (HDt tr Etr). unfold max_and_output, sizes.
  assert (ES : forall t, (t < T)%nat -> samples_at (l_factors s) t = Ok (sample s t)) by (intros; apply (samples_ok s L T); assumption).
  assert (HSm : forall t, (t < T)%nat -> Forall (fun m => has_cols m L) (sample s t) /\ map (fun m => List.length m) (sample s t) = sizes s).
  { intros t Htt. destruct (sample_ok s L T t HF Htt) as (S1 & _ & S3). split; assumption. }
  unfold sizes in HSm. unfold sample in *.
  destruct (l_factors s) as [|z [|u [|? ?]]]; try discriminate. inversion HF as [|? ? Hz HF']; subst. inversion HF' as [|? ? Hu _]; subst.
  destruct Ht as [-> |[-> | ->]]; cbn [String.eqb Ascii.eqb Bool.eqb map].
  - destruct (max_and_valued argsort (f_val z) (f_val u) (l_lbda s) (List.length (f_val z)) (List.length (f_val u)) L) as (out & F & E & V & H);
      [assumption|split; [reflexivity|apply Hz]|split; [reflexivity|apply Hu]|assumption|].
    exists out. split; [exact E|]. apply (valued_all _ _ _ _ V). exact H.
  - destruct (threshold_ok _ _ z Hz HT) as [[Z1 [Z2 _]] _]. destruct (threshold_ok _ _ u Hu HT) as [[U1 [U2 _]] _].
    destruct (max_and_valued argsort (threshold (factor_mean z)) (threshold (factor_mean u)) (l_lbda s) (List.length (f_val z)) (List.length (f_val u)) L) as (out & F & E & V & H);
      [assumption|split; assumption|split; assumption|assumption|].
    exists out. split; [exact E|]. apply (valued_all _ _ _ _ V). exact H.
  - rewrite Etr.
    assert (G : forall t, exists G, (t < List.length tr)%nat -> exists o, max_and argsort
        (map (fun f => match f_trace f with Some tr => nth t tr [] | None => [] end) [z; u]) (nth t tr []) = Ok o /\
        valued o [List.length (f_val z); List.length (f_val u)] G /\ forall idx, Forall2 lt idx [List.length (f_val z); List.length (f_val u)] -> 0 <= G idx <= 1).
    { intros t. destruct (Nat.lt_ge_cases t (List.length tr)) as [Hl|Hl]; [|exists (fun _ => 0); intros; lia].
      destruct (HSm t Hl) as [S1 S2]. cbn [map] in *. inversion S1 as [|? ? Sz S1']; subst. inversion S1' as [|? ? Su _]; subst. injection S2 as S3 S4.
      destruct (max_and_valued argsort (match f_trace z with Some tr => nth t tr [] | None => [] end) (match f_trace u with Some tr => nth t tr [] | None => [] end)
        (nth t tr []) (List.length (f_val z)) (List.length (f_val u)) L) as (out & F & E & V & H);
        [assumption|split; assumption|split; assumption|apply Forall_nth'; assumption|].
      exists F. intros _. exists out. split; [exact E|]. split; assumption. }
    assert (GG : exists G : nat -> list nat -> R, forall t, (t < List.length tr)%nat -> exists o, max_and argsort
        (map (fun f => match f_trace f with Some tr => nth t tr [] | None => [] end) [z; u]) (nth t tr []) = Ok o /\
        valued o [List.length (f_val z); List.length (f_val u)] (G t) /\ forall idx, Forall2 lt idx [List.length (f_val z); List.length (f_val u)] -> 0 <= G t idx <= 1).
    { clear - G. remember (List.length tr) as n. clear Heqn. assert (K : forall m, (m <= n)%nat -> exists G : nat -> list nat -> R, forall t, (t < m)%nat -> exists o, max_and argsort
        (map (fun f => match f_trace f with Some tr => nth t tr [] | None => [] end) [z; u]) (nth t tr []) = Ok o /\
        valued o [List.length (f_val z); List.length (f_val u)] (G t) /\ forall idx, Forall2 lt idx [List.length (f_val z); List.length (f_val u)] -> 0 <= G t idx <= 1).
      { induction m as [|m IH]; intros Hm; [exists (fun _ _ => 0); intros; lia|]. destruct (IH ltac:(lia)) as [G1 H1]. destruct (G m) as [g Hg].
        exists (fun t => if Nat.eqb t m then g else G1 t). intros t Ht. destruct (Nat.eqb_spec t m) as [->|Hne]; [apply Hg; lia|apply H1; lia]. }
      apply (K n (le_n n)). }
    destruct GG as [GG HG].
    destruct (mc_valued (fun t ms => max_and argsort ms (nth t tr [])) [z; u] [List.length (f_val z); List.length (f_val u)] GG
      (fun t => map (fun f => match f_trace f with Some tr => nth t tr [] | None => [] end) [z; u]) (seq 0 (List.length tr))
      (ndR_build [nrows (f_val z); nrows (f_val u)] (fun _ => 0)) (fun _ => 0)) as (out & E & V).
    + intros t Hl. apply in_seq in Hl. split; [apply ES; lia|]. destruct (HG t ltac:(lia)) as (o & E & V & _). exists o. split; assumption.
    + apply valued_build.
    + rewrite E. cbn [bind]. eexists. split; [reflexivity|].
      apply (valued_all _ _ _ _ (ndR_map_valued (fun x => x / INR (List.length tr)) out _ _ V)). intros idx Hi. cbv beta.
      assert (0 < INR (List.length tr)) by (apply lt_0_INR; lia).
      assert (K : forall l, (forall t, In t l -> 0 <= GG t idx <= 1) -> 0 <= Rsum (fun t => GG t idx) l <= INR (List.length l)).
      { clear. induction l as [|t l IH]; intros H; [cbn; lra|]. cbn [Rsum fold_right List.length]. rewrite S_INR.
        pose proof (H t (or_introl eq_refl)). specialize (IH (fun x Hx => H x (or_intror Hx))). unfold Rsum in IH. lra. }
      specialize (K (seq 0 (List.length tr))). rewrite seq_length in K.
      assert (K' := K ltac:(intros t Hl; apply in_seq in Hl; destruct (HG t ltac:(lia)) as (o & _ & _ & H1); apply H1; assumption)).
      split; apply (Rmult_le_reg_r (INR (List.length tr))); try assumption; unfold Rdiv; rewrite Rmult_assoc, Rinv_l by lra; lra.
Qed.

(** * C22: where it fails *)
Lemma C22_refuted_lemma argsort :
  (exists out, snd (output argsort "mc" false false true (ex_state "qL-AND" [ex_factor [1] [1]; ex_factor [1] [1]]%Z [1])) = Ok out /\
     ndR_get out [0; 0]%nat = Some (-1)) /\
  (exists out, snd (output argsort "factor_mean_old" false false true (ex_state "OR-AND" [ex_factor [-1] [-1]; ex_factor [1] [1]]%Z [1])) = Ok out /\
     ndR_get out [0; 0]%nat = Some (-1)) /\
  (exists out, snd (output argsort "factor_mean" false false true
       (ex_state "XOR-AND" [ex_factor [-1] [-1]; ex_factor [1] [1]; ex_factor [1] [1]]%Z [1])) = Ok out /\
     ndR_get out [0; 0; 0]%nat = Some (-1)) /\
  (exists out, snd (output argsort "factor_mean" false false true
       (ex_state "MAX-AND" [ex_factor [1; 1] [1; 1]; ex_factor [1; 1] [1; 1]]%Z [8 / 10; 8 / 10; 1 / 100])) = Ok out /\
     ndR_get out [0; 0]%nat = Some (8 / 5)).
Proof.
  split; [|split; [|split]].
  - eexists. split; [reflexivity|]. reflexivity.
  - eexists. split; [reflexivity|]. cbn. f_equal. unfold fuzzy_entry, fuzzy_fn_OR, fuzzy_fn_AND, mean_at. cbn. lra.
  - eexists. split; [reflexivity|]. cbn. f_equal. unfold generate_entry_real. cbn. unfold mean_at. cbn.
    destruct (Req_EM_T _ 1) as [E|E]; [exfalso; lra|]. cbn. repeat destruct (Req_EM_T _ 1); cbn; lra.
  - eexists. split; [reflexivity|]. cbn. f_equal. unfold rat2, rat, mean_at. cbn.
    repeat match goal with |- context [Rltb ?a ?b] => replace (Rltb a b) with false by (symmetry; apply Rltb_false; lra) end. lra.
Qed.

(** * C60, C61 *)
Lemma output_state argsort technique noisy lazy mtp s : 
  let (s', r) := output argsort technique noisy lazy mtp s in
  (forall out, r = Ok out -> same_but_prediction s s') /\
  (l_model s <> "OR-AND-IBP"%string -> same_but_prediction s s') /\
  l_factors s' = l_factors s /\ l_lbda s' = l_lbda s /\ l_lbda_trace s' = l_lbda_trace s /\ l_child s' = l_child s /\ l_q s' = l_q s /\
  (forall e, r = Err e -> l_prediction s' = l_prediction s).
Proof.
  assert (SB : same_but_prediction s s) by (repeat split).
  assert (K : forall q : bool, let (s', r) :=
      (let is_ibp := String.eqb (l_model s) "OR-AND-IBP" in
      let s1 := if is_ibp then set_model s "OR-AND" else s in
      let out :=
        if String.eqb (l_model s1) "MAX-AND" then max_and_output argsort technique s1
        else if String.eqb (l_model s1) "qL-AND" then qL_output s1
        else lom_branch technique (l_model s1) noisy s1 in
      match out with
      | Err e => (s1, Err e)
      | Ok o =>
          let s2 := set_prediction s1 o in
          let s3 := if is_ibp then set_model s2 "OR-AND-IBP" else s2 in
          (s3, Ok (if mtp then o else ndR_map (fun x => 2 * x - 1) o))
      end) in
    (forall out, r = Ok out -> same_but_prediction s s') /\
    (l_model s <> "OR-AND-IBP"%string -> same_but_prediction s s') /\
    l_factors s' = l_factors s /\ l_lbda s' = l_lbda s /\ l_lbda_trace s' = l_lbda_trace s /\ l_child s' = l_child s /\ l_q s' = l_q s /\
    (forall e, r = Err e -> l_prediction s' = l_prediction s)).
  { intros _. cbv zeta. destruct (String.eqb_spec (l_model s) "OR-AND-IBP") as [E|E].
    - match goal with |- context [match ?o with Ok _ => _ | Err _ => _ end] => destruct o end;
        (split; [try (intros; discriminate)|split; [intros; contradiction|repeat (split; [reflexivity|])]]).
      + intros out _. repeat split. exact (eq_sym E).
      + intros; discriminate.
      + intros; reflexivity.
    - match goal with |- context [match ?o with Ok _ => _ | Err _ => _ end] => destruct o end;
        (split; [intros; try discriminate; repeat split|split; [intros; repeat split|repeat (split; [reflexivity|])]]);
        intros; try discriminate; reflexivity. }
  unfold output. destruct (l_prediction s) eqn:EP, lazy; try exact (K true).
  rewrite <- EP. repeat split.
Qed.
Lemma output_fresh argsort technique noisy mtp s s' : same_but_prediction s s' ->
  snd (output argsort technique noisy false mtp s') = snd (output argsort technique noisy false mtp s).
Proof.
  intros (E1 & E2 & E3 & E4 & E5 & E6). destruct s as [mo fs lb lt ch q p], s' as [mo' fs' lb' lt' ch' q' p'].
  cbn [l_model l_factors l_lbda l_lbda_trace l_child l_q] in *. subst. unfold output. cbn [l_prediction l_model].
  destruct p, p'; cbv zeta; destruct (String.eqb mo "OR-AND-IBP"); cbn [l_model set_model];
    repeat match goal with |- context [if String.eqb ?a ?b then _ else _] => destruct (String.eqb a b) end;
    match goal with
    | |- snd (match ?o with Ok _ => _ | Err _ => _ end) = snd (match ?o' with Ok _ => _ | Err _ => _ end) => change o with o'; destruct o'; reflexivity
    end.
Qed.
Lemma C61_lemma argsort technique noisy s s' out : output argsort technique noisy false true s = (s', Ok out) ->
  snd (output argsort technique noisy true true s') = Ok out /\
  snd (output argsort technique noisy true true s') = snd (output argsort technique noisy false true s').
Proof.
  intros H. pose proof (output_state argsort technique noisy false true s) as HS. rewrite H in HS. destruct HS as [HS _].
  specialize (HS out eq_refl). rewrite (output_fresh _ _ _ _ s s' HS), H. cbn [snd].
  assert (EP : l_prediction s' = Some out).
  { revert H. unfold output. destruct (l_prediction s); cbv zeta;
      match goal with |- context [match ?o with Ok _ => _ | Err _ => _ end] => destruct o end; intros H; try discriminate;
      injection H as <- <-; destruct (String.eqb (l_model s) "OR-AND-IBP"); reflexivity. }
  unfold output at 1 2. rewrite EP. split; reflexivity.
Qed.
Lemma C60_refuted_lemma argsort technique noisy lazy mtp s : l_model s = "OR-AND-IBP"%string -> l_prediction s = None ->
  ~ In technique ["point_estimate"; "factor_map"; "factor_mean"; "factor_mean_old"; "mc"]%string ->
  exists s', output argsort technique noisy lazy mtp s = (s', Err UnboundLocalError) /\ l_model s' = "OR-AND"%string.
Proof.
  intros HM HP Ht. unfold output. rewrite HP. cbv zeta. rewrite HM. cbn [String.eqb Ascii.eqb Bool.eqb l_model set_model].
  assert (E : lom_technique technique "OR-AND" (set_model s "OR-AND") = Err UnboundLocalError).
  { unfold lom_technique. repeat match goal with |- context [String.eqb technique ?x] => destruct (String.eqb_spec technique x) as [->|_]; [exfalso; apply Ht; cbn; tauto|] end. reflexivity. }
  unfold lom_branch. rewrite E. cbn [bind]. eexists. split; reflexivity.
Qed.
Definition ex1 := ex_state "OR-AND" [ex_factor [1] [-1]; ex_factor [1] [1]]%Z [1].
Lemma ex_factor_ok v t L : List.length v = L -> List.length t = L -> Forall pm1 v -> Forall pm1 t -> factor_ok L 1 (ex_factor v t).
Proof.
  intros H1 H2 H3 H4. split; [constructor; [exact H1|constructor]|]. split; [constructor; [exact H3|constructor]|].
  exists [[t]]. split; [reflexivity|]. split; [reflexivity|]. constructor; [|constructor]. split; [reflexivity|].
  split; [constructor; [exact H2|constructor]|constructor; [exact H4|constructor]].
Qed.
Lemma ex1_ok : sampled ex1 1 1 /\ is_model ex1 OR AND.
Proof.
  split; [|left; reflexivity]. split; [discriminate|]. split; [|split; [lia|exists [[1]]; split; reflexivity]].
  assert (P1 : Forall pm1 [1%Z]) by (constructor; [left; reflexivity|constructor]).
  assert (P2 : Forall pm1 [(-1)%Z]) by (constructor; [right; reflexivity|constructor]).
  constructor; [|constructor; [|constructor]]; apply ex_factor_ok; try reflexivity; assumption.
Qed.
Lemma ex1_outputs argsort : exists s1 p s2 m, output argsort "point_estimate" false false true ex1 = (s1, Ok p) /\ ndR_get p [0; 0]%nat = Some 1 /\
  output argsort "mc" false false true s1 = (s2, Ok m) /\ ndR_get m [0; 0]%nat = Some 0 /\
  snd (output argsort "mc" false true true s1) = Ok p /\
  (exists r, snd (output argsort "mc" false false false s1) = Ok r /\ ndR_get r [0; 0]%nat = Some (-1)) /\
  snd (output argsort "mc" false true false s2) = Ok m.
Proof.
  do 4 eexists. split; [reflexivity|]. split; [cbn; f_equal; lra|]. split; [reflexivity|]. split; [cbn; f_equal; lra|].
  split; [reflexivity|]. split; [|reflexivity]. eexists. split; [reflexivity|]. cbn. f_equal. lra.
Qed.
