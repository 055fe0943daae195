(** Proof of C84: averages over the recorded samples are unbiased. *)
From Coq Require Import String Lia Lra Permutation.
From Coquelicot Require Import RInt Hierarchy.
From Verif Require Import Base BaseLemmas BaseR BaseRLemmas Spec SpecR Invariance InvarianceProofs Machine Dispatch Inference SpecMachine SpecOrdinary SpecPass LayerOutput MaxMachine MaxMachineProofs Predict SpecPredict MachineProofs2 BuiltProofs InferenceProofs6 InferenceProofs7 InferenceProofs2 TraceProofs PlainProofs OrdinaryProofs OrdinaryProofs6 OrdinaryProofs7 PassProofs RunProofs PredictProofs.
Local Open Scope R_scope.

Lemma is_E_lin k a b : forall f g u v, is_E k f u -> is_E k g v -> is_E k (fun rs => a * f rs + b * g rs) (a * u + b * v).
Proof.
  induction k as [|k IH]; intros f g u v Hf Hg; cbn [is_E] in *; [rewrite Hf, Hg; reflexivity|].
  destruct Hf as (e1 & H1 & I1). destruct Hg as (e2 & H2 & I2). exists (fun r => a * e1 r + b * e2 r). split.
  - intros r Hr. apply (IH (fun rs => f (r :: rs)) (fun rs => g (r :: rs))); [apply H1|apply H2]; exact Hr.
  - apply (is_RInt_plus (V := R_NormedModule) (fun r => a * e1 r) (fun r => b * e2 r)); apply (is_RInt_scal (V := R_NormedModule)); assumption.
Qed.
Lemma is_EE_lin ks a b : forall f g u v, is_EE ks f u -> is_EE ks g v -> is_EE ks (fun rss => a * f rss + b * g rss) (a * u + b * v).
Proof.
  induction ks as [|k ks IH]; intros f g u v Hf Hg; cbn [is_EE] in *; [rewrite Hf, Hg; reflexivity|].
  destruct Hf as (e1 & H1 & I1). destruct Hg as (e2 & H2 & I2). exists (fun rs => a * e1 rs + b * e2 rs). split; [|apply is_E_lin; assumption].
  intros rs Hl HF. apply (IH (fun rss => f (rs :: rss)) (fun rss => g (rs :: rss))); [apply H1|apply H2]; assumption.
Qed.
Lemma is_EE_sum {A} ks c (l : list A) (f : A -> list (list R) -> R) (v : A -> R) : (forall a, In a l -> is_EE ks (f a) (v a)) ->
  is_EE ks (fun rss => c * Rsum (fun a => f a rss) l) (c * Rsum v l).
Proof.
  induction l as [|a l IH]; intros H.
  - change (Rsum v []) with 0. change (fun rss => c * Rsum (fun a => f a rss) []) with (fun _ : list (list R) => c * 0). apply is_EE_const.
  - change (Rsum v (a :: l)) with (v a + Rsum v l). change (fun rss => c * Rsum (fun a => f a rss) (a :: l)) with (fun rss => c * (f a rss + Rsum (fun a => f a rss) l)).
    eapply is_EE_ext; [intros rss _; rewrite Rmult_plus_distr_l; rewrite <- (Rmult_1_l (c * Rsum _ l)); reflexivity|].
    replace (c * (v a + Rsum v l)) with (c * v a + 1 * (c * Rsum v l)) by ring. apply (is_EE_lin ks c 1 (f a)); [apply H; left; reflexivity|]. apply IH. intros b Hb. apply H. right. exact Hb.
Qed.

(** The trace of one factor *)
Lemma factor_trace fuel o cfg n s s' l i : random o -> sound (wd s) -> (0 <= burn_in_min cfg)%Z -> infer fuel o cfg n s = Some (Ok s') -> (l < List.length (layers (wd s)))%nat -> In i (factors (get_lay (wd s) l)) ->
  fixed (get_mat (wd s) i) = FBool false ->
  exists t, mtr s' i = Some t /\ List.length (mcells t) = n /\ forall j, (j < n)%nat -> okmat (nrows (matrix_of (wd s) i)) (ncols (matrix_of (wd s) i)) (matrix_in (nth j (mcells t) None)).
Proof.
  intros Hr S Hm E Hl Hi Hfx. destruct (run_course _ _ _ _ _ _ l Hr S Hm E Hl) as (ms & ls & s1 & W & K & EP & HW & Wn & HI & HM & HL & _ & _ & _ & _ & HK).
  destruct (prepare_sound _ _ _ _ S EP) as (_ & _ & _ & _ & _ & _ & HIn). destruct (HM i (HIn i (ex_intro _ l (conj Hl Hi)) Hfx)) as (t & E1 & E2 & E3). exists t. split; [exact E1|]. split; [exact E2|].
  assert (EI : is_ibp (W 0%nat) i = false).
  { destruct (HW 0%nat ltac:(lia)) as (S0 & _ & _ & F0 & F1 & F2 & _). unfold is_ibp. destruct (wf_placed _ (so_wf _ S0) l i) as (_ & -> & _); [lia|rewrite F1; exact Hi|]. apply standard_not_ibp, (plain_model _ (so_plain _ S0)). lia. }
  rewrite EI in E3. destruct E3 as (_ & E3). intros j Hj. rewrite (nth_error_nth _ _ None (E3 j Hj)). cbn [matrix_in]. destruct (In_nth _ _ 0%nat Hi) as (k & Hk & Ek).
  destruct (HW (Datatypes.S j) ltac:(lia)) as (_ & _ & _ & _ & _ & _ & _ & F5). destruct (F5 k Hk) as (A & EA & HA). rewrite Ek in EA. rewrite EA.
  destruct (sound_value (wd s) l i S Hl Hi) as (EV & HV & _). destruct (HK k Hk) as (B & EB & HB). rewrite Ek, EV in EB. injection EB as EB. rewrite <- EB in HB.
  eapply okmat_keep; [exact HV|exact HB|exact HA].
Qed.
Lemma mean_entry f tr n N K r c : f_trace f = Some tr -> List.length tr = n -> (1 <= n)%nat -> (forall j, (j < n)%nat -> okmat N K (nth j tr [])) -> (r < N)%nat -> (c < K)%nat ->
  rat2 (factor_mean f) r c = Rsum (fun j => IZR (at2 (nth j tr []) r c)) (seq 0 n) / INR n.
Proof.
  intros E Hn H1 HO Hr Hc. unfold factor_mean. rewrite E. destruct tr as [|m tr]; [cbn in Hn; lia|]. specialize (HO 0%nat ltac:(lia)) as H0. cbn [nth] in H0. cbn [hd]. destruct (okmat_dims N K m H0) as (_ & E1 & [E2|E2]); [lia|].
  rewrite rat2_build by lia. unfold mean_at. rewrite Hn. f_equal. rewrite <- Hn. clear. set (l := m :: tr). clearbody l. 
  induction l as [|a l IH] using rev_ind; [reflexivity|]. rewrite app_length. cbn [List.length]. rewrite Nat.add_1_r, seq_S, !Rsum_app, IH. f_equal.
  - apply Rsum_ext. intros j Hj. apply in_seq in Hj. rewrite app_nth1 by lia. reflexivity.
  - cbn. rewrite app_nth2, Nat.sub_diag by lia. reflexivity.
Qed.

Lemma run_mean_unbiased outs o cfg n s fuel h : outputs outs -> random o -> ordinary o (wd s) -> usable cfg -> annealable cfg (wd s) -> (forall l, (l < List.length (layers (wd s)))%nat -> lfixed (lbda (get_lay (wd s) l)) = true) -> (enough cfg <= fuel)%nat -> (1 <= n)%nat ->
  let w := wd s in let fs := unfixed w in let pl := plan o fs (burn_in_passes cfg + n) (clock w) in let states := choices (map (values_of w) fs) in let weight := fun c => joint outs (puts w fs c) in
  unbiased (fun c rss => run_mean fs n h (infer fuel (with_plan o w pl rss) cfg n (set_wd s (puts w fs c)))) (map (draws_needed w) (map snd pl)) weight states h.
Proof.
  intros H1 H2 H3 H4 HA H5 Hf Hn w fs pl states weight. pose proof (fun j Hj => C81_lemma outs o cfg n s fuel j H1 H2 H3 H4 HA H5 Hf Hj) as G. cbv zeta in G. fold w fs pl states weight in G.
  assert (GE : forall j, exists E : list mat -> R, (j < n)%nat -> (forall c, In c states -> is_EE (map (draws_needed w) (map snd pl)) (fun rss => after_run fs j h (infer fuel (with_plan o w pl rss) cfg n (set_wd s (puts w fs c)))) (E c)) /\ Rsum (fun c => weight c * E c) states = Rsum (fun c => weight c * h c) states).
  { intros j. destruct (Nat.lt_ge_cases j n) as [Hj|Hj]; [|exists (fun _ => 0); lia]. destruct (G j Hj) as (_ & _ & P). destruct (P h) as (E & E1). exists E. intros _. exact E1. }
  assert (GF : exists EF : nat -> list mat -> R, forall j, (j < n)%nat -> (forall c, In c states -> is_EE (map (draws_needed w) (map snd pl)) (fun rss => after_run fs j h (infer fuel (with_plan o w pl rss) cfg n (set_wd s (puts w fs c)))) (EF j c)) /\ Rsum (fun c => weight c * EF j c) states = Rsum (fun c => weight c * h c) states).
  { clear -GE. revert GE. generalize n at 1 3. intros m. induction m as [|m IH]; intros GE; [exists (fun _ _ => 0); lia|]. destruct IH as (EF & HF); [intros j; destruct (GE j) as (E & HE); exists E; intros Hj; apply HE; lia|]. destruct (GE m) as (E & HE). exists (fun j => if Nat.eqb j m then E else EF j). intros j Hj. destruct (Nat.eqb_spec j m) as [->|Ne]; [apply HE; lia|apply HF; lia]. }
  destruct GF as (EF & HF). assert (Hp : INR n <> 0) by (apply not_0_INR; lia). exists (fun c => / INR n * Rsum (fun j => EF j c) (seq 0 n)). split.
  - intros c Hc. eapply is_EE_ext; [|apply (is_EE_sum _ (/ INR n) (seq 0 n) (fun j rss => after_run fs j h (infer fuel (with_plan o w pl rss) cfg n (set_wd s (puts w fs c)))) (fun j => EF j c))].
    + intros rss _. cbn beta. unfold run_mean, after_run. destruct (infer _ _ _ _ _) as [[s'|e]|]; [unfold Rdiv; apply Rmult_comm| |]; (rewrite Rsum_zero by reflexivity; lra).
    + intros j Hj. apply in_seq in Hj. apply HF; [lia|exact Hc].
  - transitivity (/ INR n * Rsum (fun j => Rsum (fun c => weight c * EF j c) states) (seq 0 n)).
    + rewrite (Rsum_swap (fun j c => weight c * EF j c)), <- Rsum_scale. apply Rsum_ext. intros c _. rewrite Rsum_scale. ring.
    + transitivity (/ INR n * Rsum (fun j => Rsum (fun c => weight c * h c) states) (seq 0 n)); [f_equal; apply Rsum_ext; intros j Hj; apply in_seq in Hj; apply HF; lia|].
      generalize (Rsum (fun c => weight c * h c) states). intros v. assert (Q : forall a m, Rsum (fun _ : nat => v) (seq a m) = INR m * v) by (intros a m; revert a; induction m as [|m IH]; intros a; [cbn; lra|]; cbn [seq]; rewrite Rsum_cons, IH, S_INR; lra). rewrite Q. field. exact Hp.
Qed.
Lemma with_plan_random o w pl rss : random o -> Forall (Forall is_draw) rss -> random (with_plan o w pl rss).
Proof.
  intros (H1 & H2) H. split; [exact H1|]. intros k n l. unfold with_plan. cbn [o_cell]. unfold draws_of.
  set (rs := nth _ rss []). assert (HR : Forall is_draw rs). { unfold rs. destruct (nth_in_or_default (place k (map fst pl)) rss []) as [G| ->]; [rewrite Forall_forall in H; apply H, G|constructor]. }
  match goal with |- is_draw (nth ?j rs 0) => destruct (nth_in_or_default j rs 0) as [G| ->] end; [rewrite Forall_forall in HR; apply HR, G|unfold is_draw; lra].
Qed.
(** The reported mean of an entry is the average of the recorded samples. *)
Lemma reported_is_mean o cfg n s fuel : random o -> sound (wd s) -> usable cfg -> (1 <= n)%nat ->
  let w := wd s in let fs := unfixed w in let pl := plan o fs (burn_in_passes cfg + n) (clock w) in let states := choices (map (values_of w) fs) in
  let run := fun c rss => infer fuel (with_plan o w pl rss) cfg n (set_wd s (puts w fs c)) in
  forall i r col, In i fs -> (r < nrows (matrix_of w i))%nat -> (col < ncols (matrix_of w i))%nat -> forall c rss, In c states -> Forall (Forall is_draw) rss ->
  reported_mean i r col (run c rss) = run_mean fs n (fun c => IZR (at2 (nth (place i fs) c []) r col)) (run c rss).
Proof.
  intros H2 SO H4 Hn w fs pl states run i r col Hi Hr Hc c rss Hcs HR.
  fold w in SO. destruct (unfixed_ok w SO) as (_ & Hd & HF). fold fs in Hd, HF. destruct (states_shapes w fs c Hcs) as (G1 & G2). destruct (place_ok i fs Hi) as (P1 & P2).
  assert (G3 : forall k, (k < List.length fs)%nat -> same_shape (matrix_of w (nth k fs 0%nat)) (nth k c [])) by (intros k Hk; destruct (HF _ (nth_In fs 0%nat Hk)) as (l & Hl & Hil); apply (G2 k Hk)).
  destruct (puts_sound fs w c SO Hd HF G1 G3) as (SC & VC & _).
  unfold reported_mean, run_mean. destruct (run c rss) as [[s'|e]|] eqn:ER; [|reflexivity|reflexivity].
  destruct (HF i Hi) as (l & Hl & Hil). destruct (puts_mats w fs c) as (M1 & M2 & _).
  assert (EF : fixed (get_mat w i) = FBool false). { unfold fs, unfixed in Hi. apply filter_In in Hi. destruct Hi as (_ & Hi). destruct (fixed (get_mat w i)) as [[|]|a]; [discriminate|reflexivity|discriminate]. }
  assert (EM : matrix_of (puts w fs c) i = nth (place i fs) c []). { unfold matrix_of. rewrite <- P2 at 1. rewrite VC by exact P1. reflexivity. }
  destruct (factor_trace fuel (with_plan o w pl rss) cfg n (set_wd s (puts w fs c)) s' l i) as (t & T1 & T2 & T3); [apply with_plan_random; assumption|exact SC|apply H4|exact ER| | | |].
  - cbn [set_wd wd]. rewrite M2. exact Hl.
  - cbn [set_wd wd]. unfold get_lay. rewrite M2. exact Hil.
  - cbn [set_wd wd]. unfold get_mat. rewrite M1. exact EF.
  - cbn [set_wd wd] in T3. rewrite EM in T3. pose proof (G2 _ P1) as GK. rewrite P2 in GK.
    rewrite (mean_entry (factor_view s' i) (map matrix_in (mcells t)) n (nrows (nth (place i fs) c [])) (ncols (nth (place i fs) c [])) r col).
    + f_equal. apply Rsum_ext. intros j Hj. apply in_seq in Hj. f_equal. f_equal. change (nth j (map matrix_in (mcells t)) []) with (nth j (map matrix_in (mcells t)) (matrix_in None)). rewrite map_nth. unfold recorded. set (g := fun i => match mtr s' i with Some t => match nth j (mcells t) None with Some (A2 A) => A | _ => [] end | None => [] end).
      transitivity (g i); [unfold g; rewrite T1; destruct (nth j (mcells t) None) as [[A|A]|]; reflexivity|].
      rewrite (nth_indep _ [] (g 0%nat)) by (rewrite map_length; exact P1). rewrite map_nth, P2. reflexivity.
    + cbn [factor_view f_trace]. rewrite T1. reflexivity.
    + rewrite map_length. exact T2.
    + exact Hn.
    + intros j Hj. change (nth j (map matrix_in (mcells t)) []) with (nth j (map matrix_in (mcells t)) (matrix_in None)). rewrite map_nth. apply T3. exact Hj.
    + destruct (okmat_dims _ _ _ GK) as (_ & EN & _). lia.
    + destruct (okmat_dims _ _ _ GK) as (_ & EN & [EC|EC]); lia.
Qed.
Lemma C84_lemma outs o cfg n s : outputs outs -> random o -> ordinary o (wd s) -> usable cfg -> annealable cfg (wd s) -> (forall l, (l < List.length (layers (wd s)))%nat -> lfixed (lbda (get_lay (wd s) l)) = true) -> (1 <= n)%nat ->
  exists F, forall fuel, (F <= fuel)%nat ->
  let w := wd s in let fs := unfixed w in let pl := plan o fs (burn_in_passes cfg + n) (clock w) in let states := choices (map (values_of w) fs) in let weight := fun c => joint outs (puts w fs c) in
  let run := fun c rss => infer fuel (with_plan o w pl rss) cfg n (set_wd s (puts w fs c)) in let ks := map (draws_needed w) (map snd pl) in
  (forall h, unbiased (fun c rss => run_mean fs n h (run c rss)) ks weight states h) /\
  (forall i r col, In i fs -> (r < nrows (matrix_of w i))%nat -> (col < ncols (matrix_of w i))%nat ->
     unbiased (fun c rss => reported_mean i r col (run c rss)) ks weight states (fun c => IZR (at2 (nth (place i fs) c []) r col))).
Proof.
  intros H1 H2 H3 H4 HA H5 Hn. exists (enough cfg). intros fuel Hf w fs pl states weight run ks. split; [intros h; apply (run_mean_unbiased outs o cfg n s fuel h); assumption|].
  intros i r col Hi Hr Hc. destruct (run_mean_unbiased outs o cfg n s fuel (fun c => IZR (at2 (nth (place i fs) c []) r col)) H1 H2 H3 H4 HA H5 Hf Hn) as (E & E1 & E2). exists E. split; [|exact E2]. intros c Hcs. eapply is_EE_ext; [|apply (E1 c Hcs)]. intros rss HR. cbv beta. fold w fs pl. fold (run c rss).
  apply (reported_is_mean o cfg n s fuel H2 (ordinary_sound _ _ H2 H3) H4 Hn i r col Hi Hr Hc c rss Hcs HR).
Qed.
