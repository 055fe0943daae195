(** Proof of C122: long runs in double precision with uniformly random orders. *)
From Coq Require Import String Lia Lra Permutation.
From Verif Require Import Base BaseLemmas BaseR BaseRLemmas Spec SpecR Outputs Scores Sampling SpecFloat Invariance InvarianceProofs HierProofs Canon Machine Dispatch Inference SpecMachine SpecOrdinary SpecPass SpecPredict SpecErgodic MachineProofs MachineProofs2 InferenceProofs BuiltProofs InferenceProofs2 PlainProofs DispatchProofs UpdateProofs SamplingProofs.
From Verif Require Import OrdinaryProofs OrdinaryProofs2 OrdinaryProofs3 OrdinaryProofs4 OrdinaryProofs5 OrdinaryProofs6 OrdinaryProofs7 PassProofs RunProofs UnbiasedProofs ErgodicProofs ErgodicProofs2 ErgodicProofs3 ErgodicProofs6 ErgodicProofs7 ErgodicProofs8.
From Verif Require Import FloatFuzzy FloatProofs SpecFloatRun FloatSampling FloatSampleProofs FloatSampleProofs2 FloatSampleProofs3 FloatSampleProofs4 FloatSampleProofs5 FloatMachine SpecFloatMachine FloatMachineProofs FloatMachineProofs2 FloatMachineProofs3 FloatMachineProofs4.
Local Open Scope R_scope.

(** Chains with a linear, monotone transition K *)
Section Chain.
Context (K : (world -> R) -> world -> R) (live : world -> Prop).
Context (K_lin : forall H G a b w, K (fun w' => a * H w' + b * G w') w = a * K H w + b * K G w) (K_mono : forall H G, (forall w, live w -> H w <= G w) -> forall w, live w -> K H w <= K G w) (K_const : forall k w, live w -> K (fun _ => k) w = k).
Fixpoint kpow (k : nat) (H : world -> R) : world -> R := match k with O => H | S k' => K (kpow k' H) end.
Fixpoint kmean (n : nat) (f : list world -> R) (w : world) : R := match n with O => f [] | S n' => K (fun w' => kmean n' (fun l => f (w' :: l)) w') w end.
Lemma K_eq H G : (forall w, live w -> H w = G w) -> forall w, live w -> K H w = K G w.
Proof. intros E w Hw. apply Rle_antisym; apply K_mono; try assumption; intros w' Hw'; rewrite E by exact Hw'; lra. Qed.
Lemma kmean_eq n : forall f g, (forall l, f l = g l) -> forall w, live w -> kmean n f w = kmean n g w.
Proof. induction n as [|n IH]; intros f g E w Hw; cbn [kmean]; [apply E|]. apply K_eq; [|exact Hw]. intros w' Hw'. apply IH; [|exact Hw']. intros l. apply E. Qed.
Lemma kmean_lin n a b : forall f g w, live w -> kmean n (fun l => a * f l + b * g l) w = a * kmean n f w + b * kmean n g w.
Proof.
  induction n as [|n IH]; intros f g w Hw; cbn [kmean]; [reflexivity|]. rewrite <- K_lin. apply K_eq; [|exact Hw]. intros w' Hw'. apply (IH (fun l => f (w' :: l)) (fun l => g (w' :: l))). exact Hw'.
Qed.
Lemma kmean_const n k : forall w, live w -> kmean n (fun _ => k) w = k.
Proof. induction n as [|n IH]; intros w Hw; cbn [kmean]; [reflexivity|]. rewrite (K_eq _ (fun _ => k)) by assumption. apply K_const, Hw. Qed.
Lemma K_sum {T} (F : T -> world -> R) l : forall w, live w -> K (fun w' => Rsum (fun t => F t w') l) w = Rsum (fun t => K (F t) w) l.
Proof.
  induction l as [|t l IH]; intros w Hw; [exact (K_const 0 w Hw)|]. rewrite (K_eq _ (fun w' => 1 * F t w' + 1 * Rsum (fun t => F t w') l)) by (try assumption; intros; rewrite Rsum_cons; ring). rewrite K_lin, IH, Rsum_cons by exact Hw. ring.
Qed.
Lemma kpow_range k H lo hi : (forall w, live w -> lo <= H w <= hi) -> forall w, live w -> lo <= kpow k H w <= hi.
Proof.
  intros HH. induction k as [|k IH]; intros w Hw; cbn [kpow]; [apply HH, Hw|]. rewrite <- (K_const lo w Hw) at 1. rewrite <- (K_const hi w Hw). split; apply K_mono; try assumption; intros w' Hw'; apply IH, Hw'.
Qed.
Context (X : world -> R) (X1 : forall w, live w -> Rabs (X w) <= 1) (T : nat) (dl : R) (Hdl : 0 <= dl).
Context (Hmix : forall t, (T <= t)%nat -> forall w, live w -> Rabs (kpow t X w) <= dl).
Lemma ksum n : forall w, live w -> kmean n (fun l => Rsum X l) w = Rsum (fun k => kpow k X w) (seq 1 n).
Proof.
  induction n as [|n IH]; intros w Hw; [reflexivity|]. cbn [kmean seq]. rewrite Rsum_cons. cbn [kpow].
  rewrite (K_eq _ (fun w' => 1 * X w' + 1 * Rsum (fun k => kpow k X w') (seq 1 n))).
  - rewrite K_lin, K_sum, !Rmult_1_l by exact Hw. f_equal. rewrite <- (seq_shift n 1), Rsum_map. reflexivity.
  - intros w' Hw'. rewrite <- IH by exact Hw'. rewrite (kmean_eq n _ (fun l => X w' * 1 + 1 * Rsum X l)) by (try assumption; intros l; rewrite Rsum_cons; ring). rewrite (kmean_lin n (X w') 1 (fun _ => 1) (fun l => Rsum X l)), kmean_const by exact Hw'. ring.
  - exact Hw.
Qed.
Lemma ksum_small n w : live w -> Rabs (kmean n (fun l => Rsum X l) w) <= INR T + INR n * dl.
Proof.
  intros Hw. rewrite ksum by exact Hw. apply Rle_trans with (Rsum (fun k => if (k <? T)%nat then 1 else dl) (seq 1 n)).
  - generalize (seq 1 n). intros l. induction l as [|k l IL]; [cbn; rewrite Rabs_R0; lra|]. rewrite !Rsum_cons. eapply Rle_trans; [apply Rabs_triang|]. apply Rplus_le_compat; [|exact IL]. destruct (Nat.ltb_spec k T) as [G|G]; [|apply Hmix; assumption].
    apply Rabs_le. apply kpow_range; [|exact Hw]. intros w' Hw'. specialize (X1 w' Hw'). revert X1. unfold Rabs. destruct (Rcase_abs _); intros; lra.
  - eapply Rle_trans; [apply (first_few T dl Hdl)|]. apply Rplus_le_compat_r. apply le_INR. lia.
Qed.
Lemma ksquare_small m : forall w, live w -> kmean m (fun l => (Rsum X l) ^ 2) w <= INR m * (1 + 2 * INR T + 2 * (INR m * dl)).
Proof.
  induction m as [|m IH]; intros w Hw; [cbn; lra|]. cbn [kmean]. rewrite S_INR. set (n := INR m) in *. assert (Hn : 0 <= n) by apply pos_INR. pose proof (pos_INR T) as HT.
  set (C := 1 + 2 * (INR T + n * dl) + n * (1 + 2 * INR T + 2 * (n * dl))). apply Rle_trans with C.
  - rewrite <- (K_const C w Hw). apply K_mono; [|exact Hw]. intros w' Hw'.
    rewrite (kmean_eq m _ (fun l => 1 * (X w' ^ 2 * 1 + (2 * X w') * Rsum X l) + 1 * (Rsum X l) ^ 2)) by (try assumption; intros l; rewrite Rsum_cons; ring).
    rewrite (kmean_lin m 1 1 (fun l => X w' ^ 2 * 1 + (2 * X w') * Rsum X l) (fun l => (Rsum X l) ^ 2)), (kmean_lin m (X w' ^ 2) (2 * X w') (fun _ => 1) (fun l => Rsum X l)), kmean_const by exact Hw'.
    pose proof (ksum_small m w' Hw') as S1. pose proof (IH w' Hw') as S2. fold n in S1, S2. pose proof (X1 w' Hw') as HX. set (x := X w') in *. set (mm := kmean m (fun l => Rsum X l) w') in *. set (v := kmean m (fun l => Rsum X l ^ 2) w') in *.
    assert (A1 : x ^ 2 <= 1) by (rewrite <- (pow2_abs x); pose proof (Rabs_pos x); clear - HX H; nra).
    assert (A2 : x * mm <= INR T + n * dl). { eapply Rle_trans; [apply Rle_abs|]. rewrite Rabs_mult. pose proof (Rabs_pos x). pose proof (Rabs_pos mm). clear - HX S1 H H0. apply Rle_trans with (1 * Rabs mm); [apply Rmult_le_compat_r; assumption|lra]. }
    unfold C. clear - A1 A2 S2. lra.
  - unfold C. clear - Hn HT Hdl. assert (0 <= n * dl) by (apply Rmult_le_pos; assumption). ring_simplify. nra.
Qed.
End Chain.

(** A pass in a random order *)
Section Orders.
Context (step : world -> nat -> (nat -> nat -> R) -> res world) (live : world -> Prop) (fs : list nat) (Hlive : forall w i r, live w -> In i fs -> exists w', step w i r = Ok w' /\ live w').
Context (perms : list (list nat)) (Hne : perms <> []) (Hp : forall p, In p perms -> forall i, In i p -> In i fs).
Definition rpass (H : world -> R) (w : world) : R := Avg perms (fun p => updates_mean step p H w).
Lemma rpass_lin H G a b w : rpass (fun w' => a * H w' + b * G w') w = a * rpass H w + b * rpass G w.
Proof. unfold rpass. rewrite <- Avg_lin. apply Avg_ext. intros p _. apply updates_lin2. Qed.
Lemma rpass_mono H G : (forall w, live w -> H w <= G w) -> forall w, live w -> rpass H w <= rpass G w.
Proof. intros E w Hw. apply Avg_le; [exact Hne|]. intros p Hi. apply (live_mono step live fs Hlive); [apply Hp, Hi|exact E|exact Hw]. Qed.
Lemma rpass_const k w : live w -> rpass (fun _ => k) w = k.
Proof. intros Hw. unfold rpass. rewrite (Avg_ext _ _ (fun _ => k)); [apply Avg_const, Hne|]. intros p Hi. apply (live_const step live fs Hlive); [apply Hp, Hi|exact Hw]. Qed.
Lemma updates_avg {A} (l : list A) order (F : A -> world -> R) w : Avg l (fun x => updates_mean step order (F x) w) = updates_mean step order (fun w' => Avg l (fun x => F x w')) w.
Proof.
  unfold Avg. rewrite (updates_ext step order _ (fun w' => / INR (List.length l) * Rsum (fun x => F x w') l + 0 * 0)) by (intros; unfold Rdiv; ring).
  rewrite (updates_lin2 step order (fun w' => Rsum (fun x => F x w') l) (fun _ => 0)), updates_sum. unfold Rdiv. ring.
Qed.
Lemma rpass_pow n H : forall w, kpow rpass n H w = Avg (choices (repeat perms n)) (fun os => updates_mean step (concat os) H w).
Proof.
  induction n as [|n IH]; intros w; [cbn [kpow repeat choices]; rewrite Avg_single; reflexivity|]. cbn [kpow]. rewrite Avg_S by exact Hne. unfold rpass. apply Avg_ext. intros p _.
  rewrite (updates_ext step p _ (fun w' => Avg (choices (repeat perms n)) (fun os => updates_mean step (concat os) H w')) IH). rewrite <- updates_avg. apply Avg_ext. intros os _. cbn [concat]. rewrite updates_app_mean. reflexivity.
Qed.
Lemma rpass_means n : forall f w, kmean rpass n f w = Avg (choices (repeat perms n)) (fun os => passes_mean step os f w).
Proof.
  induction n as [|n IH]; intros f w; [cbn [kmean repeat choices]; rewrite Avg_single; reflexivity|]. cbn [kmean]. rewrite Avg_S by exact Hne. unfold rpass at 1. apply Avg_ext. intros p _.
  rewrite (updates_ext step p _ (fun w' => Avg (choices (repeat perms n)) (fun os => passes_mean step os (fun l => f (w' :: l)) w')) (fun w' => IH (fun l => f (w' :: l)) w')). rewrite <- updates_avg. reflexivity.
Qed.
Lemma kpow_app a b H w : kpow rpass (a + b) H w = kpow rpass a (kpow rpass b H) w.
Proof. revert w. induction a as [|a IH]; intros w; [reflexivity|]. cbn [Nat.add kpow]. unfold rpass. apply Avg_ext. intros p _. apply updates_ext. exact IH. Qed.
End Orders.

Lemma random_orders_near outs o0 s : outputs outs -> random o0 -> ordinary o0 (wd s) -> (forall l, (l < List.length (layers (wd s)))%nat -> lfixed (lbda (get_lay (wd s) l)) = true) -> linked outs s ->
  forall perms, all_orders s perms -> forall eps, 0 < eps -> exists T, forall ex lg d c, good_exp ex -> (forall i, In i (unfixed (wd s)) -> Rabs (lg (bprior (get_mat (wd s) i)) - logit (bprior (get_mat (wd s) i))) <= d) -> In c (configurations s) ->
  exists s1, prepare (set_wd s (puts (wd s) (unfixed (wd s)) c)) = Ok (unfixed (wd s), [], s1) /\ exists live : world -> Prop, live (wd s1) /\ (forall w i r, live w -> In i (unfixed (wd s)) -> exists w', double_run ex lg w i r = Ok w' /\ live w') /\
  forall h, (forall c, 0 <= h c <= 1) -> 0 <= average_over (posterior outs s) (configurations s) h <= 1 /\ forall t w, (T <= t)%nat -> live w ->
  Rabs (kpow (rpass (double_run ex lg) perms) t (fun w' => h (map (matrix_of w') (unfixed (wd s)))) w - average_over (posterior outs s) (configurations s) h)
    <= eps + INR T * Rsum (fun i => update_error (wd s) (lg (bprior (get_mat (wd s) i))) d i) (unfixed (wd s)).
Proof.
  intros Ho Hr H HL HK perms Hp eps He. destruct (M_settles outs o0 s Ho Hr H HL perms Hp HK 1 eps He) as (T & HT). exists T. intros ex lg d c Hex Hlg Hc.
  destruct (prepared_double outs (wd s) Ho (ordinary_sound _ _ Hr H) HL) as (W & SW & Hd & HA & EVs & EJ & EF & ES & EB & EU & HP). destruct (HP s c eq_refl Hc) as (s1 & E1 & E2). exists s1. split; [exact E1|]. rewrite E2.
  pose proof (perms_some s perms Hp) as Hne. set (fs := unfixed (wd s)) in *. change (choices (map (values_of (wd s)) fs)) with (configurations s) in *. change (fun c => joint outs (puts (wd s) fs c)) with (posterior outs s) in *.
  assert (Hin : forall p, In p perms -> forall i, In i p -> In i fs) by (intros p Hi i Hpi; destruct Hp as (_ & HP'); apply HP' in Hi; eapply Permutation_in; [exact Hi|exact Hpi]).
  set (live := fun w' : world => exists c0, In c0 (configurations s) /\ w' = puts W fs c0). exists live. split; [exists c; auto|].
  assert (Hlive : forall w i r, live w -> In i fs -> exists w', double_run ex lg w i r = Ok w' /\ live w').
  { intros w i r (c0 & Hc0 & ->) Hi. destruct (double_step ex lg outs Ho o0 W SW fs Hd HA d c0 i r ltac:(rewrite EVs; exact Hc0) Hi) as (A' & E & HS). eexists. split; [exact E|]. exists (upd c0 (place i fs) A'). split; [rewrite EVs in HS; exact HS|reflexivity]. }
  split; [exact Hlive|]. intros h Hh. split.
  { apply mean_between; [|intros E; rewrite E in Hc; exact Hc|intros x _; apply Hh]. intros x Hx. change (posterior outs s x) with ((fun c => posterior outs s c) x). rewrite <- EJ. apply (ErgodicProofs2.J_pos outs W SW fs Hd HA). rewrite EVs. exact Hx. }
  intros t w Ht Hw. replace t with ((t - T) + T)%nat by lia. rewrite (kpow_app (double_run ex lg) perms). set (av := average_over _ _ _). set (e := eps + _). set (G := fun w' : world => h (map (matrix_of w') fs)).
  assert (Q : av - e <= kpow (rpass (double_run ex lg) perms) (t - T) (kpow (rpass (double_run ex lg) perms) T G) w <= av + e); [|apply Rabs_le; lra].
  apply (kpow_range _ live (rpass_mono _ live fs Hlive perms Hne Hin) (rpass_const _ live fs Hlive perms Hne Hin)); [|exact Hw]. intros w' (c' & Hc' & ->).
  assert (Hlg' : forall i, In i fs -> Rabs (lg (bprior (get_mat W i)) - logit (bprior (get_mat W i))) <= d) by (intros i Hi; rewrite EB; apply Hlg, Hi).
  assert (Hc2 : In c' (choices (map (values_of W) fs))) by (rewrite EVs; exact Hc').
  specialize (HT T (le_n T) h ltac:(intros x _; pose proof (Hh x); rewrite Rabs_pos_eq; lra) c' Hc'). pose proof (M_orders outs s perms) as MO.
  rewrite rpass_pow by exact Hne.
  assert (N1 : Rabs (Avg (choices (repeat perms T)) (fun os => updates_mean (double_run ex lg) (concat os) G (puts W fs c')) - Avg (choices (repeat perms T)) (fun os => ops (flip_site fs) (free_site (wd s)) (posterior outs s) (sites_of (wd s) (concat os)) h c')) <= INR T * Rsum (fun i => update_error (wd s) (lg (bprior (get_mat (wd s) i))) d i) fs).
  { set (b := INR T * _). assert (EACH : forall os, In os (choices (repeat perms T)) -> Rabs (updates_mean (double_run ex lg) (concat os) G (puts W fs c') - ops (flip_site fs) (free_site (wd s)) (posterior outs s) (sites_of (wd s) (concat os)) h c') <= b).
    { intros os Hos. destruct (orders_ok s perms Hp T os Hos) as (L1 & L2). fold fs in L2.
      assert (IN : forall i, In i (concat os) -> In i fs) by (intros i Hi; apply in_concat in Hi; destruct Hi as (l & Hl & Hi); rewrite Forall_forall in L2; eapply Permutation_in; [apply L2, Hl|exact Hi]).
      pose proof (double_near_ops ex lg Hex outs Ho o0 W SW fs Hd HA d Hlg' (concat os) h IN Hh c' Hc2) as N1. rewrite EJ, EF, ES in N1. eapply Rle_trans; [exact N1|]. apply Req_le. unfold b.
      rewrite <- L1, <- (Rsum_passes _ fs os) by (eapply Forall_impl; [|exact L2]; intros a Ha; apply Permutation_sym, Ha). apply Rsum_ext. intros i _. rewrite EU, EB. reflexivity. }
    match goal with |- Rabs (Avg ?l ?f - Avg ?l ?g) <= _ => pose proof (Avg_lin l 1 (-1) f g) as AL; assert (HN : l <> []) by (apply choices_some; exact Hne); replace (Avg l f - Avg l g) with (Avg l (fun x => 1 * f x + -1 * g x)) by (rewrite AL; ring); pose proof (Avg_const l b HN) as AB; pose proof (Avg_const l (- b) HN) as AC;
      pose proof (Avg_le l (fun x => 1 * f x + -1 * g x) (fun _ => b) HN) as AU; pose proof (Avg_le l (fun _ => - b) (fun x => 1 * f x + -1 * g x) HN) as AW end.
    apply Rabs_le. rewrite AB in AU. rewrite AC in AW. split; [apply AW|apply AU]; intros os Hos; specialize (EACH os Hos); revert EACH; unfold Rabs; destruct (Rcase_abs _); intros; lra. }
  assert (N2 : Rabs (Avg (choices (repeat perms T)) (fun os => ops (flip_site fs) (free_site (wd s)) (posterior outs s) (sites_of (wd s) (concat os)) h c') - av) <= eps).
  { rewrite MO in HT. unfold mean_orders in HT. fold fs in HT. fold av in HT.
    rewrite (Avg_ext _ _ (fun os => ops (flip_site fs) (free_site (wd s)) (posterior outs s) (update_sequence s (concat os)) h c')) by (intros os _; rewrite ops_filter; reflexivity). exact HT. }
  pose proof (abs_tri3 _ _ _ _ _ N1 N2) as N4. unfold e. revert N4. unfold Rabs. destruct (Rcase_abs _); intros; lra.
Qed.
Lemma C122_lemma outs o0 s : outputs outs -> random o0 -> ordinary o0 (wd s) -> (forall l, (l < List.length (layers (wd s)))%nat -> lfixed (lbda (get_lay (wd s) l)) = true) -> linked outs s ->
  forall perms, all_orders s perms -> forall eps, 0 < eps -> exists T, forall ex lg d c, good_exp ex -> (forall i, In i (unfixed (wd s)) -> Rabs (lg (bprior (get_mat (wd s) i)) - logit (bprior (get_mat (wd s) i))) <= d) -> In c (configurations s) ->
  exists s1, prepare (set_wd s (puts (wd s) (unfixed (wd s)) c)) = Ok (unfixed (wd s), [], s1) /\
  forall n h, (T <= n)%nat -> (forall c, 0 <= h c <= 1) ->
  Rabs (mean_orders perms n (fun passes => updates_mean (double_run ex lg) (concat passes) (fun w' => h (map (matrix_of w') (unfixed (wd s)))) (wd s1)) - average_over (posterior outs s) (configurations s) h)
    <= eps + INR T * Rsum (fun i => update_error (wd s) (lg (bprior (get_mat (wd s) i))) d i) (unfixed (wd s)).
Proof.
  intros Ho Hr H HL HK perms Hp eps He. destruct (random_orders_near outs o0 s Ho Hr H HL HK perms Hp eps He) as (T & HT). exists T. intros ex lg d c Hex Hlg Hc.
  destruct (HT ex lg d c Hex Hlg Hc) as (s1 & E1 & live & L1 & _ & HN). exists s1. split; [exact E1|]. intros n h Hn Hh. destruct (HN h Hh) as (_ & HN'). specialize (HN' n (wd s1) Hn L1). rewrite (rpass_pow (double_run ex lg) perms (perms_some s perms Hp)) in HN'. exact HN'.
Qed.
Lemma C122_averages_lemma outs o0 s : outputs outs -> random o0 -> ordinary o0 (wd s) -> (forall l, (l < List.length (layers (wd s)))%nat -> lfixed (lbda (get_lay (wd s) l)) = true) -> linked outs s ->
  forall perms, all_orders s perms -> forall eps, 0 < eps -> exists T, forall ex lg d c, good_exp ex -> (forall i, In i (unfixed (wd s)) -> Rabs (lg (bprior (get_mat (wd s) i)) - logit (bprior (get_mat (wd s) i))) <= d) -> In c (configurations s) ->
  exists s1, prepare (set_wd s (puts (wd s) (unfixed (wd s)) c)) = Ok (unfixed (wd s), [], s1) /\
  forall b n h, (0 < n)%nat -> (forall c, 0 <= h c <= 1) ->
  mean_orders perms b (fun burn => mean_orders perms n (fun passes => updates_mean (double_run ex lg) (concat burn) (passes_mean (double_run ex lg) passes (fun l =>
      (Rsum (fun w' => h (map (matrix_of w') (unfixed (wd s)))) l / INR n - average_over (posterior outs s) (configurations s) h) ^ 2)) (wd s1)))
    <= (1 + 2 * INR T) / INR n + 2 * (eps + INR T * Rsum (fun i => update_error (wd s) (lg (bprior (get_mat (wd s) i))) d i) (unfixed (wd s))).
Proof.
  intros Ho Hr H HL HK perms Hp eps He. destruct (random_orders_near outs o0 s Ho Hr H HL HK perms Hp eps He) as (T & HT). exists T. intros ex lg d c Hex Hlg Hc.
  destruct (HT ex lg d c Hex Hlg Hc) as (s1 & E1 & live & L1 & Hlive & HN). exists s1. split; [exact E1|]. intros b n h Hn0 Hh. destruct (HN h Hh) as (Hav & HN').
  pose proof (perms_some s perms Hp) as Hne. assert (Hn : 0 < INR n) by (apply lt_0_INR; exact Hn0).
  assert (Hin : forall p, In p perms -> forall i, In i p -> In i (unfixed (wd s))) by (intros p Hi i Hpi; destruct Hp as (_ & HP'); apply HP' in Hi; eapply Permutation_in; [exact Hi|exact Hpi]).
  set (D := double_run ex lg) in *. set (av := average_over (posterior outs s) (configurations s) h) in *. set (dl := eps + INR T * _) in *. set (fs := unfixed (wd s)) in *.
  set (K := rpass D perms) in *. pose proof (rpass_lin D perms) as KL. pose proof (rpass_mono D live fs Hlive perms Hne Hin) as KM. pose proof (rpass_const D live fs Hlive perms Hne Hin) as KC. fold K in KL, KM, KC.
  set (X := fun w' : world => h (map (matrix_of w') fs) - av).
  assert (HX : forall w, live w -> Rabs (X w) <= 1) by (intros w _; unfold X; pose proof (Hh (map (matrix_of w) fs)); apply Rabs_le; lra).
  assert (KX : forall t w, live w -> kpow K t X w = kpow K t (fun w' => h (map (matrix_of w') fs)) w - av).
  { induction t as [|t IT]; intros w Hw; [reflexivity|]. cbn [kpow]. rewrite (K_eq K live KM _ (fun w' => 1 * kpow K t (fun w' => h (map (matrix_of w') fs)) w' + (- av) * 1)) by (try assumption; intros w' Hw'; rewrite IT by exact Hw'; ring). rewrite KL, KC by exact Hw. ring. }
  assert (Hmix : forall t, (T <= t)%nat -> forall w, live w -> Rabs (kpow K t X w) <= dl) by (intros t Ht w Hw; rewrite KX by exact Hw; apply HN'; assumption).
  assert (Hdl : 0 <= dl) by (eapply Rle_trans; [apply Rabs_pos|]; apply (Hmix T (le_n T) _ L1)).
  set (f := fun l : list world => (Rsum (fun w' => h (map (matrix_of w') fs)) l / INR n - av) ^ 2).
  assert (EQ : mean_orders perms b (fun burn => mean_orders perms n (fun passes => updates_mean D (concat burn) (passes_mean D passes f) (wd s1))) = kpow K b (kmean K n f) (wd s1)).
  { unfold K. rewrite (rpass_pow D perms Hne). change (mean_orders perms b ?F) with (Avg (choices (repeat perms b)) F). apply Avg_ext. intros burn _. rewrite (updates_ext D (concat burn) _ _ (rpass_means D perms Hne n f)). rewrite <- updates_avg. reflexivity. }
  rewrite EQ. apply (kpow_range K live KM KC b _ 0); [|exact L1]. intros w Hw.
  assert (LEN : forall m (g1 g2 : list world -> R), (forall l, List.length l = m -> g1 l = g2 l) -> forall w, live w -> kmean K m g1 w = kmean K m g2 w).
  { induction m as [|m IM]; intros g1 g2 E w' Hw'; cbn [kmean]; [apply E; reflexivity|]. apply (K_eq K live KM); [|exact Hw']. intros w2 Hw2. apply IM; [|exact Hw2]. intros l Hl. apply E. cbn. lia. }
  rewrite (LEN n f (fun l => (/ INR n) ^ 2 * (Rsum X l) ^ 2 + 0 * 0)).
  2: { intros l Hl. unfold f. assert (EX : Rsum X l = Rsum (fun w' => h (map (matrix_of w') fs)) l - INR n * av). { rewrite <- Hl. clear. induction l as [|a l IL]; [cbn; ring|]. rewrite !Rsum_cons, IL. cbn [List.length]. rewrite S_INR. unfold X. ring. } rewrite EX. field. lra. }
  2: exact Hw.
  rewrite (kmean_lin K live KL KM n ((/ INR n) ^ 2) 0 (fun l => Rsum X l ^ 2) (fun _ => 0)) by exact Hw. pose proof (ksquare_small K live KL KM KC X HX T dl Hdl Hmix n w Hw) as SQ.
  assert (POS : 0 <= kmean K n (fun l => Rsum X l ^ 2) w).
  { assert (G : forall m (g : list world -> R), (forall l, 0 <= g l) -> forall w, live w -> 0 <= kmean K m g w). { induction m as [|m IM]; intros g Hg w' Hw'; cbn [kmean]; [apply Hg|]. rewrite <- (KC 0 w' Hw'). apply KM; [|exact Hw']. intros w2 Hw2. apply IM; [intros l; apply Hg|exact Hw2]. } apply G; [|exact Hw]. intros l. apply pow2_ge_0. }
  set (v := kmean K n (fun l => Rsum X l ^ 2) w) in *. assert (Hi : 0 < / INR n) by (apply Rinv_0_lt_compat, Hn). split.
  - pose proof (pow2_ge_0 (/ INR n)). rewrite Rmult_0_l, Rplus_0_r. apply Rmult_le_pos; assumption.
  - rewrite Rmult_0_l, Rplus_0_r. apply Rle_trans with ((/ INR n) ^ 2 * (INR n * (1 + 2 * INR T + 2 * (INR n * dl)))); [apply Rmult_le_compat_l; [apply pow2_ge_0|exact SQ]|]. apply Req_le. field. lra.
Qed.
