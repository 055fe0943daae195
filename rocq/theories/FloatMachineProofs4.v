(** Proof of C121: averages over long runs in double precision. *)
From Coq Require Import String Lia Lra Permutation.
From Verif Require Import Base BaseLemmas BaseR BaseRLemmas Spec SpecR Outputs Scores Sampling SpecFloat Invariance InvarianceProofs HierProofs Canon Machine Dispatch Inference SpecMachine SpecOrdinary SpecPass SpecPredict SpecErgodic MachineProofs MachineProofs2 InferenceProofs BuiltProofs InferenceProofs2 PlainProofs DispatchProofs UpdateProofs SamplingProofs.
From Verif Require Import OrdinaryProofs OrdinaryProofs2 OrdinaryProofs3 OrdinaryProofs4 OrdinaryProofs5 OrdinaryProofs6 OrdinaryProofs7 PassProofs RunProofs UnbiasedProofs ErgodicProofs ErgodicProofs2 ErgodicProofs3 ErgodicProofs6.
From Verif Require Import FloatFuzzy FloatProofs SpecFloatRun FloatSampling FloatSampleProofs FloatSampleProofs2 FloatSampleProofs3 FloatSampleProofs4 FloatSampleProofs5 FloatMachine SpecFloatMachine FloatMachineProofs FloatMachineProofs2 FloatMachineProofs3.
Local Open Scope R_scope.

(** Means are linear and monotone *)
Lemma mean_lin2 k f g a b : mean_of k (fun rs => a * f rs + b * g rs) = a * mean_of k f + b * mean_of k g.
Proof.
  unfold mean_of. generalize draw_grid. intros M. revert f g. induction k as [|k IH]; intros f g; cbn [grid_mean]; [reflexivity|].
  rewrite (Rsum_ext _ (fun j => a * grid_mean M k (fun rs => f (INR j / INR M :: rs)) + b * grid_mean M k (fun rs => g (INR j / INR M :: rs)))) by (intros j _; apply (IH (fun rs => f (INR j / INR M :: rs)))).
  unfold Rdiv. generalize (seq 0 M). intros l. rewrite <- !Rmult_assoc, <- Rmult_plus_distr_r. f_equal. induction l as [|j l IL]; [cbn; ring|]. rewrite !Rsum_cons, IL. ring.
Qed.
Lemma mean_mono k f g : (forall rs, f rs <= g rs) -> mean_of k f <= mean_of k g.
Proof.
  intros H. unfold mean_of. assert (HM : 0 < INR draw_grid) by apply lt_0_INR, grid_pos. revert HM. generalize draw_grid. intros M HM. revert f g H. induction k as [|k IH]; intros f g H; cbn [grid_mean]; [apply H|].
  apply Rmult_le_compat_r; [left; apply Rinv_0_lt_compat, HM|]. generalize (seq 0 M). intros l. induction l as [|j l IL]; [cbn; lra|]. rewrite !Rsum_cons. apply Rplus_le_compat; [|exact IL]. apply IH. intros rs. apply H.
Qed.
Lemma updates_ext step order H G : (forall w, H w = G w) -> forall w, updates_mean step order H w = updates_mean step order G w.
Proof. intros E. induction order as [|i order IH]; intros w; cbn [updates_mean]; [apply E|]. apply mean_ext. intros rs. destruct (step w i _); [apply IH|reflexivity]. Qed.
Lemma updates_lin2 step order H G a b : forall w, updates_mean step order (fun w' => a * H w' + b * G w') w = a * updates_mean step order H w + b * updates_mean step order G w.
Proof.
  induction order as [|i order IH]; intros w; cbn [updates_mean]; [reflexivity|]. rewrite <- mean_lin2. apply mean_ext. intros rs. destruct (step w i _); [apply IH|ring].
Qed.
Lemma passes_ext step ps : forall f g, (forall l, f l = g l) -> forall w, passes_mean step ps f w = passes_mean step ps g w.
Proof. induction ps as [|p ps IH]; intros f g E w; cbn [passes_mean]; [apply E|]. apply updates_ext. intros w'. apply IH. intros l. apply E. Qed.
Lemma passes_lin2 step ps a b : forall f g w, passes_mean step ps (fun l => a * f l + b * g l) w = a * passes_mean step ps f w + b * passes_mean step ps g w.
Proof.
  induction ps as [|p ps IH]; intros f g w; cbn [passes_mean]; [reflexivity|]. rewrite <- updates_lin2. apply updates_ext. intros w'. apply (IH (fun l => f (w' :: l)) (fun l => g (w' :: l))).
Qed.
Lemma updates_sum step order {T} (F : T -> world -> R) l : forall w, updates_mean step order (fun w' => Rsum (fun t => F t w') l) w = Rsum (fun t => updates_mean step order (F t) w) l.
Proof.
  induction l as [|t l IH]; intros w.
  - rewrite (updates_ext _ _ _ (fun w' => 0 * 0 + 0 * 0)) by (intros; cbn; ring). rewrite (updates_lin2 step order (fun _ => 0) (fun _ => 0)). cbn. ring.
  - rewrite (updates_ext _ _ _ (fun w' => 1 * F t w' + 1 * Rsum (fun t => F t w') l)) by (intros; rewrite Rsum_cons; ring). rewrite updates_lin2, IH, Rsum_cons. ring.
Qed.

Section Run.
Context (step : world -> nat -> (nat -> nat -> R) -> res world) (live : world -> Prop) (fs : list nat).
Context (Hlive : forall w i r, live w -> In i fs -> exists w', step w i r = Ok w' /\ live w').
Lemma live_mono order H G : (forall i, In i order -> In i fs) -> (forall w, live w -> H w <= G w) -> forall w, live w -> updates_mean step order H w <= updates_mean step order G w.
Proof.
  intros Ho HH. induction order as [|i order IH]; intros w Hw; cbn [updates_mean]; [apply HH, Hw|]. apply mean_mono. intros rs. destruct (Hlive w i (draws_of (ncols (matrix_of w i)) rs) Hw (Ho i (or_introl eq_refl))) as (w' & E & Hw'). rewrite E. apply IH; [intros j Hj; apply Ho; right; exact Hj|exact Hw'].
Qed.
Lemma live_const order k : (forall i, In i order -> In i fs) -> forall w, live w -> updates_mean step order (fun _ => k) w = k.
Proof.
  intros Ho. induction order as [|i order IH]; intros w Hw; cbn [updates_mean]; [reflexivity|]. apply Rle_antisym; eapply mean_between_of with (lo := k) (hi := k); intros rs; destruct (Hlive w i (draws_of (ncols (matrix_of w i)) rs) Hw (Ho i (or_introl eq_refl))) as (w' & E & Hw'); rewrite E, (IH (fun j Hj => Ho j (or_intror Hj)) w' Hw'); lra.
Qed.
Lemma live_eq order H G : (forall i, In i order -> In i fs) -> (forall w, live w -> H w = G w) -> forall w, live w -> updates_mean step order H w = updates_mean step order G w.
Proof. intros Ho E w Hw. apply Rle_antisym; apply live_mono; try assumption; intros w' Hw'; rewrite E by exact Hw'; lra. Qed.
Lemma passes_const ps k : Forall (fun p => forall i, In i p -> In i fs) ps -> forall w, live w -> passes_mean step ps (fun _ => k) w = k.
Proof.
  induction ps as [|p ps IH]; intros HP w Hw; cbn [passes_mean]; [reflexivity|]. inversion HP as [|? ? H1 H2]; subst. rewrite (live_eq p _ (fun _ => k) H1); [apply live_const; assumption|intros w' Hw'; apply IH; assumption|exact Hw].
Qed.
Context (X : world -> R) (X1 : forall w, live w -> Rabs (X w) <= 1) (T : nat) (dl : R) (Hdl : 0 <= dl).
Context (Hmix : forall ps, Forall (fun p => Permutation p fs) ps -> (T <= List.length ps)%nat -> forall w, live w -> Rabs (updates_mean step (concat ps) X w) <= dl).
Lemma perm_in ps : Forall (fun p => Permutation p fs) ps -> Forall (fun p => forall i, In i p -> In i fs) ps.
Proof. apply Forall_impl. intros p Hp i Hi. eapply Permutation_in; eassumption. Qed.
Lemma concat_in_fs ps : Forall (fun p => Permutation p fs) ps -> forall i, In i (concat ps) -> In i fs.
Proof. intros HO i Hi. apply in_concat in Hi. destruct Hi as (l & Hl & Hi). rewrite Forall_forall in HO. eapply Permutation_in; [apply HO, Hl|exact Hi]. Qed.
Lemma sum_means ps : Forall (fun p => Permutation p fs) ps -> forall w, live w -> passes_mean step ps (fun l => Rsum X l) w = Rsum (fun k => updates_mean step (concat (firstn k ps)) X w) (seq 1 (List.length ps)).
Proof.
  induction ps as [|p ps IH]; intros HP w Hw; [reflexivity|]. pose proof (perm_in _ HP) as HP'. inversion HP as [|? ? H1 H2]; subst. inversion HP' as [|? ? H3 H4]; subst. cbn [passes_mean List.length seq]. rewrite Rsum_cons. cbn [firstn concat]. rewrite app_nil_r.
  rewrite (live_eq p _ (fun w' => 1 * X w' + 1 * Rsum (fun k => updates_mean step (concat (firstn k ps)) X w') (seq 1 (List.length ps))) H3).
  - rewrite updates_lin2, updates_sum, !Rmult_1_l. f_equal. rewrite <- (seq_shift (List.length ps) 1), Rsum_map. apply Rsum_ext. intros k _. cbn [firstn concat]. rewrite updates_app_mean. reflexivity.
  - intros w' Hw'. rewrite <- IH by assumption. rewrite (passes_ext _ _ _ (fun l => X w' * 1 + 1 * Rsum X l)) by (intros l; rewrite Rsum_cons; ring). rewrite (passes_lin2 step ps (X w') 1 (fun _ => 1) (fun l => Rsum X l)), (passes_const ps 1 H4 w' Hw'). ring.
  - exact Hw.
Qed.
Lemma first_few n : forall a, Rsum (fun k => if (k <? T)%nat then 1 else dl) (seq a n) <= INR (T - a) + INR n * dl.
Proof.
  induction n as [|n IH]; intros a; [cbn; pose proof (pos_INR (T - a)); lra|]. cbn [seq]. rewrite Rsum_cons, S_INR. specialize (IH (S a)). destruct (Nat.ltb_spec a T) as [G|G].
  - replace (T - a)%nat with (S (T - S a)) by lia. rewrite S_INR. lra.
  - replace (T - a)%nat with (T - S a)%nat by lia. lra.
Qed.
Lemma sum_small ps : Forall (fun p => Permutation p fs) ps -> forall w, live w -> Rabs (passes_mean step ps (fun l => Rsum X l) w) <= INR T + INR (List.length ps) * dl.
Proof.
  intros HP w Hw. rewrite sum_means by assumption. apply Rle_trans with (Rsum (fun k => if (k <? T)%nat then 1 else dl) (seq 1 (List.length ps))).
  - assert (G : forall l, (forall k, In k l -> (k <= List.length ps)%nat) -> Rabs (Rsum (fun k => updates_mean step (concat (firstn k ps)) X w) l) <= Rsum (fun k => if (k <? T)%nat then 1 else dl) l).
    { induction l as [|k l IL]; intros Hl; [cbn; rewrite Rabs_R0; lra|]. rewrite !Rsum_cons. eapply Rle_trans; [apply Rabs_triang|]. apply Rplus_le_compat; [|apply IL; intros; apply Hl; right; assumption].
      assert (HPk : Forall (fun p => Permutation p fs) (firstn k ps)) by (rewrite <- (firstn_skipn k ps) in HP; apply Forall_app in HP; apply HP). destruct (Nat.ltb_spec k T) as [G|G].
      - pose proof (live_mono (concat (firstn k ps)) X (fun _ => 1) (concat_in_fs _ HPk)) as M1.
        specialize (M1 ltac:(intros w' Hw'; pose proof (X1 w' Hw'); pose proof (Rle_abs (X w')); lra) w Hw). rewrite live_const in M1 by (try assumption; apply concat_in_fs, HPk).
        assert (M3 : - (1) <= updates_mean step (concat (firstn k ps)) X w) by (rewrite <- (live_const (concat (firstn k ps)) (- (1)) (concat_in_fs _ HPk) w Hw) at 1; apply live_mono; [apply concat_in_fs, HPk| |exact Hw]; intros w' Hw'; pose proof (X1 w' Hw'); pose proof (Rle_abs (- X w')); rewrite Rabs_Ropp in *; lra).
        apply Rabs_le. lra.
      - apply Hmix; [exact HPk|rewrite firstn_length_le by (apply Hl; left; reflexivity); exact G|exact Hw]. }
    apply G. intros k Hk. apply in_seq in Hk. lia.
  - eapply Rle_trans; [apply first_few|]. apply Rplus_le_compat_r. apply le_INR. lia.
Qed.
Lemma square_small ps : Forall (fun p => Permutation p fs) ps -> forall w, live w -> passes_mean step ps (fun l => (Rsum X l) ^ 2) w <= INR (List.length ps) * (1 + 2 * INR T + 2 * (INR (List.length ps) * dl)).
Proof.
  induction ps as [|p ps IH]; intros HP w Hw; [cbn; lra|]. pose proof (perm_in _ HP) as HP'. inversion HP as [|? ? H1 H2]; subst. inversion HP' as [|? ? H3 H4]; subst. cbn [passes_mean List.length]. rewrite S_INR. set (n := INR (List.length ps)) in *. assert (Hn : 0 <= n) by apply pos_INR. pose proof (pos_INR T) as HT.
  set (K := 1 + 2 * (INR T + n * dl) + n * (1 + 2 * INR T + 2 * (n * dl))). apply Rle_trans with K.
  - rewrite <- (live_const p K H3 w Hw). apply live_mono; [exact H3| |exact Hw]. intros w' Hw'.
    rewrite (passes_ext _ _ _ (fun l => 1 * (X w' ^ 2 * 1 + (2 * X w') * Rsum X l) + 1 * (Rsum X l) ^ 2)) by (intros l; rewrite Rsum_cons; ring).
    rewrite (passes_lin2 step ps 1 1 (fun l => X w' ^ 2 * 1 + (2 * X w') * Rsum X l) (fun l => (Rsum X l) ^ 2)), (passes_lin2 step ps (X w' ^ 2) (2 * X w') (fun _ => 1) (fun l => Rsum X l)), (passes_const ps 1 H4 w' Hw').
    pose proof (sum_small ps H2 w' Hw') as S1. pose proof (IH H2 w' Hw') as S2. fold n in S1, S2. pose proof (X1 w' Hw') as HX. set (x := X w') in *. set (m := passes_mean step ps (fun l => Rsum X l) w') in *. set (v := passes_mean step ps (fun l => Rsum X l ^ 2) w') in *.
    assert (A1 : x ^ 2 <= 1) by (rewrite <- (pow2_abs x); pose proof (Rabs_pos x); clear - HX H; nra).
    assert (A2 : x * m <= INR T + n * dl). { eapply Rle_trans; [apply Rle_abs|]. rewrite Rabs_mult. pose proof (Rabs_pos x). pose proof (Rabs_pos m). clear - HX S1 H H0. apply Rle_trans with (1 * Rabs m); [apply Rmult_le_compat_r; assumption|lra]. }
    unfold K. clear - A1 A2 S2. lra.
  - unfold K. clear - Hn HT Hdl. assert (0 <= n * dl) by (apply Rmult_le_pos; assumption). ring_simplify. nra.
Qed.
End Run.
Lemma passes_ext_len step ps : forall f g, (forall l, List.length l = List.length ps -> f l = g l) -> forall w, passes_mean step ps f w = passes_mean step ps g w.
Proof. induction ps as [|p ps IH]; intros f g E w; cbn [passes_mean]; [apply E; reflexivity|]. apply updates_ext. intros w'. apply IH. intros l Hl. apply E. cbn. lia. Qed.
Lemma C121_lemma outs o0 s : outputs outs -> random o0 -> ordinary o0 (wd s) -> (forall l, (l < List.length (layers (wd s)))%nat -> lfixed (lbda (get_lay (wd s) l)) = true) -> mixing outs s ->
  forall eps, 0 < eps -> exists T, forall ex lg d c, good_exp ex -> (forall i, In i (unfixed (wd s)) -> Rabs (lg (bprior (get_mat (wd s) i)) - logit (bprior (get_mat (wd s) i))) <= d) -> In c (configurations s) ->
  exists s1, prepare (set_wd s (puts (wd s) (unfixed (wd s)) c)) = Ok (unfixed (wd s), [], s1) /\
  forall burn passes h, Forall (fun order => Permutation order (unfixed (wd s))) (burn ++ passes) -> passes <> [] -> (forall c, 0 <= h c <= 1) ->
  updates_mean (double_run ex lg) (concat burn) (passes_mean (double_run ex lg) passes (fun l =>
      (Rsum (fun w' => h (map (matrix_of w') (unfixed (wd s)))) l / INR (List.length passes) - average_over (posterior outs s) (configurations s) h) ^ 2)) (wd s1)
    <= (1 + 2 * INR T) / INR (List.length passes) + 2 * (eps + INR T * Rsum (fun i => update_error (wd s) (lg (bprior (get_mat (wd s) i))) d i) (unfixed (wd s))).
Proof.
  intros Ho Hr H HL HM eps He. destruct (mixing_settles outs o0 s Ho Hr H HL HM 1 eps He) as (T & HTT). exists T. intros ex lg d c Hex Hlg Hc.
  destruct (prepared_double outs (wd s) Ho (ordinary_sound _ _ Hr H) HL) as (W & SW & Hd & HA & EVs & EJ & EF & ES & EB & EU & HP). destruct (HP s c eq_refl Hc) as (s1 & E1 & E2). exists s1. split; [exact E1|]. rewrite E2. intros burn passes h HPs Hne Hh.
  apply Forall_app in HPs. destruct HPs as (HB & HPs).
  pose proof (fun ps c0 HPs HL2 => long_near ex lg outs o0 (wd s) W d T eps Hex Ho SW Hd HA EVs EJ EF ES EB EU Hlg HTT ps h c0 HPs HL2 Hh) as LN. set (fs := unfixed (wd s)) in *. change (choices (map (values_of (wd s)) fs)) with (configurations s) in *. change (fun c => joint outs (puts (wd s) fs c)) with (posterior outs s) in *.
  set (av := average_over (posterior outs s) (configurations s) h) in *. set (dl := eps + INR T * Rsum (fun i => update_error (wd s) (lg (bprior (get_mat (wd s) i))) d i) fs) in *.
  set (n := List.length passes). assert (Hn : 0 < INR n) by (apply lt_0_INR; unfold n; destruct passes; [congruence|cbn; lia]).
  set (live := fun w' : world => exists c0, In c0 (configurations s) /\ w' = puts W fs c0). assert (Lc : live (puts W fs c)) by (exists c; auto).
  assert (Hlive : forall w i r, live w -> In i fs -> exists w', double_run ex lg w i r = Ok w' /\ live w').
  { intros w i r (c0 & Hc0 & ->) Hi. destruct (double_step ex lg outs Ho o0 W SW fs Hd HA d c0 i r ltac:(rewrite EVs; exact Hc0) Hi) as (A' & E & HS). eexists. split; [exact E|]. exists (upd c0 (place i fs) A'). split; [rewrite EVs in HS; exact HS|reflexivity]. }
  assert (Hav : 0 <= av <= 1).
  { apply mean_between; [|intros E; rewrite E in Hc; exact Hc|intros x _; apply Hh]. intros x Hx. change (posterior outs s x) with ((fun c => posterior outs s c) x). rewrite <- EJ. apply (ErgodicProofs2.J_pos outs W SW fs Hd HA). rewrite EVs. exact Hx. }
  set (X := fun w' : world => h (map (matrix_of w') fs) - av).
  assert (HX : forall w, live w -> Rabs (X w) <= 1) by (intros w _; unfold X; pose proof (Hh (map (matrix_of w) fs)); apply Rabs_le; lra).
  assert (Hmix : forall ps, Forall (fun p => Permutation p fs) ps -> (T <= List.length ps)%nat -> forall w, live w -> Rabs (updates_mean (double_run ex lg) (concat ps) X w) <= dl).
  { intros ps Hps Hl w Hw. pose proof Hw as (c0 & Hc0 & Ew). rewrite (updates_ext _ _ X (fun w' => 1 * h (map (matrix_of w') fs) + (- av) * 1)) by (intros; unfold X; ring).
    rewrite (updates_lin2 _ _ (fun w' => h (map (matrix_of w') fs)) (fun _ => 1)), (live_const _ live fs Hlive) by (try assumption; apply concat_in_fs, Hps). specialize (LN ps c0 Hps Hl Hc0). rewrite Ew.
    match goal with |- Rabs ?x <= _ => match type of LN with Rabs ?y <= _ => replace x with y by ring end end. exact LN. }
  assert (Hdl : 0 <= dl).
  { eapply Rle_trans; [apply Rabs_pos|]. apply (Hmix (repeat fs T)); [apply Forall_forall; intros p Hp; apply repeat_spec in Hp; rewrite Hp; reflexivity|rewrite repeat_length; lia|exact Lc]. }
  set (K := (1 + 2 * INR T) / INR n + 2 * dl). rewrite <- (live_const (double_run ex lg) live fs Hlive (concat burn) K (concat_in_fs _ _ HB) (puts W fs c) Lc). apply (live_mono _ live fs Hlive); [apply concat_in_fs, HB| |exact Lc]. intros w Hw.
  rewrite (passes_ext_len _ _ _ (fun l => / INR n ^ 2 * (Rsum X l) ^ 2 + 0 * 0)).
  - rewrite (passes_lin2 _ _ _ 0 (fun l => Rsum X l ^ 2) (fun _ => 0)), Rmult_0_l, Rplus_0_r. pose proof (square_small _ live fs Hlive X HX T dl Hdl Hmix passes HPs w Hw) as SS. fold n in SS.
    apply (Rmult_le_reg_l (INR n ^ 2)); [apply pow_lt, Hn|]. rewrite <- Rmult_assoc, Rinv_r, Rmult_1_l by (apply pow_nonzero; lra). eapply Rle_trans; [exact SS|]. apply Req_le. unfold K. field. lra.
  - intros l Hl. fold n in Hl. assert (EX : Rsum X l = Rsum (fun w' => h (map (matrix_of w') fs)) l - INR n * av).
    { rewrite <- Hl. clear. unfold X. induction l as [|x l IL]; [cbn; ring|]. rewrite !Rsum_cons, IL. cbn [List.length]. rewrite S_INR. ring. }
    rewrite EX. field. lra.
Qed.
