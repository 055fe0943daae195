(** Proof of C120: long runs in double precision, from any start. *)
From Coq Require Import String Lia Lra Permutation.
From Verif Require Import Base BaseLemmas BaseR BaseRLemmas Spec SpecR Outputs Scores Sampling SpecFloat Invariance InvarianceProofs HierProofs Canon Machine Dispatch Inference SpecMachine SpecOrdinary SpecPass SpecPredict SpecErgodic MachineProofs MachineProofs2 InferenceProofs BuiltProofs InferenceProofs2 PlainProofs DispatchProofs UpdateProofs SamplingProofs.
From Verif Require Import OrdinaryProofs OrdinaryProofs2 OrdinaryProofs3 OrdinaryProofs4 OrdinaryProofs5 OrdinaryProofs6 OrdinaryProofs7 PassProofs RunProofs UnbiasedProofs ErgodicProofs ErgodicProofs2 ErgodicProofs3 ErgodicProofs6.
From Verif Require Import FloatFuzzy FloatProofs SpecFloatRun FloatSampling FloatSampleProofs FloatSampleProofs2 FloatSampleProofs3 FloatSampleProofs4 FloatSampleProofs5 FloatMachine SpecFloatMachine FloatMachineProofs FloatMachineProofs2.
Local Open Scope R_scope.

Lemma mean_between_of k f lo hi : (forall rs, lo <= f rs <= hi) -> lo <= mean_of k f <= hi.
Proof.
  intros H. unfold mean_of. assert (HM : 0 < INR draw_grid) by apply lt_0_INR, grid_pos. revert HM. generalize draw_grid. intros M HM.
  revert f H. induction k as [|k IH]; intros f H; cbn [grid_mean]; [apply H|].
  assert (G : forall l : list nat, INR (List.length l) * lo <= Rsum (fun j => grid_mean M k (fun rs => f (INR j / INR M :: rs))) l <= INR (List.length l) * hi).
  { induction l as [|j l IL]; [cbn; lra|]. rewrite Rsum_cons. cbn [List.length]. rewrite S_INR. pose proof (IH (fun rs => f (INR j / INR M :: rs)) (fun rs => H _)). lra. }
  specialize (G (seq 0 M)). rewrite seq_length in G. split; apply (Rmult_le_reg_r (INR M)); try exact HM; unfold Rdiv; rewrite Rmult_assoc, Rinv_l by lra; lra.
Qed.
Lemma updates_app_mean step a b h : forall w, updates_mean step (a ++ b) h w = updates_mean step a (updates_mean step b h) w.
Proof. induction a as [|i a IH]; intros w; cbn [updates_mean app]; [reflexivity|]. apply mean_ext. intros rs. destruct (step w i _); [apply IH|reflexivity]. Qed.

Section Lipschitz.
Context {C Q : Type} (St : list C) (flip : Q -> C -> C) (free : Q -> bool) (sites : list Q) (wt : C -> R).
Context (flip_in : forall q c, In q sites -> free q = true -> In c St -> In (flip q c) St) (wpos : forall c, In c St -> 0 < wt c).
Lemma ops_lip qs U V e : (forall q, In q qs -> In q sites) -> (forall c, In c St -> Rabs (U c - V c) <= e) -> forall c, In c St -> Rabs (ops flip free wt qs U c - ops flip free wt qs V c) <= e.
Proof.
  intros Hq H. induction qs as [|q qs IH]; intros c Hc; [apply H, Hc|]. specialize (IH (fun q' G => Hq q' (or_intror G))). cbn [ops fold_right]. fold (ops flip free wt qs U) (ops flip free wt qs V). unfold op. destruct (free q) eqn:EF; [|apply IH, Hc].
  assert (Hf : In (flip q c) St) by (apply flip_in; [apply Hq; left; reflexivity|exact EF|exact Hc]).
  assert (HA : 0 <= accq flip wt q c <= 1). { pose proof (wpos _ Hc). pose proof (wpos _ Hf). unfold accq. split; [apply Rmin_glb; [lra|]; apply Rlt_le, Rdiv_lt_0_compat; assumption|apply Rmin_l]. }
  pose proof (IH _ Hf) as I1. pose proof (IH _ Hc) as I2. set (a := accq flip wt q c) in *. clearbody a.
  replace (a * ops flip free wt qs U (flip q c) + (1 - a) * ops flip free wt qs U c - (a * ops flip free wt qs V (flip q c) + (1 - a) * ops flip free wt qs V c))
    with (a * (ops flip free wt qs U (flip q c) - ops flip free wt qs V (flip q c)) + (1 - a) * (ops flip free wt qs U c - ops flip free wt qs V c)) by ring.
  eapply Rle_trans; [apply Rabs_triang|]. rewrite !Rabs_mult, (Rabs_pos_eq a), (Rabs_pos_eq (1 - a)) by lra.
  pose proof (Rmult_le_compat_l a _ _ (proj1 HA) I1). pose proof (Rmult_le_compat_l (1 - a) _ _ ltac:(lra) I2). lra.
Qed.
End Lipschitz.

Section Run.
Context (ex lg : R -> R) (Hex : good_exp ex) (outs : string -> list vec -> nat -> Z) (Houts : outputs outs) (o : oracle).
Context (w : world) (S : sound w) (fs : list nat) (Hd : NoDup fs) (Hf : forall i, In i fs -> armed w i) (d : R) (Hlg : forall i, In i fs -> Rabs (lg (bprior (get_mat w i)) - logit (bprior (get_mat w i))) <= d).
Let J (c : list mat) : R := joint outs (puts w fs c).
Let states := choices (map (values_of w) fs).
Let N i := nrows (matrix_of w i).
Let L i := ncols (matrix_of w i).
Let B (i : nat) : R := update_error w (lg (bprior (get_mat w i))) d i.
Let D := double_run ex lg.

Lemma read_state c : In c states -> map (matrix_of (puts w fs c)) fs = c.
Proof.
  intros Hc. destruct (states_shapes _ _ _ Hc) as (H1 & H2). destruct (states_puts outs w S fs Hd Hf _ H1 H2) as (_ & V & _).
  apply (nth_ext _ _ [] []); [rewrite map_length; symmetry; exact H1|]. intros k Hk. rewrite map_length in Hk. rewrite (nth_indep _ [] (matrix_of (puts w fs c) 0%nat)) by (rewrite map_length; exact Hk). rewrite map_nth. apply V. exact Hk.
Qed.
Lemma double_step c i r : In c states -> In i fs -> exists A', D (puts w fs c) i r = Ok (puts w fs (upd c (place i fs) A')) /\ In (upd c (place i fs) A') states.
Proof.
  intros Hc Hi. destruct (step_facts lg outs w S fs Hd Hf d c i Hc Hi) as (SP & HA & EM & D1 & D2 & EP & EG & EF & EB).
  destruct (double_run_ok ex lg outs Houts o (puts w fs c) i r SP HA) as (A' & E & HV). exists A'. unfold D. rewrite E, EP. split; [reflexivity|].
  destruct (place_ok i fs Hi) as (P1 & P2). apply (PassProofs.states_ok w fs). pose proof (proj1 (PassProofs.states_ok w fs c) Hc) as (H1 & H2). split; [rewrite upd_length; exact H1|]. intros k Hk. cbv zeta.
  destruct (Nat.eq_dec k (place i fs)) as [->|Hn]; [|rewrite nth_upd_other by exact Hn; apply H2; exact Hk]. rewrite nth_upd_same by (unfold mat, vec in *; lia). rewrite P2.
  unfold values_of in HV. cbv zeta in HV. apply filter_In in HV. destruct HV as (V1 & V2). apply in_all_mats in V1. rewrite D1, D2 in V1, V2. split; [exact V1|]. rewrite EF, EM in V2.
  specialize (H2 _ P1). cbv zeta in H2. rewrite P2 in H2. destruct H2 as (O1 & O2). unfold agrees in *. rewrite forallb_forall in *. intros p Hp. specialize (V2 p Hp). specialize (O2 p Hp). destruct p as [n m]. cbn [fst snd] in *.
  destruct (at2 (fixed_of w i) n m =? 1)%Z; [|reflexivity]. cbn [negb orb] in *. apply Z.eqb_eq in V2, O2. apply Z.eqb_eq. congruence.
Qed.
Lemma updates_stay order lo hi (H : world -> R) : (forall i, In i order -> In i fs) -> (forall c, In c states -> lo <= H (puts w fs c) <= hi) ->
  forall c, In c states -> lo <= updates_mean D order H (puts w fs c) <= hi.
Proof.
  intros Ho HH. induction order as [|i order IH]; intros c Hc; cbn [updates_mean]; [apply HH, Hc|]. apply mean_between_of. intros rs.
  destruct (double_step c i (draws_of (ncols (matrix_of (puts w fs c) i)) rs) Hc (Ho i (or_introl eq_refl))) as (A' & E & HS). rewrite E. apply (IH (fun j Hj => Ho j (or_intror Hj))). exact HS.
Qed.
Lemma double_near_ops order (h : list mat -> R) : (forall i, In i order -> In i fs) -> (forall c, 0 <= h c <= 1) -> forall c, In c states ->
  Rabs (updates_mean D order (fun w' => h (map (matrix_of w') fs)) (puts w fs c) - ops (flip_site fs) (free_site w) J (sites_of w order) h c) <= Rsum B order.
Proof.
  intros Ho Hh. induction order as [|i order IH]; intros c Hc.
  - cbn [updates_mean sites_of flat_map ops fold_right]. rewrite read_state by exact Hc. rewrite Rminus_diag_eq, Rabs_R0 by reflexivity. cbn. lra.
  - specialize (IH (fun j Hj => Ho j (or_intror Hj))). pose proof (Ho i (or_introl eq_refl)) as Hi. set (H := fun w' : world => h (map (matrix_of w') fs)) in *. set (U := fun c => updates_mean D order H (puts w fs c)) in *.
    rewrite Rsum_cons. unfold sites_of. cbn [flat_map]. fold (sites_of w order). rewrite ops_app. apply (abs_tri3 _ (ops (flip_site fs) (free_site w) J (cellsq w i) U c) _).
    + pose proof (step_ops outs w S fs Hd Hf c i U Hc Hi) as SO. change (Edraws (N i * L i) (fun rs => U (pass_step outs w fs c i rs)) = ops (flip_site fs) (free_site w) J (cellsq w i) U c) in SO. rewrite <- SO.
      destruct (step_facts lg outs w S fs Hd Hf d c i Hc Hi) as (SP & HA & EM & D1 & D2 & EP & EG & EF & EB).
      assert (Hd' : Rabs (lg (bprior (get_mat (puts w fs c) i)) - logit (bprior (get_mat (puts w fs c) i))) <= d) by (rewrite EG; apply Hlg, Hi).
      pose proof (double_close ex lg outs Houts o (puts w fs c) i d Hex SP HA Hd' (fun A => U (upd c (place i fs) A)) (fun m => updates_range _ _ _ _ (fun w' => Hh _))) as DC. cbv zeta in DC. rewrite EG, EB, D1, D2, EF, EM in DC.
      assert (EJ : (fun A' => joint outs (put (puts w fs c) i A')) = (fun A' => joint outs (puts w fs (upd c (place i fs) A')))) by (apply FunctionalExtensionality.functional_extensionality; intros A'; rewrite EP; reflexivity). rewrite EJ in DC.
      cbn [updates_mean]. unfold draws_needed. rewrite D1, D2. fold (N i) (L i) in DC |- *.
      rewrite (mean_ext _ _ (fun rs => match double_run ex lg (puts w fs c) i (draws_of (L i) rs) with Ok w' => U (upd c (place i fs) (matrix_of w' i)) | Err _ => 0 end)); [exact DC|].
      intros rs. unfold D. destruct (double_run_ok ex lg outs Houts o (puts w fs c) i (draws_of (L i) rs) SP HA) as (A' & E & _). rewrite E. unfold U. rewrite EP. do 3 f_equal.
      rewrite <- EP. destruct HA as (l & Hl & Hi' & _). unfold matrix_of. rewrite (put_value _ SP l i Hl Hi'), Nat.eqb_refl by (apply (wf_placed _ (so_wf _ SP) l i Hl Hi')). reflexivity.
    + apply (ops_lip states (flip_site fs) (free_site w) (sites_of w fs) J); [intros; apply (flip_site_in w fs); assumption|apply (ErgodicProofs2.J_pos outs w S fs Hd Hf)| |exact IH|exact Hc].
      intros (j & n & l) Hq. apply in_sites. unfold cellsq in Hq. apply in_map_iff in Hq. destruct Hq as ((a & b) & E & Hq). injection E as -> -> ->. apply in_cells in Hq. split; [exact Hi|exact Hq].
Qed.
End Run.

(** The machine that [prepare] makes of w, with any values of the unfixed factors *)
Lemma prepared_double outs w : outputs outs -> sound w -> (forall l, (l < List.length (layers w))%nat -> lfixed (lbda (get_lay w l)) = true) ->
  let fs := unfixed w in let states := choices (map (values_of w) fs) in let weight := fun c => joint outs (puts w fs c) in
  exists W, sound W /\ NoDup fs /\ (forall i, In i fs -> armed W i) /\ map (values_of W) fs = map (values_of w) fs /\ (fun c => joint outs (puts W fs c)) = weight /\ free_site W = free_site w /\ (forall l, sites_of W l = sites_of w l) /\
  (forall i, bprior (get_mat W i) = bprior (get_mat w i)) /\ (forall lp d i, update_error W lp d i = update_error w lp d i) /\
  forall s c, wd s = w -> In c states -> exists s1, prepare (set_wd s (puts w fs c)) = Ok (fs, [], s1) /\ wd s1 = puts W fs c.
Proof.
  intros Ho SO HL fs states weight. destruct (unfixed_ok w SO) as (_ & Hd & HF). destruct (prepared w SO HL) as (W & SW & HA & ES & EY & HP). fold fs in Hd, HF, HA, HP.
  assert (EA : arrays W = arrays w) by (apply (f_equal arrays) in ES; exact ES).
  assert (EM : forall i, with_sfct (get_mat W i) None = with_sfct (get_mat w i) None).
  { intros i. apply (f_equal mats) in ES. cbn [strip mats] in ES. unfold get_mat. apply (f_equal (fun l => nth i l (with_sfct no_matrix None))) in ES. rewrite !(map_nth (fun m => with_sfct m None)) in ES. exact ES. }
  assert (EV : forall i, val (get_mat W i) = val (get_mat w i)) by (intros i; pose proof (f_equal val (EM i)) as G; exact G).
  assert (EB : forall i, bprior (get_mat W i) = bprior (get_mat w i)) by (intros i; pose proof (f_equal bprior (EM i)) as G; exact G).
  assert (EP : forall i, parents (get_mat W i) = parents (get_mat w i)) by (intros i; pose proof (f_equal parents (EM i)) as G; exact G).
  assert (EX : forall i, fixed_of W i = fixed_of w i) by (intros i; unfold fixed_of; pose proof (f_equal fixed_entries (EM i)) as G; cbn in G; rewrite G; reflexivity).
  assert (EMx : forall i, matrix_of W i = matrix_of w i) by (intros i; unfold matrix_of, value, get_arr; rewrite EA, EV; reflexivity).
  exists W. split; [exact SW|]. split; [exact Hd|]. split; [exact HA|]. split; [apply map_ext; intros i; unfold values_of; rewrite EMx, EX; reflexivity|]. split; [|split; [|split; [|split; [exact EB|split]]]].
  - apply FunctionalExtensionality.functional_extensionality. intros c. unfold weight. destruct (puts_mats W fs c) as (P1 & P2 & _). destruct (puts_mats w fs c) as (P3 & P4 & _). apply joint_same; [congruence|apply puts_same; assumption|]. intros i. unfold get_mat. rewrite P1, P3. split; [apply EV|apply EB].
  - apply FunctionalExtensionality.functional_extensionality. intros q. unfold free_site. rewrite EX. reflexivity.
  - intros l. unfold sites_of. apply flat_map_ext. intros i. unfold cellsq. rewrite EMx. reflexivity.
  - intros lp d i. unfold update_error, draws_needed, pull. rewrite EMx, EP. do 6 f_equal. apply Rsum_ext. intros k _. unfold disp, get_lay. rewrite EY. reflexivity.
  - intros s c _ Hc. destruct (states_shapes w fs c Hc) as (H1 & H2). destruct (puts_sound fs w c SO Hd HF H1 H2) as (SP & _). destruct (HP (set_wd s (puts w fs c)) c SP eq_refl) as (s1 & E1 & E2 & _). exists s1. auto.
Qed.
Lemma long_near ex lg outs (o0 : oracle) (w W : world) (d : R) (T : nat) (eps : R) : let fs := unfixed w in let states := choices (map (values_of w) fs) in let weight := fun c => joint outs (puts w fs c) in
  good_exp ex -> outputs outs -> sound W -> NoDup fs -> (forall i, In i fs -> armed W i) -> map (values_of W) fs = map (values_of w) fs -> (fun c => joint outs (puts W fs c)) = weight -> free_site W = free_site w -> (forall l, sites_of W l = sites_of w l) ->
  (forall i, bprior (get_mat W i) = bprior (get_mat w i)) -> (forall lp d i, update_error W lp d i = update_error w lp d i) -> (forall i, In i fs -> Rabs (lg (bprior (get_mat w i)) - logit (bprior (get_mat w i))) <= d) ->
  (forall orders, Forall (fun order => Permutation order fs) orders -> (T <= List.length orders)%nat -> forall h, (forall c, In c states -> Rabs (h c) <= 1) -> forall c, In c states -> Rabs (ops (flip_site fs) (free_site w) weight (sites_of w (concat orders)) h c - average_over weight states h) <= eps) ->
  forall passes h c, Forall (fun order => Permutation order fs) passes -> (T <= List.length passes)%nat -> (forall c, 0 <= h c <= 1) -> In c states ->
  Rabs (updates_mean (double_run ex lg) (concat passes) (fun w' => h (map (matrix_of w') fs)) (puts W fs c) - average_over weight states h) <= eps + INR T * Rsum (fun i => update_error w (lg (bprior (get_mat w i))) d i) fs.
Proof.
  intros fs states weight Hex Ho SW Hd HA EVs EJ EF ES EB EU Hlg HTT passes h c HPs HL2 Hh Hc.
  rewrite <- (firstn_skipn (List.length passes - T) passes). rewrite concat_app. set (p1 := firstn _ passes). set (p2 := skipn _ passes). rewrite <- (firstn_skipn (List.length passes - T) passes) in HPs. fold p1 p2 in HPs. apply Forall_app in HPs. destruct HPs as (HP1 & HP2).
  assert (L2 : List.length p2 = T) by (unfold p2; rewrite skipn_length; lia).
  assert (IN : forall ps, Forall (fun order => Permutation order fs) ps -> forall i, In i (concat ps) -> In i fs) by (intros ps HO i Hi; apply in_concat in Hi; destruct Hi as (l & Hl & Hi); rewrite Forall_forall in HO; eapply Permutation_in; [apply HO, Hl|exact Hi]).
  assert (Hlg' : forall i, In i fs -> Rabs (lg (bprior (get_mat W i)) - logit (bprior (get_mat W i))) <= d) by (intros i Hi; rewrite EB; apply Hlg, Hi).
  assert (Hc' : In c (choices (map (values_of W) fs))) by (rewrite EVs; exact Hc). clear HL2.
  rewrite updates_app_mean. set (av := average_over _ _ _). set (e := eps + _).
  assert (G : av - e <= updates_mean (double_run ex lg) (concat p1) (updates_mean (double_run ex lg) (concat p2) (fun w' => h (map (matrix_of w') fs))) (puts W fs c) <= av + e).
  2:{ apply Rabs_le. lra. }
  apply (updates_stay ex lg outs Ho o0 W SW fs Hd HA d); [apply IN, HP1| |exact Hc']. intros c' Hc2.
  pose proof (double_near_ops ex lg Hex outs Ho o0 W SW fs Hd HA d Hlg' (concat p2) h (IN _ HP2) Hh c' Hc2) as N1. rewrite EJ, EF, ES in N1.
  assert (N2 : Rabs (ops (flip_site fs) (free_site w) weight (sites_of w (concat p2)) h c' - av) <= eps).
  { apply HTT; [exact HP2|lia| |unfold states; rewrite <- EVs; exact Hc2]. intros x _. pose proof (Hh x). rewrite Rabs_pos_eq; lra. }
  assert (N3 : Rsum (fun i => update_error W (lg (bprior (get_mat W i))) d i) (concat p2) = INR T * Rsum (fun i => update_error w (lg (bprior (get_mat w i))) d i) fs).
  { rewrite <- L2, <- (Rsum_passes _ fs p2) by (eapply Forall_impl; [|exact HP2]; intros a Ha; apply Permutation_sym, Ha). apply Rsum_ext. intros i _. rewrite EU, EB. reflexivity. }
  rewrite N3 in N1. pose proof (abs_tri3 _ _ _ _ _ N1 N2) as N4. unfold e. revert N4. unfold Rabs. destruct (Rcase_abs _); intros; lra.
Qed.
Lemma C120_settled outs o0 s : outputs outs -> random o0 -> ordinary o0 (wd s) -> (forall l, (l < List.length (layers (wd s)))%nat -> lfixed (lbda (get_lay (wd s) l)) = true) -> settles outs (wd s) (unfixed (wd s)) ->
  forall eps, 0 < eps -> exists T, forall ex lg d c, good_exp ex -> (forall i, In i (unfixed (wd s)) -> Rabs (lg (bprior (get_mat (wd s) i)) - logit (bprior (get_mat (wd s) i))) <= d) -> In c (configurations s) ->
  exists s1, prepare (set_wd s (puts (wd s) (unfixed (wd s)) c)) = Ok (unfixed (wd s), [], s1) /\
  forall passes h, Forall (fun order => Permutation order (unfixed (wd s))) passes -> (T <= List.length passes)%nat -> (forall c, 0 <= h c <= 1) ->
  Rabs (updates_mean (double_run ex lg) (concat passes) (fun w' => h (map (matrix_of w') (unfixed (wd s)))) (wd s1) - average_over (posterior outs s) (configurations s) h)
    <= eps + INR T * Rsum (fun i => update_error (wd s) (lg (bprior (get_mat (wd s) i))) d i) (unfixed (wd s)).
Proof.
  intros Ho Hr H HL HT eps He. destruct (HT 1 eps He) as (T & HTT). exists T. intros ex lg d c Hex Hlg Hc.
  destruct (prepared_double outs (wd s) Ho (ordinary_sound _ _ Hr H) HL) as (W & SW & Hd & HA & EVs & EJ & EF & ES & EB & EU & HP). destruct (HP s c eq_refl Hc) as (s1 & E1 & E2). exists s1. split; [exact E1|]. rewrite E2.
  intros passes h HPs HL2 Hh. exact (long_near ex lg outs o0 (wd s) W d T eps Hex Ho SW Hd HA EVs EJ EF ES EB EU Hlg HTT passes h c HPs HL2 Hh Hc).
Qed.
Lemma C120_lemma outs o0 s : outputs outs -> random o0 -> ordinary o0 (wd s) -> (forall l, (l < List.length (layers (wd s)))%nat -> lfixed (lbda (get_lay (wd s) l)) = true) -> mixing outs s ->
  forall eps, 0 < eps -> exists T, forall ex lg d c, good_exp ex -> (forall i, In i (unfixed (wd s)) -> Rabs (lg (bprior (get_mat (wd s) i)) - logit (bprior (get_mat (wd s) i))) <= d) -> In c (configurations s) ->
  exists s1, prepare (set_wd s (puts (wd s) (unfixed (wd s)) c)) = Ok (unfixed (wd s), [], s1) /\
  forall passes h, Forall (fun order => Permutation order (unfixed (wd s))) passes -> (T <= List.length passes)%nat -> (forall c, 0 <= h c <= 1) ->
  Rabs (updates_mean (double_run ex lg) (concat passes) (fun w' => h (map (matrix_of w') (unfixed (wd s)))) (wd s1) - average_over (posterior outs s) (configurations s) h)
    <= eps + INR T * Rsum (fun i => update_error (wd s) (lg (bprior (get_mat (wd s) i))) d i) (unfixed (wd s)).
Proof. intros H1 H2 H3 H4 H5. apply (C120_settled outs o0 s H1 H2 H3 H4). exact (mixing_settles outs o0 s H1 H2 H3 H4 H5). Qed.
(** Samples of a call of infer with real arithmetic, and the same passes in double precision *)
Lemma C120_samples_lemma outs o0 s : outputs outs -> random o0 -> ordinary o0 (wd s) -> (forall l, (l < List.length (layers (wd s)))%nat -> lfixed (lbda (get_lay (wd s) l)) = true) ->
  forall o cfg n, random o -> usable cfg -> annealable cfg (wd s) -> exists F, forall fuel j, (F <= fuel)%nat -> (j < n)%nat ->
  forall ex lg d c h, good_exp ex -> (forall i, In i (unfixed (wd s)) -> Rabs (lg (bprior (get_mat (wd s) i)) - logit (bprior (get_mat (wd s) i))) <= d) -> In c (configurations s) -> (forall c, 0 <= h c <= 1) ->
  exists s1 E, prepare (set_wd s (puts (wd s) (unfixed (wd s)) c)) = Ok (unfixed (wd s), [], s1) /\
  is_EE (run_draws s o cfg n) (fun rss => after_run (unfixed (wd s)) j h (run_from s fuel o cfg n c rss)) E /\
  Rabs (updates_mean (double_run ex lg) (map snd (plan o (unfixed (wd s)) (burn_in_passes cfg + S j) (clock (wd s)))) (fun w' => h (map (matrix_of w') (unfixed (wd s)))) (wd s1) - E)
    <= INR (burn_in_passes cfg + S j) * Rsum (fun i => update_error (wd s) (lg (bprior (get_mat (wd s) i))) d i) (unfixed (wd s)).
Proof.
  intros Ho Hr0 H HL o cfg n Hr HU HAn. pose proof (ordinary_sound _ _ Hr0 H) as SO. destruct (prepared_double outs (wd s) Ho SO HL) as (W & SW & Hd & HA & EVs & EJ & EF & ES & EB & EU & HP).
  destruct (run_slots outs (wd s) Ho SO HL) as (_ & HF & W2 & SW2 & HA2 & EVs2 & EJ2 & ED & EF2 & HS). unfold run_draws, run_from. change (configurations s) with (choices (map (values_of (wd s)) (unfixed (wd s)))). set (w := wd s) in *. set (fs := unfixed w) in *.
  assert (EJ2' : (fun c => joint outs (puts W2 fs c)) = (fun c => joint outs (puts w fs c))) by (apply FunctionalExtensionality.functional_extensionality; exact EJ2).
  assert (EF3 : free_site W2 = free_site w) by (apply FunctionalExtensionality.functional_extensionality; intros q; unfold free_site; rewrite (proj1 (EF2 _)); reflexivity).
  assert (ES3 : forall l, sites_of W2 l = sites_of w l) by (intros l; unfold sites_of; apply flat_map_ext; intros i; unfold cellsq; rewrite (proj2 (EF2 i)); reflexivity).
  exists (enough cfg). intros fuel j Hfu Hj ex lg d c h Hex Hlg Hc Hh. destruct (HP s c eq_refl Hc) as (s1 & E1 & E2). specialize (HS o cfg n s fuel eq_refl Hr HU HAn Hfu c). set (pl := plan o fs (burn_in_passes cfg + n) (clock w)) in *. cbv zeta in HS. fold pl in HS.
  destruct (plan_prefix o (proj1 Hr) fs (burn_in_passes cfg + S j) (n - S j) (clock w)) as (r & Er). replace (burn_in_passes cfg + S j + (n - S j))%nat with (burn_in_passes cfg + n)%nat in Er by lia. fold pl in Er.
  destruct (plan_orders o (proj1 Hr) fs (burn_in_passes cfg + S j) (clock w)) as (orders & O1 & O2 & O3).
  assert (IN : forall i, In i (concat orders) -> In i fs) by (intros i Hi; rewrite <- O1 in Hi; eapply plan_in; [apply Hr|exact Hi]).
  assert (Hc2 : In c (choices (map (values_of W2) fs))) by (rewrite EVs2; exact Hc). assert (Hc' : In c (choices (map (values_of W) fs))) by (rewrite EVs; exact Hc).
  exists s1, (ops (flip_site fs) (free_site w) (fun c => joint outs (puts w fs c)) (sites_of w (concat orders)) h c). split; [exact E1|]. split.
  - pose proof (pass_EE outs W2 SW2 fs Hd HA2 (fun c _ => h c) h (map snd r) (concat orders) IN (fun c _ => is_EE_const _ (h c)) c Hc2) as G. rewrite EJ2', EF3, ES3 in G. rewrite <- O1 in G |- *. rewrite <- map_app, <- Er, ED in G. eapply is_EE_ext; [|exact G]. intros rss HR. cbn beta. destruct (HS rss Hc HR) as (s' & F1 & F2). rewrite F1. unfold after_run. rewrite (F2 j Hj). rewrite O1. reflexivity.
  - assert (Hlg' : forall i, In i fs -> Rabs (lg (bprior (get_mat W i)) - logit (bprior (get_mat W i))) <= d) by (intros i Hi; rewrite EB; apply Hlg, Hi).
    pose proof (double_near_ops ex lg Hex outs Ho o0 W SW fs Hd HA d Hlg' (concat orders) h IN Hh c Hc') as N1. rewrite EJ, EF, ES in N1. rewrite O1, E2. eapply Rle_trans; [exact N1|]. apply Req_le.
    rewrite <- O2, <- (Rsum_passes _ fs orders) by (eapply Forall_impl; [|exact O3]; intros a Ha; apply Permutation_sym, Ha). apply Rsum_ext. intros i _. rewrite EU, EB. reflexivity.
Qed.
