(** Proof of C119: sequences of updates. *)
From Coq Require Import String Lia Lra Permutation.
From Verif Require Import Base BaseLemmas BaseR BaseRLemmas Spec SpecR Outputs Scores Sampling SpecFloat Invariance InvarianceProofs HierProofs ErgodicProofs2 Canon Machine Dispatch Inference SpecMachine SpecOrdinary SpecPass MachineProofs MachineProofs2 InferenceProofs BuiltProofs InferenceProofs2 PlainProofs DispatchProofs UpdateProofs SamplingProofs.
From Verif Require Import OrdinaryProofs OrdinaryProofs2 OrdinaryProofs3 OrdinaryProofs4 OrdinaryProofs5 OrdinaryProofs6 OrdinaryProofs7 PassProofs.
From Verif Require Import FloatFuzzy FloatProofs SpecFloatRun FloatSampling FloatSampleProofs FloatSampleProofs2 FloatSampleProofs3 FloatSampleProofs4 FloatSampleProofs5 FloatMachine SpecFloatMachine FloatMachineProofs MachineExamples OrdinaryExamples.
Local Open Scope R_scope.

Lemma dims_same (A B : mat) : okmat (nrows A) (ncols A) B -> nrows B = nrows A /\ ncols B = ncols A.
Proof.
  intros H. destruct (okmat_dims _ _ _ H) as (_ & E1 & E2). split; [symmetry; exact E1|]. destruct E2 as [E2|E2]; [|symmetry; exact E2]. destruct A; [|discriminate]. destruct B; [reflexivity|discriminate (proj1 (proj1 H))].
Qed.
Lemma mean_ext k f g : (forall rs, f rs = g rs) -> mean_of k f = mean_of k g.
Proof. intros H. unfold mean_of. assert (G : forall M k f g, (forall rs, f rs = g rs) -> grid_mean M k f = grid_mean M k g); [|apply G, H]. clear. intros M. induction k as [|k IH]; intros f g Q; cbn [grid_mean]; [apply Q|]. f_equal. apply Rsum_ext. intros j _. apply IH. intros rs. apply Q. Qed.
Lemma updates_range step order : forall h w, (forall w', 0 <= h w' <= 1) -> 0 <= updates_mean step order h w <= 1.
Proof. induction order as [|i order IH]; intros h w Hh; cbn [updates_mean]; [apply Hh|]. apply mean_range. intros rs. destruct (step w i _); [apply IH, Hh|lra]. Qed.

Section Step.
Context (ex lg : R -> R) (outs : string -> list vec -> nat -> Z) (Houts : outputs outs) (o : oracle).
(** One update of a sound machine *)
Lemma double_run_ok w i r : sound w -> armed w i -> exists A', double_run ex lg w i r = Ok (put w i A') /\ In A' (values_of w i).
Proof.
  intros S (l & Hl & Hi & ES). destruct (twin_ok ex lg outs Houts o w l i S Hl Hi) as (E & E' & _ & E2 & (lo & E3) & _). unfold double_run. rewrite ES. cbn [of_option]. rewrite bindE, E2, E3, bindE. eexists. split; [reflexivity|].
  destruct (sound_value w l i S Hl Hi) as (_ & HO & _). destruct (double_loop_ok ex lo (matrix_of w i) (fixed_of w i) r _ _ HO) as (G1 & G2). unfold values_of. cbv zeta. apply filter_In. split; [apply in_all_mats; exact G1|].
  unfold agrees. apply forallb_forall. intros [n m] Hc. destruct (at2 (fixed_of w i) n m =? 1)%Z eqn:EF; [|reflexivity]. cbn [negb orb]. apply Z.eqb_eq. unfold cells in Hc. apply in_prod_iff in Hc. rewrite !in_seq in Hc. apply G2; [lia|lia|apply Z.eqb_eq; exact EF].
Qed.
Lemma double_close w i d : good_exp ex -> sound w -> armed w i -> Rabs (lg (bprior (get_mat w i)) - logit (bprior (get_mat w i))) <= d ->
  forall g : mat -> R, (forall m, 0 <= g m <= 1) ->
  let N := nrows (matrix_of w i) in let L := ncols (matrix_of w i) in
  Rabs (mean_of (N * L) (fun rs => match double_run ex lg w i (draws_of L rs) with Ok w' => g (matrix_of w' i) | Err _ => 0 end) -
        Edraws (N * L) (fun rs => g (ref_sweep (fun A' => joint outs (put w i A')) (fixed_of w i) (draws_of L rs) N L (matrix_of w i)))) <= update_error w (lg (bprior (get_mat w i))) d i.
Proof.
  intros Hex S HA Hd g Hg N L. pose proof HA as (l & Hl & Hi & ES). destruct (twin_ok ex lg outs Houts o w l i S Hl Hi) as (E & E' & E1 & E2 & E3 & E4). destruct (E4 Hex d Hd g Hg) as (v & V1 & V2). fold N L in V1, V2.
  assert (PV : forall A', matrix_of (put w i A') i = A') by (intros A'; unfold matrix_of; rewrite (put_value w S l i Hl Hi), Nat.eqb_refl by (apply (wf_placed _ (so_wf _ S) l i Hl Hi)); reflexivity).
  rewrite (mean_ext _ _ (fun rs => on_ok g (E' (draws_of L rs)))).
  2:{ intros rs. unfold double_run. rewrite ES. cbn [of_option]. rewrite bindE, E2. destruct (E' (draws_of L rs)) as [A'|]; [|reflexivity]. cbn [bind on_ok]. f_equal. apply PV. }
  set (e := Edraws _ _). assert (EV : v = e); [|rewrite <- EV; exact V2]. unfold e. eapply is_E_unique; [exact V1|]. eapply is_E_ext; [|apply (ref_sweep_is_E (fun A' => joint outs (put w i A')) (fixed_of w i) N L g (matrix_of w i))]. intros rs Hlen Hdr. cbv beta.
  assert (Hr' : forall k a b, is_draw (o_cell (with_cells o (draws_of L rs)) k a b)).
  { intros k a b. cbn. unfold draws_of. destruct (Nat.lt_ge_cases (a * L + b) (List.length rs)) as [G|G]; [apply (Forall_nth' _ rs _ 0 Hdr G)|rewrite nth_overflow by exact G; unfold is_draw; lra]. }
  pose proof (run_step outs Houts (with_cells o (draws_of L rs)) Hr' w S i HA) as RS. unfold run_mat in RS. rewrite ES in RS. cbn [of_option] in RS. rewrite bindE, E1 in RS. destruct (E (draws_of L rs)) as [A'|e0]; [|discriminate RS]. rewrite !bindE in RS. cbn [on_ok]. injection RS as RS.
  assert (EQ : put w i A' = put w i (ref_sweep (fun A' => joint outs (put w i A')) (fixed_of w i) (draws_of L rs) N L (matrix_of w i))) by (cbn [apply_effect] in RS; unfold put, write, set_arrays; f_equal; exact RS).
  apply (f_equal (fun w' => matrix_of w' i)) in EQ. rewrite !PV in EQ. rewrite EQ. reflexivity.
Qed.
End Step.

Section Run.
Context (ex lg : R -> R) (Hex : good_exp ex) (outs : string -> list vec -> nat -> Z) (Houts : outputs outs) (o : oracle).
Context (w : world) (S : sound w) (fs : list nat) (Hd : NoDup fs) (Hf : forall i, In i fs -> armed w i) (d : R) (Hlg : forall i, In i fs -> Rabs (lg (bprior (get_mat w i)) - logit (bprior (get_mat w i))) <= d).
Let J (c : list mat) : R := joint outs (puts w fs c).
Let states := choices (map (values_of w) fs).
Let N i := nrows (matrix_of w i).
Let L i := ncols (matrix_of w i).
Let factor i : In i fs -> is_factor w i. Proof. intros H. destruct (Hf i H) as (l & Hl & Hi & _). exists l. auto. Qed.
Let vals i j : In i fs -> In j fs -> i <> j -> val (get_mat w i) <> val (get_mat w j).
Proof. intros Hi Hj Hn. destruct (factor i Hi) as (l & Hl & Hi'). apply (so_own _ S j (factor j Hj)); [apply (wf_placed _ (so_wf _ S) l i Hl Hi')|exact Hn]. Qed.
Definition b (i : nat) : R := update_error w (lg (bprior (get_mat w i))) d i.
Lemma J_pos c : In c states -> 0 < J c.
Proof. intros Hc. destruct (states_shapes w fs c Hc) as (H1 & H2). apply (states_puts outs w S fs Hd Hf c H1 H2). Qed.

Lemma step_facts c i : In c states -> In i fs -> sound (puts w fs c) /\ armed (puts w fs c) i /\ matrix_of (puts w fs c) i = nth (place i fs) c [] /\ nrows (matrix_of (puts w fs c) i) = N i /\ ncols (matrix_of (puts w fs c) i) = L i /\
  (forall A, put (puts w fs c) i A = puts w fs (upd c (place i fs) A)) /\ get_mat (puts w fs c) i = get_mat w i /\ fixed_of (puts w fs c) i = fixed_of w i /\ update_error (puts w fs c) (lg (bprior (get_mat w i))) d i = b i.
Proof.
  intros Hc Hi. destruct (states_shapes w fs c Hc) as (H1 & H2). destruct (states_puts outs w S fs Hd Hf c H1 H2) as (SP & V & _). destruct (place_ok i fs Hi) as (P1 & P2). destruct (puts_mats w fs c) as (E1 & E2 & _).
  assert (EM : matrix_of (puts w fs c) i = nth (place i fs) c []) by (rewrite <- P2 at 1; apply V; exact P1).
  assert (HX : okmat (N i) (L i) (nth (place i fs) c [])) by (specialize (H2 _ P1); rewrite P2 in H2; exact H2). destruct (dims_same _ _ HX) as (D1 & D2).
  assert (EG : get_mat (puts w fs c) i = get_mat w i) by (unfold get_mat; rewrite E1; reflexivity).
  split; [exact SP|]. split; [eapply armed_same; [exact E1|exact E2|apply Hf; exact Hi]|]. split; [exact EM|]. rewrite EM. split; [exact D1|]. split; [exact D2|].
  split; [intros A; rewrite <- P2 at 1; apply puts_upd; [exact Hd|exact vals|exact P1|exact H1]|]. split; [exact EG|]. split; [unfold fixed_of; rewrite EG; reflexivity|].
  unfold b, update_error, draws_needed, pull. rewrite EM, D1, D2, EG. do 6 f_equal. apply Rsum_ext. intros k _. unfold disp, get_lay. rewrite E2. reflexivity.
Qed.
Lemma near_step i (g : list mat -> R) : In i fs -> (forall c, 0 <= g c <= 1) ->
  Rabs (Rsum (fun c => J c * mean_of (draws_needed (puts w fs c) i) (fun rs => match double_run ex lg (puts w fs c) i (draws_of (ncols (matrix_of (puts w fs c) i)) rs) with Ok w' => g (upd c (place i fs) (matrix_of w' i)) | Err _ => 0 end)) states - Rsum (fun c => J c * g c) states) <= b i * Rsum J states.
Proof.
  intros Hi Hg. pose proof (step_sum outs w S fs Hd Hf i g Hi) as SS. change (Rsum (fun c => J c * Edraws (N i * L i) (fun rs => g (pass_step outs w fs c i rs))) states = Rsum (fun c => J c * g c) states) in SS. rewrite <- SS, <- Rsum_scale. apply (Rsum_abs _ _ (fun c => b i * J c)). intros c Hc.
  destruct (step_facts c i Hc Hi) as (SP & HA & EM & D1 & D2 & EP & EG & EF & EB). pose proof (J_pos c Hc) as HJ. rewrite <- Rmult_minus_distr_l, Rabs_mult, (Rabs_pos_eq (J c)), (Rmult_comm (b i)) by lra. apply Rmult_le_compat_l; [lra|].
  assert (Hd' : Rabs (lg (bprior (get_mat (puts w fs c) i)) - logit (bprior (get_mat (puts w fs c) i))) <= d) by (rewrite EG; apply Hlg, Hi).
  pose proof (double_close ex lg outs Houts o (puts w fs c) i d Hex SP HA Hd' (fun A => g (upd c (place i fs) A)) (fun m => Hg _)) as DC. cbv zeta in DC. rewrite EG, EB, D1, D2, EF, EM in DC.
  unfold draws_needed. rewrite D1, D2. unfold pass_step. cbv zeta.
  assert (EJ : (fun A' => joint outs (put (puts w fs c) i A')) = (fun A' => joint outs (puts w fs (upd c (place i fs) A')))) by (apply FunctionalExtensionality.functional_extensionality; intros A'; rewrite EP; reflexivity). rewrite EJ in DC. exact DC.
Qed.
Lemma near_updates (h : list mat -> R) order : (forall c, 0 <= h c <= 1) -> (forall i, In i order -> In i fs) ->
  Rabs (Rsum (fun c => J c * updates_mean (double_run ex lg) order (fun w' => h (map (matrix_of w') fs)) (puts w fs c)) states - Rsum (fun c => J c * h c) states) <= Rsum b order * Rsum J states.
Proof.
  intros Hh. induction order as [|i order IH]; intros Ho.
  - cbn [updates_mean]. rewrite (Rsum_ext _ (fun c => J c * h c)); [rewrite Rminus_diag_eq by reflexivity; rewrite Rabs_R0; cbn; lra|]. intros c Hc. do 2 f_equal.
    destruct (states_shapes _ _ _ Hc) as (H1 & H2). destruct (states_puts outs w S fs Hd Hf _ H1 H2) as (_ & V & _).
    apply (nth_ext _ _ [] []); [rewrite map_length; symmetry; exact H1|]. intros k Hk. rewrite map_length in Hk. rewrite (nth_indep _ [] (matrix_of (puts w fs c) 0%nat)) by (rewrite map_length; exact Hk). rewrite map_nth. apply V. exact Hk.
  - specialize (IH (fun j Hj => Ho j (or_intror Hj))). set (H := fun w' : world => h (map (matrix_of w') fs)) in *. set (U := fun c => updates_mean (double_run ex lg) order H (puts w fs c)).
    pose proof (near_step i U (Ho i (or_introl eq_refl)) (fun c => updates_range _ _ _ _ (fun w' => Hh _))) as NS. rewrite Rsum_cons, Rmult_plus_distr_r.
    apply (abs_tri3 _ (Rsum (fun c => J c * U c) states) _); [|exact IH].
    rewrite (Rsum_ext _ (fun c => J c * mean_of (draws_needed (puts w fs c) i) (fun rs => match double_run ex lg (puts w fs c) i (draws_of (ncols (matrix_of (puts w fs c) i)) rs) with Ok w' => U (upd c (place i fs) (matrix_of w' i)) | Err _ => 0 end))); [exact NS|].
    intros c Hc. f_equal. cbn [updates_mean]. apply mean_ext. intros rs. destruct (step_facts c i Hc (Ho i (or_introl eq_refl))) as (SP & HA & EM & D1 & D2 & EP & EG & EF & EB).
    destruct (double_run_ok ex lg outs Houts o (puts w fs c) i (draws_of (ncols (matrix_of (puts w fs c) i)) rs) SP HA) as (A' & E & _). rewrite E. unfold U. rewrite EP. f_equal. f_equal. f_equal.
    rewrite <- EP. destruct HA as (l & Hl & Hi & _). unfold matrix_of. rewrite (put_value _ SP l i Hl Hi), Nat.eqb_refl by (apply (wf_placed _ (so_wf _ SP) l i Hl Hi)). reflexivity.
Qed.
End Run.

Lemma ordinary_armed o w i : random o -> ordinary o w -> is_factor w i -> sfct (get_mat w i) <> None -> sound w /\ armed w i.
Proof. intros Hr H (l & Hl & Hil) Hn. pose proof (ordinary_sound _ _ Hr H) as SO. split; [exact SO|]. exists l. destruct (so_factor _ SO l i Hl Hil) as (_ & [G|G] & _); [contradiction|auto]. Qed.
Lemma C119_lemma ex lg outs o w fs order d h : good_exp ex -> outputs outs -> random o -> ordinary o w -> NoDup fs -> (forall i, In i fs -> is_factor w i /\ sfct (get_mat w i) <> None) -> (forall i, In i fs -> Rabs (lg (bprior (get_mat w i)) - logit (bprior (get_mat w i))) <= d) ->
  (forall i, In i order -> In i fs) -> (forall c, 0 <= h c <= 1) ->
  let states := choices (map (values_of w) fs) in let weight := fun c => joint outs (puts w fs c) in
  Rabs (Rsum (fun c => weight c * updates_mean (double_run ex lg) order (fun w' => h (map (matrix_of w') fs)) (puts w fs c)) states - Rsum (fun c => weight c * h c) states)
    <= Rsum (fun i => update_error w (lg (bprior (get_mat w i))) d i) order * Rsum weight states.
Proof.
  intros Hex Ho Hr H Hn Hf Hlg Hord Hh. cbv zeta. exact (near_updates ex lg Hex outs Ho o w (ordinary_sound _ _ Hr H) fs Hn (fun i Hi => proj2 (ordinary_armed o w i Hr H (proj1 (Hf i Hi)) (proj2 (Hf i Hi)))) d Hlg h order Hh Hord).
Qed.
Lemma C119_safe_lemma ex lg o w i r : random o -> ordinary o w -> is_factor w i -> sfct (get_mat w i) <> None ->
  exists A', double_run ex lg w i r = Ok (put w i A') /\ In A' (values_of w i) /\ okmat (nrows (matrix_of w i)) (ncols (matrix_of w i)) A'.
Proof.
  intros Hr H Hi Hn. destruct (ordinary_armed o w i Hr H Hi Hn) as (S & HA). destruct (double_run_ok ex lg the_outputs the_outputs_ok o w i r S HA) as (A' & E & HV). exists A'. split; [exact E|]. split; [exact HV|]. unfold values_of in HV. cbv zeta in HV. apply filter_In in HV. apply in_all_mats, HV.
Qed.
Lemma Rsum_perm {T} (f : T -> R) a c : Permutation a c -> Rsum f a = Rsum f c.
Proof. induction 1 as [|x a c _ IH|x y a|a c e _ IH1 _ IH2]; rewrite ?Rsum_cons; [reflexivity|rewrite IH; reflexivity|ring|congruence]. Qed.
Lemma Rsum_passes {T} (f : T -> R) fs ps : Forall (Permutation fs) ps -> Rsum f (concat ps) = INR (List.length ps) * Rsum f fs.
Proof. induction 1 as [|p ps Hp _ IH]; [cbn; ring|]. cbn [concat List.length]. rewrite Rsum_app, IH, S_INR, <- (Rsum_perm f _ _ Hp). ring. Qed.
Lemma C119_passes_lemma ex lg outs o w fs passes d h : good_exp ex -> outputs outs -> random o -> ordinary o w -> NoDup fs -> (forall i, In i fs -> is_factor w i /\ sfct (get_mat w i) <> None) -> (forall i, In i fs -> Rabs (lg (bprior (get_mat w i)) - logit (bprior (get_mat w i))) <= d) ->
  Forall (Permutation fs) passes -> (forall c, 0 <= h c <= 1) ->
  let states := choices (map (values_of w) fs) in let weight := fun c => joint outs (puts w fs c) in
  Rabs (Rsum (fun c => weight c * updates_mean (double_run ex lg) (concat passes) (fun w' => h (map (matrix_of w') fs)) (puts w fs c)) states - Rsum (fun c => weight c * h c) states)
    <= INR (List.length passes) * Rsum (fun i => update_error w (lg (bprior (get_mat w i))) d i) fs * Rsum weight states.
Proof.
  intros Hex Ho Hr H Hn Hf Hlg HP Hh. cbv zeta. rewrite <- (Rsum_passes _ fs passes HP). apply (C119_lemma ex lg outs o w fs (concat passes) d h); try assumption.
  intros i Hi. apply in_concat in Hi. destruct Hi as (p & Hp & Hi). rewrite Forall_forall in HP. eapply Permutation_in; [symmetry; apply HP, Hp|exact Hi].
Qed.
