(** Runs of inference with clean-ups. *)
From Coq Require Import String Permutation Lra.
From Verif Require Import Base BaseR BaseLemmas BaseRLemmas Spec SpecR Canon Fuzzy Clean SpecClean Machine Dispatch Inference SpecMachine MachineProofs MachineProofs2 BuiltProofs InferenceProofs InferenceProofs2 InferenceProofs3 InferenceProofs6 ProgressProofs PlainProofs PreserveProofs PreserveLog SpecOrdinary OrdinaryProofs OrdinaryProofs2 OrdinaryProofs3 OrdinaryProofs4 OrdinaryProofs5 OrdinaryProofs6 OrdinaryProofs7 SpecTidy TidyProofs TidyProofs2 TidyProofs3.
Local Open Scope R_scope.

(** ** Preparing a run *)
Lemma strip_unflagged w : strip (unflagged w) = unflagged (strip w).
Proof. unfold strip, unflagged. cbn [arrays mats layers free anneal clock]. rewrite !map_map. reflexivity. Qed.
Lemma get_lay_strip w l : get_lay (strip w) l = with_lbda (get_lay w l) (with_lsfct (lbda (get_lay w l)) None).
Proof. unfold get_lay, strip. cbn [layers]. set (f := fun y : layer => _). change no_layer with (f no_layer) at 1. rewrite map_nth. reflexivity. Qed.
Lemma prepare_neat s ms ls s1 : neat (wd s) -> prepare s = Ok (ms, ls, s1) -> tuned ms ls (wd s1) /\ strip (wd s1) = strip (wd s) /\
  (forall i, In i ms -> is_factor (wd s) i /\ fixed (get_mat (wd s) i) = FBool false) /\ (forall l, In l ls -> (l < List.length (layers (wd s)))%nat /\ lfixed (lbda (get_lay (wd s) l)) = false) /\
  (forall i, is_factor (wd s) i -> fixed (get_mat (wd s) i) = FBool false -> In i ms).
Proof.
  intros (S & T) EP. destruct (prepare_wd _ _ _ _ EP) as (w1 & w2 & E0 & El & E1 & E2 & Ew). pose proof (prepare_spec _ _ _ _ EP) as (_ & _ & UA & _). destruct UA as (UA1 & UA2 & UA3 & UA4 & UA5 & UA6 & UA7 & UA8).
  set (s0 := set_wd s (unflagged (wd s))).
  assert (EP' : exists s1', prepare s0 = Ok (ms, ls, s1') /\ wd s1' = unflagged w2).
  { unfold prepare. change (wd s0) with (unflagged (wd s)). rewrite members_unflagged, not_fixed_unflagged, E0. cbn [bind]. cbv zeta. rewrite free_lbdas_unflagged, <- El. rewrite (foldM_unflagged assign_mat assign_mat_unflagged), E1. cbn [lift bind]. rewrite (foldM_unflagged assign_lbda assign_lbda_unflagged), E2. cbn [lift bind]. eexists. split; [reflexivity|].
    match goal with |- wd (fold_left rewind_l ?a ?b) = _ => destruct (rewind_spec a b) as ((Q1 & _) & _) end. cbv zeta in Q1. rewrite Q1. match goal with |- wd (fold_left _ ?a ?b) = _ => exact (proj1 (rewind_m_spec a b)) end. }
  destruct EP' as (s1' & EP' & Ew'). destruct (prepare_sound s0 ms ls s1' S EP') as (G1 & G2 & G3 & G4 & G5 & G6 & G7). rewrite Ew' in *. change (wd s0) with (unflagged (wd s)) in *. rewrite Ew in *.
  assert (SF : same_flags (wd s) w2) by (intros l; specialize (UA8 l); destruct (get_lay w2 l), (get_lay (wd s) l); cbn in *; injection UA8; intros; subst; auto).
  assert (EST : strip w2 = strip (wd s)).
  { apply unflagged_inj; [rewrite <- !strip_unflagged; exact G2|]. intros l. rewrite !get_lay_strip. exact (SF l). }
  split; [|split; [exact EST|]].
  - split; [split; [exact G1|]|split; [exact G3|exact G4]]. intros l Hl Fl. rewrite UA6 in Hl. unfold flagged in Fl. destruct (SF l) as (e1 & e2). rewrite e1, e2 in Fl. destruct (T l Hl Fl) as (T1 & T2).
    assert (EL : factors (get_lay w2 l) = factors (get_lay (wd s) l) /\ child (get_lay w2 l) = child (get_lay (wd s) l)) by (specialize (UA8 l); destruct (get_lay w2 l), (get_lay (wd s) l); cbn in *; injection UA8; intros; subst; auto). destruct EL as (-> & ->).
    assert (EM : forall i, val (get_mat w2 i) = val (get_mat (wd s) i) /\ parents (get_mat w2 i) = parents (get_mat (wd s) i)) by (intros i; specialize (UA7 i); destruct (get_mat w2 i), (get_mat (wd s) i); cbn in *; injection UA7; intros; subst; auto).
    split; [intros i Hi; rewrite (proj2 (EM i)); apply T1, Hi|]. unfold value, get_arr. rewrite UA1, (proj1 (EM _)). exact T2.
  - split; [intros i Hi; destruct (G5 i Hi) as (H1 & H2); rewrite is_factor_unflagged in H1; auto|]. split.
    + intros l Hl. destruct (G6 l Hl) as (H1 & H2). rewrite lays_unflagged in H1. rewrite get_lay_unflagged in H2. auto.
    + intros i Hi Hx. apply G7; [rewrite is_factor_unflagged; exact Hi|exact Hx].
Qed.

(** ** What a run does *)
Lemma run_tidy outs fuel o cfg n s s' : outputs outs -> random o -> neat (wd s) -> infer fuel o cfg n s = Some (Ok s') -> neat (wd s') /\
  exists w1 evs, neat w1 /\ strip w1 = strip (wd s) /\ log s' = log s ++ evs /\ tidily outs o evs w1 (wd s') /\
    (forall i, In (EMat i) evs -> is_factor (wd s) i /\ fixed (get_mat (wd s) i) = FBool false) /\ (forall l v, In (ELbda l v) evs -> (l < List.length (layers (wd s)))%nat /\ lfixed (lbda (get_lay (wd s) l)) = false) /\
    (forall l v, In (EAnneal l v) evs -> (l < List.length (layers (wd s)))%nat /\ lfixed (lbda (get_lay (wd s) l)) = false /\ anneal (wd s) = true) /\
    (forall i, is_factor (wd s) i -> fixed (get_mat (wd s) i) = FBool false -> sfct (get_mat (wd s') i) <> None).
Proof.
  intros Houts Hr N E. destruct (prepare s) as [[[ms ls] s1]|] eqn:EP; [|unfold infer in E; rewrite EP in E; discriminate]. destruct (prepare_neat _ _ _ _ N EP) as (TU & T1 & HM & HL & HI).
  pose (K := fun (e : list event) (w : world) => tuned ms ls w /\ tidily outs o e (wd s1) w /\ (forall i, In (EMat i) e -> In i ms) /\ (forall l v, In (ELbda l v) e -> In l ls) /\ (forall l v, In (EAnneal l v) e -> In l ls /\ anneal (wd s) = true) /\ anneal w = anneal (wd s)).
  destruct (infer_log_clean fuel o cfg n s s' ms ls s1 K (proj1 Hr) E EP) as (evs & E1 & (K1 & K4 & K5 & K6 & K7 & K8)).
  - intros e w (K1 & K4 & K5 & K6 & K7 & K8). split; [apply tuned_tick; exact K1|]. split; [apply ty_sweep; exact K4|].
    split; [intros i Hi|split; [intros l v Hi|split; [intros l v Hi|exact K8]]]; apply in_app_or in Hi; destruct Hi as [Hi|[Hi|[]]]; try discriminate; eauto.
  - intros e w i w' (K1 & K4 & K5 & K6 & K7 & K8) Hi Er. destruct (tuned_mat outs ms ls o w i w' Houts Hr K1 Hi Er) as (G1 & G2 & G3). split; [exact G1|]. split; [eapply ty_matrix; eassumption|].
    split; [intros j Hj|split; [intros k v Hj|split; [intros k v Hj|congruence]]]; apply in_app_or in Hj; destruct Hj as [Hj|[Hj|[]]]; try discriminate; eauto. injection Hj as <-. exact Hi.
  - intros e w l w' (K1 & K4 & K5 & K6 & K7 & K8) Hi Er. destruct (tuned_lbda outs ms ls w l w' Houts K1 Hi Er) as (G1 & G2 & G3). split; [exact G1|]. split; [eapply ty_dispersion; eassumption|].
    split; [intros j Hj|split; [intros k v Hj|split; [intros k v Hj|congruence]]]; apply in_app_or in Hj; destruct Hj as [Hj|[Hj|[]]]; try discriminate; eauto. injection Hj as <- _. exact Hi.
  - intros e w l win (K1 & K4 & K5 & K6 & K7 & K8). split; [exact K1|]. split; [apply ty_check; exact K4|].
    split; [intros j Hj|split; [intros k v Hj|split; [intros k v Hj|exact K8]]]; apply in_app_or in Hj; destruct Hj as [Hj|[Hj|[]]]; try discriminate; eauto.
  - intros e w l x (K1 & K4 & K5 & K6 & K7 & K8) Hi Ha. split; [apply tuned_disp; assumption|]. split; [apply ty_anneal; exact K4|].
    split; [intros j Hj|split; [intros k v Hj|split; [intros k v Hj|exact K8]]]; apply in_app_or in Hj; destruct Hj as [Hj|[Hj|[]]]; try discriminate; eauto. injection Hj as <- _. split; [exact Hi|congruence].
  - intros e w w' b (K1 & K4 & K5 & K6 & K7 & K8) Ec. destruct (clean_all_steps _ w (proj1 K1) (all_layers_lt w)) as (w'' & b' & Ec' & ST & _). rewrite Ec in Ec'. injection Ec' as <- <-. destruct (tuned_steps ms ls _ _ ST K1) as (G1 & G2). split; [exact G1|]. split; [eapply tidily_steps; eassumption|]. split; [exact K5|]. split; [exact K6|]. split; [exact K7|congruence].
  - intros e w w' (K1 & K4 & K5 & K6 & K7 & K8) Ec. destruct (final_clean_steps _ w (proj1 K1) (all_layers_lt w)) as (w'' & Ec' & ST & _). rewrite Ec in Ec'. injection Ec' as <-. destruct (tuned_steps ms ls _ _ ST K1) as (G1 & G2). split; [exact G1|]. split; [eapply tidily_steps; eassumption|]. split; [exact K5|]. split; [exact K6|]. split; [exact K7|congruence].
  - split; [exact TU|]. split; [apply ty_none|]. split; [intros i []|]. split; [intros l v []|]. split; [intros l v []|]. apply (f_equal anneal) in T1. exact T1.
  - split; [exact (proj1 K1)|]. exists (wd s1), evs. split; [exact (proj1 TU)|]. split; [exact T1|]. split; [exact E1|]. split; [exact K4|]. split; [intros i Hi; apply HM, K5, Hi|]. split; [intros l v Hi; apply HL, (K6 l v), Hi|]. split; [intros l v Hi; destruct (K7 l v Hi) as (G1 & G2); destruct (HL l G1); auto|].
    intros i Hf Hx. destruct (proj1 (proj2 K1) i (HI i Hf Hx)) as (l & _ & _ & G). change (get_mat (unflagged (wd s')) i) with (get_mat (wd s') i) in G. rewrite G. discriminate.
Qed.
Lemma tidying_neat o w : random o -> tidying o w -> neat w.
Proof.
  intros Hr. induction 1 as [w H|w w' H IH E T|w w' H IH A T|fuel cfg n s s' H IH E].
  - pose proof (ordinary_sound o w Hr H) as S. pose proof (plain_flags _ (so_plain _ S)) as PF. split; [rewrite unflagged_same by exact PF; exact S|]. intros l Hl [C|C]; destruct (PF l Hl) as (G1 & G2); congruence.
  - split; [rewrite E; apply IH|exact T].
  - split; [eapply sound_adjusted; [apply IH|exact A]|exact T].
  - eapply (run_tidy the_outputs); [exact the_outputs_ok|exact Hr|exact IH|exact E].
Qed.

(** ** Runs end *)
Lemma infer_tidy_ok fuel o cfg n s : random o -> usable cfg -> neat (wd s) -> annealable cfg (wd s) -> (enough cfg <= fuel)%nat -> exists s', infer fuel o cfg n s = Some (Ok s').
Proof.
  intros Hr (U1 & U2 & U3) N AN Hf. pose proof (proj1 N) as S. pose proof (proj1 Hr) as F.
  assert (EP : exists ms ls s1, prepare s = Ok (ms, ls, s1)).
  { assert (EU : exists p, prepare (set_wd s (unflagged (wd s))) = Ok p).
    { assert (AN' : annealable cfg (unflagged (wd s))) by (intros G1 G2; destruct (AN G1 G2) as (G3 & G4); split; [exact G3|]; intros l; rewrite lays_unflagged, get_lay_unflagged, disp_unflagged; apply G4).
      destruct (infer_ok_lemma fuel o cfg n (set_wd s (unflagged (wd s))) F (conj U1 (conj U2 U3)) (so_wf _ S) (so_plain _ S) AN' Hf) as (s' & E & _). unfold infer in E. destruct (prepare _) as [p|]; [eauto|discriminate]. }
    destruct EU as ([[ms ls] s1] & EU). destruct (prepare_wd _ _ _ _ EU) as (w1 & w2 & E0 & El & E1 & E2 & _). cbn [set_wd wd] in *. rewrite members_unflagged, not_fixed_unflagged in E0. rewrite free_lbdas_unflagged in El.
    rewrite (foldM_unflagged assign_mat assign_mat_unflagged) in E1. destruct (foldM assign_mat ms (wd s)) as [v1|] eqn:V1; [|discriminate]. cbn [lift bind] in E1. injection E1 as <-. rewrite (foldM_unflagged assign_lbda assign_lbda_unflagged) in E2. destruct (foldM assign_lbda ls v1) as [v2|] eqn:V2; [|discriminate].
    unfold prepare. rewrite E0. cbn [bind]. cbv zeta. rewrite V1. cbn [bind]. rewrite <- El, V2. cbn [bind]. eauto. }
  destruct EP as (ms & ls & s1 & EP). destruct (prepare_neat _ _ _ _ N EP) as (TU & T1 & _ & HL & _). pose proof (prepare_spec _ _ _ _ EP) as (Em & El & UA & _ & _ & _ & M0 & _ & L0). unfold infer. rewrite EP.
  destruct (not_fixed_spec _ _ _ Em) as (NM & _). assert (NM' : NoDup ms) by (apply NM; rewrite <- members_unflagged; apply (wf_nodup _ (so_wf _ S))). destruct (free_lbdas_spec (wd s)) as (NL & _). rewrite <- El in NL.
  assert (HT : forall w, tuned ms ls w -> tuned ms ls (tick w)) by (intros w; apply tuned_tick).
  assert (HA : forall w l x, tuned ms ls w -> In l ls -> anneal w = true -> tuned ms ls (assign_disp w l (LS x))) by (intros w l x H1 H2 _; apply tuned_disp; assumption).
  assert (HMr : forall w i, tuned ms ls w -> In i ms -> exists w', run_mat o w i = Ok w' /\ tuned ms ls w').
  { intros w i TW Hi. pose proof TW as ((SW & _) & G1 & _). destruct (G1 i Hi) as (l & Hl & Hf0 & Es). destruct (run_mat_ok o (unflagged w) i (so_plain _ SW) (wf_placed _ (so_wf _ SW))) as (w' & E & _); [exists l; auto|rewrite Es; discriminate|]. rewrite run_mat_unflagged in E. destruct (run_mat o w i) as [v|] eqn:EV; [|discriminate].
    exists v. split; [reflexivity|]. apply (tuned_mat the_outputs ms ls o w i v the_outputs_ok Hr TW Hi EV). }
  assert (HLr : forall w l, tuned ms ls w -> In l ls -> exists w', run_lbda w l = Ok w' /\ tuned ms ls w').
  { intros w l TW Hi. pose proof TW as ((SW & _) & _ & G1). destruct (G1 l Hi) as (Hl & f & Ef & _). destruct (run_lbda_ok (unflagged w) l (so_plain _ SW) Hl) as (w' & E & _); [rewrite Ef; discriminate|]. rewrite run_lbda_unflagged in E. destruct (run_lbda w l) as [v|] eqn:EV; [|discriminate].
    exists v. split; [reflexivity|]. apply (tuned_lbda the_outputs ms ls w l v the_outputs_ok TW Hi EV). }
  assert (HC : forall w, tuned ms ls w -> exists w' b, clean_all w (all_layers w) = Some (Ok (w', b)) /\ tuned ms ls w').
  { intros w TW. destruct (clean_all_steps _ w (proj1 TW) (all_layers_lt w)) as (w' & b & E & ST & _). exists w', b. split; [exact E|]. apply (tuned_steps ms ls _ _ ST TW). }
  assert (HF : forall w, tuned ms ls w -> exists w', final_clean w (all_layers w) = Some (Ok w') /\ tuned ms ls w').
  { intros w TW. destruct (final_clean_steps _ w (proj1 TW) (all_layers_lt w)) as (w' & E & ST & _). exists w'. split; [exact E|]. apply (tuned_steps ms ls _ _ ST TW). }
  assert (ED : forall l, disp (wd s1) l = disp (wd s) l) by (intros l; apply (f_equal (fun w => disp w l)) in T1; unfold disp in *; rewrite !get_lay_strip in T1; exact T1).
  assert (EDx : forall l, In l ls -> exists x, disp (wd s) l = LS x) by (intros l Hl; rewrite <- disp_unflagged; apply (plain_disp _ (so_plain _ S)); rewrite lays_unflagged; apply HL, Hl).
  destruct (burn_in_ok o cfg ms ls (tuned ms ls) F NL U3 U2 U1 HT HA HMr HLr HC HF fuel s1) as (s2 & EB & RB); [exact Hf|exact TU| |].
  { rewrite (proj1 (proj2 (proj2 UA))). intros G1 G2. destruct (AN G1 G2) as (G3 & G4). split; [exact G3|]. intros l Hl. destruct (HL l Hl) as (Hl' & Hx). rewrite ED. destruct (EDx l Hl) as (x & Ex). exists x. split; [exact Ex|]. intros ->. apply (G4 l Hl' Hx Ex). }
  rewrite EB. assert (HW : forall l, In l ls -> wide (wd s1) l) by (intros l Hl; unfold wide; rewrite ED; destruct (EDx l Hl) as (x & ->); cbn; lia).
  destruct (burn_in_course _ _ _ _ _ _ _ F NL U1 HW EB) as (_ & _ & _ & B4 & B5 & _ & _).
  assert (HO : forall w i, tuned ms ls w -> In i ms -> layer_of (get_mat w i) <> None /\ is_ibp w i = false).
  { intros w i ((SW & _) & G1 & _) Hi. destruct (G1 i Hi) as (l & Hl & Hf0 & _). destruct (wf_placed _ (so_wf _ SW) l i Hl Hf0) as (_ & EL & _). change (get_mat (unflagged w) i) with (get_mat w i) in EL. split; [rewrite EL; discriminate|]. unfold is_ibp. rewrite EL.
    pose proof (plain_model _ (so_plain _ SW) l Hl) as PM. rewrite get_lay_unflagged in PM. cbn [unflag model] in PM. apply (standard_known _ PM). }
  destruct (sampling_ok o cfg ms ls (tuned ms ls) F NM' NL U3 U2 HT HMr HLr HO n s2) as (s' & ES & RS); [exact RB|intros i Hi; rewrite B4; apply M0; exact Hi|exact B5|].
  exists s'. rewrite ES. reflexivity.
Qed.
