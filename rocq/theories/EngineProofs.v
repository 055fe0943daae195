(** Inference completes, and is explained step by step, when every update succeeds and keeps an invariant. *)
From Coq Require Import String Lia Permutation.
From Verif Require Import Base BaseLemmas BaseR SpecR Canon Machine Dispatch Inference SpecMachine SpecOrdinary SpecMaxRun MachineProofs InferenceProofs InferenceProofs2 InferenceProofs6 ProgressProofs PlainProofs PreserveProofs PreserveLog.
Local Open Scope R_scope.

Section Engine.
Context (o : oracle) (cfg : settings) (n : nat) (s s1 : state) (ms ls : list nat) (J : world -> Prop) (mstep : world -> nat -> world -> Prop) (lstep : world -> nat -> lval -> world -> Prop).
Context (F : fair o) (U : usable cfg) (EP : prepare s = Ok (ms, ls, s1)) (NM : NoDup ms) (J1 : J (wd s1)).
Context (HT : forall w, J w -> J (tick w)).
Context (HM : forall w i, J w -> In i ms -> exists w', run_mat o w i = Ok w' /\ mstep w i w' /\ J w').
Lemma engine fuel : (enough cfg <= fuel)%nat -> (forall w, J w -> anneal w = false) -> (forall w l, J w -> (l < List.length (layers w))%nat -> auto_clean (get_lay w l) = false /\ auto_reset (get_lay w l) = false) ->
  (forall w l, J w -> In l ls -> (1 <= width (disp w l))%nat) -> (forall w i, J w -> In i ms -> layer_of (get_mat w i) <> None /\ is_ibp w i = false) ->
  (forall w l, J w -> In l ls -> exists w', run_lbda w l = Ok w' /\ lstep w l (disp w' l) w' /\ J w') ->
  exists s' evs, infer fuel o cfg n s = Some (Ok s') /\ J (wd s') /\ log s' = (log s ++ evs)%list /\ does mstep lstep evs (wd s1) (wd s') /\ (forall i, In (EMat i) evs -> In i ms) /\ (forall l v, In (ELbda l v) evs -> In l ls).
Proof.
  intros Hf HA HF HW HO HL. destruct U as (U1 & U2 & U3). pose proof EP as EP0. apply prepare_spec in EP0. destruct EP0 as (_ & El & _ & _ & _ & _ & M0 & _ & L0).
  assert (NL : NoDup ls) by (rewrite El; apply free_lbdas_spec).
  assert (HMr : forall w i, J w -> In i ms -> exists w', run_mat o w i = Ok w' /\ J w') by (intros w i Jw Hi; destruct (HM w i Jw Hi) as (w' & E & _ & J'); eauto).
  assert (HLr : forall w l, J w -> In l ls -> exists w', run_lbda w l = Ok w' /\ J w') by (intros w l Jw Hl; destruct (HL w l Jw Hl) as (w' & E & _ & J'); eauto).
  assert (HAr : forall w l x, J w -> In l ls -> anneal w = true -> J (assign_disp w l (LS x))) by (intros w l x Jw _ C; rewrite (HA w Jw) in C; discriminate).
  assert (HC : forall w, J w -> exists w' b, clean_all w (all_layers w) = Some (Ok (w', b)) /\ J w') by (intros w Jw; exists w, false; split; [apply PlainProofs.clean_all_none; intros l; apply HF; exact Jw|exact Jw]).
  assert (HFc : forall w, J w -> exists w', final_clean w (all_layers w) = Some (Ok w') /\ J w') by (intros w Jw; exists w; split; [apply PlainProofs.clean_all_none; intros l; apply HF; exact Jw|exact Jw]).
  destruct (burn_in_ok o cfg ms ls J F NL U3 U2 U1 HT HAr HMr HLr HC HFc fuel s1 Hf J1) as (s2 & EB & RB); [intros C; rewrite (HA _ J1) in C; discriminate|].
  destruct (burn_in_course _ _ _ _ _ _ _ F NL U1 (fun l Hl => HW _ l J1 Hl) EB) as (_ & _ & _ & B4 & B5 & _ & _).
  destruct (sampling_ok o cfg ms ls J F NM NL U3 U2 HT HMr HLr HO n s2) as (s' & ES & RS); [exact RB|intros i Hi; rewrite B4; apply M0; exact Hi|exact B5|].
  assert (E : infer fuel o cfg n s = Some (Ok s')) by (unfold infer; rewrite EP, EB, ES; reflexivity). exists s'.
  pose (K := fun (e : list event) (w : world) => J w /\ does mstep lstep e (wd s1) w /\ (forall i, In (EMat i) e -> In i ms) /\ (forall l v, In (ELbda l v) e -> In l ls)).
  destruct (infer_log fuel o cfg n s s' ms ls s1 K F E EP) as (evs & E1 & (K1 & K2 & K3 & K4)).
  - intros e w (K1 & K2 & K3 & K4). split; [apply HT; exact K1|]. split; [apply do_sweep; exact K2|]. split; [intros i Hi|intros l v Hi]; apply in_app_or in Hi; destruct Hi as [Hi|[Hi|[]]]; try discriminate; eauto.
  - intros e w i w' (K1 & K2 & K3 & K4) Hi Er. destruct (HM w i K1 Hi) as (w2 & E2 & S2 & J2). rewrite Er in E2. injection E2 as <-. split; [exact J2|]. split; [eapply do_matrix; eassumption|].
    split; [intros j Hj|intros l v Hj]; apply in_app_or in Hj; destruct Hj as [Hj|[Hj|[]]]; try discriminate; eauto. injection Hj as <-. exact Hi.
  - intros e w l w' (K1 & K2 & K3 & K4) Hi Er. destruct (HL w l K1 Hi) as (w2 & E2 & S2 & J2). rewrite Er in E2. injection E2 as <-. split; [exact J2|]. split; [eapply do_dispersion; eassumption|].
    split; [intros j Hj|intros k v Hj]; apply in_app_or in Hj; destruct Hj as [Hj|[Hj|[]]]; try discriminate; eauto. injection Hj as <- _. exact Hi.
  - intros e w l win (K1 & K2 & K3 & K4). split; [exact K1|]. split; [apply do_check; exact K2|]. split; [intros j Hj|intros k v Hj]; apply in_app_or in Hj; destruct Hj as [Hj|[Hj|[]]]; try discriminate; eauto.
  - intros e w l x (K1 & _) _ C. rewrite (HA w K1) in C. discriminate.
  - intros e w l (K1 & _). apply HF. exact K1.
  - split; [exact J1|]. split; [constructor|]. split; [intros i []|intros l v []].
  - exists evs. auto 10.
Qed.
(** With annealing, a dispersion that is an array (or 0) ends the run with an error. *)
Lemma engine_anneal_fails fuel : (enough cfg <= fuel)%nat -> anneal (wd s1) = true -> (Z.max 0 (fix_lbda_iters cfg) < burn_in_min cfg)%Z ->
  (fix_lbda_iters cfg <> 0%Z \/ exists l, In l ls /\ (disp (wd s1) l = LS 0 \/ exists v, disp (wd s1) l = LV v)) -> exists e, infer fuel o cfg n s = Some (Err e).
Proof.
  intros Hf Ha Hlt Bad. destruct U as (U1 & U2 & U3).
  assert (HMr : forall w i, J w -> In i ms -> exists w', run_mat o w i = Ok w' /\ J w') by (intros w i Jw Hi; destruct (HM w i Jw Hi) as (w' & E & _ & J'); eauto).
  destruct (burn_in_fails o cfg ms ls J F U3 U2 HT HMr fuel s1) as (e & EB); [exact Hf|exact J1|exact Ha|exact Hlt|exact Bad|]. exists e. unfold infer. rewrite EP, EB. reflexivity.
Qed.
End Engine.

(** ** Machines with one layer *)
Section Single.
Context (w : world) (m : string) (S1 : single w m).
Lemma single_tick : single (tick w) m.
Proof. destruct S1. split; assumption. Qed.
Lemma put_length i M : List.length (arrays (put w i M)) = List.length (arrays w).
Proof. unfold put, write, set_arrays. cbn. apply upd_length. Qed.
Lemma single_put i M : single (put w i M) m.
Proof.
  destruct S1 as [a1 a2 a3 a4 a5 a6 a7 a8]. constructor; try assumption. intros j Hj. rewrite put_length. apply a7. exact Hj.
Qed.
Lemma single_put_value i j M : (i < List.length (mats w))%nat -> (j < List.length (mats w))%nat -> value (put w i M) j = if Nat.eqb j i then A2 M else value w j.
Proof.
  intros Hi Hj. unfold value, get_arr, put, write, set_arrays. cbn [arrays]. change (get_mat {| arrays := _; mats := mats w; layers := layers w; free := free w; anneal := anneal w; clock := clock w |} j) with (get_mat w j).
  destruct (Nat.eqb_spec j i) as [->|Ne]; [apply nth_upd_same; apply (si_stored _ _ S1); exact Hi|]. apply nth_upd_other. apply (si_apart _ _ S1); assumption.
Qed.
Lemma single_lt i : (i < 3)%nat -> (i < List.length (mats w))%nat.
Proof. pose proof (si_mats _ _ S1). lia. Qed.
Lemma single_siblings i : i = 1%nat \/ i = 2%nat -> siblings w i = [3 - i]%nat.
Proof. intros Hi. unfold siblings. destruct (si_factor _ _ S1 i Hi) as (_ & -> & _). destruct (si_layer _ _ S1) as (-> & _). destruct Hi as [-> | ->]; reflexivity. Qed.
Lemma single_order i : i = 1%nat \/ i = 2%nat -> transpose_order w i = [i - 1; 2 - i]%nat.
Proof.
  intros Hi. unfold transpose_order. rewrite (single_siblings i Hi). cbn [map]. unfold axis_of. destruct (si_factor _ _ S1 i Hi) as (-> & _). destruct (si_factor _ _ S1 (3 - i)) as (-> & _); [lia|]. destruct Hi as [-> | ->]; reflexivity.
Qed.
Lemma single_models i : i = 1%nat \/ i = 2%nat -> get_relatives_models w i = Ok (Some (m, 2%nat), None, None).
Proof. intros Hi. unfold get_relatives_models. destruct (si_factor _ _ S1 i Hi) as (_ & -> & -> & _). destruct (si_layer _ _ S1) as (-> & _ & -> & _). reflexivity. Qed.
Lemma single_own i : i = 1%nat \/ i = 2%nat -> own_layer w i = Ok (get_lay w 0).
Proof. intros Hi. unfold own_layer. destruct (si_factor _ _ S1 i Hi) as (_ & -> & _). reflexivity. Qed.
Lemma single_set_sfct i f : single (set_mat w i (with_sfct (get_mat w i) f)) m.
Proof.
  assert (G : forall j, with_sfct (get_mat (set_mat w i (with_sfct (get_mat w i) f)) j) None = with_sfct (get_mat w j) None).
  { intros j. rewrite get_mat_set. destruct (Nat.eqb_spec j i) as [->|]; cbn [andb]; [|reflexivity]. destruct (Nat.ltb _ _); reflexivity. }
  assert (V : forall j, val (get_mat (set_mat w i (with_sfct (get_mat w i) f)) j) = val (get_mat w j)) by (intros j; apply (f_equal val (G j))).
  assert (LM : List.length (mats (set_mat w i (with_sfct (get_mat w i) f))) = List.length (mats w)) by (apply upd_length).
  destruct S1 as [a1 a2 a3 a4 a5 a6 a7 a8]. constructor; try assumption.
  - rewrite LM. exact a3.
  - rewrite <- a5. apply (f_equal fixed (G 0%nat)).
  - intros j Hj. destruct (a6 j Hj) as (b1 & b2 & b3 & b4 & b5). pose proof (f_equal axis (G j)) as e1. pose proof (f_equal layer_of (G j)) as e2. pose proof (f_equal parents (G j)) as e3. pose proof (f_equal fixed (G j)) as e4. pose proof (f_equal fixed_entries (G j)) as e5.
    cbn [axis layer_of parents fixed fixed_entries with_sfct] in *. rewrite e1, e2, e3, e4, e5. auto.
  - intros j. rewrite LM, V. apply a7.
  - intros j k. rewrite LM, !V. apply a8.
Qed.
Lemma single_set_lay y : factors y = factors (get_lay w 0) -> child y = child (get_lay w 0) -> model y = model (get_lay w 0) -> auto_clean y = auto_clean (get_lay w 0) -> auto_reset y = auto_reset (get_lay w 0) -> single (set_lay w 0 y) m.
Proof.
  intros E1 E2 E3 E4 E5. pose proof (si_layers _ _ S1) as L1. assert (G : get_lay (set_lay w 0 y) 0 = y) by (rewrite get_lay_set, L1; reflexivity). destruct S1 as [a1 a2 a3 a4 a5 a6 a7 a8]. constructor; try assumption.
  - cbn. rewrite upd_length. exact a1.
  - rewrite G, E1, E2, E3, E4, E5. exact a4.
Qed.
Lemma single_value_sfct i f j : value (set_mat w i (with_sfct (get_mat w i) f)) j = value w j.
Proof. unfold value, get_arr. rewrite get_mat_set. destruct (Nat.eqb_spec j i) as [->|]; cbn [andb]; [|reflexivity]. destruct (Nat.ltb _ _); reflexivity. Qed.
(** Which matrices and dispersions are updated. *)
Lemma single_members : members w = ([1; 2; 0] ++ (if String.eqb m "qL-AND" then match q (get_lay w 0) with Some i => [i] | None => [] end else []))%nat%list.
Proof.
  unfold members. rewrite (si_free _ _ S1). destruct (si_layer _ _ S1) as (E1 & _ & E3 & _). pose proof (si_layers _ _ S1) as L1. unfold get_lay in *. destruct (layers w) as [|y [|]]; try discriminate. cbn [nth] in *. cbn [flat_map]. rewrite E1, E3, !app_nil_r. reflexivity.
Qed.
Lemma single_free_lbdas : free_lbdas w = if lfixed (lbda (get_lay w 0)) then [] else [0%nat].
Proof. unfold free_lbdas, all_layers. rewrite (si_layers _ _ S1). cbn [seq filter]. destruct (lfixed _); reflexivity. Qed.
End Single.
Definition unfixed (w : world) (i : nat) : bool := match fixed (get_mat w i) with FBool b => negb b | FArr _ => false end.
Lemma not_fixed_filter w l : (forall i, In i l -> exists b, fixed (get_mat w i) = FBool b) -> not_fixed w l = Ok (filter (unfixed w) l).
Proof.
  induction l as [|i l IH]; intros H; [reflexivity|]. cbn [not_fixed filter]. unfold unfixed at 1. destruct (H i (or_introl eq_refl)) as (b & ->). cbn [truth]. rewrite bindE, IH, bindE by (intros j Hj; apply H; right; exact Hj). destruct b; reflexivity.
Qed.
