(** What every single update preserves, a run of inference preserves: the version for invariants that speak about the
    recorded events. *)
From Coq Require Import String Permutation.
From Verif Require Import Base BaseR BaseLemmas Fuzzy Clean CleanProofs Machine Dispatch Inference SpecMachine InferenceProofs InferenceProofs2 InferenceProofs6 PreserveProofs.
Local Open Scope R_scope.

(** What the invariant looks at. *)
Definition core (s : state) : list event * world := (log s, wd s).
Section PreserveLog.
Context (o : oracle) (cfg : settings) (ms ls : list nat) (K : list event -> world -> Prop) (F : fair o)
  (HT : forall e w, K e w -> K (e ++ [ESweep]) (tick w))
  (HM : forall e w i w', K e w -> In i ms -> run_mat o w i = Ok w' -> K (e ++ [EMat i]) w')
  (HL : forall e w l w', K e w -> In l ls -> run_lbda w l = Ok w' -> K (e ++ [ELbda l (disp w' l)]) w')
  (HC : forall e w l win, K e w -> K (e ++ [ECheck l win]) w)
  (HA : forall e w l x, K e w -> In l ls -> anneal w = true -> K (e ++ [EAnneal l (LS x)]) (assign_disp w l (LS x)))
  (HK : forall e w w' b, K e w -> clean_all w (all_layers w) = Some (Ok (w', b)) -> K e w')
  (HF : forall e w w', K e w -> final_clean w (all_layers w) = Some (Ok w') -> K e w').
Let J (s : state) : Prop := K (log s) (wd s).

Lemma core_J s s' : core s' = core s -> J s -> J s'.
Proof. unfold core, J. intros E. injection E as -> ->. auto. Qed.
Lemma sweep_log s s' : sweep o ms s = Ok s' -> J s -> J s'.
Proof.
  intros E Hs. apply (foldM_keeps J _ _ _ _) in E; [exact E| |].
  - intros s0 i s1 J0 Hi E1. unfold call_mat in E1. apply bind_ok in E1. destruct E1 as (w' & E1 & E2). injection E2 as <-. unfold J. cbn. eapply HM; [exact J0| |exact E1].
    eapply Permutation_in; [apply F|exact Hi].
  - unfold J. cbn. apply HT, Hs.
Qed.
Lemma lbdas_log s s' : update_lbdas ls s = Ok s' -> J s -> J s'.
Proof.
  intros E Hs. apply (foldM_keeps J _ _ _ _) in E; [exact E| |exact Hs].
  intros s0 l s1 J0 Hl E1. unfold call_lbda in E1. apply bind_ok in E1. destruct E1 as (w' & E1 & E2). injection E2 as <-. unfold J. cbn. eapply HL; eassumption.
Qed.
Lemma anneal_log k ps s s' : (forall p, In p ps -> In (fst p) ls) -> foldM (anneal_step k) ps s = Ok s' -> anneal (wd s) = true -> J s -> J s'.
Proof.
  intros Hp E Ha Hs. enough (G : J s' /\ anneal (wd s') = true) by apply G. apply (foldM_keeps (fun s => J s /\ anneal (wd s) = true) _ _ _ _) in E; [exact E| |auto].
  intros s0 [l st] s1 (J0 & A0) Hl E1. unfold anneal_step in E1. apply bind_ok in E1. destruct E1 as (x & _ & E1). injection E1 as <-. split; [|exact A0]. unfold J. cbn. apply HA; [exact J0|exact (Hp _ Hl)|exact A0].
Qed.
Lemma traces_l_core l s s' : foldM update_trace_l l s = Ok s' -> core s' = core s.
Proof.
  intros E. apply (foldM_keeps (fun x => core x = core s) _ _ _ _) in E; [exact E| |reflexivity].
  intros s0 a s1 J0 _ E1. unfold update_trace_l in E1. destruct (ltr s0 a); [|discriminate]. destruct (Nat.ltb _ _); [|discriminate]. injection E1 as <-. exact J0.
Qed.
Lemma traces_m_core l s s' : foldM update_trace_m l s = Ok s' -> core s' = core s.
Proof.
  intros E. apply (foldM_keeps (fun x => core x = core s) _ _ _ _) in E; [exact E| |reflexivity].
  intros s0 a s1 J0 _ E1. unfold update_trace_m in E1. destruct (mtr s0 a); [|discriminate]. destruct (Nat.ltb _ _); [|discriminate]. apply bind_ok in E1. destruct E1 as (x & _ & E1). injection E1 as <-. exact J0.
Qed.
Lemma allocate_m_core n l s s' : foldM (allocate_m n) l s = Ok s' -> core s' = core s.
Proof.
  intros E. apply (foldM_keeps (fun x => core x = core s) _ _ _ _) in E; [exact E| |reflexivity].
  intros s0 a s1 J0 _ E1. unfold allocate_m in E1. apply bind_ok in E1. destruct E1 as (x & _ & E1). destruct (is_ibp _ _); [|injection E1 as <-; exact J0]. apply bind_ok in E1. destruct E1 as (m & _ & E1). injection E1 as <-. exact J0.
Qed.
Lemma allocate_l_core n l : forall s, core (fold_left (allocate_l n) l s) = core s.
Proof. induction l as [|a l IH]; intros s; [reflexivity|]. cbn [fold_left]. rewrite IH. reflexivity. Qed.
Lemma rewind_l_core l : forall s, core (fold_left rewind_l l s) = core s.
Proof. induction l as [|a l IH]; intros s; [reflexivity|]. cbn [fold_left]. rewrite IH. reflexivity. Qed.
Lemma check_all_log e l : forall s s' b, check_all o l e s = Ok (s', b) -> J s -> J s'.
Proof.
  induction l as [|a l IH]; intros s s' b E Hs; cbn [check_all] in E; [injection E as <- _; exact Hs|]. destruct (ltr s a) as [t|]; [|discriminate]. apply bind_ok in E. destruct E as ([s1 b1] & E1 & E2). injection E2 as <- _.
  apply IH in E1; [exact E1|]. unfold J. cbn. apply HC, Hs.
Qed.
Lemma pre_body_log x x' : pre_body o cfg ms ls x = Ok x' -> J (snd x) -> J (snd x').
Proof.
  destruct x as [[k sc] s]. unfold pre_body. cbv zeta. intros E Hs. cbn [snd] in Hs. apply bind_ok in E. destruct E as (_ & _ & E). apply bind_ok in E. destruct E as (s1 & E1 & E). apply sweep_log in E1; [|exact Hs].
  destruct (_ <? _)%Z; [|injection E as <-; exact E1]. destruct (anneal (wd s1)) eqn:Ea.
  - apply bind_ok in E. destruct E as (_ & _ & E). apply bind_ok in E. destruct E as (sc' & _ & E). apply bind_ok in E. destruct E as (s2 & E2 & E). injection E as <-. cbn [snd].
    eapply anneal_log; [|exact E2|exact Ea|exact E1]. intros [l st] Hq. apply in_combine_l in Hq. exact Hq.
  - apply bind_ok in E. destruct E as (s2 & E2 & E). injection E as <-. cbn [snd]. eapply lbdas_log; eassumption.
Qed.
Lemma main_body_log pre x x' : main_body o cfg ms ls pre x = Some (Ok x') -> J (snd x) -> J (snd x').
Proof.
  destruct x as [[k st] s]. unfold main_body. cbv zeta. intros E Hs. cbn [snd] in Hs. destruct (div_ok (print_step cfg)); [|discriminate]. destruct (div_ok (window cfg)); [|discriminate].
  assert (GO : forall s, J s -> (if (burn_in_max cfg <? Z.of_nat (S k) + pre)%Z then
      match final_clean (wd s) (all_layers (wd s)) with
      | None => None
      | Some (Err e) => Some (Err e)
      | Some (Ok w) => Some (Ok (S k, true, set_iters (fold_left rewind_l ls (set_wd s w)) (Z.of_nat (S k))))
      end
    else Some (bind (sweep o ms s) (fun s1 => bind (update_lbdas ls s1) (fun s2 =>
               bind (foldM update_trace_l ls s2) (fun s3 => Ok (S k, false, s3)))))) = Some (Ok x') -> J (snd x')).
  { clear s Hs E. intros s Hs E. destruct (_ <? _)%Z.
    - destruct (final_clean _ _) as [[w'|]|] eqn:EF; try discriminate. injection E as <-. cbn [snd]. apply (core_J (set_wd s w')); [|exact (HF _ _ _ Hs EF)].
      exact (rewind_l_core ls (set_wd s w')).
    - injection E as E. apply bind_ok in E. destruct E as (s1 & E1 & E). apply bind_ok in E. destruct E as (s2 & E2 & E). apply bind_ok in E. destruct E as (s3 & E3 & E). injection E as <-. cbn [snd].
      apply (core_J s2); [apply (traces_l_core _ _ _ E3)|]. eapply lbdas_log; [exact E2|]. eapply sweep_log; eassumption. }
  destruct (Nat.eqb _ _); [|apply (GO s Hs E)]. destruct (check_all o ls (eps cfg) _) as [[s1 conv]|] eqn:E1; [|discriminate].
  assert (I1 : J s1) by (eapply check_all_log; [exact E1|]; eapply core_J; [apply rewind_l_core|exact Hs]). destruct conv; [|apply (GO s1 I1 E)].
  destruct (clean_all _ _) as [[[w' red]|]|] eqn:EC; try discriminate. pose proof (HK _ _ _ _ I1 EC) as I2. destruct red; [|injection E as <-; exact I2].
  apply (fun H => GO _ H E). apply (core_J (set_wd s1 w')); [rewrite rewind_l_core; apply (allocate_l_core (window cfg) ls (set_wd s1 w'))|exact I2].
Qed.
Lemma burn_in_log fuel s s' : burn_in fuel o cfg ms ls s = Some (Ok s') -> J s -> J s'.
Proof.
  unfold burn_in. intros E Hs. destruct (while fuel _ _ (0%Z, [], s)) as [[[[pre sc] s1]|]|] eqn:E1; try discriminate.
  assert (I1 : J s1).
  { assert (St : forall x x', J (snd x) -> (let '(k, _, _) := x in negb (k =? burn_in_min cfg)%Z) = true -> Some (pre_body o cfg ms ls x) = Some (Ok x') -> J (snd x')).
    { intros x x' H _ E'. injection E' as E'. eapply pre_body_log; eassumption. }
    destruct (while_inv _ _ (fun x : Z * list rvec * state => J (snd x)) St _ _ _ E1 Hs) as (G & _). exact G. }
  destruct (while fuel _ _ (0%nat, false, _)) as [[[[k st] s3]|]|] eqn:E2; try discriminate. injection E as <-.
  assert (St : forall x x', J (snd x) -> (let '(_, stop, _) := x in negb stop) = true -> main_body o cfg ms ls pre x = Some (Ok x') -> J (snd x')).
  { intros x x' H _ E'. eapply main_body_log; eassumption. }
  destruct (while_inv _ _ (fun x : nat * bool * state => J (snd x)) St _ _ _ E2) as (G & _); [|exact G].
  cbn [snd]. eapply core_J; [|exact I1]. rewrite rewind_l_core, allocate_l_core. reflexivity.
Qed.
Lemma samples_log n : forall s s', samples n o cfg ms ls s = Ok s' -> J s -> J s'.
Proof.
  induction n as [|n IH]; intros s s' E Hs; cbn [samples] in E; [injection E as <-; exact Hs|]. apply bind_ok in E. destruct E as (s1 & E1 & E). eapply IH; [exact E|]. unfold sample_body in E1.
  apply bind_ok in E1. destruct E1 as (a & Ea & E1). apply bind_ok in E1. destruct E1 as (b & Eb & E1). apply bind_ok in E1. destruct E1 as (c & Ec & E1). apply bind_ok in E1. destruct E1 as (d & Ed & E1). apply bind_ok in E1. destruct E1 as (_ & _ & E1).
  injection E1 as <-. apply (core_J c); [apply (traces_l_core _ _ _ Ed)|]. eapply lbdas_log; [exact Ec|]. apply (core_J a); [apply (traces_m_core _ _ _ Eb)|]. eapply sweep_log; eassumption.
Qed.
End PreserveLog.
Lemma prepare_core s ms ls s1 : prepare s = Ok (ms, ls, s1) -> log s1 = log s.
Proof.
  unfold prepare. intros E. apply bind_ok in E. destruct E as (ms0 & E0 & E). cbv zeta in E. apply bind_ok in E. destruct E as (w1 & E1 & E). apply bind_ok in E. destruct E as (w2 & E2 & E). injection E as <- <- <-.
  match goal with |- log (fold_left rewind_l ?l ?x) = _ => pose proof (rewind_l_core l x) as G end. injection G as G _. rewrite G. clear G.
  assert (G : forall l s, log (fold_left (fun s i => set_mtr s i (mtr s i) 0) l s) = log s) by (induction l as [|a l IH]; intros s0; [reflexivity|]; cbn [fold_left]; rewrite IH; reflexivity). rewrite G. reflexivity.
Qed.
(** The same for a whole call; K speaks about the events of the call. *)
Lemma infer_log_clean fuel o cfg n s s' ms ls s1 (K : list event -> world -> Prop) : fair o -> infer fuel o cfg n s = Some (Ok s') -> prepare s = Ok (ms, ls, s1) ->
  (forall e w, K e w -> K (e ++ [ESweep]) (tick w)) ->
  (forall e w i w', K e w -> In i ms -> run_mat o w i = Ok w' -> K (e ++ [EMat i]) w') ->
  (forall e w l w', K e w -> In l ls -> run_lbda w l = Ok w' -> K (e ++ [ELbda l (disp w' l)]) w') ->
  (forall e w l win, K e w -> K (e ++ [ECheck l win]) w) ->
  (forall e w l x, K e w -> In l ls -> anneal w = true -> K (e ++ [EAnneal l (LS x)]) (assign_disp w l (LS x))) ->
  (forall e w w' b, K e w -> clean_all w (all_layers w) = Some (Ok (w', b)) -> K e w') ->
  (forall e w w', K e w -> final_clean w (all_layers w) = Some (Ok w') -> K e w') ->
  K [] (wd s1) -> exists evs, log s' = log s ++ evs /\ K evs (wd s').
Proof.
  intros F E EP HT HM HL HC HA HK HF I1. unfold infer in E. rewrite EP in E. destruct (burn_in fuel o cfg ms ls s1) as [[s2|]|] eqn:EB; try discriminate. injection E as E. apply bind_ok in E. destruct E as (s3 & E3 & E).
  pose (K' e w := exists evs, e = log s ++ evs /\ K evs w). change (K' (log s') (wd s')).
  assert (HT' : forall e w, K' e w -> K' (e ++ [ESweep]) (tick w)) by (intros e w (evs & -> & H); exists (evs ++ [ESweep]); rewrite app_assoc; auto).
  assert (HM' : forall e w i w', K' e w -> In i ms -> run_mat o w i = Ok w' -> K' (e ++ [EMat i]) w') by (intros e w i w' (evs & -> & H) Hi Er; exists (evs ++ [EMat i]); rewrite app_assoc; split; [reflexivity|eapply HM; eassumption]).
  assert (HL' : forall e w l w', K' e w -> In l ls -> run_lbda w l = Ok w' -> K' (e ++ [ELbda l (disp w' l)]) w') by (intros e w l w' (evs & -> & H) Hi Er; exists (evs ++ [ELbda l (disp w' l)]); rewrite app_assoc; split; [reflexivity|eapply HL; eassumption]).
  assert (HC' : forall e w l win, K' e w -> K' (e ++ [ECheck l win]) w) by (intros e w l win (evs & -> & H); exists (evs ++ [ECheck l win]); rewrite app_assoc; auto).
  assert (HA' : forall e w l x, K' e w -> In l ls -> anneal w = true -> K' (e ++ [EAnneal l (LS x)]) (assign_disp w l (LS x))) by (intros e w l x (evs & -> & H) Hl Ha; exists (evs ++ [EAnneal l (LS x)]); rewrite app_assoc; auto).
  assert (HK' : forall e w w' b, K' e w -> clean_all w (all_layers w) = Some (Ok (w', b)) -> K' e w') by (intros e w w' b (evs & -> & H) Ec; exists evs; split; [reflexivity|eapply HK; eassumption]).
  assert (HF' : forall e w w', K' e w -> final_clean w (all_layers w) = Some (Ok w') -> K' e w') by (intros e w w' (evs & -> & H) Ec; exists evs; split; [reflexivity|eapply HF; eassumption]).
  assert (I1' : K' (log s1) (wd s1)) by (exists []; rewrite app_nil_r; split; [apply (prepare_core _ _ _ _ EP)|exact I1]).
  pose proof (burn_in_log o cfg ms ls K' F HT' HM' HL' HC' HA' HK' HF' _ _ _ EB I1') as I2. eapply (samples_log o cfg ms ls K' F HT' HM' HL'); [exact E|].
  apply (core_J K' s2); [|exact I2]. rewrite allocate_l_core. exact (allocate_m_core _ _ _ _ E3).
Qed.
(** Machines without clean-up *)
Lemma clean_all_none w l : (forall a, (a < List.length (layers w))%nat -> auto_clean (get_lay w a) = false /\ auto_reset (get_lay w a) = false) -> (forall a, In a l -> (a < List.length (layers w))%nat) -> clean_all w l = Some (Ok (w, false)).
Proof.
  intros Hw. induction l as [|a l IH]; intros Ha; [reflexivity|]. cbn [clean_all]. cbv zeta. destruct (Hw a (Ha a (or_introl eq_refl))) as (-> & ->). cbn [orb]. apply IH. intros b Hb. apply Ha. right. exact Hb.
Qed.
Lemma final_clean_none w l : (forall a, (a < List.length (layers w))%nat -> auto_clean (get_lay w a) = false /\ auto_reset (get_lay w a) = false) -> (forall a, In a l -> (a < List.length (layers w))%nat) -> final_clean w l = Some (Ok w).
Proof.
  intros Hw. induction l as [|a l IH]; intros Ha; [reflexivity|]. cbn [final_clean]. destruct (Hw a (Ha a (or_introl eq_refl))) as (_ & ->). apply IH. intros b Hb. apply Ha. right. exact Hb.
Qed.
Lemma all_layers_lt w a : In a (all_layers w) -> (a < List.length (layers w))%nat.
Proof. unfold all_layers. intros H. apply in_seq in H. lia. Qed.
Lemma infer_log fuel o cfg n s s' ms ls s1 (K : list event -> world -> Prop) : fair o -> infer fuel o cfg n s = Some (Ok s') -> prepare s = Ok (ms, ls, s1) ->
  (forall e w, K e w -> K (e ++ [ESweep]) (tick w)) ->
  (forall e w i w', K e w -> In i ms -> run_mat o w i = Ok w' -> K (e ++ [EMat i]) w') ->
  (forall e w l w', K e w -> In l ls -> run_lbda w l = Ok w' -> K (e ++ [ELbda l (disp w' l)]) w') ->
  (forall e w l win, K e w -> K (e ++ [ECheck l win]) w) ->
  (forall e w l x, K e w -> In l ls -> anneal w = true -> K (e ++ [EAnneal l (LS x)]) (assign_disp w l (LS x))) ->
  (forall e w l, K e w -> (l < List.length (layers w))%nat -> auto_clean (get_lay w l) = false /\ auto_reset (get_lay w l) = false) ->
  K [] (wd s1) -> exists evs, log s' = log s ++ evs /\ K evs (wd s').
Proof.
  intros F E EP HT HM HL HC HA HF I1. eapply infer_log_clean; try eassumption.
  - intros e w w' b H Ec. rewrite (clean_all_none _ _ (fun a Ha => HF e w a H Ha) (all_layers_lt w)) in Ec. injection Ec as <- _. exact H.
  - intros e w w' H Ec. rewrite (final_clean_none _ _ (fun a Ha => HF e w a H Ha) (all_layers_lt w)) in Ec. injection Ec as <-. exact H.
Qed.
