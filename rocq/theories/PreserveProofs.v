(** What every single update preserves, a run of inference preserves. *)
From Coq Require Import String Permutation.
From Verif Require Import Base BaseR BaseLemmas Fuzzy Clean CleanProofs Machine Dispatch Inference SpecMachine InferenceProofs InferenceProofs2 InferenceProofs6.
Local Open Scope R_scope.

Section Preserve.
Context (o : oracle) (cfg : settings) (ms ls : list nat) (I : world -> Prop) (F : fair o)
  (HT : forall w, I w -> I (tick w))
  (HM : forall w i w', I w -> In i ms -> run_mat o w i = Ok w' -> I w')
  (HL : forall w l w', I w -> In l ls -> run_lbda w l = Ok w' -> I w')
  (HA : forall w l x, I w -> In l ls -> anneal w = true -> I (assign_disp w l (LS x)))
  (HC : forall w l r c w' b, I w -> auto_clean (get_lay w l) || auto_reset (get_lay w l) = true -> clean_layer w l r c = Some (Ok (w', b)) -> I w').

Lemma foldM_keeps {S A : Type} (J : S -> Prop) (f : S -> A -> res S) l : forall s s',
  (forall s a s', J s -> In a l -> f s a = Ok s' -> J s') -> foldM f l s = Ok s' -> J s -> J s'.
Proof.
  induction l as [|a l IH]; intros s s' H E Js; cbn [foldM] in E; [injection E as <-; exact Js|]. apply bind_ok in E. destruct E as (s1 & E1 & E2).
  eapply IH; [|exact E2|]; [intros; eapply H; [eassumption|right; eassumption|eassumption]|]. eapply H; [exact Js|left; reflexivity|exact E1].
Qed.
Lemma sweep_keeps s s' : sweep o ms s = Ok s' -> I (wd s) -> I (wd s').
Proof.
  intros E Hs. apply (foldM_keeps (fun s => I (wd s)) _ _ _ _) in E; [exact E| |].
  - intros s0 i s1 J0 Hi E1. unfold call_mat in E1. apply bind_ok in E1. destruct E1 as (w' & E1 & E2). injection E2 as <-. cbn. eapply HM; [exact J0| |exact E1].
    eapply Permutation_in; [apply F|exact Hi].
  - cbn. apply HT, Hs.
Qed.
Lemma lbdas_keeps s s' : update_lbdas ls s = Ok s' -> I (wd s) -> I (wd s').
Proof.
  intros E Hs. apply (foldM_keeps (fun s => I (wd s)) _ _ _ _) in E; [exact E| |exact Hs].
  intros s0 l s1 J0 Hl E1. unfold call_lbda in E1. apply bind_ok in E1. destruct E1 as (w' & E1 & E2). injection E2 as <-. cbn. eapply HL; eassumption.
Qed.
Lemma traces_l_keeps l s s' : foldM update_trace_l l s = Ok s' -> wd s' = wd s.
Proof.
  intros E. apply (foldM_keeps (fun x => wd x = wd s) _ _ _ _) in E; [exact E| |reflexivity].
  intros s0 a s1 J0 _ E1. unfold update_trace_l in E1. destruct (ltr s0 a); [|discriminate]. destruct (Nat.ltb _ _); [|discriminate]. injection E1 as <-. exact J0.
Qed.
Lemma traces_m_keeps l s s' : foldM update_trace_m l s = Ok s' -> wd s' = wd s.
Proof.
  intros E. apply (foldM_keeps (fun x => wd x = wd s) _ _ _ _) in E; [exact E| |reflexivity].
  intros s0 a s1 J0 _ E1. unfold update_trace_m in E1. destruct (mtr s0 a); [|discriminate]. destruct (Nat.ltb _ _); [|discriminate]. apply bind_ok in E1. destruct E1 as (x & _ & E1). injection E1 as <-. exact J0.
Qed.
Lemma allocate_m_keeps n l s s' : foldM (allocate_m n) l s = Ok s' -> wd s' = wd s.
Proof.
  intros E. apply (foldM_keeps (fun x => wd x = wd s) _ _ _ _) in E; [exact E| |reflexivity].
  intros s0 a s1 J0 _ E1. unfold allocate_m in E1. apply bind_ok in E1. destruct E1 as (x & _ & E1). destruct (is_ibp _ _); [|injection E1 as <-; exact J0]. apply bind_ok in E1. destruct E1 as (m & _ & E1). injection E1 as <-. exact J0.
Qed.
Lemma allocate_l_wd n l : forall s, wd (fold_left (allocate_l n) l s) = wd s.
Proof. induction l as [|a l IH]; intros s; [reflexivity|]. cbn [fold_left]. rewrite IH. reflexivity. Qed.
Lemma rewind_l_wd l : forall s, wd (fold_left rewind_l l s) = wd s.
Proof. induction l as [|a l IH]; intros s; [reflexivity|]. cbn [fold_left]. rewrite IH. reflexivity. Qed.
Lemma check_all_wd e l : forall s s' b, check_all o l e s = Ok (s', b) -> wd s' = wd s.
Proof.
  induction l as [|a l IH]; intros s s' b E; cbn [check_all] in E; [injection E as <- _; reflexivity|]. destruct (ltr s a) as [t|]; [|discriminate]. apply bind_ok in E. destruct E as ([s1 b1] & E1 & E2). injection E2 as <- _.
  apply IH in E1. exact E1.
Qed.
Lemma clean_all_keeps l : forall w w' b, clean_all w l = Some (Ok (w', b)) -> I w -> I w'.
Proof.
  induction l as [|a l IH]; intros w w' b E Iw; cbn [clean_all] in E; [injection E as <- _; exact Iw|]. cbv zeta in E. destruct (auto_clean _ || auto_reset _) eqn:Ef; [|apply IH in E; assumption].
  destruct (clean_layer w a _ _) as [[[w1 b1]|e]|] eqn:E1; try discriminate. destruct (clean_all w1 l) as [[[w2 b2]|e]|] eqn:E2; try discriminate. injection E as <- _. eapply IH; [exact E2|]. eapply HC; eassumption.
Qed.
Lemma final_clean_keeps l : forall w w', final_clean w l = Some (Ok w') -> I w -> I w'.
Proof.
  induction l as [|a l IH]; intros w w' E Iw; cbn [final_clean] in E; [injection E as <-; exact Iw|]. destruct (auto_reset _) eqn:Ef; [|apply IH in E; assumption].
  destruct (clean_layer w a _ _) as [[[w1 b1]|e]|] eqn:E1; try discriminate. eapply IH; [exact E|]. eapply HC; [exact Iw| |exact E1]. rewrite Ef. apply orb_true_r.
Qed.
Lemma anneal_keeps k p s s' : (forall l x, In (l, x) p -> In l ls) -> foldM (anneal_step k) p s = Ok s' -> anneal (wd s) = true -> I (wd s) -> I (wd s').
Proof.
  intros Hp E Ha Hs. enough (G : I (wd s') /\ anneal (wd s') = true) by apply G. apply (foldM_keeps (fun s => I (wd s) /\ anneal (wd s) = true) _ _ _ _) in E; [exact E| |auto].
  intros s0 [l steps] s1 (J0 & A0) Hl E1. unfold anneal_step in E1. apply bind_ok in E1. destruct E1 as (x & _ & E1). injection E1 as <-. cbn. split; [|exact A0]. apply HA; [exact J0|eapply Hp; exact Hl|exact A0].
Qed.
Lemma pre_body_keeps x x' : pre_body o cfg ms ls x = Ok x' -> I (wd (snd x)) -> I (wd (snd x')).
Proof.
  destruct x as [[k sc] s]. unfold pre_body. cbv zeta. intros E Hs. cbn [snd] in Hs. apply bind_ok in E. destruct E as (_ & _ & E). apply bind_ok in E. destruct E as (s1 & E1 & E). apply sweep_keeps in E1; [|exact Hs].
  destruct (_ <? _)%Z; [|injection E as <-; exact E1]. destruct (anneal (wd s1)) eqn:Ea.
  - apply bind_ok in E. destruct E as (_ & _ & E). apply bind_ok in E. destruct E as (sc' & _ & E). apply bind_ok in E. destruct E as (s2 & E2 & E). injection E as <-. cbn [snd].
    eapply anneal_keeps; [|exact E2|exact Ea|exact E1]. intros l y Hy. apply in_combine_l in Hy. exact Hy.
  - apply bind_ok in E. destruct E as (s2 & E2 & E). injection E as <-. cbn [snd]. eapply lbdas_keeps; eassumption.
Qed.
Lemma main_body_keeps pre x x' : main_body o cfg ms ls pre x = Some (Ok x') -> I (wd (snd x)) -> I (wd (snd x')).
Proof.
  destruct x as [[k st] s]. unfold main_body. cbv zeta. intros E Hs. cbn [snd] in Hs. destruct (div_ok (print_step cfg)); [|discriminate]. destruct (div_ok (window cfg)); [|discriminate].
  assert (GO : forall s, I (wd s) -> (if (burn_in_max cfg <? Z.of_nat (S k) + pre)%Z then
      match final_clean (wd s) (all_layers (wd s)) with
      | None => None
      | Some (Err e) => Some (Err e)
      | Some (Ok w) => Some (Ok (S k, true, set_iters (fold_left rewind_l ls (set_wd s w)) (Z.of_nat (S k))))
      end
    else Some (bind (sweep o ms s) (fun s1 => bind (update_lbdas ls s1) (fun s2 =>
               bind (foldM update_trace_l ls s2) (fun s3 => Ok (S k, false, s3)))))) = Some (Ok x') -> I (wd (snd x'))).
  { clear s Hs E. intros s Hs E. destruct (_ <? _)%Z.
    - destruct (final_clean _ _) as [[w|]|] eqn:Ec; try discriminate. injection E as <-. cbn [snd set_iters wd]. rewrite rewind_l_wd. cbn. eapply final_clean_keeps; eassumption.
    - injection E as E. apply bind_ok in E. destruct E as (s1 & E1 & E). apply bind_ok in E. destruct E as (s2 & E2 & E). apply bind_ok in E. destruct E as (s3 & E3 & E). injection E as <-. cbn [snd].
      rewrite (traces_l_keeps _ _ _ E3). eapply lbdas_keeps; [exact E2|]. eapply sweep_keeps; eassumption. }
  destruct (Nat.eqb _ _); [|apply (GO s Hs E)]. destruct (check_all o ls (eps cfg) _) as [[s1 conv]|] eqn:E1; [|discriminate].
  assert (I1 : I (wd s1)) by (rewrite (check_all_wd _ _ _ _ _ E1), rewind_l_wd; exact Hs). destruct conv; [|apply (GO s1 I1 E)].
  destruct (clean_all _ _) as [[[w red]|]|] eqn:Ec; try discriminate. apply clean_all_keeps in Ec; [|exact I1]. destruct red.
  - eapply GO; [|exact E]. rewrite rewind_l_wd, allocate_l_wd. exact Ec.
  - injection E as <-. exact Ec.
Qed.
Lemma burn_in_keeps fuel s s' : burn_in fuel o cfg ms ls s = Some (Ok s') -> I (wd s) -> I (wd s').
Proof.
  unfold burn_in. intros E Hs. destruct (while fuel _ _ (0%Z, [], s)) as [[[[pre sc] s1]|]|] eqn:E1; try discriminate.
  assert (I1 : I (wd s1)).
  { assert (St : forall x x', I (wd (snd x)) -> (let '(k, _, _) := x in negb (k =? burn_in_min cfg)%Z) = true -> Some (pre_body o cfg ms ls x) = Some (Ok x') -> I (wd (snd x'))).
    { intros x x' J _ E'. injection E' as E'. eapply pre_body_keeps; eassumption. }
    destruct (while_inv _ _ (fun x : Z * list rvec * state => I (wd (snd x))) St _ _ _ E1 Hs) as (G & _). exact G. }
  destruct (while fuel _ _ (0%nat, false, _)) as [[[[k st] s3]|]|] eqn:E2; try discriminate. injection E as <-.
  assert (St : forall x x', I (wd (snd x)) -> (let '(_, stop, _) := x in negb stop) = true -> main_body o cfg ms ls pre x = Some (Ok x') -> I (wd (snd x'))).
  { intros x x' J _ E'. eapply main_body_keeps; eassumption. }
  destruct (while_inv _ _ (fun x : nat * bool * state => I (wd (snd x))) St _ _ _ E2) as (G & _); [|exact G].
  cbn [snd]. rewrite rewind_l_wd, allocate_l_wd. exact I1.
Qed.
Lemma samples_keeps n : forall s s', samples n o cfg ms ls s = Ok s' -> I (wd s) -> I (wd s').
Proof.
  induction n as [|n IH]; intros s s' E Hs; cbn [samples] in E; [injection E as <-; exact Hs|]. apply bind_ok in E. destruct E as (s1 & E1 & E). eapply IH; [exact E|]. unfold sample_body in E1.
  apply bind_ok in E1. destruct E1 as (a & Ea & E1). apply bind_ok in E1. destruct E1 as (b & Eb & E1). apply bind_ok in E1. destruct E1 as (c & Ec & E1). apply bind_ok in E1. destruct E1 as (d & Ed & E1). apply bind_ok in E1. destruct E1 as (_ & _ & E1).
  injection E1 as <-. rewrite (traces_l_keeps _ _ _ Ed). eapply lbdas_keeps; [exact Ec|]. rewrite (traces_m_keeps _ _ _ Eb). eapply sweep_keeps; eassumption.
Qed.
End Preserve.

Lemma prepare_wd s ms ls s1 : prepare s = Ok (ms, ls, s1) -> exists w1 w2, not_fixed (wd s) (members (wd s)) = Ok ms /\ ls = free_lbdas (wd s) /\ foldM assign_mat ms (wd s) = Ok w1 /\ foldM assign_lbda ls w1 = Ok w2 /\ wd s1 = w2.
Proof.
  unfold prepare. intros E. apply bind_ok in E. destruct E as (ms0 & E0 & E). cbv zeta in E. apply bind_ok in E. destruct E as (w1 & E1 & E). apply bind_ok in E. destruct E as (w2 & E2 & E). injection E as <- <- <-.
  exists w1, w2. repeat (split; [first [assumption|reflexivity]|]). rewrite rewind_l_wd. assert (G : forall l s, wd (fold_left (fun s i => set_mtr s i (mtr s i) 0) l s) = wd s).
  { induction l as [|a l IH]; intros s0; [reflexivity|]. cbn [fold_left]. rewrite IH. reflexivity. } rewrite G. reflexivity.
Qed.
(** The same for a whole call. *)
Lemma infer_keeps fuel o cfg n s s' ms ls s1 (I : world -> Prop) : fair o -> infer fuel o cfg n s = Some (Ok s') -> prepare s = Ok (ms, ls, s1) ->
  (forall w, I w -> I (tick w)) ->
  (forall w i w', I w -> In i ms -> run_mat o w i = Ok w' -> I w') ->
  (forall w l w', I w -> In l ls -> run_lbda w l = Ok w' -> I w') ->
  (forall w l x, I w -> In l ls -> anneal w = true -> I (assign_disp w l (LS x))) ->
  (forall w l r c w' b, I w -> auto_clean (get_lay w l) || auto_reset (get_lay w l) = true -> clean_layer w l r c = Some (Ok (w', b)) -> I w') ->
  I (wd s1) -> I (wd s').
Proof.
  intros F E EP HT HM HL HA HC I1. unfold infer in E. rewrite EP in E. destruct (burn_in fuel o cfg ms ls s1) as [[s2|]|] eqn:EB; try discriminate. injection E as E. apply bind_ok in E. destruct E as (s3 & E3 & E).
  eapply samples_keeps; try eassumption. rewrite allocate_l_wd, (allocate_m_keeps _ _ _ _ E3). eapply burn_in_keeps; eassumption.
Qed.
