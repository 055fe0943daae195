(** C26, C27, C28, C63: what happens during burn-in. *)
From Coq Require Import String Permutation.
From Verif Require Import Base BaseR BaseLemmas SpecR Fuzzy Clean CleanProofs Machine Dispatch Inference SpecMachine MachineProofs InferenceProofs InferenceProofs2.
Local Open Scope R_scope.

(** ** Only values change *)
Lemma same_layer_refl x : same_layer x x.
Proof. exists (lv (lbda x)), (ratios x). destruct x as [? ? ? [] ? ? ? ? ? ? ? ?]. reflexivity. Qed.
Lemma same_layer_trans x y z : same_layer x y -> same_layer y z -> same_layer x z.
Proof. intros (v & r & ->) (v' & r' & ->). exists v', r'. reflexivity. Qed.
Lemma static_refl w : static w w.
Proof. repeat (split; [first [reflexivity|intros i; reflexivity]|]). split; [intros l; apply same_layer_refl|split; reflexivity]. Qed.
Lemma static_trans a b c : static a b -> static b c -> static a c.
Proof.
  intros (H1 & H2 & H3 & H4 & H5 & H6) (K1 & K2 & K3 & K4 & K5 & K6). unfold same_matrix in *.
  split; [congruence|]. split; [intros i; unfold same_matrix; etransitivity; [apply K2|apply H2]|]. split; [congruence|].
  split; [intros l; eapply same_layer_trans; [apply H4|apply K4]|]. split; congruence.
Qed.
Lemma static_write w a x : static w (write w a x).
Proof. repeat (split; [first [reflexivity|intros i; reflexivity]|]). split; [intros l; apply same_layer_refl|split; reflexivity]. Qed.
Lemma static_tick w : static w (tick w).
Proof. repeat (split; [first [reflexivity|intros i; reflexivity]|]). split; [intros l; apply same_layer_refl|split; reflexivity]. Qed.
Lemma static_assign w i x : static w (assign_val w i x).
Proof.
  unfold assign_val. unfold static. split; [|split; [|split; [reflexivity|split; [|split; reflexivity]]]].
  - unfold set_mat, set_mats. cbn [mats]. apply upd_length.
  - intros j. unfold same_matrix. rewrite get_mat_set. unfold get_mat, set_arrays. cbn [mats].
    destruct (Nat.eqb_spec j i) as [->|]; cbn [andb]; [|reflexivity]. destruct (Nat.ltb _ _); reflexivity.
  - intros l. apply same_layer_refl.
Qed.
Lemma run_mat_static o w i w' : run_mat o w i = Ok w' -> static w w'.
Proof.
  unfold run_mat. intros H. apply bind_ok in H. destruct H as (f & _ & H). apply bind_ok in H. destruct H as (e & _ & H). injection H as <-.
  eapply static_trans; [|apply static_tick]. destruct e as [x|x j y]; cbn [apply_effect]; [apply static_write|].
  eapply static_trans; apply static_assign.
Qed.
Lemma run_lbda_static w l w' : run_lbda w l = Ok w' -> static w w'.
Proof.
  intros H. apply run_lbda_frame in H. destruct H as (H1 & H2 & H3 & H4 & H5 & H6 & H7 & v & rt & H8).
  unfold static. split; [congruence|]. split; [intros i; unfold same_matrix, get_mat; rewrite H2; reflexivity|]. split; [exact H6|]. split; [|auto].
  intros j. destruct (Nat.eq_dec j l) as [->|Hj]; [|rewrite H7 by exact Hj; apply same_layer_refl].
  rewrite H8. destruct (Nat.ltb _ _); [exists v, rt; reflexivity|apply same_layer_refl].
Qed.
Lemma assign_disp_static w l v : static w (assign_disp w l v).
Proof.
  unfold static, assign_disp. split; [reflexivity|]. split; [intros i; reflexivity|]. split; [|split; [|split; reflexivity]].
  - unfold set_lay, set_layers. cbn [layers]. apply upd_length.
  - intros j. rewrite get_lay_set. destruct (Nat.eqb_spec j l) as [->|]; cbn [andb]; [|apply same_layer_refl]. destruct (Nat.ltb _ _); [|apply same_layer_refl].
    exists v, (ratios (get_lay w l)). destruct (get_lay w l). reflexivity.
Qed.
Lemma foldM_static {A} (f : world -> A -> res world) l : (forall w a w', f w a = Ok w' -> static w w') -> forall w w', foldM f l w = Ok w' -> static w w'.
Proof.
  intros H. induction l as [|a l IH]; intros w w' E; cbn [foldM] in E; [injection E as <-; apply static_refl|].
  apply bind_ok in E. destruct E as (w1 & E1 & E2). eapply static_trans; [eapply H; exact E1|apply IH; exact E2].
Qed.
Lemma sweep_static o ms s s' : sweep o ms s = Ok s' -> static (wd s) (wd s').
Proof.
  intros H. apply sweep_spec in H. cbv zeta in H. destruct H as (H & _ & _). eapply static_trans; [apply static_tick|].
  eapply foldM_static; [|exact H]. intros w a w'. apply run_mat_static.
Qed.
Lemma update_lbdas_static ls s s' : NoDup ls -> update_lbdas ls s = Ok s' -> static (wd s) (wd s').
Proof.
  intros ND H. apply update_lbdas_spec in H; [|exact ND]. destruct H as (H & _). eapply foldM_static; [|exact H]. intros w a w'. apply run_lbda_static.
Qed.
Lemma clean_layer_static w l reset clean w' b : clean_layer w l reset clean = Some (Ok (w', b)) -> static w w'.
Proof.
  unfold clean_layer. cbv zeta. destruct (mapM _ _) as [cfs|e]; [|discriminate]. destruct (clean_up_codes _ _ _ _) as [[[cfs' red]|e]|]; try discriminate.
  intros H. injection H as <- <-. destruct red; [|apply static_refl]. generalize (combine (factors (get_lay w l)) cfs'). intros ps. revert w.
  induction ps as [|[i cf] ps IH]; intros w; cbn [fold_left]; [apply static_refl|]. eapply static_trans; [|apply IH]. destruct reset; [apply static_write|apply static_assign].
Qed.
Lemma clean_all_static ls : forall w w' b, clean_all w ls = Some (Ok (w', b)) -> static w w'.
Proof.
  induction ls as [|l ls IH]; intros w w' b H; cbn [clean_all] in H; [injection H as <- <-; apply static_refl|]. cbv zeta in H.
  destruct (auto_clean _ || auto_reset _); [|eapply IH; exact H].
  destruct (clean_layer _ _ _ _) as [[[w1 b1]|e]|] eqn:E1; try discriminate. destruct (clean_all w1 ls) as [[[w2 b2]|e]|] eqn:E2; try discriminate.
  injection H as <- <-. eapply static_trans; [eapply clean_layer_static; exact E1|eapply IH; exact E2].
Qed.
Lemma final_clean_static ls : forall w w', final_clean w ls = Some (Ok w') -> static w w'.
Proof.
  induction ls as [|l ls IH]; intros w w' H; cbn [final_clean] in H; [injection H as <-; apply static_refl|].
  destruct (auto_reset _); [|apply IH; exact H]. destruct (clean_layer _ _ _ _) as [[[w1 b1]|e]|] eqn:E1; try discriminate.
  eapply static_trans; [eapply clean_layer_static; exact E1|apply IH; exact H].
Qed.

(** ** Pre-burn-in *)
Lemma anneal_steps_spec k ps : forall s s', foldM (anneal_step k) ps s = Ok s' ->
  static (wd s) (wd s') /\ same_traces s s' /\ exists xs, List.length xs = List.length ps /\ log s' = (log s ++ map (fun p => EAnneal (fst p) (LS (snd p))) (combine (map fst ps) xs))%list.
Proof.
  induction ps as [|[l steps] ps IH]; intros s s' H; cbn [foldM] in H.
  - injection H as <-. split; [apply static_refl|]. split; [apply same_traces_refl|]. exists []. cbn. rewrite app_nil_r. auto.
  - apply bind_ok in H. destruct H as (s1 & E & H). unfold anneal_step in E. apply bind_ok in E. destruct E as (x & _ & E). injection E as <-.
    apply IH in H. destruct H as (H1 & H2 & xs & H3 & H4). cbn [wd note set_wd] in H1. split; [eapply static_trans; [|exact H1]; apply assign_disp_static|].
    split; [eapply same_traces_trans; [|exact H2]; repeat split|]. exists (x :: xs). cbn [List.length combine map fst snd]. split; [congruence|].
    rewrite H4. cbn [log note]. rewrite <- app_assoc. reflexivity.
Qed.
Lemma combine_map_fun {A} (d : A) : forall (ls : list nat) (xs : list A), NoDup ls -> List.length xs = List.length ls -> exists v, combine ls xs = map (fun l => (l, v l)) ls.
Proof.
  induction ls as [|l ls IH]; intros [|x xs] ND E; try discriminate; [exists (fun _ => d); reflexivity|].
  inversion ND; subst. destruct (IH xs) as (v & Ev); [assumption|injection E; auto|]. exists (fun j => if Nat.eqb j l then x else v j).
  cbn [combine map]. rewrite Nat.eqb_refl, Ev. f_equal. apply map_ext_in. intros j Hj. destruct (Nat.eqb_spec j l) as [->|]; [contradiction|reflexivity].
Qed.
Lemma mapM_length {A B} (f : A -> res B) l : forall bs, mapM f l = Ok bs -> List.length bs = List.length l.
Proof.
  induction l as [|a l IH]; intros bs H; cbn [mapM] in H; [injection H as <-; reflexivity|].
  apply bind_ok in H. destruct H as (b & _ & H). apply bind_ok in H. destruct H as (bs' & E & H). injection H as <-. cbn. rewrite (IH bs' E). reflexivity.
Qed.
Lemma sweep_pass o ms s s' : fair o -> sweep o ms s = Ok s' -> exists a, pass ms a /\ log s' = (log s ++ a)%list /\ same_traces s s'.
Proof.
  intros F H. apply sweep_spec in H. cbv zeta in H. destruct H as (_ & L & T). eexists. split; [|split; [exact L|exact T]]. eexists. split; [apply F|reflexivity].
Qed.

Section Pre.
Context (o : oracle) (cfg : settings) (ms ls : list nat) (s0 : state) (F : fair o) (ND : NoDup ls).
Definition pre_inv (x : Z * list rvec * state) : Prop :=
  let '(k, sched, s) := x in
  (0 <= k)%Z /\ static (wd s0) (wd s) /\ same_traces s0 s /\
  ((anneal (wd s0) = true -> (fix_lbda_iters cfg < k)%Z -> (0 < k)%Z -> List.length sched = List.length ls)) /\
  (exists evs, pre_rounds ms ls (fix_lbda_iters cfg) (anneal (wd s0)) (Z.to_nat k) evs /\ log s = (log s0 ++ evs)%list).
Lemma pre_body_inv x x' : pre_inv x -> pre_body o cfg ms ls x = Ok x' -> pre_inv x' /\ (fst (fst x') = fst (fst x) + 1)%Z.
Proof.
  destruct x as [[k sched] s]. intros (Hk & HS & HT & Hs & evs & HP & HL) H. unfold pre_body in H. cbv zeta in H.
  apply bind_ok in H. destruct H as (_ & _ & H). apply bind_ok in H. destruct H as (s1 & E1 & H).
  pose proof (sweep_static _ _ _ _ E1) as S1. destruct (sweep_pass _ _ _ _ F E1) as (a & Pa & L1 & T1).
  assert (A1 : anneal (wd s1) = anneal (wd s0)) by (destruct HS as (_ & _ & _ & _ & _ & <-); apply S1).
  assert (Ek : Z.to_nat (k + 1) = S (Z.to_nat k)) by lia.
  assert (EZ : Z.of_nat (S (Z.to_nat k)) = (k + 1)%Z) by lia.
  assert (DONE : forall sched' s2 b, static (wd s1) (wd s2) -> same_traces s1 s2 -> log s2 = (log s1 ++ b)%list ->
     (if (fix_lbda_iters cfg <? k + 1)%Z then if anneal (wd s0) then annealed ls b else dispersions ls b else b = []) ->
     (anneal (wd s0) = true -> (fix_lbda_iters cfg < k + 1)%Z -> List.length sched' = List.length ls) ->
     pre_inv (k + 1, sched', s2)%Z /\ (fst (fst (k + 1, sched', s2)) = fst (fst (k, sched, s)) + 1)%Z).
  { intros sched' s2 b S2 T2 L2 Hb Hsch. cbn [fst]. split; [|reflexivity]. split; [lia|]. split; [eapply static_trans; [exact HS|eapply static_trans; eassumption]|].
    split; [eapply same_traces_trans; [exact HT|eapply same_traces_trans; eassumption]|]. split; [auto|].
    exists (evs ++ a ++ b)%list. split; [|rewrite L2, L1, HL, <- !app_assoc; reflexivity]. rewrite Ek. apply pre_more; [exact HP|exact Pa|rewrite EZ; exact Hb]. }
  destruct (Z.ltb_spec (fix_lbda_iters cfg) (k + 1)) as [Hf|Hf].
  - rewrite A1 in H. destruct (anneal (wd s0)) eqn:Ea.
    + apply bind_ok in H. destruct H as (u & Eu & H). apply bind_ok in H. destruct H as (sched' & Es & H). apply bind_ok in H. destruct H as (s2 & E2 & H). injection H as <-.
      assert (Hl : List.length sched' = List.length ls).
      { destruct (Z.eqb_spec (fix_lbda_iters cfg) 0) as [E0|]; [|discriminate]. destruct (Z.eqb_spec (k + 1) (fix_lbda_iters cfg + 1)) as [|Hn].
        - apply mapM_length in Es. exact Es.
        - injection Es as <-. apply Hs; [reflexivity|lia|lia]. }
      destruct (anneal_steps_spec _ _ _ _ E2) as (S2 & T2 & xs & Hx & L2).
      assert (Ec : map fst (combine ls sched') = ls).
      { clear - Hl. revert sched' Hl. induction ls as [|l t IH]; intros [|x sc] E; try discriminate; [reflexivity|]. cbn. rewrite IH; [reflexivity|]. injection E; auto. }
      rewrite Ec in L2. rewrite combine_length, Hl, Nat.min_id in Hx. destruct (combine_map_fun 0 ls xs ND Hx) as (v & Ev). rewrite Ev, map_map in L2. cbn [fst snd] in L2.
      apply (DONE sched' s2 _ S2 T2 L2); [exists (fun l => LS (v l)); reflexivity|auto].
    + apply bind_ok in H. destruct H as (s2 & E2 & H). injection H as <-. pose proof (update_lbdas_static _ _ _ ND E2) as S2.
      apply update_lbdas_spec in E2; [|exact ND]. destruct E2 as (_ & L2 & T2 & _).
      apply (DONE sched s2 _ S2 T2 L2); [eexists; reflexivity|congruence].
  - injection H as <-. apply (DONE sched s1 []); [apply static_refl|apply same_traces_refl|rewrite app_nil_r; reflexivity|reflexivity|lia].
Qed.
End Pre.
