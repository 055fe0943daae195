(** Proofs about machines that are extended between two calls of infer. *)
From Coq Require Import String Lra.
From Verif Require Import Base BaseLemmas BaseR BaseRLemmas Spec SpecR SpecClean Canon Fuzzy Scores Sampling SamplingProofs Lambda Clean Machine Dispatch Inference SpecMachine MachineProofs MachineProofs2
  BuiltProofs InferenceProofs InferenceProofs2 InferenceProofs3 InferenceProofs6 PreserveProofs PlainProofs DispatchProofs UpdateProofs SpecGrown.
Local Open Scope R_scope.

(** * Adding a layer *)
Lemma C111_added_lemma o w K c m w' : built o w -> (c < List.length (mats w))%nat -> add_layer o w K (Some c) None m = (w', Ok tt) ->
  grown w w' /\ parents (get_mat w' c) = (parents (get_mat w c) ++ [List.length (layers w)])%list /\
  forall i, (i < List.length (mats w))%nat -> sfct (get_mat w' i) = sfct (get_mat w i).
Proof.
  intros HB Hc H. pose proof (wf_stored _ (built_wf o w HB)) as Hs. pose proof (wf_stored _ (built_wf o w' (built_layer o w K c m w' HB Hc H))) as Hs'. unfold add_layer, canonise_model in H. destruct (canonise_name m) as [[[m' inv] invf]|e] eqn:Em; [|discriminate].
  set (w0 := if inv then write w (val (get_mat w c)) (neg_arr (value w c)) else w).
  assert (H' : new_layer o (add_factors o K (combine (seq 0 (List.length (shape_of (value w0 c)))) (shape_of (value w0 c))) w0)
      (seq (List.length (mats w0)) (List.length (shape_of (value w0 c)))) c m' K inv invf = w').
  { unfold w0. destruct inv; injection H as H; exact H. }
  assert (Hs0 : stored w0) by (unfold w0; destruct inv; [apply stored_write|]; exact Hs).
  assert (M0 : mats w0 = mats w) by (unfold w0; destruct inv; reflexivity).
  assert (L0 : layers w0 = layers w) by (unfold w0; destruct inv; reflexivity).
  destruct (add_layer_core o w0 (shape_of (value w0 c)) K c m' inv invf Hs0) as (lay & A1 & _ & _ & _ & _ & _ & _ & _ & A6 & A7 & _); [rewrite M0; exact Hc|].
  cbv zeta in *. rewrite H' in *. assert (GM : forall j, get_mat w0 j = get_mat w j) by (intros j; unfold get_mat; rewrite M0; reflexivity).
  rewrite L0 in *. rewrite M0 in A6, A7. split; [|split].
  - split; [rewrite A6; lia|]. split; [exact Hs'|]. split.
    + intros i Hi. destruct (A7 i Hi) as (_ & _ & E1 & _ & _ & _ & _ & E2 & E3). rewrite GM in *. split; [exact E1|]. split; [exact E2|].
      rewrite E3. destruct (Nat.eqb i c); [eexists; reflexivity|exists []; symmetry; apply app_nil_r].
    + rewrite A1, app_length. split; [cbn; lia|]. intros l Hl. unfold get_lay. rewrite A1, app_nth1 by exact Hl. auto.
  - destruct (A7 c Hc) as (_ & _ & _ & _ & _ & _ & _ & _ & E3). rewrite GM, Nat.eqb_refl in E3. exact E3.
  - intros i Hi. destruct (A7 i Hi) as (_ & _ & _ & _ & _ & _ & E & _). rewrite GM in E. exact E.
Qed.

(** * Closures are not made again *)
Lemma C111_cached_lemma w i f : sfct (get_mat w i) = Some f -> assign_mat w i = Ok w.
Proof.
  intros E. unfold assign_mat, get_sampling_fct. cbv zeta. rewrite E. cbn [bind]. f_equal.
  unfold set_mat, set_mats. assert (EM : with_sfct (get_mat w i) (Some f) = get_mat w i) by (rewrite <- E; destruct (get_mat w i); reflexivity).
  rewrite EM. unfold get_mat. rewrite upd_nth_same. destruct w; reflexivity.
Qed.

(** * The closure in place *)
Lemma before_closure w0 w l f : set_up_before w0 f w -> (f < List.length (mats w0))%nat -> (l < List.length (layers w0))%nat ->
  layer_of (get_mat w f) = Some l -> (forall g, In g (factors (get_lay w l)) -> (g < List.length (mats w0))%nat) ->
  parents (get_mat w0 f) = [] -> In (model (get_lay w l)) standard_models -> List.length (factors (get_lay w l)) = 2%nat ->
  stored w /\ sfct (get_mat w f) = Some (FLom (model (get_lay w l)) (transpose_order w f) (bprior (get_mat w0 f))).
Proof.
  intros (E0 & w1 & E1 & (G1 & ST & G2 & G3 & G4) & ES) Hf Hl EL HF HP HM H2. split; [exact ST|].
  pose proof (assign_mat_unassigned _ _ _ E1) as U. pose proof (kin_unassigned _ _ U) as K.
  assert (LM : List.length (mats w1) = List.length (mats w0)).
  { apply U. }
  assert (LL : List.length (layers w1) = List.length (layers w0)).
  { apply U. }
  assert (A : forall g, (g < List.length (mats w0))%nat -> axis (get_mat w g) = axis (get_mat w0 g) /\ layer_of (get_mat w g) = layer_of (get_mat w0 g)).
  { intros g Hg. destruct (G2 g) as (a1 & a2 & _); [lia|]. destruct (kin_mat _ _ K g) as (k1 & k2 & _). split; congruence. }
  assert (B : factors (get_lay w l) = factors (get_lay w0 l) /\ model (get_lay w l) = model (get_lay w0 l)).
  { destruct (G4 l) as (b1 & _ & b3); [lia|]. destruct (kin_lay _ _ K l) as (k1 & k2). split; congruence. }
  destruct B as (B1 & B2). destruct (A f Hf) as (A1 & A2'). rewrite EL in A2'.
  assert (TO : transpose_order w f = transpose_order w0 f).
  { unfold transpose_order, siblings. rewrite EL, <- A2', B1. f_equal; [unfold axis_of; rewrite A1; reflexivity|].
    apply map_ext_in. intros g Hg. apply filter_In in Hg. destruct Hg as (Hg & _). rewrite <- B1 in Hg. unfold axis_of. rewrite (proj1 (A g (HF g Hg))). reflexivity. }
  assert (GC : get_sampling_fct w0 f = Ok (w0, new_closure w0 f l)).
  { apply new_closure_ok; [exact E0|symmetry; exact A2'|rewrite <- B2; exact HM|right; exact HP|rewrite HP; contradiction]. }
  unfold assign_mat in E1. rewrite GC in E1. cbn [bind] in E1. injection E1 as <-.
  rewrite ES, get_mat_set, Nat.eqb_refl. cbn [andb]. rewrite (proj2 (Nat.ltb_lt _ _) Hf). cbn [sfct with_sfct]. f_equal.
  unfold new_closure. cbv zeta. rewrite HP, <- B1, H2, <- B2, TO. reflexivity.
Qed.

Section Stale.
Context (orc : oracle) (o i : lop) (Hoi : In (o, i) implemented) (out : list vec -> nat -> Z) (Hout : is_output o i out).
Lemma C111_stale_lemma w0 w l f g N D L A B X x F pB : layer2 w l f g N D L A B X x -> model (get_lay w l) = model_name o i -> 0 < pB < 1 ->
  (l < List.length (layers w0))%nat -> (f < List.length (mats w0))%nat -> (g < List.length (mats w0))%nat ->
  (set_up_before w0 f w -> parents (get_mat w0 f) = [] -> fixed_entries (get_mat w f) = A2 F -> 0 < bprior (get_mat w0 f) < 1 -> (Z.of_nat D <= 32767)%Z -> draws_ok (o_cell orc (clock w)) N L ->
     updates_to orc w f (ref_sweep (fun A' => post2 out x X N D L (bprior (get_mat w0 f)) pB A' B) F (o_cell orc (clock w)) N L A)) /\
  (set_up_before w0 g w -> parents (get_mat w0 g) = [] -> fixed_entries (get_mat w g) = A2 F -> 0 < bprior (get_mat w0 g) < 1 -> (Z.of_nat N <= 32767)%Z -> draws_ok (o_cell orc (clock w)) D L ->
     updates_to orc w g (ref_sweep (fun B' => post2 out x X N D L pB (bprior (get_mat w0 g)) A B') F (o_cell orc (clock w)) D L B)).
Proof.
  intros H EM Hp Hl Hf Hg. pose proof (implemented_standard _ _ Hoi) as HS. rewrite <- EM in HS.
  destruct (compute2 orc w l f g N D L A B X x (model_name o i) (bprior (get_mat w0 f)) F H) as (C1 & _). destruct (compute2 orc w l f g N D L A B X x (model_name o i) (bprior (get_mat w0 g)) F H) as (_ & C2).
  destruct H as [(_ & EF & _) ((hf & _ & lf) & (hg & _ & lg)) _ ((A1 & A1') & (B1 & B1') & X1 & X2)].
  assert (E2 : List.length (factors (get_lay w l)) = 2%nat) by (rewrite EF; reflexivity).
  assert (IN : forall j, In j (factors (get_lay w l)) -> (j < List.length (mats w0))%nat) by (rewrite EF; intros j [<-|[<-|[]]]; assumption).
  split; intros HU HP HF Hb Hd Hr.
  - destruct (before_closure w0 w l f HU Hf Hl lf IN HP HS E2) as (ST & Ec). rewrite EM in Ec.
    eapply run_inplace; [exact ST|exact hf|exact Ec|]. rewrite (C1 HF). destruct (C10_2_lemma o i Hoi out Hout N D L A B F X x (bprior (get_mat w0 f)) pB (o_cell orc (clock w)) A1 A1' B1 B1' X1 X2 Hb Hp) as (G & _).
    rewrite (G Hd Hr). reflexivity.
  - destruct (before_closure w0 w l g HU Hg Hl lg IN HP HS E2) as (ST & Ec). rewrite EM in Ec.
    eapply run_inplace; [exact ST|exact hg|exact Ec|]. rewrite (C2 HF). destruct (C10_2_lemma o i Hoi out Hout N D L A B F X x pB (bprior (get_mat w0 g)) (o_cell orc (clock w)) A1 A1' B1 B1' X1 X2 Hp Hb) as (_ & G).
    rewrite (G Hd Hr). reflexivity.
Qed.
End Stale.
