(** Proof of C30: what a run of inference leaves alone. *)
From Coq Require Import String Permutation.
From Verif Require Import Base BaseR BaseLemmas Outputs Fuzzy Ibp Clean Machine Dispatch Inference SpecMachine MachineProofs MachineProofs2 BuiltProofs InferenceProofs InferenceProofs2 InferenceProofs3 InferenceProofs6 PreserveProofs.
Local Open Scope R_scope.

(** ** Fixed dispersions *)
Lemma run_mat_disp o w i w' l : run_mat o w i = Ok w' -> disp w' l = disp w l.
Proof.
  unfold run_mat. intros H. apply bind_ok in H. destruct H as (f & _ & H). apply bind_ok in H. destruct H as (e & _ & H). injection H as <-. destruct e; reflexivity.
Qed.
Lemma run_lbda_disp w l l' w' : run_lbda w l = Ok w' -> l' <> l -> disp w' l' = disp w l'.
Proof.
  unfold run_lbda. intros H Hn. apply bind_ok in H. destruct H as (f & _ & H). apply bind_ok in H. destruct H as ([v rt] & _ & H). injection H as <-. unfold disp.
  rewrite get_lay_set. rewrite (proj2 (Nat.eqb_neq l' l) Hn). reflexivity.
Qed.
Lemma clean_layer_layers w l r c w' b : clean_layer w l r c = Some (Ok (w', b)) -> layers w' = layers w.
Proof.
  unfold clean_layer. cbv zeta. destruct (mapM _ _) as [cfs|]; [|discriminate]. destruct (clean_up_codes _ _ _ _) as [[[cfs' red]|]|]; try discriminate. intros H. injection H as <- _. destruct red; [|reflexivity].
  generalize (combine (factors (get_lay w l)) cfs'). intros ps. revert w. induction ps as [|[i cf] ps IH]; intros w; cbn [fold_left]; [reflexivity|]. rewrite IH. destruct r; reflexivity.
Qed.
Lemma C30_lbda_lemma fuel o cfg n s s' l : fair o -> infer fuel o cfg n s = Some (Ok s') -> (l < List.length (layers (wd s)))%nat -> lfixed (lbda (get_lay (wd s) l)) = true -> disp (wd s') l = disp (wd s) l.
Proof.
  intros F E Hl Hf. pose proof E as E'. unfold infer in E'. destruct (prepare s) as [[[ms ls] s1]|] eqn:EP; [|discriminate]. clear E'. pose proof EP as EP'. apply prepare_spec in EP'. destruct EP' as (_ & EL & (_ & _ & _ & _ & _ & _ & _ & UL) & _).
  assert (Nl : ~ In l ls). { rewrite EL. intros Hin. apply free_lbdas_spec in Hin. destruct Hin as (_ & Hin). congruence. }
  apply (infer_keeps fuel o cfg n s s' ms ls s1 (fun w => disp w l = disp (wd s) l) F E EP).
  - intros w H. exact H.
  - intros w i w' H _ Em. rewrite (run_mat_disp _ _ _ _ _ Em). exact H.
  - intros w l' w' H Hl' Em. rewrite (run_lbda_disp _ _ _ _ Em); [exact H|]. intros ->. contradiction.
  - intros w l' x H Hl' _. unfold disp, assign_disp. rewrite get_lay_set. destruct (Nat.eqb_spec l l') as [->|]; [contradiction|]. exact H.
  - intros w l' r c w' b H _ Ec. unfold disp, get_lay. rewrite (clean_layer_layers _ _ _ _ _ _ Ec). exact H.
  - specialize (UL l). apply (f_equal (fun x => lv (lbda x))) in UL. exact UL.
Qed.

(** ** Fixed matrices *)
Lemma get_fct_ibp w i w' f : get_sampling_fct w i = Ok (w', f) -> (forall j, sfct (get_mat w' j) = sfct (get_mat w j) \/ sfct (get_mat w' j) = Some Fqq) /\ (forall order, f = FIbp order -> ibp_updated w i).
Proof.
  unfold get_sampling_fct. cbv zeta. destruct (sfct (get_mat w i)) as [f0|] eqn:Es.
  - intros H. injection H as <- <-. split; [left; reflexivity|]. intros order ->. left. exists order. exact Es.
  - intros H. apply bind_ok in H. destruct H as ([[mod_ p1] p2] & E & H).
    assert (EM : mod_ = match layer_of (get_mat w i) with Some l => Some (model (get_lay w l), List.length (factors (get_lay w l))) | None => None end).
    { unfold get_relatives_models in E. cbv zeta in E. destruct (parents (get_mat w i)) as [|a [|b t]]; [injection E as <- _ _; reflexivity| |].
      - apply bind_ok in E. destruct E as (_ & _ & E). injection E as <- _ _. reflexivity.
      - apply bind_ok in E. destruct E as (_ & _ & E). apply bind_ok in E. destruct E as (_ & _ & E). injection E as <- _ _. reflexivity. }
    assert (K : forall (x : res unit) (k : unit -> res (world * fct)) y, bind x k = Ok y -> exists u, k u = Ok y) by (intros x k y Hb; apply bind_ok in Hb; destruct Hb as (u & _ & Hb); eauto).
    destruct (match mod_ with Some (n, 2%nat) => String.eqb n "MAX-AND" | _ => false end).
    { destruct p1; [discriminate|]. injection H as <- <-. split; [left; reflexivity|discriminate]. }
    destruct (match mod_ with Some (n, 2%nat) => String.eqb n "qL-AND" | _ => false end).
    { apply bind_ok in H. destruct H as (lay & _ & H). apply bind_ok in H. destruct H as (qi & _ & H).
      assert (G : forall j, sfct (get_mat (set_mat w qi (with_sfct (get_mat w qi) (Some Fqq))) j) = sfct (get_mat w j) \/ sfct (get_mat (set_mat w qi (with_sfct (get_mat w qi) (Some Fqq))) j) = Some Fqq).
      { intros j. rewrite get_mat_set. destruct (_ && _); [right|left]; reflexivity. }
      destruct (axis (get_mat w i)) as [[|[|?]]|]; try discriminate; injection H as <- <-; split; try discriminate; exact G. }
    destruct (match mod_ with Some (n, 2%nat) => String.eqb n "OR-AND-IBP" | _ => false end) eqn:EI.
    { apply bind_ok in H. destruct H as (l & El & H). unfold of_option in El. destruct (layer_of (get_mat w i)) as [l0|] eqn:Elay; [|discriminate]. injection El as ->. split.
      - intros j. left. destruct (alpha (get_lay w l)); destruct (axis (get_mat w i)) as [[|[|?]]|]; try discriminate; injection H as <- _; reflexivity.
      - intros order _. right. exists l. split; [exact Elay|]. rewrite EM in EI. destruct (List.length (factors (get_lay w l))) as [|[|[|?]]]; try discriminate. apply String.eqb_eq. exact EI. }
    assert (W : w' = w /\ forall order, f <> FIbp order).
    { destruct mod_ as [[n d]|], p1 as [a|], p2 as [b|]; try destruct d as [|[|[|d]]]; repeat (let u := fresh in apply K in H; destruct H as (u & H)); first [discriminate|injection H as <- <-; split; [reflexivity|discriminate]]. }
    destruct W as (-> & W). split; [left; reflexivity|]. intros order Ho. destruct (W order Ho).
Qed.
Lemma ibp_unassigned w w' j : unassigned w w' -> (forall order, sfct (get_mat w' j) = Some (FIbp order) -> ibp_updated w j) -> ibp_updated w' j -> ibp_updated w j.
Proof.
  intros (_ & _ & _ & _ & _ & _ & UM & UL) H [(order & E)|(l & E1 & E2)]; [apply (H order E)|]. right. exists l. specialize (UM j). apply (f_equal layer_of) in UM. cbn in UM. specialize (UL l). apply (f_equal model) in UL. cbn in UL. split; congruence.
Qed.
Lemma assign_mat_ibp w i w' j : assign_mat w i = Ok w' -> ibp_updated w' j -> ibp_updated w j.
Proof.
  intros H. apply ibp_unassigned; [eapply assign_mat_unassigned; exact H|]. unfold assign_mat in H. apply bind_ok in H. destruct H as ([w1 f] & E & H). injection H as <-. destruct (get_fct_ibp _ _ _ _ E) as (G1 & G2).
  intros order. rewrite get_mat_set. destruct (Nat.eqb_spec j i) as [->|]; cbn [andb].
  - destruct (Nat.ltb _ _); cbn [with_sfct sfct].
    + intros E1. injection E1 as E1. eapply G2. exact E1.
    + intros E1. destruct (G1 i) as [G|G]; rewrite G in E1; [left; exists order; exact E1|discriminate].
  - intros E1. destruct (G1 j) as [G|G]; rewrite G in E1; [left; exists order; exact E1|discriminate].
Qed.
Lemma assign_lbda_ibp w l w' j : assign_lbda w l = Ok w' -> ibp_updated w' j -> ibp_updated w j.
Proof.
  intros H. apply ibp_unassigned; [eapply assign_lbda_unassigned; exact H|]. unfold assign_lbda in H. apply bind_ok in H. destruct H as (f & _ & H). injection H as <-. intros order E. left. exists order. exact E.
Qed.
Lemma prepare_ibp s ms ls s1 j : prepare s = Ok (ms, ls, s1) -> ibp_updated (wd s1) j -> ibp_updated (wd s) j.
Proof.
  intros H. apply prepare_wd in H. destruct H as (w1 & w2 & _ & _ & E1 & E2 & ->). intros G.
  assert (K2 : ibp_updated w2 j -> ibp_updated w1 j).
  { refine (foldM_keeps (fun w => ibp_updated w j -> ibp_updated w1 j) assign_lbda ls w1 w2 _ E2 (fun x => x)). intros w a w' H _ E K. apply H. eapply assign_lbda_ibp; eassumption. }
  assert (K1 : ibp_updated w1 j -> ibp_updated (wd s) j).
  { refine (foldM_keeps (fun w => ibp_updated w j -> ibp_updated (wd s) j) assign_mat ms (wd s) w1 _ E1 (fun x => x)). intros w a w' H _ E K. apply H. eapply assign_mat_ibp; eassumption. }
  auto.
Qed.

Lemma compute_replace o w i f x j y : compute o w i f = Ok (Replace x j y) -> In j (siblings w i) /\ exists order, f = FIbp order.
Proof.
  unfold compute. cbv zeta. intros H. apply bind_ok in H. destruct H as (Z_ & _ & H). apply bind_ok in H. destruct H as (F & _ & H).
  assert (NB : forall (A : Type) (r : res A) (k : A -> res effect), (forall a, k a <> Ok (Replace x j y)) -> bind r k <> Ok (Replace x j y)).
  { intros A r k Hk Hb. apply bind_ok in Hb. destruct Hb as (a & _ & Hb). exact (Hk a Hb). }
  assert (NO : forall z, Ok (InPlace z) <> Ok (Replace x j y)) by discriminate.
  destruct f as [order|order|order| |order|n order p|n order p|n a order p|a p|a b p|n a b order p].
  5: { apply bind_ok in H. destruct H as (lay & _ & H). apply bind_ok in H. destruct H as (k & Ek & H). apply bind_ok in H. destruct H as (U & _ & H). apply bind_ok in H. destruct H as (ax & _ & H). apply bind_ok in H. destruct H as (X & _ & H). apply bind_ok in H. destruct H as (lb & _ & H).
    destruct (IBP_sampler _ _ _ _ _ _ _ _ _ _) as [A B]. injection H as _ <- _. split; [|eexists; reflexivity]. unfold pick in Ek. destruct (nth_error (siblings w i) 0) as [k'|] eqn:E'; [|discriminate]. injection Ek as ->. eapply nth_error_In. exact E'. }
  all: exfalso; revert H; repeat (apply NB; intro); try apply NO; 
    repeat match goal with |- context [let '(_, _) := ?p in _] => destruct p end; repeat (apply NB; intro); try apply NO;
    repeat match goal with |- context [let '(_, _) := ?p in _] => destruct p end; repeat (apply NB; intro); try apply NO;
    repeat match goal with |- context [let '(_, _) := ?p in _] => destruct p end; repeat (apply NB; intro); try apply NO.
Qed.

Record guarded (w0 : world) (i : nat) (w : world) : Prop := {
  gd_static : static w0 w;
  gd_own : own_array w i;
  gd_store : stored w;
  gd_value : value w i = value w0 i }.
Lemma guarded_write w0 i w j x : guarded w0 i w -> (j < List.length (mats w))%nat -> j <> i -> guarded w0 i (write w (val (get_mat w j)) x).
Proof.
  intros [S O ST V] Hj Hn. constructor.
  - eapply static_trans; [exact S|apply static_write].
  - exact O.
  - apply stored_write. exact ST.
  - rewrite <- V. unfold value. change (get_mat (write _ _ _) i) with (get_mat w i). rewrite get_arr_write by (apply stored_val; assumption). destruct (Nat.eqb_spec (val (get_mat w i)) (val (get_mat w j))) as [E|]; [|reflexivity].
    destruct (O j Hj Hn). auto.
Qed.
Lemma stored_assign w j x : stored w -> stored (assign_val w j x).
Proof.
  intros H. unfold stored, assign_val. cbn [set_mat set_mats set_arrays mats arrays]. rewrite app_length. cbn. apply Forall_forall. intros m Hm. apply In_nth with (d := no_matrix) in Hm. destruct Hm as (k & Hk & <-). rewrite upd_length in Hk.
  unfold stored in H. rewrite Forall_forall in H. destruct (Nat.eq_dec k j) as [->|Hn]; [rewrite nth_upd_same by exact Hk; cbn; lia|]. rewrite nth_upd_other by exact Hn. specialize (H _ (nth_In (mats w) no_matrix Hk)). lia.
Qed.
Lemma guarded_assign w0 i w j x : guarded w0 i w -> (i < List.length (mats w))%nat -> j <> i -> guarded w0 i (assign_val w j x).
Proof.
  intros [S O ST V] Hi Hn.
  assert (G : forall k, val (get_mat (assign_val w j x) k) = if Nat.eqb k j && Nat.ltb j (List.length (mats w)) then List.length (arrays w) else val (get_mat w k)).
  { intros k. unfold assign_val. rewrite get_mat_set. cbn [set_arrays mats]. destruct (Nat.eqb_spec k j) as [->|]; cbn [andb]; [destruct (Nat.ltb _ _)|]; reflexivity. }
  constructor.
  - eapply static_trans; [exact S|apply static_assign].
  - intros k Hk Hki. unfold assign_val in Hk. cbn [set_mat set_mats set_arrays mats] in Hk. rewrite upd_length in Hk. rewrite !G. rewrite (proj2 (Nat.eqb_neq i j)) by auto. cbn [andb].
    destruct (_ && _); [pose proof (stored_val w i ST Hi); lia|apply O; assumption].
  - apply stored_assign. exact ST.
  - rewrite <- V. unfold value. rewrite G, (proj2 (Nat.eqb_neq i j)) by auto. cbn [andb]. unfold get_arr, assign_val. cbn [set_mat set_mats set_arrays arrays]. apply app_nth1. apply stored_val; assumption.
Qed.
Lemma guarded_same w0 i w w' : guarded w0 i w -> static w w' -> mats w' = mats w -> arrays w' = arrays w -> guarded w0 i w'.
Proof.
  intros [S O ST V] H Em Ea. constructor.
  - eapply static_trans; eassumption.
  - unfold own_array, get_mat. rewrite Em. exact O.
  - unfold stored. rewrite Em, Ea. exact ST.
  - rewrite <- V. unfold value, get_arr, get_mat. rewrite Em, Ea. reflexivity.
Qed.
Lemma static_layer_of w w' j : static w w' -> layer_of (get_mat w' j) = layer_of (get_mat w j) /\ sfct (get_mat w' j) = sfct (get_mat w j).
Proof. intros (_ & H & _). specialize (H j). unfold same_matrix in H. split; [apply (f_equal layer_of) in H|apply (f_equal sfct) in H]; exact H. Qed.
Lemma static_lay w w' l : static w w' -> factors (get_lay w' l) = factors (get_lay w l) /\ model (get_lay w' l) = model (get_lay w l) /\ auto_clean (get_lay w' l) = auto_clean (get_lay w l) /\ auto_reset (get_lay w' l) = auto_reset (get_lay w l) /\ child (get_lay w' l) = child (get_lay w l).
Proof. intros (_ & _ & _ & H & _). destruct (H l) as (v & r & ->). repeat split. Qed.
Lemma static_exposed w w' i : static w w' -> exposed w' i -> exposed w i.
Proof.
  intros S [(j & l & H1 & H2 & H3 & H4)|(l & H1 & H2)].
  - left. exists j, l. destruct (static_layer_of _ _ j S) as (e1 & e2). destruct (static_lay _ _ l S) as (e3 & _). rewrite e1 in H2. rewrite e3 in H3. repeat (split; [assumption|]).
    destruct H4 as [(ord & H4)|(l' & H4 & H5)]; [left; exists ord; congruence|]. right. exists l'. destruct (static_lay _ _ l' S) as (_ & e5 & _). split; congruence.
  - right. exists l. destruct (static_lay _ _ l S) as (e1 & _ & e2 & e3 & _). rewrite e1 in H2. rewrite e2, e3 in H1. auto.
Qed.
Lemma guarded_run o w0 i w j w' : guarded w0 i w -> ~ exposed w0 i -> (i < List.length (mats w0))%nat -> (j < List.length (mats w0))%nat -> j <> i -> run_mat o w j = Ok w' -> guarded w0 i w'.
Proof.
  intros G NE Hi Hj Hn H. pose proof (gd_static _ _ _ G) as S. assert (Lm : List.length (mats w) = List.length (mats w0)) by apply S. unfold run_mat in H. apply bind_ok in H. destruct H as (f & Ef & H). apply bind_ok in H. destruct H as (e & Ee & H). injection H as <-.
  apply (guarded_same w0 i (apply_effect w j e)); [|apply static_tick|reflexivity|reflexivity]. destruct e as [x|x k y]; cbn [apply_effect].
  - apply guarded_write; [exact G|lia|exact Hn].
  - apply compute_replace in Ee. destruct Ee as (Hk & order & ->). assert (k <> i).
    { intros ->. apply NE. apply (static_exposed _ _ _ S). left. unfold siblings in Hk. destruct (layer_of (get_mat w j)) as [l|] eqn:El; [|contradiction]. exists j, l. apply filter_In in Hk. repeat (split; [first [assumption|apply Hk]|]). left. exists order.
      unfold of_option in Ef. destruct (sfct (get_mat w j)); [|discriminate]. congruence. }
    assert (G1 : guarded w0 i (assign_val w j (A2 x))) by (apply guarded_assign; [exact G|lia|exact Hn]). apply guarded_assign; [exact G1| |assumption]. rewrite (proj1 (gd_static _ _ _ G1)). exact Hi.
Qed.
Lemma guarded_clean w0 i w l r c w' b : guarded w0 i w -> ~ exposed w0 i -> (i < List.length (mats w0))%nat -> (forall j, In j (factors (get_lay w l)) -> (j < List.length (mats w0))%nat) ->
  auto_clean (get_lay w l) || auto_reset (get_lay w l) = true -> clean_layer w l r c = Some (Ok (w', b)) -> guarded w0 i w'.
Proof.
  intros G NE Hi HB Hf H. unfold clean_layer in H. cbv zeta in H. destruct (mapM _ _) as [cfs|]; [|discriminate]. destruct (clean_up_codes _ _ _ _) as [[[cfs' red]|]|]; try discriminate. injection H as <- _. destruct red; [|exact G].
  assert (NI : ~ In i (factors (get_lay w l))). { intros Hin. apply NE. apply (static_exposed _ _ _ (gd_static _ _ _ G)). right. exists l. split; [apply orb_true_iff in Hf; exact Hf|exact Hin]. }
  assert (HP : forall j cf, In (j, cf) (combine (factors (get_lay w l)) cfs') -> (j < List.length (mats w0))%nat /\ j <> i).
  { intros j cf Hin. apply in_combine_l in Hin. split; [apply HB; exact Hin|]. intros ->. contradiction. }
  revert HP G. generalize (combine (factors (get_lay w l)) cfs'). clear Hf NI HB cfs'. intros ps. revert w. induction ps as [|[j cf] ps IH]; intros w HP G; cbn [fold_left]; [exact G|].
  apply IH; [intros; eapply HP; right; eassumption|]. destruct (HP j cf (or_introl eq_refl)) as (Hj & Hn). pose proof (proj1 (gd_static _ _ _ G)) as Lm. destruct r; [apply guarded_write|apply guarded_assign]; try assumption; lia.
Qed.

Lemma C30_lemma fuel o cfg n s s' i : built o (wd s) -> fair o -> infer fuel o cfg n s = Some (Ok s') -> (i < List.length (mats (wd s)))%nat ->
  declared_fixed (fixed (get_mat (wd s) i)) \/ ~ is_member (wd s) i -> own_array (wd s) i -> ~ exposed (wd s) i -> value (wd s') i = value (wd s) i.
Proof.
  intros HB F E Hi Hfix HO NE. pose proof (built_wf _ _ HB) as WF. pose proof E as E'. unfold infer in E'. destruct (prepare s) as [[[ms ls] s1]|] eqn:EP; [|discriminate]. clear E'.
  pose proof EP as EP'. apply prepare_spec in EP'. destruct EP' as (EM & _ & UN & _). pose proof UN as (UA & _ & _ & _ & Lm & Ll & UM & UL). destruct (not_fixed_spec _ _ _ EM) as (_ & MS1 & MS2).
  assert (Hms : forall j, In j ms -> (j < List.length (mats (wd s1)))%nat /\ j <> i).
  { intros j Hj. pose proof (MS1 j Hj) as Hm. split.
    - pose proof (wf_ids _ WF) as G. rewrite Forall_forall in G. rewrite Lm. apply G. exact Hm.
    - intros ->. destruct Hfix as [Hf|Hf]; [apply (proj1 (MS2 i Hm) Hj Hf)|apply Hf, members_spec, Hm]. }
  assert (VL : forall j, val (get_mat (wd s1) j) = val (get_mat (wd s) j)) by (intros j; specialize (UM j); apply (f_equal val) in UM; exact UM).
  assert (LY : forall j, layer_of (get_mat (wd s1) j) = layer_of (get_mat (wd s) j)) by (intros j; specialize (UM j); apply (f_equal layer_of) in UM; exact UM).
  assert (FA : forall l, factors (get_lay (wd s1) l) = factors (get_lay (wd s) l)) by (intros l; specialize (UL l); apply (f_equal factors) in UL; exact UL).
  assert (V1 : value (wd s1) i = value (wd s) i) by (unfold value, get_arr; rewrite UA, VL; reflexivity).
  assert (NE1 : ~ exposed (wd s1) i).
  { intros [(j & l & H1 & H2 & H3 & H4)|(l & H1 & H2)]; apply NE.
    - left. exists j, l. rewrite <- LY, <- FA. repeat (split; [assumption|]). eapply prepare_ibp; eassumption.
    - right. exists l. rewrite <- FA. split; [|exact H2]. specialize (UL l). pose proof (f_equal auto_clean UL) as U1. pose proof (f_equal auto_reset UL) as U2. cbn in U1, U2. rewrite <- U1, <- U2. exact H1. }
  assert (Hi1 : (i < List.length (mats (wd s1)))%nat) by lia.
  assert (G1 : guarded (wd s1) i (wd s1)).
  { constructor; [apply static_refl| | |reflexivity].
    - intros j Hj Hn. rewrite !VL. apply HO; [lia|exact Hn].
    - apply Forall_forall. intros m Hm. apply In_nth with (d := no_matrix) in Hm. destruct Hm as (k & Hk & <-). change (nth k (mats (wd s1)) no_matrix) with (get_mat (wd s1) k). rewrite VL, UA. apply stored_val; [apply WF|lia]. }
  assert (FB : forall w l j, guarded (wd s1) i w -> In j (factors (get_lay w l)) -> (j < List.length (mats (wd s1)))%nat).
  { intros w l j G Hj. rewrite Lm. destruct (static_lay _ _ l (gd_static _ _ _ G)) as (e & _). rewrite e, FA in Hj. destruct (Nat.lt_ge_cases l (List.length (layers (wd s)))) as [Hl|Hl].
    - pose proof (wf_ids _ WF) as K. rewrite Forall_forall in K. apply K. apply members_spec. left. exists l. auto.
    - unfold get_lay in Hj. rewrite nth_overflow in Hj by exact Hl. contradiction. }
  rewrite <- V1. apply (gd_value (wd s1) i (wd s')). apply (infer_keeps fuel o cfg n s s' ms ls s1 (guarded (wd s1) i) F E EP).
  - intros w G. apply (guarded_same _ _ w); [exact G|apply static_tick|reflexivity|reflexivity].
  - intros w j w' G Hj Er. destruct (Hms j Hj) as (H1 & H2). eapply guarded_run; eassumption.
  - intros w l w' G _ Er. assert (mats w' = mats w /\ arrays w' = arrays w) as (Q1 & Q2).
    { unfold run_lbda in Er. apply bind_ok in Er. destruct Er as (f & _ & Er). apply bind_ok in Er. destruct Er as ([v rt] & _ & Er). injection Er as <-. split; reflexivity. }
    apply (guarded_same _ _ w); [exact G|eapply run_lbda_static; exact Er|exact Q1|exact Q2].
  - intros w l x G _ _. apply (guarded_same _ _ w); [exact G|apply assign_disp_static|reflexivity|reflexivity].
  - intros w l r c w' b G Hf Ec. eapply guarded_clean; [exact G|exact NE1|exact Hi1| |exact Hf|exact Ec]. intros j Hj. eapply FB; eassumption.
  - exact G1.
Qed.
