(** Proofs: closures, dispersion updates and whole runs of ordinary machines. *)
From Coq Require Import String Lia Lra Permutation.
From Verif Require Import Base BaseLemmas BaseR BaseRLemmas Spec SpecR Canon Machine Dispatch Inference SpecMachine SpecOrdinary MachineProofs MachineProofs2 InferenceProofs InferenceProofs3 InferenceProofs6 PlainProofs PreserveProofs DispatchProofs UpdateProofs LambdaProofs PreserveLog.
From Verif Require Import OrdinaryProofs OrdinaryProofs2 OrdinaryProofs3 OrdinaryProofs4 OrdinaryProofs5.
Local Open Scope R_scope.

(** ** Storing closures *)
Lemma changed_refl w : sound w -> changed w w.
Proof. intros S. apply sound_arrays; auto. Qed.
Lemma changed_sfct w l i : sound w -> (l < List.length (layers w))%nat -> In i (factors (get_lay w l)) -> changed w (set_mat w i (with_sfct (get_mat w i) (Some (own_closure w i l)))).
Proof.
  intros S Hl Hi. set (w' := set_mat w i _). pose proof (changed_refl w S) as C. pose proof (wf_placed _ (so_wf _ S) l i Hl Hi) as (Hlt & EL & _).
  assert (GM : forall j, get_mat w' j = if Nat.eqb j i then with_sfct (get_mat w i) (Some (own_closure w i l)) else get_mat w j).
  { intros j. unfold w'. rewrite get_mat_set, (proj2 (Nat.ltb_lt _ _) Hlt), andb_true_r. reflexivity. }
  assert (ED : edited w w').
  { destruct (ch_edited _ _ C) as (E1 & E2 & E3 & E4 & E5 & E6 & E7). split; [unfold w', set_mat, set_mats; cbn [mats]; apply upd_length|]. split; [|split; [|auto]].
    - unfold stored, w', set_mat, set_mats. cbn [mats arrays]. apply Forall_upd; [exact E2|]. cbn [with_sfct val]. apply stored_val; assumption.
    - intros j. rewrite GM. destruct (Nat.eqb_spec j i) as [->|_]; auto. }
  assert (OC : forall j l', own_closure w' j l' = own_closure w j l').
  { intros j l'. apply edited_closure; [exact ED|]. rewrite GM. destruct (Nat.eqb_spec j i) as [->|_]; reflexivity. }
  assert (GV : forall j, value w' j = value w j) by (intros j; unfold value; change (get_arr w') with (get_arr w); rewrite GM; destruct (Nat.eqb_spec j i) as [->|_]; reflexivity).
  constructor.
  - exact ED.
  - intros j Hj. rewrite GV. auto.
  - intros l' j Hl' Hj. rewrite OC, GM. pose proof (ch_mat _ _ C l' j Hl' Hj) as (M1 & M2 & M3 & M4). destruct (Nat.eqb_spec j i) as [->|_]; [|auto]. cbn [with_sfct fixed_entries fixed bprior sfct]. split; [exact M1|]. split; [exact M2|]. split; [exact M3|]. right.
    destruct (wf_placed _ (so_wf _ S) l' i Hl' Hj) as (_ & e2 & _). assert (l' = l) by congruence. subst l'. reflexivity.
  - intros j Hj. rewrite GM. pose proof (ch_free _ _ C j Hj) as G. destruct (Nat.eqb_spec j i) as [->|_]; exact G.
  - intros j Hj. pose proof (ch_own _ _ C j Hj) as G. unfold own_array in *. intros k Hk. unfold w', set_mat, set_mats in Hk. cbn [mats] in Hk. rewrite upd_length in Hk. intros Hn. specialize (G k Hk Hn). rewrite !GM. destruct (Nat.eqb_spec k i) as [->|_], (Nat.eqb_spec j i) as [->|_]; exact G.
  - intros l' Hl'. exact (ch_lay _ _ C l' Hl').
Qed.
Lemma changed_lbda w l y : sound w -> (l < List.length (layers w))%nat -> (exists x, lv y = LS x) -> beta y = beta (lbda (get_lay w l)) -> (lsfct y = None \/ exists f, lsfct y = Some f /\ disp_closure w l f) -> changed w (set_lay w l (with_lbda (get_lay w l) y)).
Proof.
  intros S Hl (x & Hx) Hb Hf. set (w' := set_lay w l _). pose proof (changed_refl w S) as C. pose proof (ch_edited _ _ C) as (E1 & E2 & E3 & E4 & E5 & E6 & E7).
  assert (GL : forall j, get_lay w' j = if Nat.eqb j l then with_lbda (get_lay w l) y else get_lay w j).
  { intros j. unfold w'. rewrite get_lay_set, (proj2 (Nat.ltb_lt _ _) Hl), andb_true_r. reflexivity. }
  assert (LL : List.length (layers w') = List.length (layers w)) by (unfold w', set_lay, set_layers; cbn [layers]; apply upd_length).
  assert (ED : edited w w').
  { split; [exact E1|]. split; [exact E2|]. split; [exact E3|]. split; [exact LL|]. split; [|split; [|exact E7]].
    - intros j. rewrite GL. destruct (Nat.eqb_spec j l) as [->|_]; auto.
    - intros j. rewrite LL. intros Hj. unfold disp. rewrite GL. destruct (Nat.eqb_spec j l) as [->|_]; [cbn [with_lbda lbda]; rewrite Hx; cbn; lia|apply E6; exact Hj]. }
  assert (OC : forall j l', own_closure w' j l' = own_closure w j l') by (intros j l'; apply edited_closure; [exact ED|reflexivity]).
  constructor.
  - exact ED.
  - exact (ch_value _ _ C).
  - intros l' j Hl' Hj. rewrite OC. exact (ch_mat _ _ C l' j Hl' Hj).
  - exact (ch_free _ _ C).
  - exact (ch_own _ _ C).
  - intros j Hj. unfold disp. rewrite GL. pose proof (ch_lay _ _ C j Hj) as G. destruct (Nat.eqb_spec j l) as [->|_]; [|exact G]. cbn [with_lbda lbda auto_clean auto_reset]. rewrite Hb. destruct G as (_ & G2 & G3 & G4 & G5 & _). split; [exists x; exact Hx|]. repeat (split; [assumption|]). exact Hf.
Qed.

(** ** Dispersion updates *)
Lemma dispersion_step outs w l f w' : outputs outs -> sound w -> (l < List.length (layers w))%nat -> lsfct (lbda (get_lay w l)) = Some f -> disp_closure w l f -> run_lbda w l = Ok w' ->
  dispersion_update outs w l (disp w' l) w' /\ sound w' /\ mats w' = mats w /\ (forall k, lsfct (lbda (get_lay w' k)) = lsfct (lbda (get_lay w k))).
Proof.
  intros Houts S Hl Ef Df E. destruct (out_of outs Houts w S l Hl) as (o' & i' & Ho & Em & Hout). rewrite Em in Hout. destruct (so_layer _ S l Hl) as (_ & _ & _ & _ & _ & B1 & B2). cbv zeta in B1, B2.
  unfold run_lbda in E. rewrite Ef in E. cbn [of_option] in E. rewrite bindE in E. unfold disp_closure in Df.
  assert (G : exists x, compute_lbda w l f = Ok (LS x, ratios (get_lay w l)) /\ best_dispersion (fst (layer_score outs w l)) (snd (layer_score outs w l)) (fst (beta (lbda (get_lay w l)))) (snd (beta (lbda (get_lay w l)))) x).
  { destruct (beta (lbda (get_lay w l))) as [al be] eqn:EB. cbn [fst snd] in B1, B2 |- *. destruct (plain_child _ (so_plain _ S) l Hl) as [(En & _)|(En & _)]; rewrite En in Df; cbn [Nat.eqb] in Df; subst f.
    - destruct (sound_layer2 w l S Hl En) as (a & b & L & A & B & X & x & H & _). set (N := nrows X) in *. set (D := ncols X) in *. clearbody N D. pose proof (l2_layer _ _ _ _ _ _ _ _ _ _ _ H) as (_ & EF & _). pose proof (l2_values _ _ _ _ _ _ _ _ _ _ _ H) as (va & vb & vx & _). pose proof (l2_shapes _ _ _ _ _ _ _ _ _ _ _ H) as (s1 & s2 & s3 & _).
      destruct (C17_2_lemma o' i' Ho _ Hout A B X _ _ L _ _ s1 s2 s3 B1 B2) as (lam & E1 & G). exists lam. split.
      + unfold compute_lbda. cbv zeta. rewrite EB, EF. unfold pick. cbn [nth_error of_option bind]. rewrite (readE _ _ _ va), (readE _ _ _ vb). cbn [bind]. rewrite vx. cbn [as2 bind]. rewrite Em, E1. reflexivity.
      + unfold layer_score. rewrite EF. cbn [map]. rewrite va, vb, vx, Em. cbn [fst snd]. destruct (okmat_cols _ _ _ s1) as (-> & [Z|Z]).
        * subst N. cbn. exact G.
        * rewrite Z, (proj1 (okmat_cols _ _ _ s2)). exact G.
    - destruct (sound_layer3 w l S Hl En) as (a & b & c & N & D & M & L & A & B & C & X & x & H). pose proof (l3_layer _ _ _ _ _ _ _ _ _ _ _ _ _ _ H) as (_ & EF & _). pose proof (l3_values _ _ _ _ _ _ _ _ _ _ _ _ _ _ H) as (va & vb & vc & vx & _). pose proof (l3_shapes _ _ _ _ _ _ _ _ _ _ _ _ _ _ H) as (s1 & s2 & s3 & s4).
      destruct (C17_3_lemma o' i' Ho _ Hout A B C X N D M L _ _ s1 s2 s3 s4 B1 B2) as (lam & E1 & G). exists lam. split.
      + unfold compute_lbda. cbv zeta. rewrite EB, EF. unfold pick. cbn [nth_error of_option bind]. rewrite (readE _ _ _ va), (readE _ _ _ vb), (readE _ _ _ vc). cbn [bind]. rewrite vx. cbn [as3 bind]. rewrite Em, E1. reflexivity.
      + unfold layer_score. rewrite EF. cbn [map]. rewrite va, vb, vc, vx, Em. cbn [fst snd]. destruct (okmat_cols _ _ _ s1) as (-> & [Z|Z]).
        * subst N. cbn. exact G.
        * rewrite Z, (proj1 (okmat_cols _ _ _ s2)), (proj1 (okmat_cols _ _ _ s3)). exact G. }
  destruct G as (x & EC & G). rewrite EC, bindE in E. injection E as <-. assert (EW : set_lay w l (with_ratios (with_lbda (get_lay w l) (with_lv (lbda (get_lay w l)) (LS x))) (ratios (get_lay w l))) = assign_disp w l (LS x)) by reflexivity.
  rewrite EW. assert (D1 : disp (assign_disp w l (LS x)) l = LS x) by (unfold disp, assign_disp; rewrite get_lay_set, Nat.eqb_refl, (proj2 (Nat.ltb_lt _ _) Hl); reflexivity).
  split; [|split; [|split; [reflexivity|]]].
  - exists x. rewrite D1. auto.
  - apply (sound_changed w); [exact S|]. apply changed_lbda; [exact S|exact Hl|exists x; reflexivity|reflexivity|]. cbn [with_lv lsfct]. rewrite Ef. right. exists f. split; [reflexivity|]. exact Df.
  - intros k. unfold assign_disp. rewrite get_lay_set, (proj2 (Nat.ltb_lt _ _) Hl), andb_true_r. destruct (Nat.eqb_spec k l) as [->|_]; reflexivity.
Qed.

(** ** Preparing a run *)
Lemma get_sampling_fct_own w l i : sound w -> (l < List.length (layers w))%nat -> In i (factors (get_lay w l)) -> get_sampling_fct w i = Ok (w, own_closure w i l).
Proof.
  intros S Hl Hi. destruct (so_factor _ S l i Hl Hi) as (_ & [A6|A6] & _); [|unfold get_sampling_fct; cbv zeta; rewrite A6; reflexivity].
  pose proof (so_plain _ S) as P. pose proof (wf_placed _ (so_wf _ S)) as PL. destruct (plain_factor _ P l i Hl Hi) as (_ & _ & _ & A4 & A5 & _). unfold get_sampling_fct. cbv zeta.
  rewrite A6. destruct (PL l i Hl Hi) as (_ & EL & _).
  destruct (standard_known _ (plain_model _ P l Hl)) as ((k2 & K2) & (k3 & K3) & _ & _ & _ & M1 & M2 & M3).
  assert (E2 : known2 (model (get_lay w l)) = Ok tt) by (unfold known2; rewrite K2; reflexivity). assert (E3 : known3 (model (get_lay w l)) = Ok tt) by (unfold known3; rewrite K3; reflexivity).
  assert (EP : forall p, In p (parents (get_mat w i)) -> knownp (model (get_lay w p)) = Ok tt).
  { intros p Hp. destruct (standard_known _ (plain_model _ P p (proj1 (A4 p Hp)))) as (_ & _ & (kp & KP) & _). unfold knownp. rewrite KP. reflexivity. }
  unfold get_relatives_models, own_closure. cbv zeta. rewrite EL. destruct (parents (get_mat w i)) as [|a t] eqn:Epar.
  - cbn [bind]. destruct (plain_child _ P l Hl) as [(En & _)|(En & _)]; rewrite En; cbn [Nat.eqb].
    + rewrite M1, M2, M3, E2. reflexivity.
    + rewrite E3. reflexivity.
  - assert (En : List.length (factors (get_lay w l)) = 2%nat) by (apply A5; discriminate). rewrite En. destruct t as [|b t].
    + rewrite (two_ok w a) by (apply A4; left; reflexivity). cbn [bind]. rewrite M1, M2, M3, E2, (EP a) by (left; reflexivity). reflexivity.
    + rewrite (two_ok w a) by (apply A4; left; reflexivity). rewrite (two_ok w b) by (apply A4; right; left; reflexivity). cbn [bind]. rewrite M1, M2, M3, E2, (EP a), (EP b) by (cbn; auto). reflexivity.
Qed.
Lemma map_upd {A B} (f : A -> B) l i x d : f x = f (nth i l d) -> map f (upd l i x) = map f l.
Proof. revert i. induction l as [|a l IH]; intros [|i] H; cbn in *; [reflexivity..|rewrite H; reflexivity|rewrite IH by exact H; reflexivity]. Qed.
Lemma strip_mat w i f : strip (set_mat w i (with_sfct (get_mat w i) f)) = strip w.
Proof. unfold strip, set_mat, set_mats. cbn [arrays mats layers free anneal clock]. f_equal. apply (map_upd _ _ _ _ no_matrix). reflexivity. Qed.
Lemma strip_lay w l f : strip (set_lay w l (with_lbda (get_lay w l) (with_lsfct (lbda (get_lay w l)) f))) = strip w.
Proof. unfold strip, set_lay, set_layers. cbn [arrays mats layers free anneal clock]. f_equal. apply (map_upd _ _ _ _ no_layer). reflexivity. Qed.

Definition armed (w : world) (i : nat) : Prop := exists l, (l < List.length (layers w))%nat /\ In i (factors (get_lay w l)) /\ sfct (get_mat w i) = Some (own_closure w i l).
Definition larmed (w : world) (l : nat) : Prop := (l < List.length (layers w))%nat /\ exists f, lsfct (lbda (get_lay w l)) = Some f /\ disp_closure w l f.
Lemma assign_mats_sound ms : forall w w', sound w -> (forall i, In i ms -> is_factor w i) -> foldM assign_mat ms w = Ok w' ->
  sound w' /\ strip w' = strip w /\ layers w' = layers w /\ (forall i, armed w i -> armed w' i) /\ forall i, In i ms -> armed w' i.
Proof.
  induction ms as [|i ms IH]; intros w w' S H E; cbn [foldM] in E.
  - injection E as <-. split; [exact S|]. repeat (split; [solve [auto]|]). contradiction.
  - apply bind_ok in E. destruct E as (w1 & E1 & E). destruct (H i (or_introl eq_refl)) as (l & Hl & Hi). unfold assign_mat in E1. rewrite (get_sampling_fct_own w l i S Hl Hi), bindE in E1. injection E1 as <-.
    set (w1 := set_mat w i _) in *. pose proof (changed_sfct w l i S Hl Hi) as C. fold w1 in C. pose proof (sound_changed _ _ S C) as S1. pose proof (wf_placed _ (so_wf _ S) l i Hl Hi) as (Hlt & EL & _).
    assert (GM : forall j, get_mat w1 j = if Nat.eqb j i then with_sfct (get_mat w i) (Some (own_closure w i l)) else get_mat w j) by (intros j; unfold w1; rewrite get_mat_set, (proj2 (Nat.ltb_lt _ _) Hlt), andb_true_r; reflexivity).
    assert (OC : forall j l', own_closure w1 j l' = own_closure w j l') by (intros j l'; apply edited_closure; [apply C|]; rewrite GM; destruct (Nat.eqb_spec j i) as [->|_]; reflexivity).
    destruct (IH w1 w' S1) as (G1 & G2 & G3 & G4 & G5); [intros j Hj; exact (H j (or_intror Hj))|exact E|].
    assert (HA : forall j, armed w j \/ j = i -> armed w1 j).
    { intros j [(l' & Hl' & Hj & Ej)| ->]; [exists l'|exists l]; (split; [assumption|]); (split; [assumption|]); rewrite OC, GM; [|rewrite Nat.eqb_refl; reflexivity]. destruct (Nat.eqb_spec j i) as [->|_]; [|exact Ej].
      destruct (wf_placed _ (so_wf _ S) l' i Hl' Hj) as (_ & e2 & _). assert (l' = l) by congruence. subst l'. reflexivity. }
    split; [exact G1|]. split; [rewrite G2; apply strip_mat|]. split; [rewrite G3; reflexivity|]. split; [intros j Hj; apply G4, HA; left; exact Hj|]. intros j [<-|Hj]; [apply G4, HA; right; reflexivity|apply G5; exact Hj].
Qed.
Lemma assign_lbdas_sound ls : forall w w', sound w -> (forall l, In l ls -> (l < List.length (layers w))%nat) -> foldM assign_lbda ls w = Ok w' ->
  sound w' /\ strip w' = strip w /\ (forall i, armed w i -> armed w' i) /\ (forall l, larmed w l -> larmed w' l) /\ forall l, In l ls -> larmed w' l.
Proof.
  induction ls as [|l ls IH]; intros w w' S H E; cbn [foldM] in E.
  - injection E as <-. split; [exact S|]. repeat (split; [solve [auto]|]). contradiction.
  - apply bind_ok in E. destruct E as (w1 & E1 & E). pose proof (H l (or_introl eq_refl)) as Hl. unfold assign_lbda in E1. destruct (get_update_fct_ok w l (so_plain _ S) Hl) as (f & Ef & Hf). rewrite Ef, bindE in E1. injection E1 as <-.
    set (w1 := set_lay w l _) in *. assert (C : changed w w1) by (apply changed_lbda; [exact S|exact Hl|exact (plain_disp _ (so_plain _ S) l Hl)|reflexivity|right; exists f; auto]). pose proof (sound_changed _ _ S C) as S1.
    assert (GL : forall j, get_lay w1 j = if Nat.eqb j l then with_lbda (get_lay w l) (with_lsfct (lbda (get_lay w l)) (Some f)) else get_lay w j) by (intros j; unfold w1; rewrite get_lay_set, (proj2 (Nat.ltb_lt _ _) Hl), andb_true_r; reflexivity).
    assert (LL : List.length (layers w1) = List.length (layers w)) by (unfold w1, set_lay, set_layers; cbn [layers]; apply upd_length).
    assert (OC : forall j l', own_closure w1 j l' = own_closure w j l') by (intros j l'; apply edited_closure; [apply C|reflexivity]).
    assert (EF : forall k, factors (get_lay w1 k) = factors (get_lay w k)) by (intros k; apply (ch_edited _ _ C)). assert (EM : forall k, model (get_lay w1 k) = model (get_lay w k)) by (intros k; apply (ch_edited _ _ C)).
    destruct (IH w1 w' S1) as (G1 & G2 & G3 & G4 & G5); [intros j Hj; rewrite LL; apply H; right; exact Hj|exact E|].
    assert (HA : forall j, armed w j -> armed w1 j) by (intros j (l' & Hl' & Hj & Ej); exists l'; rewrite LL, EF, OC; auto).
    assert (HL : forall j, larmed w j \/ j = l -> larmed w1 j).
    { intros j [(Hj & g & Eg & Dg)| ->]; (split; [rewrite LL; assumption|]); rewrite GL; unfold disp_closure in *; rewrite EF, EM; [|rewrite Nat.eqb_refl; exists f; auto]. destruct (Nat.eqb_spec j l) as [->|_]; [exists f|exists g]; auto. }
    split; [exact G1|]. split; [rewrite G2; apply strip_lay|]. split; [intros j Hj; apply G3, HA, Hj|]. split; [intros j Hj; apply G4, HL; left; exact Hj|]. intros j [<-|Hj]; [apply G4, HL; right; reflexivity|apply G5; exact Hj].
Qed.
Lemma prepare_sound s ms ls s1 : sound (wd s) -> prepare s = Ok (ms, ls, s1) -> sound (wd s1) /\ strip (wd s1) = strip (wd s) /\ (forall i, In i ms -> armed (wd s1) i) /\ (forall l, In l ls -> larmed (wd s1) l) /\
  (forall i, In i ms -> is_factor (wd s) i /\ fixed (get_mat (wd s) i) = FBool false) /\ (forall l, In l ls -> (l < List.length (layers (wd s)))%nat /\ lfixed (lbda (get_lay (wd s) l)) = false) /\
  (forall i, is_factor (wd s) i -> fixed (get_mat (wd s) i) = FBool false -> In i ms).
Proof.
  intros S E. apply prepare_wd in E. destruct E as (w1 & w2 & E0 & -> & E1 & E2 & ->). destruct (not_fixed_spec _ _ _ E0) as (_ & N1 & N2). destruct (free_lbdas_spec (wd s)) as (_ & HL).
  assert (HM : forall i, In i ms -> is_factor (wd s) i /\ fixed (get_mat (wd s) i) = FBool false).
  { intros i Hi. pose proof (proj1 (N2 i (N1 i Hi)) Hi) as Hn. pose proof (N1 i Hi) as Hm. apply members_spec in Hm. destruct Hm as [(l & Hl & Hf)|[Hf|(l & Hl & Em & _)]].
    - split; [exists l; auto|]. destruct (plain_factor _ (so_plain _ S) l i Hl Hf) as (_ & _ & (b & Eb) & _). rewrite Eb in *. destruct b; [|reflexivity]. exfalso. apply Hn. left. reflexivity.
    - exfalso. apply Hn. left. apply (plain_data _ (so_plain _ S) i Hf).
    - exfalso. pose proof (plain_model _ (so_plain _ S) l Hl) as G. rewrite Em in G. cbn in G. repeat (destruct G as [G|G]; [discriminate|]). exact G. }
  destruct (assign_mats_sound ms _ _ S (fun i Hi => proj1 (HM i Hi)) E1) as (S1 & T1 & L1 & _ & M1).
  destruct (assign_lbdas_sound _ _ _ S1 (fun l Hl => eq_ind_r (fun y => (l < List.length y)%nat) (proj1 (proj1 (HL l) Hl)) L1) E2) as (S2 & T2 & M2 & _ & L2).
  split; [exact S2|]. split; [rewrite T2; exact T1|]. split; [intros i Hi; apply M2, M1, Hi|]. split; [exact L2|]. split; [exact HM|]. split; [intros l Hl; apply HL, Hl|].
  intros i Hf Hx. assert (Hm : In i (members (wd s))) by (apply members_spec; left; exact Hf). apply (N2 i Hm). rewrite Hx. intros [G|(a & x & G & _)]; discriminate.
Qed.

(** ** Runs *)
Lemma armed_same w w' i : mats w' = mats w -> layers w' = layers w -> armed w i -> armed w' i.
Proof.
  intros Em El (l & Hl & Hi & Es). exists l. unfold own_closure, transpose_order, siblings, axis_of, get_lay, get_mat in *. rewrite Em, El. auto.
Qed.
Lemma larmed_same w w' l : layers w' = layers w -> larmed w l -> larmed w' l.
Proof. intros El H. unfold larmed, disp_closure, get_lay in *. rewrite El. exact H. Qed.
Lemma run_ordinary outs fuel o cfg n s s' : outputs outs -> random o -> sound (wd s) -> infer fuel o cfg n s = Some (Ok s') -> sound (wd s') /\
  exists w1 evs, strip w1 = strip (wd s) /\ log s' = log s ++ evs /\ explained outs o evs w1 (wd s') /\
    (forall i, In (EMat i) evs -> is_factor (wd s) i /\ fixed (get_mat (wd s) i) = FBool false) /\ (forall l v, In (ELbda l v) evs -> (l < List.length (layers (wd s)))%nat /\ lfixed (lbda (get_lay (wd s) l)) = false) /\
    (forall l v, In (EAnneal l v) evs -> (l < List.length (layers (wd s)))%nat /\ lfixed (lbda (get_lay (wd s) l)) = false /\ anneal (wd s) = true) /\
    (forall i, is_factor (wd s) i -> fixed (get_mat (wd s) i) = FBool false -> sfct (get_mat (wd s') i) <> None).
Proof.
  intros Houts Hr S E. destruct (prepare s) as [[[ms ls] s1]|] eqn:EP; [|unfold infer in E; rewrite EP in E; discriminate]. destruct (prepare_sound _ _ _ _ S EP) as (S1 & T1 & A1 & L1 & HM & HL & HI).
  pose (K := fun (e : list event) (w : world) => sound w /\ (forall i, In i ms -> armed w i) /\ (forall l, In l ls -> larmed w l) /\ explained outs o e (wd s1) w /\ (forall i, In (EMat i) e -> In i ms) /\ (forall l v, In (ELbda l v) e -> In l ls) /\ (forall l v, In (EAnneal l v) e -> In l ls /\ anneal (wd s) = true) /\ anneal w = anneal (wd s)).
  destruct (infer_log fuel o cfg n s s' ms ls s1 K (proj1 Hr) E EP) as (evs & E1 & (K1 & K2 & _ & K4 & K5 & K6 & K7 & K8)).
  - intros e w (K1 & K2 & K3 & K4 & K5 & K6 & K7 & K8). split; [apply sound_tick; exact K1|]. split; [intros i Hi; apply (armed_same w); auto|]. split; [intros l Hl; apply (larmed_same w); auto|]. split; [apply ex_sweep; exact K4|].
    split; [intros i Hi|split; [intros l v Hi|split; [intros l v Hi|exact K8]]]; apply in_app_or in Hi; destruct Hi as [Hi|[Hi|[]]]; try discriminate; eauto.
  - intros e w i w' (K1 & K2 & K3 & K4 & K5 & K6 & K7 & K8) Hi Er. destruct (K2 i Hi) as (l & Hl & Hf & Es). destruct (gibbs_step outs Houts o (proj2 Hr) w K1 l i w' Hl Hf Es Er) as (G1 & G2 & G3 & G4).
    split; [exact G2|]. split; [intros j Hj; apply (armed_same w); auto|]. split; [intros k Hk; apply (larmed_same w); auto|]. split; [eapply ex_matrix; eassumption|].
    split; [intros j Hj|split; [intros k v Hj|split; [intros k v Hj|destruct (run_mat_static _ _ _ _ Er) as (_ & _ & _ & _ & _ & ->); exact K8]]]; apply in_app_or in Hj; destruct Hj as [Hj|[Hj|[]]]; try discriminate; eauto. injection Hj as <-. exact Hi.
  - intros e w l w' (K1 & K2 & K3 & K4 & K5 & K6 & K7 & K8) Hi Er. destruct (K3 l Hi) as (Hl & f & Ef & Df). destruct (dispersion_step outs w l f w' Houts K1 Hl Ef Df Er) as (G1 & G2 & G3 & G4).
    assert (HC : changed w w') by (destruct G1 as (x & Ev & Ew & _); rewrite Ev in Ew; rewrite Ew; apply changed_lbda; [exact K1|exact Hl|exists x; reflexivity|reflexivity|right; exists f; auto]).
    pose proof (ch_edited _ _ HC) as ED. assert (EF : forall k, factors (get_lay w' k) = factors (get_lay w k)) by (intros k; apply ED). assert (EM : forall k, model (get_lay w' k) = model (get_lay w k)) by (intros k; apply ED). assert (LL : List.length (layers w') = List.length (layers w)) by apply ED.
    assert (OC : forall j l', own_closure w' j l' = own_closure w j l') by (intros j l'; apply edited_closure; [exact ED|unfold get_mat; rewrite G3; reflexivity]).
    split; [exact G2|]. split; [|split; [|split; [eapply ex_dispersion; eassumption|]]].
    + intros j Hj. destruct (K2 j Hj) as (k & Hk & Hf & Es). exists k. rewrite LL, EF, OC. unfold get_mat in *. rewrite G3. auto.
    + intros k Hk. destruct (K3 k Hk) as (H1 & g & H2 & H3). split; [rewrite LL; exact H1|]. exists g. rewrite G4. split; [exact H2|]. unfold disp_closure in *. rewrite EF, EM. exact H3.
    + split; [intros j Hj|split; [intros k v Hj|split; [intros k v Hj|destruct (run_lbda_static _ _ _ Er) as (_ & _ & _ & _ & _ & ->); exact K8]]]; apply in_app_or in Hj; destruct Hj as [Hj|[Hj|[]]]; try discriminate; eauto. injection Hj as <- _. exact Hi.
  - intros e w l win (K1 & K2 & K3 & K4 & K5 & K6 & K7 & K8). split; [exact K1|]. split; [exact K2|]. split; [exact K3|]. split; [apply ex_check; exact K4|].
    split; [intros j Hj|split; [intros k v Hj|split; [intros k v Hj|exact K8]]]; apply in_app_or in Hj; destruct Hj as [Hj|[Hj|[]]]; try discriminate; eauto.
  - intros e w l x (K1 & K2 & K3 & K4 & K5 & K6 & K7 & K8) Hi Ha. destruct (K3 l Hi) as (Hl & f & Ef & Df). set (w' := assign_disp w l (LS x)).
    assert (HC : changed w w') by (apply changed_lbda; [exact K1|exact Hl|exists x; reflexivity|reflexivity|right; exists f; auto]).
    assert (G4 : forall k, lsfct (lbda (get_lay w' k)) = lsfct (lbda (get_lay w k))) by (intros k; unfold w', assign_disp; rewrite get_lay_set; destruct (Nat.eqb_spec k l) as [->|]; cbn [andb]; [destruct (Nat.ltb _ _)|]; reflexivity).
    pose proof (ch_edited _ _ HC) as ED. assert (EF : forall k, factors (get_lay w' k) = factors (get_lay w k)) by (intros k; apply ED). assert (EM : forall k, model (get_lay w' k) = model (get_lay w k)) by (intros k; apply ED). assert (LL : List.length (layers w') = List.length (layers w)) by apply ED.
    assert (OC : forall j l', own_closure w' j l' = own_closure w j l') by (intros j l'; apply edited_closure; [exact ED|reflexivity]).
    split; [apply (sound_changed _ _ K1 HC)|]. split; [|split; [|split; [apply ex_anneal; exact K4|]]].
    + intros j Hj. destruct (K2 j Hj) as (k & Hk & Hf & Es). exists k. rewrite LL, EF, OC. auto.
    + intros k Hk. destruct (K3 k Hk) as (H1 & g & H2 & H3). split; [rewrite LL; exact H1|]. exists g. rewrite G4. split; [exact H2|]. unfold disp_closure in *. rewrite EF, EM. exact H3.
    + split; [intros j Hj|split; [intros k v Hj|split; [intros k v Hj|exact K8]]]; apply in_app_or in Hj; destruct Hj as [Hj|[Hj|[]]]; try discriminate; eauto. injection Hj as <- _. split; [exact Hi|congruence].
  - intros e w l (K1 & _) Hl. apply (plain_flags _ (so_plain _ K1) l Hl).
  - split; [exact S1|]. split; [exact A1|]. split; [exact L1|]. split; [apply ex_none|]. split; [intros i []|]. split; [intros l v []|]. split; [intros l v []|]. apply (f_equal anneal) in T1. exact T1.
  - split; [exact K1|]. exists (wd s1), evs. split; [exact T1|]. split; [exact E1|]. split; [exact K4|]. split; [intros i Hi; apply HM, K5, Hi|]. split; [intros l v Hi; apply HL, (K6 l v), Hi|]. split; [intros l v Hi; destruct (K7 l v Hi) as (G1 & G2); destruct (HL l G1); auto|].
    intros i Hf Hx. destruct (K2 i (HI i Hf Hx)) as (l & _ & _ & ->). discriminate.
Qed.

