(** Inference on standard machines succeeds. *)
From Coq Require Import String Permutation.
From Verif Require Import Base BaseR BaseLemmas SpecR Outputs Fuzzy Scores Sampling Lambda Clean Machine Dispatch Inference SpecMachine MachineProofs BuiltProofs InferenceProofs InferenceProofs2 InferenceProofs3 InferenceProofs4 InferenceProofs5 InferenceProofs6 InferenceProofs7 TraceProofs ProgressProofs.
Local Open Scope R_scope.

Local Open Scope nat_scope.
(** The closure a factor has received from an earlier run, if any: that of its present model and family. *)
Definition factor_closure (w : world) (i l : nat) (f : fct) : Prop :=
  exists p, let m := model (get_lay w l) in let order := transpose_order w i in
  f = match parents (get_mat w i) with
      | [] => if Nat.eqb (List.length (factors (get_lay w l))) 2 then FLom m order p else FLom3 m order p
      | [a] => F11 m (model (get_lay w a)) order p
      | a :: b :: _ => F12 m (model (get_lay w a)) (model (get_lay w b)) order p
      end.
Definition disp_closure (w : world) (l : nat) (f : lfct) : Prop :=
  f = if Nat.eqb (List.length (factors (get_lay w l))) 2 then Lf2 (model (get_lay w l)) else Lf3 (model (get_lay w l)).
(** Layers of the eight standard models for matrices or three-axis arrays, with fixed data and scalar dispersions,
    possibly stacked (a factor of a two-factor layer may be the child of further two-factor layers), not flagged for
    clean-up. *)
Record plain (w : world) : Prop := {
  plain_model : forall l, l < List.length (layers w) -> In (model (get_lay w l)) standard_models;
  plain_disp : forall l, l < List.length (layers w) -> exists x, disp w l = LS x;
  plain_flags : forall l, l < List.length (layers w) -> auto_clean (get_lay w l) = false /\ auto_reset (get_lay w l) = false;
  plain_axes : forall l, l < List.length (layers w) -> map (fun i => axis (get_mat w i)) (factors (get_lay w l)) = map Some (seq 0 (List.length (factors (get_lay w l))));
  plain_child : forall l, l < List.length (layers w) ->
    (List.length (factors (get_lay w l)) = 2 /\ matrix2 (value w (child (get_lay w l)))) \/
    (List.length (factors (get_lay w l)) = 3 /\ tensor3 (value w (child (get_lay w l))));
  plain_factor : forall l i, l < List.length (layers w) -> In i (factors (get_lay w l)) ->
    matrix2 (value w i) /\ matrix2 (fixed_entries (get_mat w i)) /\ (exists b, fixed (get_mat w i) = FBool b) /\
    (forall p, In p (parents (get_mat w i)) -> p < List.length (layers w) /\ List.length (factors (get_lay w p)) = 2) /\
    (parents (get_mat w i) <> [] -> List.length (factors (get_lay w l)) = 2) /\
    (sfct (get_mat w i) = None \/ exists f, sfct (get_mat w i) = Some f /\ factor_closure w i l f);
  plain_lbda : forall l, l < List.length (layers w) -> lsfct (lbda (get_lay w l)) = None \/ exists f, lsfct (lbda (get_lay w l)) = Some f /\ disp_closure w l f;
  plain_data : forall i, In i (free w) -> fixed (get_mat w i) = FBool true }.
Local Close Scope nat_scope.

(** What is needed of plain and built machines: positions and layers of factors. *)
Definition placed (w : world) : Prop := forall l i, (l < List.length (layers w))%nat -> In i (factors (get_lay w l)) ->
  (i < List.length (mats w))%nat /\ layer_of (get_mat w i) = Some l /\ NoDup (factors (get_lay w l)).
Lemma NoDup_app_l {A} (a b : list A) : NoDup (a ++ b) -> NoDup a.
Proof.
  induction a as [|x a IH]; cbn; intros H; [constructor|]. inversion H as [|? ? H1 H2]; subst. constructor; [|apply IH; exact H2]. intros G. apply H1, in_or_app. left. exact G.
Qed.
Lemma NoDup_app_r {A} (a b : list A) : NoDup (a ++ b) -> NoDup b.
Proof. induction a as [|x a IH]; cbn; intros H; [exact H|]. apply IH. inversion H; assumption. Qed.
Lemma NoDup_flat_part {A B} (f : A -> list B) l a : NoDup (flat_map f l) -> In a l -> NoDup (f a).
Proof.
  induction l as [|b l IH]; intros H Ha; [contradiction|]. cbn in H. destruct Ha as [->|Ha]; [apply NoDup_app_l in H; exact H|]. apply IH; [apply NoDup_app_r in H; exact H|exact Ha].
Qed.
Lemma wf_placed w : wf w -> placed w.
Proof.
  intros H l i Hl Hi. split; [|split].
  - pose proof (wf_ids _ H) as G. rewrite Forall_forall in G. apply G. apply members_spec. left. exists l. auto.
  - apply (wf_layer _ H); assumption.
  - pose proof (wf_nodup _ H) as G. unfold members in G. apply NoDup_app_l in G. apply (NoDup_flat_part factors (layers w)); [exact G|]. apply nth_In. exact Hl.
Qed.

(** Known names *)
Lemma standard_known m : In m standard_models ->
  (exists f, get_posterior_score_fct_2d (model_tag m "2") = Ok f) /\ (exists f, get_posterior_score_fct_3d (model_tag m "3") = Ok f) /\
  (exists f, get_parent_score_fct_2d (model_tag m "2") = Ok f) /\ (exists f, make_correct_predictions_counter_2d m = Ok f) /\ (exists f, make_correct_predictions_counter_3d m = Ok f) /\
  String.eqb m "MAX-AND" = false /\ String.eqb m "qL-AND" = false /\ String.eqb m "OR-AND-IBP" = false.
Proof.
  unfold standard_models. intros H. repeat (destruct H as [<-|H]; [repeat split; eexists; reflexivity|]). contradiction.
Qed.

Definition is2 (a : arr) : bool := match a with A2 _ => true | A3 _ => false end.
Lemma is2_matrix a : matrix2 a <-> is2 a = true.
Proof. split; [intros (m & ->); reflexivity|]. destruct a as [m|]; [exists m; reflexivity|discriminate]. Qed.
Lemma is2_tensor a : tensor3 a <-> is2 a = false.
Proof. split; [intros (m & ->); reflexivity|]. destruct a as [m|t]; [discriminate|exists t; reflexivity]. Qed.

(** Two worlds with the same structure, kinds of values and closures. *)
Record alike (w w' : world) : Prop := {
  al_mats : List.length (mats w') = List.length (mats w);
  al_mat : forall i, axis (get_mat w' i) = axis (get_mat w i) /\ fixed (get_mat w' i) = fixed (get_mat w i) /\ is2 (fixed_entries (get_mat w' i)) = is2 (fixed_entries (get_mat w i)) /\
     layer_of (get_mat w' i) = layer_of (get_mat w i) /\ parents (get_mat w' i) = parents (get_mat w i) /\ is2 (value w' i) = is2 (value w i);
  al_lays : List.length (layers w') = List.length (layers w);
  al_lay : forall l, factors (get_lay w' l) = factors (get_lay w l) /\ child (get_lay w' l) = child (get_lay w l) /\ model (get_lay w' l) = model (get_lay w l) /\
     auto_clean (get_lay w' l) = auto_clean (get_lay w l) /\ auto_reset (get_lay w' l) = auto_reset (get_lay w l);
  al_disp : forall l, (exists x, disp w l = LS x) -> exists x, disp w' l = LS x;
  al_free : free w' = free w;
  al_anneal : anneal w' = anneal w }.
Lemma alike_siblings w w' i : alike w w' -> siblings w' i = siblings w i.
Proof.
  intros H. unfold siblings. destruct (al_mat _ _ H i) as (_ & _ & _ & -> & _). destruct (layer_of (get_mat w i)) as [l|]; [|reflexivity]. destruct (al_lay _ _ H l) as (-> & _). reflexivity.
Qed.
Lemma alike_order w w' i : alike w w' -> transpose_order w' i = transpose_order w i.
Proof.
  intros H. unfold transpose_order. assert (E : forall j, axis_of w' j = axis_of w j) by (intros j; unfold axis_of; destruct (al_mat _ _ H j) as (-> & _); reflexivity).
  rewrite (alike_siblings _ _ _ H), E. f_equal. apply map_ext. exact E.
Qed.
Lemma alike_closure w w' i l f : alike w w' -> factor_closure w i l f -> factor_closure w' i l f.
Proof.
  intros H (p & E). exists p. cbv zeta in *. destruct (al_mat _ _ H i) as (_ & _ & _ & _ & -> & _). destruct (al_lay _ _ H l) as (-> & _ & -> & _). rewrite (alike_order _ _ _ H).
  destruct (parents (get_mat w i)) as [|a [|b t]]; try exact E.
  - destruct (al_lay _ _ H a) as (_ & _ & -> & _). exact E.
  - destruct (al_lay _ _ H a) as (_ & _ & -> & _). destruct (al_lay _ _ H b) as (_ & _ & -> & _). exact E.
Qed.
Lemma alike_placed w w' : alike w w' -> placed w -> placed w'.
Proof.
  intros H P l i. rewrite (al_lays _ _ H), (al_mats _ _ H). destruct (al_lay _ _ H l) as (-> & _). destruct (al_mat _ _ H i) as (_ & _ & _ & -> & _). apply P.
Qed.
Lemma plain_alike w w' : alike w w' -> plain w ->
  (forall l i, (l < List.length (layers w))%nat -> In i (factors (get_lay w l)) -> sfct (get_mat w' i) = sfct (get_mat w i) \/ exists f, sfct (get_mat w' i) = Some f /\ factor_closure w i l f) ->
  (forall l, (l < List.length (layers w))%nat -> lsfct (lbda (get_lay w' l)) = lsfct (lbda (get_lay w l)) \/ exists f, lsfct (lbda (get_lay w' l)) = Some f /\ disp_closure w l f) ->
  plain w'.
Proof.
  intros H P HS HLs. constructor.
  - intros l. rewrite (al_lays _ _ H). destruct (al_lay _ _ H l) as (_ & _ & -> & _). apply P.
  - intros l. rewrite (al_lays _ _ H). intros Hl. apply (al_disp _ _ H), (plain_disp _ P l Hl).
  - intros l. rewrite (al_lays _ _ H). destruct (al_lay _ _ H l) as (_ & _ & _ & -> & ->). apply P.
  - intros l. rewrite (al_lays _ _ H). destruct (al_lay _ _ H l) as (-> & _). intros Hl. rewrite <- (plain_axes _ P l Hl). apply map_ext. intros i. apply (al_mat _ _ H i).
  - intros l. rewrite (al_lays _ _ H). destruct (al_lay _ _ H l) as (-> & -> & _). rewrite !is2_matrix, !is2_tensor. destruct (al_mat _ _ H (child (get_lay w l))) as (_ & _ & _ & _ & _ & ->).
    rewrite <- !is2_matrix, <- !is2_tensor. apply P.
  - intros l i. rewrite (al_lays _ _ H). destruct (al_lay _ _ H l) as (-> & _). destruct (al_mat _ _ H i) as (_ & -> & E3 & _ & -> & E6). rewrite !is2_matrix, E3, E6, <- !is2_matrix.
    intros Hl Hi. destruct (plain_factor _ P l i Hl Hi) as (A1 & A2 & A3 & A4 & A5 & A6). repeat (split; [assumption|]). split; [|split; [exact A5|]].
    + intros p Hp. destruct (al_lay _ _ H p) as (-> & _). apply A4, Hp.
    + destruct (HS l i Hl Hi) as [->|(f & Ef & Hf)].
      * destruct A6 as [A6|(f & Ef & Hf)]; [left; exact A6|]. right. exists f. split; [exact Ef|]. eapply alike_closure; eassumption.
      * right. exists f. split; [exact Ef|]. eapply alike_closure; eassumption.
  - intros l. rewrite (al_lays _ _ H). intros Hl. unfold disp_closure. destruct (al_lay _ _ H l) as (-> & _ & -> & _). destruct (HLs l Hl) as [->|G]; [apply (plain_lbda _ P l Hl)|]. right. exact G.
  - intros i. rewrite (al_free _ _ H). destruct (al_mat _ _ H i) as (_ & -> & _). apply P.
Qed.

(** Families of factors *)
Lemma axes2 w f g : map (fun i => axis (get_mat w i)) [f; g] = map Some (seq 0 2) -> axis (get_mat w f) = Some 0%nat /\ axis (get_mat w g) = Some 1%nat.
Proof. cbn. intros H. injection H as H1 H2. auto. Qed.
Lemma family2 w l i : plain w -> placed w -> (l < List.length (layers w))%nat -> In i (factors (get_lay w l)) -> List.length (factors (get_lay w l)) = 2%nat ->
  exists j ax, siblings w i = [j] /\ In j (factors (get_lay w l)) /\ axis2 (transpose_order w i) = Ok ax.
Proof.
  intros P PL Hl Hi Hn. pose proof (plain_axes _ P l Hl) as HA. destruct (PL l i Hl Hi) as (_ & EL & ND). unfold transpose_order, siblings. rewrite EL.
  destruct (factors (get_lay w l)) as [|f [|g [|h t]]]; try discriminate. cbn in HA. injection HA as A0 A1. inversion ND as [|? ? N1 _]; subst. cbn [In] in N1.
  assert (Hfg : f <> g) by (intros ->; tauto). destruct Hi as [<-|[<-|[]]]; cbn [filter].
  - rewrite Nat.eqb_refl, (proj2 (Nat.eqb_neq g f)) by auto. cbn [negb]. exists g, 0%nat. split; [reflexivity|]. split; [cbn; auto|]. cbn. unfold axis_of. rewrite A0, A1. reflexivity.
  - rewrite Nat.eqb_refl, (proj2 (Nat.eqb_neq f g)) by auto. cbn [negb]. exists f, 1%nat. split; [reflexivity|]. split; [cbn; auto|]. cbn. unfold axis_of. rewrite A0, A1. reflexivity.
Qed.
Lemma family3 w l i : plain w -> placed w -> (l < List.length (layers w))%nat -> In i (factors (get_lay w l)) -> List.length (factors (get_lay w l)) = 3%nat ->
  exists j k ax, siblings w i = [j; k] /\ In j (factors (get_lay w l)) /\ In k (factors (get_lay w l)) /\ axis3 (transpose_order w i) = Ok ax.
Proof.
  intros P PL Hl Hi Hn. pose proof (plain_axes _ P l Hl) as HA. destruct (PL l i Hl Hi) as (_ & EL & ND). unfold transpose_order, siblings. rewrite EL.
  destruct (factors (get_lay w l)) as [|f [|g [|h [|? t]]]]; try discriminate. cbn in HA. injection HA as A0 A1 A2. inversion ND as [|? ? N1 ND1]; subst. inversion ND1 as [|? ? N2 _]; subst. cbn [In] in N1, N2.
  assert (Hfg : f <> g) by (intros ->; tauto). assert (Hfh : f <> h) by (intros ->; tauto). assert (Hgh : g <> h) by (intros ->; tauto). destruct Hi as [<-|[<-|[<-|[]]]]; cbn [filter];
  rewrite Nat.eqb_refl, ?(proj2 (Nat.eqb_neq g f)), ?(proj2 (Nat.eqb_neq f g)), ?(proj2 (Nat.eqb_neq h f)), ?(proj2 (Nat.eqb_neq f h)), ?(proj2 (Nat.eqb_neq h g)), ?(proj2 (Nat.eqb_neq g h)) by auto; cbn [negb].
  - exists g, h, 0%nat. split; [reflexivity|]. split; [cbn; auto|]. split; [cbn; auto|]. cbn. unfold axis_of. rewrite A0, A1, A2. reflexivity.
  - exists f, h, 1%nat. split; [reflexivity|]. split; [cbn; auto|]. split; [cbn; auto|]. cbn. unfold axis_of. rewrite A0, A1, A2. reflexivity.
  - exists f, g, 2%nat. split; [reflexivity|]. split; [cbn; auto|]. split; [cbn; auto|]. cbn. unfold axis_of. rewrite A0, A1, A2. reflexivity.
Qed.

(** Choosing closures *)
Lemma two_ok w p : List.length (factors (get_lay w p)) = 2%nat -> (if Nat.eqb (List.length (factors (get_lay w p))) 2 then Ok tt else Err AssertionError) = Ok tt.
Proof. intros ->. reflexivity. Qed.
Lemma get_sampling_fct_ok w l i : plain w -> placed w -> (l < List.length (layers w))%nat -> In i (factors (get_lay w l)) -> exists f, get_sampling_fct w i = Ok (w, f) /\ factor_closure w i l f.
Proof.
  intros P PL Hl Hi. destruct (plain_factor _ P l i Hl Hi) as (_ & _ & _ & A4 & A5 & A6). unfold get_sampling_fct. cbv zeta.
  destruct A6 as [A6|(f & Ef & Hf)]; [|rewrite Ef; exists f; auto]. rewrite A6. destruct (PL l i Hl Hi) as (_ & EL & _).
  destruct (standard_known _ (plain_model _ P l Hl)) as ((k2 & K2) & (k3 & K3) & _ & _ & _ & M1 & M2 & M3).
  assert (E2 : known2 (model (get_lay w l)) = Ok tt) by (unfold known2; rewrite K2; reflexivity). assert (E3 : known3 (model (get_lay w l)) = Ok tt) by (unfold known3; rewrite K3; reflexivity).
  assert (EP : forall p, In p (parents (get_mat w i)) -> knownp (model (get_lay w p)) = Ok tt).
  { intros p Hp. destruct (standard_known _ (plain_model _ P p (proj1 (A4 p Hp)))) as (_ & _ & (kp & KP) & _). unfold knownp. rewrite KP. reflexivity. }
  unfold get_relatives_models, factor_closure. cbv zeta. rewrite EL. destruct (parents (get_mat w i)) as [|a t] eqn:Epar.
  - cbn [bind]. destruct (plain_child _ P l Hl) as [(En & _)|(En & _)]; rewrite En; cbn [Nat.eqb].
    + rewrite M1, M2, M3, E2. cbn [bind]. eexists. split; [reflexivity|]. exists (bprior (get_mat w i)). reflexivity.
    + rewrite E3. cbn [bind]. eexists. split; [reflexivity|]. exists (bprior (get_mat w i)). reflexivity.
  - assert (En : List.length (factors (get_lay w l)) = 2%nat) by (apply A5; discriminate). rewrite En. destruct t as [|b t].
    + rewrite (two_ok w a) by (apply A4; left; reflexivity). cbn [bind]. rewrite M1, M2, M3, E2, (EP a) by (left; reflexivity). cbn [bind]. eexists. split; [reflexivity|]. exists (bprior (get_mat w i)). reflexivity.
    + rewrite (two_ok w a) by (apply A4; left; reflexivity). rewrite (two_ok w b) by (apply A4; right; left; reflexivity). cbn [bind]. rewrite M1, M2, M3, E2, (EP a), (EP b) by (cbn; auto). cbn [bind].
      eexists. split; [reflexivity|]. exists (bprior (get_mat w i)). reflexivity.
Qed.
Lemma sfct_alike w i f : alike w (set_mat w i (with_sfct (get_mat w i) (Some f))).
Proof.
  constructor; try reflexivity.
  - unfold set_mat, set_mats. cbn [mats]. apply upd_length.
  - intros j. unfold value. change (get_arr (set_mat w i ?m)) with (get_arr w). rewrite get_mat_set. destruct (Nat.eqb_spec j i) as [->|]; cbn [andb]; [destruct (Nat.ltb _ _)|]; repeat split.
  - intros l. repeat split.
  - intros l H. exact H.
Qed.
Lemma lsfct_alike w l f : alike w (set_lay w l (with_lbda (get_lay w l) (with_lsfct (lbda (get_lay w l)) (Some f)))).
Proof.
  constructor; try reflexivity.
  - intros i. repeat split.
  - unfold set_lay, set_layers. cbn [layers]. apply upd_length.
  - intros j. rewrite get_lay_set. destruct (Nat.eqb_spec j l) as [->|]; cbn [andb]; [destruct (Nat.ltb _ _)|]; repeat split.
  - intros j. unfold disp. rewrite get_lay_set. destruct (Nat.eqb_spec j l) as [->|]; cbn [andb]; [destruct (Nat.ltb _ _)|]; auto.
Qed.
Lemma alike_refl w : alike w w.
Proof. constructor; auto; intros; repeat split. Qed.
Lemma alike_trans a b c : alike a b -> alike b c -> alike a c.
Proof.
  intros H K. constructor.
  - rewrite (al_mats _ _ K). apply H.
  - intros i. destruct (al_mat _ _ H i) as (h1 & h2 & h3 & h4 & h5 & h6). destruct (al_mat _ _ K i) as (k1 & k2 & k3 & k4 & k5 & k6). repeat split; congruence.
  - rewrite (al_lays _ _ K). apply H.
  - intros l. destruct (al_lay _ _ H l) as (h1 & h2 & h3 & h4 & h5). destruct (al_lay _ _ K l) as (k1 & k2 & k3 & k4 & k5). repeat split; congruence.
  - intros l E. apply (al_disp _ _ K), (al_disp _ _ H), E.
  - rewrite (al_free _ _ K). apply H.
  - rewrite (al_anneal _ _ K). apply H.
Qed.
Lemma assign_disp_alike w l x : alike w (assign_disp w l (LS x)).
Proof.
  unfold assign_disp. constructor; try reflexivity.
  - intros i. repeat split.
  - unfold set_lay, set_layers. cbn [layers]. apply upd_length.
  - intros j. rewrite get_lay_set. destruct (Nat.eqb_spec j l) as [->|]; cbn [andb]; [destruct (Nat.ltb _ _)|]; repeat split.
  - intros j. unfold disp. rewrite get_lay_set. destruct (_ && _); [|auto]. intros _. exists x. reflexivity.
Qed.
Definition has_layer (w : world) (i : nat) : Prop := exists l, (l < List.length (layers w))%nat /\ In i (factors (get_lay w l)).
Lemma assign_mats_ok ms : forall w, plain w -> placed w -> (forall i, In i ms -> has_layer w i) ->
  exists w', foldM assign_mat ms w = Ok w' /\ plain w' /\ alike w w' /\ layers w' = layers w /\ (forall i, sfct (get_mat w i) <> None -> sfct (get_mat w' i) <> None) /\ (forall i, In i ms -> sfct (get_mat w' i) <> None).
Proof.
  induction ms as [|i ms IH]; intros w P PL H; cbn [foldM].
  - exists w. repeat (split; [first [reflexivity|assumption|apply alike_refl]|]). split; [auto|contradiction].
  - destruct (H i) as (l & Hl & Hi); [left; reflexivity|]. destruct (get_sampling_fct_ok w l i P PL Hl Hi) as (f & Ef & Hf). unfold assign_mat at 1. rewrite Ef. cbn [bind].
    set (w1 := set_mat w i (with_sfct (get_mat w i) (Some f))). assert (A1 : alike w w1) by apply sfct_alike.
    assert (S1 : forall j, sfct (get_mat w1 j) = if Nat.eqb j i then Some f else sfct (get_mat w j)).
    { intros j. unfold w1. rewrite get_mat_set. destruct (PL l i Hl Hi) as (Hlt & _). rewrite (proj2 (Nat.ltb_lt _ _) Hlt), andb_true_r. destruct (Nat.eqb_spec j i) as [->|]; reflexivity. }
    assert (P1 : plain w1).
    { apply (plain_alike _ _ A1 P); [|left; reflexivity]. intros l' j Hl' Hj. rewrite S1. destruct (Nat.eqb_spec j i) as [->|]; [|left; reflexivity]. right. exists f. split; [reflexivity|].
      destruct (PL l i Hl Hi) as (_ & e1 & _). destruct (PL l' i Hl' Hj) as (_ & e2 & _). assert (l' = l) by congruence. subst l'. exact Hf. }
    destruct (IH w1 P1 (alike_placed _ _ A1 PL)) as (w' & E & P' & A' & L' & G1 & G2).
    { intros j Hj. apply (H j (or_intror Hj)). }
    exists w'. split; [exact E|]. split; [exact P'|]. split; [eapply alike_trans; eassumption|]. split; [rewrite L'; reflexivity|]. split.
    + intros j Hj. apply G1. rewrite S1. destruct (Nat.eqb j i); [discriminate|exact Hj].
    + intros j [<-|Hj]; [|apply G2; exact Hj]. apply G1. rewrite S1, Nat.eqb_refl. discriminate.
Qed.
Lemma get_update_fct_ok w l : plain w -> (l < List.length (layers w))%nat -> exists f, get_update_fct w l = Ok f /\ disp_closure w l f.
Proof.
  intros P Hl. unfold get_update_fct. cbv zeta. destruct (plain_lbda _ P l Hl) as [->|(f & -> & Hf)]; [|exists f; auto].
  destruct (standard_known _ (plain_model _ P l Hl)) as (_ & _ & _ & (c2 & C2) & (c3 & C3) & M1 & M2 & _). rewrite M1, M2. unfold disp_closure.
  destruct (plain_child _ P l Hl) as [(En & _)|(En & _)]; rewrite En; cbn [Nat.eqb]; rewrite ?C2, ?C3; cbn [bind]; eexists; split; reflexivity.
Qed.
Lemma assign_lbdas_disp ls : forall w w', foldM assign_lbda ls w = Ok w' -> forall j, disp w' j = disp w j.
Proof.
  induction ls as [|l ls IH]; intros w w' E j; cbn [foldM] in E; [injection E as <-; reflexivity|]. apply bind_ok in E. destruct E as (w1 & E1 & E). rewrite (IH _ _ E j). unfold assign_lbda in E1. apply bind_ok in E1. destruct E1 as (f & _ & E1). injection E1 as <-.
  unfold disp. rewrite get_lay_set. destruct (Nat.eqb_spec j l) as [->|]; cbn [andb]; [destruct (Nat.ltb _ _)|]; reflexivity.
Qed.
Lemma assign_lbdas_ok ls : forall w, plain w -> (forall l, In l ls -> (l < List.length (layers w))%nat) ->
  exists w', foldM assign_lbda ls w = Ok w' /\ plain w' /\ alike w w' /\ mats w' = mats w /\ (forall l, lsfct (lbda (get_lay w l)) <> None -> lsfct (lbda (get_lay w' l)) <> None) /\ (forall l, In l ls -> lsfct (lbda (get_lay w' l)) <> None).
Proof.
  induction ls as [|l ls IH]; intros w P H; cbn [foldM].
  - exists w. repeat (split; [first [reflexivity|assumption|apply alike_refl]|]). split; [auto|contradiction].
  - assert (Hl : (l < List.length (layers w))%nat) by (apply H; left; reflexivity). destruct (get_update_fct_ok w l P Hl) as (f & Ef & Hf). unfold assign_lbda at 1. rewrite Ef. cbn [bind].
    set (w1 := set_lay w l _). assert (A1 : alike w w1) by apply lsfct_alike.
    assert (S1 : forall j, lsfct (lbda (get_lay w1 j)) = if Nat.eqb j l then Some f else lsfct (lbda (get_lay w j))).
    { intros j. unfold w1. rewrite get_lay_set, (proj2 (Nat.ltb_lt _ _) Hl), andb_true_r. destruct (Nat.eqb_spec j l) as [->|]; reflexivity. }
    assert (P1 : plain w1).
    { apply (plain_alike _ _ A1 P); [left; reflexivity|]. intros j Hj. rewrite S1. destruct (Nat.eqb_spec j l) as [->|]; [|left; reflexivity]. right. exists f. auto. }
    destruct (IH w1 P1) as (w' & E & P' & A' & L' & G1 & G2).
    { intros j Hj. rewrite (al_lays _ _ A1). apply H. right. exact Hj. }
    exists w'. split; [exact E|]. split; [exact P'|]. split; [eapply alike_trans; eassumption|]. split; [rewrite L'; reflexivity|]. split.
    + intros j Hj. apply G1. rewrite S1. destruct (Nat.eqb j l); [discriminate|exact Hj].
    + intros j [<-|Hj]; [|apply G2; exact Hj]. apply G1. rewrite S1, Nat.eqb_refl. discriminate.
Qed.

(** Running closures *)
Lemma read2_ok w i : matrix2 (value w i) -> exists m, read2 w i = Ok m.
Proof. intros (m & E). exists m. unfold read2. rewrite E. reflexivity. Qed.
Lemma parent_args_ok w i l k p : plain w -> placed w -> (l < List.length (layers w))%nat -> In i (factors (get_lay w l)) -> nth_error (parents (get_mat w i)) k = Some p -> exists r, parent_args w i k = Ok r.
Proof.
  intros P PL Hl Hi Hk. destruct (plain_factor _ P l i Hl Hi) as (_ & _ & _ & A4 & _). destruct (A4 p) as (Hp & En); [eapply nth_error_In; exact Hk|].
  unfold parent_args, pick. rewrite Hk. cbn [of_option bind]. destruct (factors (get_lay w p)) as [|f [|g [|h t]]] eqn:Ef; try discriminate. cbn [nth_error of_option bind].
  destruct (plain_factor _ P p f Hp) as (Vf & _); [rewrite Ef; cbn; auto|]. destruct (plain_factor _ P p g Hp) as (Vg & _); [rewrite Ef; cbn; auto|].
  destruct (read2_ok _ _ Vf) as (mf & ->). destruct (read2_ok _ _ Vg) as (mg & ->). cbn [bind]. destruct (plain_disp _ P p Hp) as (x & ->). cbn. eauto.
Qed.
Lemma bindE {A B} (a : A) (f : A -> res B) : bind (Ok a) f = f a.
Proof. reflexivity. Qed.
Lemma compute_ok o w l i f : plain w -> placed w -> (l < List.length (layers w))%nat -> In i (factors (get_lay w l)) -> factor_closure w i l f -> exists x, compute o w i f = Ok (InPlace x).
Proof.
  intros P PL Hl Hi (p & Ef). cbv zeta in Ef. destruct (plain_factor _ P l i Hl Hi) as (A1 & (F & A2') & _ & A4 & A5 & _). destruct (PL l i Hl Hi) as (_ & EL & _).
  destruct (read2_ok _ _ A1) as (Z_ & EZ). unfold compute. cbv zeta. rewrite EZ. cbn [bind]. rewrite A2'. cbn [as2 bind].
  assert (EO : own_layer w i = Ok (get_lay w l)) by (unfold own_layer; rewrite EL; reflexivity).
  destruct (plain_disp _ P l Hl) as (x & ED). unfold disp in ED. assert (RD : forall j, In j (factors (get_lay w l)) -> exists m, read2 w j = Ok m) by (intros j Hj; apply read2_ok; apply (plain_factor _ P l j Hl Hj)).
  destruct (standard_known _ (plain_model _ P l Hl)) as ((k2 & K2) & (k3 & K3) & _).
  assert (KP : forall q, In q (parents (get_mat w i)) -> exists kp, get_parent_score_fct_2d (model_tag (model (get_lay w q)) "2") = Ok kp).
  { intros q Hq. apply (standard_known _ (plain_model _ P q (proj1 (A4 q Hq)))). }
  assert (TWO : List.length (factors (get_lay w l)) = 2%nat -> exists U ax X, bind (pick (siblings w i) 0) (read2 w) = Ok U /\ axis2 (transpose_order w i) = Ok ax /\ value w (child (get_lay w l)) = A2 X).
  { intros En. destruct (family2 w l i P PL Hl Hi En) as (j & ax & E1 & E2 & E3). rewrite E1. cbn. destruct (RD j E2) as (U & EU). destruct (plain_child _ P l Hl) as [(_ & (X & EX))|(En' & _)]; [|congruence]. exists U, ax, X. auto. }
  destruct (parents (get_mat w i)) as [|a t] eqn:Epar.
  - destruct (plain_child _ P l Hl) as [(En & _)|(En & (X & EX))]; rewrite En in Ef; cbn [Nat.eqb] in Ef; subst f.
    + destruct (TWO En) as (U & ax & X & T1 & T2 & T3). rewrite EO, bindE, T1, bindE, T2, bindE, T3. cbn [child2]. rewrite bindE, ED. cbn [scalar]. rewrite bindE. unfold in_order, LOM_sampler_2d, sampling_fct_onechild_2d. destruct ax; cbn [bind]; rewrite K2; cbn [bind]; eauto.
    + destruct (family3 w l i P PL Hl Hi En) as (j & k & ax & E1 & E2 & E3 & E4). destruct (RD j E2) as (U & EU). destruct (RD k E3) as (V & EV).
      rewrite EO, bindE, E1. unfold pick. cbn [nth_error of_option]. rewrite !bindE, EU, bindE, EV, bindE, E4, bindE, EX. cbn [child3]. rewrite bindE, ED. cbn [scalar]. rewrite bindE. unfold LOM_sampler_3d, sampling_fct_onechild_3d. destruct ax as [|[|ax]]; cbn [bind]; rewrite K3; cbn [bind]; eauto.
  - assert (En : List.length (factors (get_lay w l)) = 2%nat) by (apply A5; discriminate). destruct (TWO En) as (U & ax & X & T1 & T2 & T3). destruct (KP a) as (ka & KA); [left; reflexivity|]. 
    destruct (parent_args_ok w i l 0 a P PL Hl Hi) as ([[a1 a2] la] & EA); [rewrite Epar; reflexivity|]. destruct t as [|b t]; subst f.
    + rewrite EO, bindE, T1, bindE, T2, bindE, T3. cbn [child2]. rewrite bindE, ED. cbn [scalar]. rewrite bindE, EA, bindE. unfold in_order, LOM_sampler_1c1p_2d, sampling_fct_onechild_oneparent_2d. destruct ax; cbn [bind]; rewrite K2; cbn [bind]; rewrite KA; cbn [bind]; eauto.
    + destruct (KP b) as (kb & KB); [right; left; reflexivity|]. destruct (parent_args_ok w i l 1 b P PL Hl Hi) as ([[b1 b2] lb] & EB); [rewrite Epar; reflexivity|].
      rewrite EO, bindE, T1, bindE, T2, bindE, T3. cbn [child2]. rewrite bindE, ED. cbn [scalar]. rewrite bindE, EA, bindE, EB, bindE. unfold in_order, LOM_sampler_1c2p_2d, sampling_fct_onechild_twoparents_2d. destruct ax; cbn [bind]; rewrite K2; cbn [bind]; rewrite KA; cbn [bind]; rewrite KB; cbn [bind]; eauto.
Qed.
Lemma tick_alike w : alike w (tick w).
Proof. constructor; auto; intros; repeat split. Qed.
Lemma write_alike w a x : is2 (get_arr w a) = true -> alike w (write w a (A2 x)).
Proof.
  intros H. constructor; auto; try reflexivity; try (intros l; repeat split; fail).
  intros i. repeat (split; [reflexivity|]). unfold value, write, get_arr, get_mat. cbn [arrays set_arrays mats]. fold (get_mat w i). destruct (Nat.eq_dec (val (get_mat w i)) a) as [->|Hn].
  - unfold get_arr in H. rewrite H. destruct (Nat.lt_ge_cases a (List.length (arrays w))); [rewrite nth_upd_same by assumption; reflexivity|rewrite upd_oob by assumption; exact H].
  - rewrite nth_upd_other by exact Hn. reflexivity.
Qed.
Lemma run_mat_ok o w i : plain w -> placed w -> has_layer w i -> sfct (get_mat w i) <> None -> exists w', run_mat o w i = Ok w' /\ alike w w' /\ mats w' = mats w /\ layers w' = layers w.
Proof.
  intros P PL (l & Hl & Hi) HS. destruct (plain_factor _ P l i Hl Hi) as (A1 & _ & _ & _ & _ & [A6|(f & Ef & Hf)]); [contradiction|]. unfold run_mat. rewrite Ef. cbn [of_option bind].
  destruct (compute_ok o w l i f P PL Hl Hi Hf) as (x & ->). cbn [bind apply_effect]. eexists. split; [reflexivity|]. split; [|split; reflexivity].
  eapply alike_trans; [|apply tick_alike]. apply write_alike. apply is2_matrix. exact A1.
Qed.
Lemma compute_lbda_ok w l f : plain w -> (l < List.length (layers w))%nat -> disp_closure w l f -> exists x rt, compute_lbda w l f = Ok (LS x, rt).
Proof.
  intros P Hl ->. unfold compute_lbda. cbv zeta. destruct (beta (lbda (get_lay w l))) as [a b].
  assert (RD : forall j, In j (factors (get_lay w l)) -> exists m, read2 w j = Ok m) by (intros j Hj; apply read2_ok; apply (plain_factor _ P l j Hl Hj)).
  destruct (standard_known _ (plain_model _ P l Hl)) as (_ & _ & _ & (c2 & C2) & (c3 & C3) & _).
  destruct (plain_child _ P l Hl) as [(En & (X & EX))|(En & (X & EX))]; rewrite En; cbn [Nat.eqb]; rewrite EX; cbn [as2 as3]; destruct (factors (get_lay w l)) as [|f [|g [|h [|? t]]]]; try discriminate; cbn [pick nth_error of_option bind].
  - destruct (RD f) as (mf & ->); [cbn; auto|]. destruct (RD g) as (mg & ->); [cbn; auto|]. cbn [bind]. unfold lbda_update_2d. rewrite C2. cbn [bind]. eauto.
  - destruct (RD f) as (mf & ->); [cbn; auto|]. destruct (RD g) as (mg & ->); [cbn; auto|]. destruct (RD h) as (mh & ->); [cbn; auto|]. cbn [bind]. unfold lbda_update_3d. rewrite C3. cbn [bind]. eauto.
Qed.
Lemma run_lbda_ok w l : plain w -> (l < List.length (layers w))%nat -> lsfct (lbda (get_lay w l)) <> None ->
  exists w', run_lbda w l = Ok w' /\ alike w w' /\ mats w' = mats w /\ forall j, lsfct (lbda (get_lay w' j)) = lsfct (lbda (get_lay w j)).
Proof.
  intros P Hl HS. destruct (plain_lbda _ P l Hl) as [E|(f & E & Hf)]; [contradiction|]. unfold run_lbda. rewrite E. cbn [of_option bind]. destruct (compute_lbda_ok w l f P Hl Hf) as (x & rt & ->). cbn [bind].
  eexists. split; [reflexivity|]. split; [|split; [reflexivity|]].
  - constructor; try reflexivity.
    + intros i. repeat split.
    + unfold set_lay, set_layers. cbn [layers]. apply upd_length.
    + intros j. rewrite get_lay_set. destruct (Nat.eqb_spec j l) as [->|]; cbn [andb]; [destruct (Nat.ltb _ _)|]; repeat split.
    + intros j. unfold disp. rewrite get_lay_set. destruct (_ && _); [|auto]. intros _. exists x. reflexivity.
  - intros j. rewrite get_lay_set. destruct (Nat.eqb_spec j l) as [->|]; cbn [andb]; [destruct (Nat.ltb _ _)|]; reflexivity.
Qed.

(** Nothing to clean *)
Lemma clean_all_none w : (forall l, (l < List.length (layers w))%nat -> auto_clean (get_lay w l) = false /\ auto_reset (get_lay w l) = false) -> clean_all w (all_layers w) = Some (Ok (w, false)) /\ final_clean w (all_layers w) = Some (Ok w).
Proof.
  intros H. unfold all_layers. assert (G : forall ls, (forall l, In l ls -> (l < List.length (layers w))%nat) -> clean_all w ls = Some (Ok (w, false)) /\ final_clean w ls = Some (Ok w)).
  { induction ls as [|l ls IH]; intros Hs; cbn [clean_all final_clean]; [auto|]. cbv zeta. destruct (H l) as (E1 & E2); [apply Hs; left; reflexivity|]. rewrite E1, E2. cbn [orb]. apply IH. intros j Hj. apply Hs. right. exact Hj. }
  apply G. intros l Hl. apply in_seq in Hl. lia.
Qed.

Section Infer.
Context (o : oracle) (cfg : settings) (ms ls : list nat).
Definition ready (w : world) : Prop := plain w /\ placed w /\ (forall i, In i ms -> has_layer w i /\ sfct (get_mat w i) <> None) /\ (forall l, In l ls -> (l < List.length (layers w))%nat /\ lsfct (lbda (get_lay w l)) <> None).
Lemma ready_next w w' : ready w -> alike w w' -> (forall i, sfct (get_mat w' i) = sfct (get_mat w i)) -> (forall j, lsfct (lbda (get_lay w' j)) = lsfct (lbda (get_lay w j))) -> ready w'.
Proof.
  intros (P & PL & RM & RL) A E1 E2. split; [apply (plain_alike _ _ A P); [intros l i _ _; left; apply E1|intros l _; left; apply E2]|]. split; [eapply alike_placed; eassumption|]. split.
  - intros i Hi. destruct (RM i Hi) as ((l & G1 & G2) & G3). split; [|rewrite E1; exact G3]. exists l. rewrite (al_lays _ _ A). destruct (al_lay _ _ A l) as (-> & _). auto.
  - intros l Hl. rewrite (al_lays _ _ A), E2. apply RL. exact Hl.
Qed.
End Infer.

Lemma infer_or_fail fuel o cfg n s : fair o -> usable cfg -> wf (wd s) -> plain (wd s) -> (enough cfg <= fuel)%nat ->
  (annealable cfg (wd s) -> exists s', infer fuel o cfg n s = Some (Ok s') /\ plain (wd s')) /\
  (anneal (wd s) = true -> (Z.max 0 (fix_lbda_iters cfg) < burn_in_min cfg)%Z -> (fix_lbda_iters cfg <> 0%Z \/ exists l, (l < List.length (layers (wd s)))%nat /\ lfixed (lbda (get_lay (wd s) l)) = false /\ disp (wd s) l = LS 0) ->
   exists e, infer fuel o cfg n s = Some (Err e)).
Proof.
  intros F (U1 & U2 & U3) WF P Hf. pose proof (wf_placed _ WF) as PL.
  assert (HM : exists ms, not_fixed (wd s) (members (wd s)) = Ok ms /\ NoDup ms /\ forall i, In i ms -> has_layer (wd s) i).
  { assert (HB : forall i, In i (members (wd s)) -> exists b, fixed (get_mat (wd s) i) = FBool b /\ (b = false -> has_layer (wd s) i)).
    { intros i Hi. apply members_spec in Hi. destruct Hi as [(l & Hl & Hi)|[Hi|(l & Hl & Em & _)]].
      - destruct (plain_factor _ P l i Hl Hi) as (_ & _ & (b & Eb) & _). exists b. split; [exact Eb|]. intros _. exists l. auto.
      - exists true. split; [apply (plain_data _ P i Hi)|discriminate].
      - exfalso. destruct (standard_known _ (plain_model _ P l Hl)) as (_ & _ & _ & _ & _ & _ & M2 & _). rewrite Em in M2. discriminate. }
    assert (G : forall t, (forall i, In i t -> exists b, fixed (get_mat (wd s) i) = FBool b /\ (b = false -> has_layer (wd s) i)) -> exists ms, not_fixed (wd s) t = Ok ms /\ forall i, In i ms -> has_layer (wd s) i).
    { induction t as [|i t IH]; intros Ht; cbn [not_fixed]; [exists []; split; [reflexivity|contradiction]|]. destruct (Ht i) as (b & Eb & Hb); [left; reflexivity|]. rewrite Eb. cbn [truth bind].
      destruct IH as (ms & E & Hms); [intros j Hj; apply Ht; right; exact Hj|]. rewrite E. cbn [bind]. eexists. split; [reflexivity|]. destruct b; [exact Hms|]. intros j [<-|Hj]; [apply Hb; reflexivity|apply Hms; exact Hj]. }
    destruct (G _ HB) as (ms & E & Hms). exists ms. split; [exact E|]. split; [|exact Hms]. apply (not_fixed_spec _ _ _ E). apply (wf_nodup _ WF). }
  destruct HM as (ms & EM & NM & Hms). destruct (free_lbdas_spec (wd s)) as (NL & HLs).
  destruct (assign_mats_ok ms (wd s) P PL Hms) as (w1 & E1 & P1 & A1 & L1 & S1 & S1').
  destruct (assign_lbdas_ok (free_lbdas (wd s)) w1 P1) as (w2 & E2 & P2 & A2 & M2 & S2 & S2').
  { intros l Hl. apply HLs in Hl. rewrite L1. apply Hl. }
  set (ls := free_lbdas (wd s)) in *.
  assert (A12 : alike (wd s) w2) by (eapply alike_trans; eassumption).
  assert (R2 : ready ms ls w2).
  { split; [exact P2|]. split; [eapply alike_placed; eassumption|]. split.
    - intros i Hi. split; [|unfold get_mat; rewrite M2; apply S1'; exact Hi]. destruct (Hms i Hi) as (l & G1 & G2). exists l. rewrite (al_lays _ _ A12). destruct (al_lay _ _ A12 l) as (-> & _). auto.
    - intros l Hl. split; [rewrite (al_lays _ _ A12); apply HLs; exact Hl|apply S2'; exact Hl]. }
  unfold infer. assert (EP : exists s1, prepare s = Ok (ms, ls, s1) /\ wd s1 = w2).
  { unfold prepare. rewrite EM. cbn [bind]. cbv zeta. rewrite E1. cbn [bind]. unfold ls in E2. rewrite E2. cbn [bind]. eexists. split; [reflexivity|].
    destruct (rewind_spec (free_lbdas (wd s)) (fold_left (fun s i => set_mtr s i (mtr s i) 0) ms (set_wd s w2))) as ((Q1 & _) & _). cbv zeta in Q1. rewrite Q1. apply (rewind_m_spec ms (set_wd s w2)). }
  destruct EP as (s1 & EP & W1). rewrite EP. apply prepare_spec in EP. destruct EP as (_ & _ & _ & _ & _ & _ & M0 & _ & L0).
  assert (HT : forall w, ready ms ls w -> ready ms ls (tick w)) by (intros w R; apply (ready_next _ _ w); [exact R|apply tick_alike|reflexivity|reflexivity]).
  assert (HA : forall w l x, ready ms ls w -> In l ls -> anneal w = true -> ready ms ls (assign_disp w l (LS x))).
  { intros w l x R _ _. apply (ready_next _ _ w); [exact R|apply assign_disp_alike|reflexivity|]. intros j. unfold assign_disp. rewrite get_lay_set. destruct (Nat.eqb_spec j l) as [->|]; cbn [andb]; [destruct (Nat.ltb _ _)|]; reflexivity. }
  assert (HMr : forall w i, ready ms ls w -> In i ms -> exists w', run_mat o w i = Ok w' /\ ready ms ls w').
  { intros w i R Hi. pose proof R as (Pw & PLw & RMw & _). destruct (RMw i Hi) as (G1 & G2). destruct (run_mat_ok o w i Pw PLw G1 G2) as (w' & E & A & Em & El). exists w'. split; [exact E|].
    apply (ready_next _ _ w); [exact R|exact A|intros j; unfold get_mat; rewrite Em; reflexivity|intros j; unfold get_lay; rewrite El; reflexivity]. }
  assert (HLr : forall w l, ready ms ls w -> In l ls -> exists w', run_lbda w l = Ok w' /\ ready ms ls w').
  { intros w l R Hl. pose proof R as (Pw & PLw & _ & RLw). destruct (RLw l Hl) as (G1 & G2). destruct (run_lbda_ok w l Pw G1 G2) as (w' & E & A & Em & El). exists w'. split; [exact E|].
    apply (ready_next _ _ w); [exact R|exact A|intros j; unfold get_mat; rewrite Em; reflexivity|exact El]. }
  assert (HC : forall w, ready ms ls w -> exists w' b, clean_all w (all_layers w) = Some (Ok (w', b)) /\ ready ms ls w').
  { intros w R. exists w, false. split; [|exact R]. apply clean_all_none. apply (plain_flags _ (proj1 R)). }
  assert (HF : forall w, ready ms ls w -> exists w', final_clean w (all_layers w) = Some (Ok w') /\ ready ms ls w').
  { intros w R. exists w. split; [|exact R]. apply clean_all_none. apply (plain_flags _ (proj1 R)). }
  assert (ED : forall l, disp w2 l = disp (wd s) l) by (intros l; rewrite (assign_lbdas_disp _ _ _ E2); unfold disp, get_lay; rewrite L1; reflexivity).
  split.
  2:{ intros Ha Hlt Bad. destruct (burn_in_fails o cfg ms ls (ready ms ls) F U3 U2 HT HMr fuel s1) as (e & EB); [exact Hf|rewrite W1; exact R2|rewrite W1, (al_anneal _ _ A12); exact Ha|exact Hlt| |rewrite EB; eauto].
      destruct Bad as [Bad|(l & Hl & Hx & Hd)]; [left; exact Bad|right]. exists l. split; [apply HLs; auto|]. left. rewrite W1, ED. exact Hd. }
  intros AN. destruct (burn_in_ok o cfg ms ls (ready ms ls) F NL U3 U2 U1 HT HA HMr HLr HC HF fuel s1) as (s2 & EB & RB); [exact Hf|rewrite W1; exact R2| |].
  { rewrite W1, (al_anneal _ _ A12). intros G1 G2. destruct (AN G1 G2) as (G3 & G4). split; [exact G3|]. intros l Hl. apply HLs in Hl. destruct Hl as (Hl & Hx).
    rewrite ED. destruct (plain_disp _ P l Hl) as (x & Ex). exists x. split; [exact Ex|]. intros ->. apply (G4 l Hl Hx Ex). }
  rewrite EB.
  assert (HW : forall l, In l ls -> wide (wd s1) l).
  { intros l Hl. unfold wide. rewrite W1. destruct (plain_disp _ P2 l) as (x & ->); [rewrite (al_lays _ _ A12); apply HLs; exact Hl|]. cbn. lia. }
  destruct (burn_in_course _ _ _ _ _ _ _ F NL U1 HW EB) as (_ & _ & _ & B4 & B5 & _ & _).
  assert (HO : forall w i, ready ms ls w -> In i ms -> layer_of (get_mat w i) <> None /\ is_ibp w i = false).
  { intros w i (Pw & PLw & RMw & _) Hi. destruct (RMw i Hi) as ((l & G1 & G2) & _). destruct (PLw l i G1 G2) as (_ & EL & _). split; [rewrite EL; discriminate|]. unfold is_ibp. rewrite EL.
    apply (standard_known _ (plain_model _ Pw l G1)). }
  destruct (sampling_ok o cfg ms ls (ready ms ls) F NM NL U3 U2 HT HMr HLr HO n s2) as (s' & ES & RS); [exact RB|intros i Hi; rewrite B4; apply M0; exact Hi|exact B5|].
  exists s'. rewrite ES. split; [reflexivity|apply RS].
Qed.
Lemma infer_ok_lemma fuel o cfg n s : fair o -> usable cfg -> wf (wd s) -> plain (wd s) -> annealable cfg (wd s) -> (enough cfg <= fuel)%nat ->
  exists s', infer fuel o cfg n s = Some (Ok s') /\ plain (wd s').
Proof. intros F U WF P AN Hf. apply (infer_or_fail fuel o cfg n s F U WF P Hf). exact AN. Qed.
Lemma infer_fails_lemma fuel o cfg n s : fair o -> usable cfg -> wf (wd s) -> plain (wd s) -> ~ annealable cfg (wd s) -> (enough cfg <= fuel)%nat ->
  exists e, infer fuel o cfg n s = Some (Err e).
Proof.
  intros F U WF P NA Hf. destruct (infer_or_fail fuel o cfg n s F U WF P Hf) as (_ & G). unfold annealable in NA.
  destruct (anneal (wd s)); [|exfalso; apply NA; discriminate]. destruct (Z.lt_ge_cases (Z.max 0 (fix_lbda_iters cfg)) (burn_in_min cfg)) as [Hlt|Hge]; [|exfalso; apply NA; lia].
  apply G; [reflexivity|exact Hlt|]. destruct (Z.eq_dec (fix_lbda_iters cfg) 0) as [E0|E0]; [right|left; exact E0].
  assert (D : forall n, (forall l, (l < n)%nat -> (l < List.length (layers (wd s)))%nat) -> (exists l, (l < n)%nat /\ lfixed (lbda (get_lay (wd s) l)) = false /\ disp (wd s) l = LS 0) \/ (forall l, (l < n)%nat -> lfixed (lbda (get_lay (wd s) l)) = false -> disp (wd s) l <> LS 0)).
  { induction n0 as [|m IH]; intros Hn; [right; lia|]. destruct IH as [(l & H1 & H2)|IH]; [intros l Hl; apply Hn; lia|left; exists l; split; [lia|exact H2]|].
    destruct (lfixed (lbda (get_lay (wd s) m))) eqn:EL; [right; intros l Hl Hx; destruct (Nat.eq_dec l m) as [->|]; [congruence|apply IH; [lia|exact Hx]]|].
    destruct (plain_disp _ P m) as (x & Ex); [apply Hn; lia|]. destruct (Req_EM_T x 0) as [->|Nx]; [left; exists m; auto|]. right. intros l Hl Hx. destruct (Nat.eq_dec l m) as [->|]; [rewrite Ex; intros C; injection C; exact Nx|apply IH; [lia|exact Hx]]. }
  destruct (D (List.length (layers (wd s))) (fun l Hl => Hl)) as [Y|Y]; [exact Y|]. exfalso. apply NA. auto.
Qed.
