(** Proofs of C58, C59, C64 and of what the updates of a standard layer compute. *)
From Coq Require Import String Permutation.
From Verif Require Import Base BaseR BaseLemmas Spec SpecR Outputs Fuzzy Scores Sampling Lambda Clean Machine Dispatch Inference SpecMachine MachineProofs MachineProofs2 BuiltProofs InferenceProofs InferenceProofs2 InferenceProofs3 InferenceProofs6 PreserveProofs PlainProofs.
Local Open Scope R_scope.

(** ** C64 *)
Lemma foldM_fails {S A : Type} (f : S -> A -> res S) l a : In a l -> (forall s, exists e, f s a = Err e) -> forall s s', foldM f l s <> Ok s'.
Proof.
  induction l as [|b l IH]; intros Hin H s s' E; [contradiction|]. cbn [foldM] in E. apply bind_ok in E. destruct E as (s1 & E1 & E2). destruct Hin as [<-|Hin].
  - destruct (H s) as (e & Ee). congruence.
  - exact (IH Hin H s1 s' E2).
Qed.
Lemma foldM_fails_inv {S A : Type} (J : S -> Prop) (f : S -> A -> res S) l a : In a l -> (forall s b s', J s -> f s b = Ok s' -> J s') -> (forall s, J s -> exists e, f s a = Err e) -> forall s s', J s -> foldM f l s <> Ok s'.
Proof.
  induction l as [|b l IH]; intros Hin HJ H s s' Js E; [contradiction|]. cbn [foldM] in E. apply bind_ok in E. destruct E as (s1 & E1 & E2). destruct Hin as [<-|Hin].
  - destruct (H s Js) as (e & Ee). congruence.
  - exact (IH Hin HJ H s1 s' (HJ _ _ _ Js E1) E2).
Qed.
Lemma C64_lemma fuel o cfg n s s' i : fair o -> is_member (wd s) i -> fixed (get_mat (wd s) i) = FBool false -> layer_of (get_mat (wd s) i) = None -> infer fuel o cfg n s <> Some (Ok s').
Proof.
  intros F Hm Hf Hl E. pose proof E as E'. unfold infer in E'. destruct (prepare s) as [[[ms ls] s1]|] eqn:EP; [|discriminate]. destruct (burn_in fuel o cfg ms ls s1) as [[s2|]|] eqn:EB; try discriminate. injection E' as E'.
  apply bind_ok in E'. destruct E' as (s3 & E3 & _). pose proof EP as EP'. apply prepare_spec in EP'. destruct EP' as (EM & _ & UN & _). destruct (not_fixed_spec _ _ _ EM) as (_ & _ & MS).
  assert (Hin : In i ms). { apply MS; [apply members_spec; exact Hm|]. rewrite Hf. unfold declared_fixed. intros [C|(a & x & C & _)]; discriminate. }
  assert (L1 : layer_of (get_mat (wd s1) i) = None). { destruct UN as (_ & _ & _ & _ & _ & _ & UM & _). specialize (UM i). apply (f_equal layer_of) in UM. cbn in UM. congruence. }
  assert (L2 : layer_of (get_mat (wd s2) i) = None).
  { apply (burn_in_keeps o cfg ms ls (fun w => layer_of (get_mat w i) = None) F) in EB; try exact EB; try exact L1.
    - intros w H. exact H.
    - intros w j w' H _ Er. apply run_mat_static in Er. destruct Er as (_ & Er & _). specialize (Er i). apply (f_equal layer_of) in Er. cbn in Er. congruence.
    - intros w l w' H _ Er. apply run_lbda_static in Er. destruct Er as (_ & Er & _). specialize (Er i). apply (f_equal layer_of) in Er. cbn in Er. congruence.
    - intros w l x H _ _. exact H.
    - intros w l r c w' b H _ Er. apply clean_layer_static in Er. destruct Er as (_ & Er & _). specialize (Er i). apply (f_equal layer_of) in Er. cbn in Er. congruence. }
  refine (foldM_fails_inv (fun s => layer_of (get_mat (wd s) i) = None) (allocate_m n) ms i Hin _ _ s2 s3 L2 E3).
  - intros s4 b s5 H E4. unfold allocate_m in E4. apply bind_ok in E4. destruct E4 as (y & _ & E4). destruct (is_ibp _ _); [|injection E4 as <-; exact H]. apply bind_ok in E4. destruct E4 as (m & _ & E4). injection E4 as <-. exact H.
  - intros s4 H. unfold allocate_m, own_layer. rewrite H. cbn [bind]. eexists. reflexivity.
Qed.

(** ** Fixed given as an array *)
Lemma fixed_array_lemma fuel o cfg n s i a : is_member (wd s) i -> fixed (get_mat (wd s) i) = FArr a -> (2 <= List.length (concat a))%nat ->
  infer fuel o cfg n s = Some (Err ValueError).
Proof.
  intros Hm Hf Ha. unfold infer, prepare. apply members_spec in Hm.
  assert (TV : forall f e, truth f = Err e -> e = ValueError) by (intros [b|m] e; cbn [truth]; [discriminate|]; destruct (concat m) as [|x [|y t]]; try discriminate; intros E; injection E as <-; reflexivity).
  assert (TA : truth (FArr a) = Err ValueError) by (cbn [truth]; destruct (concat a) as [|x [|y t]]; cbn in Ha; try lia; reflexivity).
  assert (G : not_fixed (wd s) (members (wd s)) = Err ValueError).
  { revert Hm. generalize (members (wd s)). intros l. induction l as [|j l IH]; intros Hm; [contradiction|]. cbn [not_fixed]. destruct (truth (fixed (get_mat (wd s) j))) as [b|e] eqn:Ej; [|apply TV in Ej; subst e; reflexivity].
    destruct Hm as [->|Hm]; [rewrite Hf, TA in Ej; discriminate|]. cbn [bind]. rewrite (IH Hm). reflexivity. }
  rewrite G. reflexivity.
Qed.

(** ** Closures of the factors of standard layers *)
Lemma implemented_standard o i : In (o, i) implemented -> In (model_name o i) standard_models.
Proof. unfold implemented. intros H. repeat (destruct H as [H|H]; [injection H as <- <-; cbn; tauto|]). contradiction. Qed.
Lemma edited_unassigned w w1 : stored w -> (forall l, (l < List.length (layers w))%nat -> (1 <= width (disp w l))%nat) -> unassigned w w1 -> edited w w1.
Proof.
  intros ST HW (UA & UF & _ & _ & Lm & Ll & UM & UL). split; [exact Lm|]. split.
  - apply Forall_forall. intros m Hm. apply In_nth with (d := no_matrix) in Hm. destruct Hm as (k & Hk & <-). change (nth k (mats w1) no_matrix) with (get_mat w1 k). specialize (UM k). apply (f_equal val) in UM. cbn in UM. rewrite UM, UA. apply stored_val; [exact ST|lia].
  - split; [|split; [exact Ll|split; [|split; [|exact UF]]]].
    + intros i. specialize (UM i). repeat split; [apply (f_equal axis) in UM|apply (f_equal layer_of) in UM|apply (f_equal parents) in UM]; exact UM.
    + intros l. specialize (UL l). repeat split; [apply (f_equal factors) in UL|apply (f_equal child) in UL|apply (f_equal model) in UL|apply (f_equal q) in UL]; exact UL.
    + intros l Hl. rewrite Ll in Hl. unfold disp. specialize (UL l). apply (f_equal (fun x => lv (lbda x))) in UL. cbn in UL. rewrite UL. apply HW. exact Hl.
Qed.
(** Everything the choice of a closure depends on. *)
Record kin (w w' : world) : Prop := {
  kin_mat : forall i, axis (get_mat w' i) = axis (get_mat w i) /\ layer_of (get_mat w' i) = layer_of (get_mat w i) /\ parents (get_mat w' i) = parents (get_mat w i);
  kin_lay : forall l, factors (get_lay w' l) = factors (get_lay w l) /\ model (get_lay w' l) = model (get_lay w l) }.
Lemma kin_edited w w' : edited w w' -> kin w w'.
Proof. intros (_ & _ & H1 & _ & H2 & _). constructor; [exact H1|]. intros l. destruct (H2 l) as (e1 & _ & e2 & _). auto. Qed.
Lemma kin_unassigned w w' : unassigned w w' -> kin w w'.
Proof.
  intros (_ & _ & _ & _ & _ & _ & UM & UL). constructor.
  - intros i. specialize (UM i). repeat split; [apply (f_equal axis) in UM|apply (f_equal layer_of) in UM|apply (f_equal parents) in UM]; exact UM.
  - intros l. specialize (UL l). split; [apply (f_equal factors) in UL|apply (f_equal model) in UL]; exact UL.
Qed.
Lemma kin_trans a b c : kin a b -> kin b c -> kin a c.
Proof.
  intros [H1 H2] [K1 K2]. constructor.
  - intros i. destruct (H1 i) as (h1 & h2 & h3), (K1 i) as (k1 & k2 & k3). repeat split; congruence.
  - intros l. destruct (H2 l) as (h1 & h2), (K2 l) as (k1 & k2). split; congruence.
Qed.
Lemma kin_order w w' i : kin w w' -> transpose_order w' i = transpose_order w i.
Proof.
  intros K. assert (E : forall j, axis_of w' j = axis_of w j) by (intros j; unfold axis_of; rewrite (proj1 (kin_mat _ _ K j)); reflexivity).
  unfold transpose_order. rewrite E. f_equal. unfold siblings. destruct (kin_mat _ _ K i) as (_ & -> & _). destruct (layer_of (get_mat w i)) as [l|]; [|reflexivity]. destruct (kin_lay _ _ K l) as (-> & _). apply map_ext. exact E.
Qed.
(** The closure given to a factor of a standard layer with a new machine. *)
Definition new_closure (w : world) (i l : nat) : fct :=
  let m := model (get_lay w l) in let order := transpose_order w i in let p := bprior (get_mat w i) in
  match parents (get_mat w i) with
  | [] => if Nat.eqb (List.length (factors (get_lay w l))) 2 then FLom m order p else FLom3 m order p
  | [a] => F11 m (model (get_lay w a)) order p
  | a :: b :: _ => F12 m (model (get_lay w a)) (model (get_lay w b)) order p
  end.
Lemma new_closure_ok w i l : sfct (get_mat w i) = None -> layer_of (get_mat w i) = Some l -> In (model (get_lay w l)) standard_models ->
  (List.length (factors (get_lay w l)) = 2%nat \/ parents (get_mat w i) = []) ->
  (forall p, In p (parents (get_mat w i)) -> List.length (factors (get_lay w p)) = 2%nat /\ In (model (get_lay w p)) standard_models) ->
  get_sampling_fct w i = Ok (w, new_closure w i l).
Proof.
  intros A6 EL ST A5 A4. unfold get_sampling_fct. cbv zeta. rewrite A6.
  destruct (standard_known _ ST) as ((k2 & K2) & (k3 & K3) & _ & _ & _ & M1 & M2 & M3).
  assert (E2 : known2 (model (get_lay w l)) = Ok tt) by (unfold known2; rewrite K2; reflexivity). assert (E3 : known3 (model (get_lay w l)) = Ok tt) by (unfold known3; rewrite K3; reflexivity).
  assert (EP : forall p, In p (parents (get_mat w i)) -> knownp (model (get_lay w p)) = Ok tt).
  { intros p Hp. destruct (standard_known _ (proj2 (A4 p Hp))) as (_ & _ & (kp & KP) & _). unfold knownp. rewrite KP. reflexivity. }
  unfold get_relatives_models, new_closure. cbv zeta. rewrite EL. destruct (parents (get_mat w i)) as [|a t] eqn:Epar.
  - cbn [bind]. destruct (List.length (factors (get_lay w l))) as [|[|[|n]]]; cbn [Nat.eqb]; rewrite ?M1, ?M2, ?M3, ?E2, ?E3; reflexivity.
  - destruct A5 as [En|En]; [|discriminate]. rewrite En. destruct t as [|b t].
    + rewrite (two_ok w a) by (apply A4; left; reflexivity). cbn [bind]. rewrite M1, M2, M3, E2, (EP a) by (left; reflexivity). reflexivity.
    + rewrite (two_ok w a) by (apply A4; left; reflexivity). rewrite (two_ok w b) by (apply A4; right; left; reflexivity). cbn [bind]. rewrite M1, M2, M3, E2, (EP a), (EP b) by (cbn; auto). reflexivity.
Qed.

(** ** C59 *)
(** Three or more parents: the closure for two parents, made from the first two. *)
Lemma C59_refuted_lemma w i l a b c rest : layer_of (get_mat w i) = Some l -> In (model (get_lay w l)) standard_models -> List.length (factors (get_lay w l)) = 2%nat ->
  parents (get_mat w i) = a :: b :: c :: rest -> sfct (get_mat w i) = None ->
  (forall p, In p (parents (get_mat w i)) -> List.length (factors (get_lay w p)) = 2%nat /\ In (model (get_lay w p)) standard_models) ->
  exists w', assign_mat w i = Ok w'.
Proof.
  intros HL HM H2 HP E0 HQ. assert (G : get_sampling_fct w i = Ok (w, new_closure w i l)) by (apply new_closure_ok; try assumption; left; exact H2).
  unfold assign_mat. rewrite G. eexists. reflexivity.
Qed.
(** Rejected: a factor of a three-factor layer with two or more parents, a matrix without relatives, and parents
    with other than two factors. *)
Lemma C59_partial_lemma w i : sfct (get_mat w i) = None ->
  (forall l a b rest, layer_of (get_mat w i) = Some l -> In (model (get_lay w l)) standard_models -> List.length (factors (get_lay w l)) = 3%nat -> parents (get_mat w i) = a :: b :: rest ->
     (forall p, In p [a; b] -> List.length (factors (get_lay w p)) = 2%nat /\ In (model (get_lay w p)) standard_models) -> assign_mat w i = Err NotImplementedError) /\
  (layer_of (get_mat w i) = None -> parents (get_mat w i) = [] -> assign_mat w i = Err NotImplementedError) /\
  (forall a rest, parents (get_mat w i) = a :: rest -> List.length (factors (get_lay w a)) <> 2%nat -> assign_mat w i = Err AssertionError).
Proof.
  intros E0. unfold assign_mat, get_sampling_fct, get_relatives_models. cbv zeta. rewrite E0. split; [|split].
  - intros l a b rest HL HM H3 HP HQ. rewrite HL, H3, HP. destruct (HQ a (or_introl eq_refl)) as (qa & ma). destruct (HQ b (or_intror (or_introl eq_refl))) as (qb & mb). rewrite qa, qb. cbn [Nat.eqb bind].
    destruct (standard_known _ HM) as (_ & (f3 & K3) & _). destruct (standard_known _ ma) as (_ & _ & (fa & Ka) & _). destruct (standard_known _ mb) as (_ & _ & (fb & Kb) & _).
    unfold known3, knownp. rewrite K3, Ka, Kb. reflexivity.
  - intros HL HP. rewrite HL, HP. reflexivity.
  - intros a rest HP HA. rewrite HP. apply Nat.eqb_neq in HA. destruct rest as [|b rest]; rewrite HA; reflexivity.
Qed.
