(** Invariants of machines made through the interface. *)
From Coq Require Import String Permutation.
From Verif Require Import Base BaseR BaseLemmas Spec SpecR Canon Sampling MaxMachine Machine Dispatch Inference SpecMachine MachineProofs MachineProofs2 InferenceProofs.

Definition qids (x : layer) : list nat := if String.eqb (model x) "qL-AND" then match q x with Some i => [i] | None => [] end else [].
Record wf (w : world) : Prop := {
  wf_stored : stored w;
  wf_ids : Forall (fun i => i < List.length (mats w)) (members w);
  wf_nodup : NoDup (members w);
  wf_layer : forall l i, l < List.length (layers w) -> In i (factors (get_lay w l)) -> layer_of (get_mat w i) = Some l;
  wf_owner : forall i l, i < List.length (mats w) -> layer_of (get_mat w i) = Some l -> l < List.length (layers w) /\ (In i (factors (get_lay w l)) \/ q (get_lay w l) = Some i);
  wf_q : forall l, l < List.length (layers w) -> q (get_lay w l) <> None -> model (get_lay w l) = "qL-AND"%string;
  wf_free : forall i, In i (free w) -> layer_of (get_mat w i) = None;
  wf_width : forall l, l < List.length (layers w) -> 1 <= width (disp w l) }.

Lemma nth_split_layers w w' : List.length (layers w') = List.length (layers w) ->
  (forall l, factors (get_lay w' l) = factors (get_lay w l)) -> (forall l, model (get_lay w' l) = model (get_lay w l)) -> (forall l, q (get_lay w' l) = q (get_lay w l)) ->
  forall {B} (f : list nat -> string -> option nat -> list B), flat_map (fun x => f (factors x) (model x) (q x)) (layers w') = flat_map (fun x => f (factors x) (model x) (q x)) (layers w).
Proof.
  intros E H1 H2 H3 B f. rewrite !flat_map_concat_map. f_equal. apply (nth_ext _ _ (f [] "" None)%string (f [] "" None)%string); [rewrite !map_length; exact E|].
  intros n Hn. set (g := fun x => f (factors x) (model x) (q x)) in *. specialize (H1 n). specialize (H2 n). specialize (H3 n). unfold get_lay in *.
  transitivity (g (nth n (layers w') no_layer)); [exact (map_nth g (layers w') no_layer n)|]. transitivity (g (nth n (layers w) no_layer)); [unfold g; rewrite H1, H2, H3; reflexivity|].
  symmetry. exact (map_nth g (layers w) no_layer n).
Qed.
Lemma members_edited w w' : List.length (layers w') = List.length (layers w) ->
  (forall l, factors (get_lay w' l) = factors (get_lay w l)) -> (forall l, model (get_lay w' l) = model (get_lay w l)) -> (forall l, q (get_lay w' l) = q (get_lay w l)) ->
  free w' = free w -> members w' = members w.
Proof.
  intros E H1 H2 H3 H4. unfold members. rewrite H4.
  f_equal; [exact (nth_split_layers w w' E H1 H2 H3 (fun a _ _ => a))|]. f_equal.
  exact (nth_split_layers w w' E H1 H2 H3 (fun _ m q0 => if String.eqb m "qL-AND" then match q0 with Some i => [i] | None => [] end else [])).
Qed.
Lemma wf_edited w w' : wf w -> edited w w' -> wf w'.
Proof.
  intros [H1 H2 H3 H4 H5 H6 H7 H8] (E1 & E2 & E3 & E4 & E5 & E6 & E7).
  assert (EM : members w' = members w) by (apply members_edited; [exact E4|apply E5|apply E5|apply E5|exact E7]).
  split.
  - exact E2.
  - rewrite EM, E1. exact H2.
  - rewrite EM. exact H3.
  - intros l i Hl Hi. destruct (E3 i) as (_ & -> & _). destruct (E5 l) as (F1 & _). rewrite F1 in Hi. apply H4; [lia|exact Hi].
  - intros i l Hi Hl. destruct (E3 i) as (_ & F & _). rewrite F in Hl. destruct (E5 l) as (-> & _ & _ & ->). rewrite E4. apply H5; [lia|exact Hl].
  - intros l Hl Hq. destruct (E5 l) as (_ & _ & -> & F). rewrite F in Hq. apply H6; [lia|exact Hq].
  - intros i Hi. destruct (E3 i) as (_ & -> & _). apply H7. congruence.
  - exact E6.
Qed.
Lemma NoDup_mid {A} (a b c x y z : list A) : NoDup (a ++ b ++ c) -> NoDup (x ++ y ++ z) -> (forall i, In i (x ++ y ++ z) -> ~ In i (a ++ b ++ c)) ->
  NoDup ((a ++ x) ++ (b ++ y) ++ (c ++ z)).
Proof.
  intros H1 H2 H3. apply (Permutation_NoDup (l := (a ++ b ++ c) ++ (x ++ y ++ z))).
  - rewrite <- !app_assoc. apply Permutation_app_head. rewrite !app_assoc.
    apply (Permutation_app_tail z). rewrite <- !app_assoc. 
    transitivity (b ++ x ++ c ++ y).
    { apply Permutation_app_head. rewrite !app_assoc. apply Permutation_app_tail, Permutation_app_comm. }
    transitivity (x ++ b ++ c ++ y).
    { rewrite !app_assoc. do 2 apply Permutation_app_tail. apply Permutation_app_comm. }
    apply Permutation_app_head, Permutation_app_head, Permutation_app_comm.
  - assert (G : forall (u v : list A), NoDup u -> NoDup v -> (forall i, In i v -> ~ In i u) -> NoDup (u ++ v)).
    { clear. induction u as [|p u IH]; intros v Hu Hv Hd; [exact Hv|]. inversion Hu; subst. cbn. constructor.
      - intros C. apply in_app_or in C. destruct C as [C|C]; [contradiction|]. apply (Hd p C). left. reflexivity.
      - apply IH; [assumption|assumption|]. intros i Hi C. apply (Hd i Hi). right. exact C. }
    apply G; assumption.
Qed.
Lemma get_lay_app w w' x l : layers w' = (layers w ++ [x])%list -> get_lay w' l = if Nat.ltb l (List.length (layers w)) then get_lay w l else if Nat.eqb l (List.length (layers w)) then x else no_layer.
Proof.
  intros E. unfold get_lay. rewrite E. destruct (Nat.ltb_spec l (List.length (layers w))); [apply app_nth1; assumption|].
  rewrite app_nth2 by lia. destruct (Nat.eqb_spec l (List.length (layers w))) as [->|]; [rewrite Nat.sub_diag; reflexivity|].
  destruct (l - List.length (layers w)) as [|[|k]] eqn:E'; [lia|reflexivity|reflexivity].
Qed.
Lemma new_layer_extra o w fs c m K inv invf : c < List.length (mats w) -> let w' := new_layer o w fs c m K inv invf in
  (forall lay, layers w' = (layers w ++ [lay])%list -> 1 <= width (lv (lbda lay))) /\
  (String.eqb m "qL-AND" = true -> layer_of (get_mat w' (List.length (mats w))) = Some (List.length (layers w)) /\ val (get_mat w' (List.length (mats w))) = List.length (arrays w) /\
     List.length (arrays w') = S (List.length (arrays w)) /\ value w' (List.length (mats w)) = A2 [repeat 1%Z (nth 1 (shape_of (value w c)) 0)]).
Proof.
  intros Hc w'. unfold w', new_layer. cbv zeta.
  set (lay := Lay fs c m _ _ _ _ _ _ _ _ _). set (w1 := set_layers w (layers w ++ [lay])).
  set (w2 := set_mat w1 c (with_parent (get_mat w1 c) (List.length (layers w)))).
  change (fold_left _ fs w2) with (fold_layer (List.length (layers w)) fs w2).
  destruct (fold_layer_frame (List.length (layers w)) fs w2) as (H1 & H2 & H3 & H4 & H5 & H6). cbv zeta in *.
  set (w3 := fold_layer (List.length (layers w)) fs w2) in *.
  assert (E5 : List.length (mats w3) = List.length (mats w)) by (rewrite H5; unfold w2, set_mat, set_mats; cbn [mats]; rewrite upd_length; reflexivity).
  change (arrays w2) with (arrays w) in H1. change (layers w2) with (layers w ++ [lay])%list in H2.
  assert (EV : value w3 c = value w c).
  { unfold value. assert (E : val (get_mat w3 c) = val (get_mat w c)).
    { rewrite H6. assert (E : val (get_mat w2 c) = val (get_mat w c)).
      { unfold w2. rewrite get_mat_set. change (mats w1) with (mats w). rewrite Nat.eqb_refl, (proj2 (Nat.ltb_lt _ _) Hc). reflexivity. }
      destruct (_ && _); exact E. }
    rewrite E. unfold get_arr. rewrite H1. reflexivity. }
  split.
  - intros lay' El. assert (E : lay' = lay); [|subst lay'; unfold lay; cbn [lbda lv]].
    { destruct (String.eqb m "qL-AND"); cbn [layers set_mat set_mats new_matrix tick set_arrays] in El; rewrite H2 in El; apply app_inj_tail in El; symmetry; apply El. }
    unfold lbda_init. destruct (String.eqb m "MAX-AND"); [cbn [width]; rewrite app_length; cbn; lia|]. destruct (contains _ _); cbn; lia.
  - intros ->. match goal with |- layer_of (get_mat ?W _) = _ /\ _ => set (wq := W) end.
    assert (EQ : exists fe, get_mat wq (List.length (mats w)) = Mat (List.length (arrays w)) (Some 1) (FBool false) fe (1/2)%R (Some (List.length (layers w))) [] None).
    { eexists. unfold wq. rewrite get_mat_set. unfold get_mat at 2. cbn [mats set_mats new_matrix tick set_arrays]. rewrite app_length, E5, Nat.eqb_refl. cbn [List.length]. rewrite (proj2 (Nat.ltb_lt _ _)) by lia. cbn [andb].
      unfold get_mat. cbn [mats set_mats new_matrix tick set_arrays]. rewrite <- E5, nth_middle, H1. reflexivity. }
    destruct EQ as (fe & EQ). unfold value at 1. rewrite EQ. cbn [layer_of val]. unfold get_arr at 1. replace (arrays wq) with (arrays w3 ++ [A2 [repeat 1%Z (nth 1 (shape_of (value w3 c)) 0)]])%list by reflexivity.
    rewrite H1, app_length, nth_middle, EV. cbn [List.length]. repeat split. lia.
Qed.
Lemma add_layer_wf o w K c m sh inv invf : wf w -> c < List.length (mats w) ->
  wf (new_layer o (add_factors o K (combine (seq 0 (List.length sh)) sh) w) (seq (List.length (mats w)) (List.length sh)) c m K inv invf).
Proof.
  intros [H1 H2 H3 H4 H5 H6 H7 H8] Hc.
  set (n := List.length sh). set (n0 := List.length (mats w)) in *.
  destruct (add_layer_core o w sh K c m inv invf H1 Hc) as (lay & L1 & L2 & L3 & _ & _ & L4 & L5 & L6 & L7 & L8 & L9). cbv zeta in *. fold n n0 in L1, L4, L5, L6, L7, L8, L9.
  destruct (add_factors_spec o K (combine (seq 0 n) sh) w) as (A1 & A2' & A3 & A4 & A5). cbv zeta in *.
  set (w1 := add_factors o K (combine (seq 0 n) sh) w) in *.
  assert (Lc : List.length (combine (seq 0 n) sh) = n) by (rewrite combine_length, seq_length; fold n; lia).
  assert (Lm : List.length (mats w1) = n0 + n) by (rewrite A2', app_length, map_length, combine_length, seq_length, Lc; fold n0; lia).
  assert (La : List.length (arrays w1) = List.length (arrays w) + n) by (rewrite A1, app_length, map_length, combine_length, seq_length, Lc; lia).
  destruct (new_layer_extra o w1 (seq n0 n) c m K inv invf) as (X1 & X2); [lia|]. 
  destruct (new_layer_spec o w1 (seq n0 n) c m K inv invf) as (xs & _ & _ & B1 & _); [lia|]. cbv zeta in *.
  set (w' := new_layer o w1 (seq n0 n) c m K inv invf) in *. clearbody w'.
  assert (EM : members w' = ((flat_map factors (layers w) ++ seq n0 n) ++ (free w ++ []) ++ (flat_map qids (layers w) ++ qids lay))%list).
  { unfold members. rewrite L1, L5, !flat_map_app. cbn [flat_map]. rewrite !app_nil_r, L4. reflexivity. }
  assert (EM0 : members w = (flat_map factors (layers w) ++ free w ++ flat_map qids (layers w))%list) by reflexivity.
  assert (Hq : qids lay = if String.eqb m "qL-AND" then [n0 + n] else []) by (unfold qids; rewrite L3, L6; destruct (String.eqb m "qL-AND"); reflexivity).
  assert (Hold : forall i, In i (members w) -> i < n0) by (rewrite Forall_forall in H2; exact H2).
  assert (Hnew : forall i, In i (seq n0 n ++ [] ++ qids lay) -> n0 <= i < List.length (mats w')).
  { intros i Hi. rewrite L7. apply in_app_or in Hi. destruct Hi as [Hi|Hi]; [apply in_seq in Hi; lia|]. cbn [app] in Hi. rewrite Hq in Hi. destruct (String.eqb m "qL-AND"); [|contradiction]. destruct Hi as [<-|[]]. lia. }
  assert (Hlen : n0 <= List.length (mats w')) by (rewrite L7; lia).
  assert (Hla : List.length (arrays w1) <= List.length (arrays w')) by (rewrite B1, app_length; lia).
  assert (Hold2 : forall i, i < n0 -> layer_of (get_mat w' i) = layer_of (get_mat w i)) by (intros i Hi; apply L8; exact Hi).
  assert (Hmem : forall l i, l < List.length (layers w) -> In i (factors (get_lay w l)) -> In i (members w)).
  { intros l i Hl Hi. rewrite EM0. apply in_or_app. left. apply in_flat_map. exists (get_lay w l). split; [apply nth_In; exact Hl|exact Hi]. }
  split.
  - unfold stored. apply Forall_forall. intros mt Hmt. apply (In_nth _ _ no_matrix) in Hmt. destruct Hmt as (i & Hi & <-). fold (get_mat w' i).
    destruct (Nat.ltb_spec i n0) as [Hlt|Hge]; [destruct (L8 i Hlt) as (_ & E & _); rewrite E; pose proof (stored_val w i H1 Hlt); lia|].
    destruct (Nat.ltb_spec i (n0 + n)) as [Hlt|Hge2].
    + destruct (L9 (i - n0)) as (_ & _ & _ & E & _); [lia|]. replace (n0 + (i - n0)) with i in E by lia. rewrite E. lia.
    + rewrite L7 in Hi. destruct (String.eqb m "qL-AND"); [|lia]. assert (i = n0 + n) by lia. subst i. destruct (X2 eq_refl) as (_ & E & E' & _). rewrite Lm in E. rewrite E, E'. lia.
  - rewrite EM. apply Forall_forall. intros i Hi. assert (G : In i (members w) \/ In i (seq n0 n ++ [] ++ qids lay)).
    { rewrite EM0. rewrite !in_app_iff in *. tauto. }
    destruct G as [G|G]; [apply Hold in G; lia|apply Hnew in G; lia].
  - rewrite EM. apply NoDup_mid; [rewrite <- EM0; exact H3| |intros i Hi C; apply Hnew in Hi; rewrite <- EM0 in C; apply Hold in C; lia].
    rewrite app_nil_l, Hq. destruct (String.eqb m "qL-AND"); [|rewrite app_nil_r; apply seq_NoDup].
    change [n0 + n] with (seq (n0 + n) 1). rewrite <- seq_app. apply seq_NoDup.
  - intros l i Hl Hi. rewrite (get_lay_app _ _ _ l L1) in Hi. rewrite L1, app_length in Hl. cbn in Hl. destruct (Nat.ltb_spec l (List.length (layers w))) as [Hlt|Hge].
    + rewrite Hold2; [apply H4; assumption|]. apply Hold. apply (Hmem l); assumption.
    + assert (l = List.length (layers w)) by lia. subst l. rewrite Nat.eqb_refl, L4 in Hi. apply in_seq in Hi. destruct (L9 (i - n0)) as (_ & E & _); [lia|]. replace (n0 + (i - n0)) with i in E by lia. exact E.
  - intros i l Hi Hl. rewrite (get_lay_app _ _ _ l L1), L1, app_length. cbn [List.length]. destruct (Nat.ltb_spec i n0) as [Hlt|Hge].
    + rewrite (Hold2 i Hlt) in Hl. destruct (H5 i l Hlt Hl) as [G1 G2]. rewrite (proj2 (Nat.ltb_lt _ _) G1). split; [lia|exact G2].
    + destruct (Nat.ltb_spec i (n0 + n)) as [Hlt|Hge2].
      * destruct (L9 (i - n0)) as (_ & E & _); [lia|]. replace (n0 + (i - n0)) with i in E by lia. rewrite E in Hl. injection Hl as <-. rewrite Nat.ltb_irrefl, Nat.eqb_refl. split; [lia|]. left. rewrite L4. apply in_seq. lia.
      * rewrite L7 in Hi. destruct (String.eqb m "qL-AND"); [|lia]. assert (i = n0 + n) by lia. subst i. destruct (X2 eq_refl) as (E & _). rewrite Lm, A3 in E. rewrite E in Hl. injection Hl as <-.
        rewrite Nat.ltb_irrefl, Nat.eqb_refl. split; [lia|]. right. exact L6.
  - intros l Hl Hq0. rewrite (get_lay_app _ _ _ l L1) in *. rewrite L1, app_length in Hl. cbn in Hl. destruct (Nat.ltb_spec l (List.length (layers w))) as [Hlt|Hge]; [apply H6; assumption|].
    assert (l = List.length (layers w)) by lia. subst l. rewrite Nat.eqb_refl in *. rewrite L6 in Hq0. rewrite L3. destruct (String.eqb m "qL-AND") eqn:E; [apply String.eqb_eq; exact E|contradiction].
  - intros i Hi. rewrite L5 in Hi. rewrite Hold2; [apply H7; exact Hi|]. apply Hold. rewrite EM0, !in_app_iff. tauto.
  - intros l Hl. unfold disp. rewrite (get_lay_app _ _ _ l L1). rewrite L1, app_length in Hl. cbn in Hl. destruct (Nat.ltb_spec l (List.length (layers w))) as [Hlt|Hge]; [apply H8; assumption|].
    assert (l = List.length (layers w)) by lia. subst l. rewrite Nat.eqb_refl. apply X1. rewrite A3. exact L1.
Qed.
Lemma wf_new_matrix w a ax fx : wf w -> a < List.length (arrays w) -> wf (new_matrix w a ax fx).
Proof.
  intros [H1 H2 H3 H4 H5 H6 H7 H8] Ha. set (w' := new_matrix w a ax fx).
  assert (G : forall i, i < List.length (mats w) -> get_mat w' i = get_mat w i) by (intros i Hi; apply (get_mat_app w w' _ i eq_refl Hi)).
  assert (L : List.length (mats w') = S (List.length (mats w))) by (unfold w', new_matrix, set_mats; cbn [mats]; rewrite app_length; cbn; lia).
  assert (Hid : forall i, In i (members w) -> i < List.length (mats w)) by (rewrite Forall_forall in H2; exact H2).
  split.
  - unfold stored, w', new_matrix, set_mats. cbn [mats arrays]. apply Forall_app. split; [exact H1|]. constructor; [exact Ha|constructor].
  - change (members w') with (members w). rewrite L. eapply Forall_impl; [|exact H2]. cbn. intros; lia.
  - exact H3.
  - intros l i Hl Hi. change (get_lay w' l) with (get_lay w l) in Hi. rewrite G; [apply H4; assumption|]. apply Hid. unfold members. apply in_or_app. left. apply in_flat_map.
    exists (get_lay w l). split; [apply nth_In; exact Hl|exact Hi].
  - intros i l Hi Hl. change (get_lay w' l) with (get_lay w l). change (layers w') with (layers w). destruct (Nat.ltb_spec i (List.length (mats w))) as [Hlt|]; [rewrite G in Hl by exact Hlt; apply H5; assumption|].
    assert (i = List.length (mats w)) by lia. subst i. unfold get_mat, w', new_matrix, set_mats in Hl. cbn [mats] in Hl. rewrite nth_middle in Hl. discriminate.
  - exact H6.
  - intros i Hi. rewrite G; [apply H7; exact Hi|]. apply Hid. unfold members. rewrite !in_app_iff. right. left. exact Hi.
  - exact H8.
Qed.
Lemma wf_more_arrays w xs : wf w -> wf (set_arrays w (arrays w ++ xs)).
Proof.
  intros [H1 H2 H3 H4 H5 H6 H7 H8]. split; try assumption. unfold stored, set_arrays. cbn [mats arrays]. rewrite app_length. eapply Forall_impl; [|exact H1]. cbn. intros; lia.
Qed.
Lemma wf_tick w : wf w -> wf (tick w).
Proof. intros [H1 H2 H3 H4 H5 H6 H7 H8]. split; assumption. Qed.
Lemma wf_write w a x : wf w -> wf (write w a x).
Proof. intros [H1 H2 H3 H4 H5 H6 H7 H8]. split; try assumption. apply stored_write. exact H1. Qed.
Lemma built_wf o w : built o w -> wf w.
Proof.
  induction 1 as [|w a _ IH|w s ax fx w' _ IH Hs E|w K c m w' _ IH Hc E|w K sh m w' _ IH E|w w' _ IH E].
  - split; try (cbn; intros; first [lia|contradiction]); constructor.
  - apply wf_more_arrays. exact IH.
  - unfold add_matrix in E. cbv zeta in E. set (w1 := match s with Given _ => w | _ => _ end) in E. set (a := match s with Given a => a | _ => _ end) in E.
    apply bind_ok in E. destruct E as (_ & _ & E). injection E as <-.
    assert (G : wf w1 /\ a < List.length (arrays w1) /\ mats w1 = mats w /\ free w1 = free w /\ layers w1 = layers w).
    { unfold w1, a. destruct s; [split; [exact IH|split; [apply Hs; reflexivity|auto]]|split; [apply wf_more_arrays; exact IH|]|split; [apply wf_tick; apply (wf_more_arrays w _ IH)|]];
        (split; [cbn [tick set_arrays arrays]; rewrite app_length; cbn; lia|auto]). }
    destruct G as (G1 & G2 & G3 & G4 & G5). pose proof (wf_new_matrix w1 a ax fx G1 G2) as W2. set (w2 := new_matrix w1 a ax fx) in *.
    destruct W2 as [K1 K2 K3 K4 K5 K6 K7 K8].
    assert (L : List.length (mats w2) = S (List.length (mats w))) by (unfold w2, new_matrix, set_mats; cbn [mats]; rewrite app_length, G3; cbn; lia).
    assert (P : Permutation (List.length (mats w) :: members w2) (members (set_free w2 (free w2 ++ [List.length (mats w)])))).
    { unfold members, set_free. cbn [layers free]. rewrite <- app_assoc. cbn [app]. rewrite !app_assoc. apply Permutation_middle. }
    assert (Hid : forall i, In i (members w2) -> i < List.length (mats w)).
    { pose proof (wf_ids _ G1) as K. change (members w2) with (members w1). rewrite <- G3. rewrite Forall_forall in K. exact K. }
    split.
    + exact K1.
    + apply Forall_forall. intros i Hi. apply (Permutation_in _ (Permutation_sym P)) in Hi. cbn [mats set_free]. rewrite L. destruct Hi as [<-|Hi]; [lia|apply Hid in Hi; lia].
    + apply (Permutation_NoDup P). constructor; [|exact K3]. intros C. apply Hid in C. lia.
    + exact K4.
    + exact K5.
    + exact K6.
    + intros i Hi. cbn [set_free free] in Hi. apply in_app_or in Hi. destruct Hi as [Hi|[<-|[]]]; [apply K7; exact Hi|].
      change (get_mat (set_free w2 _) (List.length (mats w))) with (get_mat w2 (List.length (mats w))). unfold get_mat, w2, new_matrix, set_mats. cbn [mats]. rewrite G3, nth_middle. reflexivity.
    + exact K8.
  - unfold add_layer, canonise_model in E. destruct (canonise_name m) as [[[m' inv] invf]|e]; [|discriminate].
    destruct inv; injection E as <-; [|apply add_layer_wf; assumption].
    apply (add_layer_wf o (write w (val (get_mat w c)) (neg_arr (value w c))) K c m' _ true invf); [apply wf_write; exact IH|exact Hc].
  - unfold add_layer, canonise_model in E. destruct (canonise_name m) as [[[m' inv] invf]|e]; [|discriminate]. destruct inv; [discriminate|]. injection E as <-.
    set (w1 := new_random_matrix o w sh None). assert (W1 : wf w1 /\ List.length (mats w1) = S (List.length (mats w))).
    { split.
      - unfold w1, new_random_matrix. apply wf_new_matrix; [apply wf_tick; apply (wf_more_arrays w _ IH)|cbn [tick set_arrays arrays]; rewrite app_length; cbn; lia].
      - unfold w1, new_random_matrix, new_matrix, set_mats. cbn [mats tick set_arrays]. rewrite app_length. cbn. lia. }
    destruct W1 as [W1 L]. change (fold_left _ _ w1) with (add_factors o K (combine (seq 0 (List.length sh)) sh) w1). rewrite <- L. apply add_layer_wf; [exact W1|lia].
  - eapply wf_edited; eassumption.
Qed.
