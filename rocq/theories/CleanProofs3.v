(** Proofs for C31-C33, C35. *)
From Coq Require Import String Sorted.
From Verif Require Import Base BaseLemmas BaseR Spec Outputs OutputsProofs Lops LopsProofs HelpersProofs Clean SpecClean CleanProofs CleanProofs2.
Local Open Scope Z_scope.

Lemma vw_column ds m l : (l < List.length ds)%nat -> column (vw ds m) l = map (ent (nth l ds None)) m.
Proof. intros H. unfold column, vw. rewrite map_map. apply map_ext. intros r. exact (nth_map_lt (fun d => ent d r) ds l None 0 H). Qed.
Lemma vws_inactive ds fs l : (l < List.length ds)%nat -> (inactive (vals (vws ds fs)) l <-> inact_b fs (nth l ds None) = true).
Proof.
  intros H. unfold inactive, inact_b, vals, vws. rewrite existsb_exists. split.
  - intros (m & Hm & E). apply in_map_iff in Hm. destruct Hm as (g & <- & Hg). apply in_map_iff in Hg. destruct Hg as (f & <- & Hf). exists f. split; [exact Hf|].
    apply forallb_forall. intros x Hx. cbn [cf_val vwf] in E. rewrite vw_column in E by exact H. rewrite (E x Hx). reflexivity.
  - intros (f & Hf & E). exists (vw ds (cf_val f)). split; [apply in_map_iff; exists (vwf ds f); split; [reflexivity|apply in_map; exact Hf]|].
    rewrite vw_column by exact H. rewrite forallb_forall in E. intros x Hx. specialize (E x Hx). lia.
Qed.
Lemma vws_cols ds fs : Forall (fun m => has_cols m (List.length ds)) (vals (vws ds fs)).
Proof.
  unfold vals, vws. rewrite map_map. apply Forall_forall. intros m Hm. apply in_map_iff in Hm. destruct Hm as (f & <- & _). cbn [cf_val vwf].
  apply Forall_forall. intros r Hr. apply in_map_iff in Hr. destruct Hr as (r0 & <- & _). apply map_length.
Qed.

Lemma C32_lemma fs L : aligned (vals fs) L -> no_inactive_neighbours (vals fs) L -> forall fuel, (L < fuel)%nat ->
  exists fs' red L', clean_up_codes fuel fs false true = Some (Ok (fs', red)) /\ Forall (fun m => has_cols m L') (vals fs') /\
    forall l, (l < L')%nat -> ~ inactive (vals fs') l.
Proof.
  intros HA HN fuel Hf. destruct (aligned_rows fs L HA) as (Hne & Hrow & Hst).
  set (ok := fun ds : list (option nat) => forall j, (j < List.length ds)%nat -> inact_b fs (nth j ds None) = false).
  destruct (clean_rule fs Hne Hrow false true
    (fun l ds red => (forall j, (j < l)%nat -> (j < List.length ds)%nat -> inact_b fs (nth j ds None) = false) /\
       forall j, (l <= j)%nat -> (S j < List.length ds)%nat -> inact_b fs (nth j ds None) && inact_b fs (nth (S j) ds None) = false)
    (fun l ds red => ok ds) (fun l l' ds red => ok ds)) with (fuel := fuel) (ds := ds0 L) as (l' & ds & red & E & HO & _).
  - reflexivity.
  - intros l ds red [H1 H2] Hl. split; intros Hi.
    + cbn [act]. split.
      * intros j Hj Hjl. rewrite del_length in Hjl by exact Hl. rewrite nth_del. destruct (Nat.ltb_spec j l); [apply H1; lia|].
        replace j with l in * by lia. specialize (H2 l (Nat.le_refl _)). rewrite Hi in H2. apply H2. lia.
      * intros j Hj Hjl. rewrite del_length in Hjl by exact Hl. rewrite !nth_del. destruct (Nat.ltb_spec j l); [lia|]. destruct (Nat.ltb_spec (S j) l); [lia|]. apply H2; lia.
    + split; [|intros; apply H2; lia]. intros j Hj Hjl. destruct (Nat.eq_dec j l) as [->|]; [exact Hi|apply H1; lia].
  - intros l ds red [H1 _] Hl j Hj. apply H1; lia.
  - auto.
  - intros l l' ds red HO Hll Hl. split; [|auto]. intros _ j Hj. cbn [act] in *. rewrite del_length in Hj by exact Hl. rewrite nth_del. destruct (Nat.ltb j l'); apply HO; lia.
  - auto.
  - rewrite ds0_length. split; [lia|]. intros j _ Hj. apply not_true_eq. intros C. apply andb_true_iff in C. rewrite !ds0_nth in C by lia. destruct C as [C1 C2]. apply inact_spec in C1, C2.
    apply (HN j Hj). auto.
  - rewrite ds0_length. exact Hf.
  - rewrite Hst in E. exists (vws ds fs), red, (List.length ds). split; [exact E|]. split; [apply vws_cols|]. intros l Hl C. apply vws_inactive in C; [|exact Hl]. rewrite HO in C by exact Hl. discriminate.
Qed.

(** * Outputs of views *)
Lemma vals_nth ds fs k : nth k (vals (vws ds fs)) [] = vw ds (nth k (vals fs) []).
Proof.
  unfold vals, vws. rewrite map_map. cbn [cf_val vwf]. 
  transitivity (nth k (map (fun f => vw ds (cf_val f)) fs) (vw ds [])); [reflexivity|].
  rewrite <- (map_map cf_val (vw ds)). exact (map_nth (vw ds) (map cf_val fs) [] k).
Qed.
Lemma vals_length ds fs : List.length (vals (vws ds fs)) = List.length (vals fs).
Proof. unfold vals, vws. rewrite !map_length. reflexivity. Qed.
Lemma rows_at_nth ms idx k : (k < List.length ms)%nat -> nth k (rows_at ms idx) [] = row (nth k ms []) (nth k idx 0%nat).
Proof. intros H. exact (nth_map_seq (fun k => row (nth k ms []) (nth k idx 0%nat)) (List.length ms) k [] H). Qed.
Lemma index_range fs idx k : Forall2 lt idx (map nrows (vals fs)) -> (k < List.length (vals fs))%nat -> (nth k idx 0 < List.length (nth k (vals fs) []))%nat.
Proof.
  intros H Hk. assert (G : forall ms idx k, Forall2 lt idx (map (fun m : mat => nrows m) ms) -> (k < List.length ms)%nat -> (nth k idx 0 < List.length (nth k ms []))%nat).
  { clear. induction ms as [|m ms IH]; intros idx k H Hk; [cbn in Hk; lia|]. inversion H as [|i n idx' ? Hi H' E1 E2]; subst. destruct k as [|k]; [exact Hi|]. cbn. apply IH; [exact H'|cbn in Hk; lia]. }
  apply G; assumption.
Qed.
Lemma view_entry ds fs idx l k : Forall2 lt idx (map nrows (vals fs)) -> (k < List.length (vals fs))%nat -> (l < List.length ds)%nat ->
  nth l (nth k (rows_at (vals (vws ds fs)) idx) []) 0 = ent (nth l ds None) (nth k (rows_at (vals fs) idx) []).
Proof.
  intros Hi Hk Hl. rewrite rows_at_nth by (rewrite vals_length; exact Hk). rewrite vals_nth. rewrite rows_at_nth by exact Hk.
  exact (vw_at ds (nth k (vals fs) []) (nth k idx 0%nat) l (index_range fs idx k Hi Hk) Hl).
Qed.
Lemma rows_at_length ms idx : List.length (rows_at ms idx) = List.length ms.
Proof. unfold rows_at. rewrite map_length, seq_length. reflexivity. Qed.

(** All factors are 1 in the described dimension. *)
Definition all_one (fs : list cfactor) idx (d : option nat) : Prop :=
  forall k, (k < List.length (vals fs))%nat -> ent d (nth k (rows_at (vals fs) idx) []) = 1.
Lemma lop_ext o n P Q : (forall i, (i < n)%nat -> (P i <-> Q i)) -> (lop_holds o n P <-> lop_holds o n Q).
Proof.
  intros H. assert (A : (exists i, (i < n)%nat /\ P i) <-> (exists i, (i < n)%nat /\ Q i)).
  { split; intros (i & Hi & Pi); exists i; split; try exact Hi; apply H; assumption. }
  assert (B : (forall i, (i < n)%nat -> P i) <-> (forall i, (i < n)%nat -> Q i)).
  { split; intros G i Hi; apply H; auto. }
  assert (C : (exists i, ((i < n)%nat /\ P i) /\ forall j, (j < n)%nat -> P j -> j = i) <-> (exists i, ((i < n)%nat /\ Q i) /\ forall j, (j < n)%nat -> Q j -> j = i)).
  { split; intros (i & [Hi Pi] & U); exists i; (split; [split; [exact Hi|apply H; assumption]|]); intros j Hj Pj; apply U; try exact Hj; apply H; assumption. }
  destruct o; cbn [lop_holds]; tauto.
Qed.
Lemma view_true o ds fs idx : Forall2 lt idx (map nrows (vals fs)) ->
  (lom_true o AND (rows_at (vals (vws ds fs)) idx) (List.length ds) <-> lop_holds o (List.length ds) (fun l => all_one fs idx (nth l ds None))).
Proof.
  intros Hi. unfold lom_true. apply lop_ext. intros l Hl. rewrite rows_at_length, vals_length. cbn [lop_holds]. unfold all_one. split; intros H k Hk; specialize (H k Hk);
  rewrite view_entry in * by assumption; exact H.
Qed.
Lemma inact_not_one fs idx d : Forall2 lt idx (map nrows (vals fs)) -> inact_b fs d = true -> ~ all_one fs idx d.
Proof.
  intros Hi H C. unfold inact_b in H. apply existsb_exists in H. destruct H as (f & Hf & E). apply (In_nth _ _ {| cf_val := []; cf_fixed_entries := [] |}) in Hf.
  destruct Hf as (k & Hk & Ek). assert (Hk' : (k < List.length (vals fs))%nat) by (unfold vals; rewrite map_length; exact Hk). specialize (C k Hk').
  rewrite rows_at_nth in C by exact Hk'. assert (EV : nth k (vals fs) [] = cf_val f).
  { unfold vals. rewrite <- Ek. exact (map_nth cf_val fs {| cf_val := []; cf_fixed_entries := [] |} k). }
  pose proof (index_range fs idx k Hi Hk') as HR. rewrite EV in C, HR. rewrite forallb_forall in E.
  specialize (E (ent d (row (cf_val f) (nth k idx 0%nat)))). rewrite C in E. discriminate E. rewrite <- C. apply in_map. unfold row. apply nth_In. exact HR.
Qed.

Lemma generate_view o ds ds' fs L : fs <> [] -> Forall (fun f => cf_val f <> []) fs ->
  L = List.length ds -> 
  (forall idx, Forall2 lt idx (map nrows (vals fs)) ->
     (lop_holds o (List.length ds) (fun l => all_one fs idx (nth l ds None)) <-> lop_holds o (List.length ds') (fun l => all_one fs idx (nth l ds' None)))) ->
  lom_generate_data (vals (vws ds' fs)) (model_name o AND) = lom_generate_data (vals (vws ds fs)) (model_name o AND).
Proof.
  intros Hne Hrow _ H.
  assert (Hv : forall ds, vals (vws ds fs) <> []) by (intros d C; apply map_eq_nil in C; apply map_eq_nil in C; contradiction).
  rewrite !lom_generate_ok by apply Hv. f_equal.
  assert (HR : forall ds, map nrows (vals (vws ds fs)) = map nrows (vals fs)).
  { intros d. unfold vals, vws. rewrite !map_map. apply map_ext. intros f. unfold nrows. cbn [cf_val vwf]. unfold vw. apply map_length. }
  assert (HC : forall ds, ncols (hd [] (vals (vws ds fs))) = List.length ds).
  { intros d. assert (G := vws_size fs Hne Hrow d). destruct fs as [|f l]; [congruence|]. exact G. }
  rewrite !HR, !HC. apply nd_build_ext. intros idx Hi.
  pose proof (H idx Hi) as HH. rewrite <- !view_true in HH by exact Hi. rewrite !lom_true_b in HH.
  destruct (lom_b o AND (rows_at (vals (vws ds fs)) idx) (List.length ds)), (lom_b o AND (rows_at (vals (vws ds' fs)) idx) (List.length ds')); try reflexivity; exfalso;
    [destruct HH as [HH _]|destruct HH as [_ HH]]; specialize (HH eq_refl); discriminate.
Qed.

(** C31 *)
Lemma lop_skip o n j (P : nat -> Prop) : o = OR \/ o = XOR -> (j < n)%nat -> ~ P j ->
  (lop_holds o n P <-> lop_holds o (n - 1) (fun l => P (if Nat.ltb l j then l else S l))).
Proof.
  intros Ho Hj HP.
  assert (F : forall i, (i < n)%nat -> P i -> exists i', (i' < n - 1)%nat /\ (if Nat.ltb i' j then i' else S i') = i).
  { intros i Hi Pi. assert (i <> j) by congruence. destruct (Nat.ltb_spec i j).
    - exists i. split; [lia|]. destruct (Nat.ltb_spec i j); lia.
    - exists (i - 1)%nat. split; [lia|]. destruct (Nat.ltb_spec (i - 1) j); lia. }
  destruct Ho as [-> | ->]; cbn [lop_holds]; split.
  - intros (i & Hi & Pi). destruct (F i Hi Pi) as (i' & Hi' & E). exists i'. split; [exact Hi'|]. rewrite E. exact Pi.
  - intros (i & Hi & Pi). exists (if Nat.ltb i j then i else S i). split; [|exact Pi]. destruct (Nat.ltb i j); lia.
  - intros (i & [Hi Pi] & U). destruct (F i Hi Pi) as (i' & Hi' & E). exists i'. split; [split; [exact Hi'|rewrite E; exact Pi]|].
    intros a Ha Pa. assert (EA : (if Nat.ltb a j then a else S a) = i) by (apply U; [destruct (Nat.ltb a j); lia|exact Pa]).
    destruct (Nat.ltb_spec a j), (Nat.ltb_spec i' j); lia.
  - intros (i & [Hi Pi] & U). exists (if Nat.ltb i j then i else S i). split; [split; [destruct (Nat.ltb i j); lia|exact Pi]|].
    intros a Ha Pa. destruct (F a Ha Pa) as (a' & Ha' & E). rewrite <- E. rewrite (U a' Ha'); [reflexivity|]. rewrite E. exact Pa.
Qed.
Lemma vw_bin ds m : (forall l, In (Some l) ds -> forall r, In r m -> (l < List.length r)%nat) -> bin2 m -> bin2 (vw ds m).
Proof.
  intros Hl Hb. unfold bin2, vw. apply Forall_forall. intros r Hr. apply in_map_iff in Hr. destruct Hr as (r0 & <- & Hr0).
  apply Forall_forall. intros x Hx. apply in_map_iff in Hx. destruct Hx as (d & <- & Hd). destruct d as [l|]; [|right; reflexivity].
  cbn [ent]. unfold bin2 in Hb. rewrite Forall_forall in Hb. specialize (Hb r0 Hr0). unfold bin1 in Hb. rewrite Forall_forall in Hb. apply Hb. apply nth_In. apply (Hl l Hd r0 Hr0).
Qed.
Lemma C31_lemma fs L j o : aligned (vals fs) L -> (j < L)%nat -> inactive (vals fs) j -> o = OR \/ o = XOR ->
  exists removed resetted, remove_dimension j fs = Ok removed /\ reset_dimension j fs = Ok resetted /\
    lom_generate_data (vals removed) (model_name o AND) = lom_generate_data (vals fs) (model_name o AND) /\
    lom_generate_data (vals resetted) (model_name o AND) = lom_generate_data (vals fs) (model_name o AND) /\
    (Forall bin2 (vals fs) ->
       lom_generate_data_fast (vals removed) (model_name o AND) = lom_generate_data_fast (vals fs) (model_name o AND) /\
       lom_generate_data_fast (vals resetted) (model_name o AND) = lom_generate_data_fast (vals fs) (model_name o AND)).
Proof.
  intros HA Hj Hin Ho. destruct (aligned_rows fs L HA) as (Hne & Hrow & Hst).
  assert (Hj' : (j < List.length (ds0 L))%nat) by (rewrite ds0_length; exact Hj).
  assert (R1 := remove_view fs Hrow (ds0 L) j Hj'). assert (R2 := reset_view fs Hrow (ds0 L) j Hj'). rewrite Hst in R1, R2.
  exists (vws (del j (ds0 L)) fs), (vws (upd (ds0 L) j None) fs). split; [exact R1|]. split; [exact R2|].
  assert (IN : inact_b fs (Some j) = true) by (apply inact_spec; exact Hin).
  assert (G1 : lom_generate_data (vals (vws (del j (ds0 L)) fs)) (model_name o AND) = lom_generate_data (vals fs) (model_name o AND)).
  { rewrite <- Hst at 2. apply (generate_view o (ds0 L) _ fs L Hne Hrow); [symmetry; apply ds0_length|]. intros idx Hi. rewrite del_length by exact Hj'.
    rewrite (lop_skip o _ j _ Ho Hj').
    - apply lop_ext. intros l Hl. rewrite nth_del. destruct (Nat.ltb l j); reflexivity.
    - rewrite ds0_nth by exact Hj. apply inact_not_one; assumption. }
  assert (G2 : lom_generate_data (vals (vws (upd (ds0 L) j None) fs)) (model_name o AND) = lom_generate_data (vals fs) (model_name o AND)).
  { rewrite <- Hst at 2. apply (generate_view o (ds0 L) _ fs L Hne Hrow); [symmetry; apply ds0_length|]. intros idx Hi. rewrite upd_length.
    apply lop_ext. intros l Hl. rewrite nth_upd_any by exact Hj'. destruct (Nat.eqb_spec l j) as [->|]; [|reflexivity]. rewrite ds0_nth by exact Hj.
    split; intros C; exfalso; revert C; apply inact_not_one; try assumption. apply inact_none. exact Hne. }
  split; [exact G1|]. split; [exact G2|]. intros HB.
  assert (HBv : forall ds, (forall l, In (Some l) ds -> (l < L)%nat) -> Forall bin2 (vals (vws ds fs))).
  { intros ds Hd. unfold vals, vws. rewrite map_map. apply Forall_forall. intros m Hm. apply in_map_iff in Hm. destruct Hm as (f & <- & Hf). cbn [cf_val vwf].
    assert (Hfv : In (cf_val f) (vals fs)) by (apply in_map; exact Hf). rewrite Forall_forall in HB. apply vw_bin; [|apply HB; exact Hfv].
    intros l Hl r Hr. destruct HA as [_ HA]. rewrite Forall_forall in HA. destruct (HA _ Hfv) as [_ HC]. unfold has_cols in HC. rewrite Forall_forall in HC. rewrite (HC r Hr). apply Hd. exact Hl. }
  assert (HF : lom_generate_data_fast (vals fs) (model_name o AND) = lom_generate_data (vals fs) (model_name o AND)).
  { apply (C04_lemma _ _ L); [|exact HB]. destruct HA as [_ HA]. apply Forall_forall. intros m Hm. rewrite Forall_forall in HA. apply (HA m Hm). }
  rewrite HF. split.
  - rewrite <- G1. apply (C04_lemma _ _ (List.length (del j (ds0 L)))); [apply vws_cols|]. apply HBv. intros l Hl. apply in_del in Hl. apply in_map_iff in Hl. destruct Hl as (x & E & Hx). injection E as ->. apply in_seq in Hx. lia.
  - rewrite <- G2. apply (C04_lemma _ _ (List.length (upd (ds0 L) j None))); [apply vws_cols|]. apply HBv. intros l Hl. apply (In_nth _ _ None) in Hl. destruct Hl as (i & Hi & E).
    rewrite nth_upd_any in E by exact Hj'. rewrite upd_length, ds0_length in Hi. destruct (Nat.eqb i j); [discriminate|]. rewrite ds0_nth in E by exact Hi. injection E as <-. exact Hi.
Qed.

(** C33: without half-duplicates. *)
Lemma same_all_one fs idx a b : same_dim (vals fs) a b -> Forall2 lt idx (map nrows (vals fs)) -> (all_one fs idx (Some a) <-> all_one fs idx (Some b)).
Proof.
  intros HS Hi. unfold all_one. assert (G : forall k, (k < List.length (vals fs))%nat -> ent (Some a) (nth k (rows_at (vals fs) idx) []) = ent (Some b) (nth k (rows_at (vals fs) idx) [])).
  { intros k Hk. rewrite rows_at_nth by exact Hk. pose proof (index_range fs idx k Hi Hk) as HR.
    assert (HM := HS (nth k (vals fs) []) (nth_In _ _ Hk)). unfold column in HM.
    pose proof (f_equal (fun v => nth (nth k idx 0%nat) v 0) HM) as E. cbn beta in E.
    etransitivity; [|etransitivity; [exact E|]].
    - symmetry. exact (nth_map_lt (fun r => nth a r 0) (nth k (vals fs) []) (nth k idx 0%nat) [] 0 HR).
    - exact (nth_map_lt (fun r => nth b r 0) (nth k (vals fs) []) (nth k idx 0%nat) [] 0 HR). }
  split; intros H k Hk; specialize (H k Hk); rewrite G in * by exact Hk; exact H.
Qed.
Lemma shares_sym ms a b : shares ms a b -> shares ms b a.
Proof. intros (m & H & E). exists m. auto. Qed.
Lemma same_inact fs a b : same_dim (vals fs) a b -> inactive (vals fs) b -> inactive (vals fs) a.
Proof. intros HS (m & Hm & E). exists m. split; [exact Hm|]. rewrite (HS m Hm). exact E. Qed.
Lemma act_in reset (ds : list (option nat)) j x : (j < List.length ds)%nat -> In (Some x) (act reset ds j) -> In (Some x) ds.
Proof.
  intros Hj H. unfold act in H. destruct reset; [|apply in_del in H; exact H]. apply (In_nth _ _ None) in H. destruct H as (i & Hi & E). rewrite upd_length in Hi.
  rewrite nth_upd_any in E by exact Hj. destruct (Nat.eqb i j); [discriminate|]. rewrite <- E. apply nth_In. exact Hi.
Qed.
Lemma C33_lemma fs L reset clean : aligned (vals fs) L -> reset || clean = true ->
  (forall l l', (l < L)%nat -> (l' < L)%nat -> shares (vals fs) l l' -> same_dim (vals fs) l l') ->
  forall fuel, (L < fuel)%nat -> exists fs' red, clean_up_codes fuel fs reset clean = Some (Ok (fs', red)) /\
    lom_generate_data (vals fs') "OR-AND" = lom_generate_data (vals fs) "OR-AND".
Proof.
  intros HA Hrc HS fuel Hf. destruct (aligned_rows fs L HA) as (Hne & Hrow & Hst).
  set (J := fun ds : list (option nat) => (forall l, (l < L)%nat -> ~ inactive (vals fs) l -> exists l2, (l2 < L)%nat /\ In (Some l2) ds /\ same_dim (vals fs) l l2) /\
      (forall l2, In (Some l2) ds -> (l2 < L)%nat)).
  assert (HJ2 : forall ds l l', J ds -> (l < l')%nat -> (l' < List.length ds)%nat -> share_b fs (nth l ds None) (nth l' ds None) = true -> J (act reset ds l')).
  { intros ds l l' [H1 H2] Hll Hl' Hs. split; [|intros l2 Hl2; apply H2; apply (act_in reset ds l'); assumption].
    intros x Hx Hax. destruct (H1 x Hx Hax) as (l2 & Hl2 & Hin & Hsd). destruct (in_act reset ds l' l2 Hin Hl') as [Hk|Hk]; [exists l2; auto|].
    rewrite Hk in Hs. destruct (nth l ds None) as [a|] eqn:Ea.
    - assert (Hain : In (Some a) ds) by (rewrite <- Ea; apply nth_In; lia). assert (HaL := H2 a Hain).
      apply share_spec in Hs. assert (SD := HS a l2 HaL Hl2 Hs). exists a. split; [exact HaL|]. split.
      + unfold act. destruct reset.
        * rewrite <- Ea. replace (nth l ds None) with (nth l (upd ds l' None) None); [apply nth_In; rewrite upd_length; lia|]. rewrite nth_upd_any by exact Hl'. destruct (Nat.eqb_spec l l'); [lia|reflexivity].
        * rewrite <- Ea. replace (nth l ds None) with (nth l (del l' ds) None); [apply nth_In; rewrite del_length; lia|]. rewrite nth_del. destruct (Nat.ltb_spec l l'); [reflexivity|lia].
      + intros m Hm. rewrite (Hsd m Hm). symmetry. apply SD. exact Hm.
    - exfalso. apply share_none_l in Hs. apply inact_spec in Hs. apply Hax. apply (same_inact fs x l2); assumption. }
  destruct (clean_rule fs Hne Hrow reset clean (fun _ ds _ => J ds) (fun _ ds _ => J ds) (fun _ _ ds _ => J ds) Hrc) with (fuel := fuel) (ds := ds0 L) as (l' & ds & red & E & [H1 H2] & _).
  - intros l ds red [H1 H2] Hl. split; [|intros _; split; assumption]. intros Hi. split; [|intros l2 Hl2; apply H2; apply (act_in reset ds l); assumption].
    intros x Hx Hax. destruct (H1 x Hx Hax) as (l2 & Hl2 & Hin & Hsd). destruct (in_act reset ds l l2 Hin Hl) as [Hk|Hk]; [exists l2; auto|].
    exfalso. rewrite Hk in Hi. apply inact_spec in Hi. apply Hax. apply (same_inact fs x l2); assumption.
  - auto.
  - auto.
  - intros l l' ds red HJ Hll Hl. split; [|auto]. intros Hs. apply (HJ2 ds l l'); assumption.
  - auto.
  - split.
    + intros l Hl _. exists l. split; [exact Hl|]. split; [apply in_map; apply in_seq; lia|]. intros m _. reflexivity.
    + intros l2 Hl2. apply in_map_iff in Hl2. destruct Hl2 as (x & Ex & Hx). injection Ex as ->. apply in_seq in Hx. lia.
  - rewrite ds0_length. exact Hf.
  - rewrite Hst in E. exists (vws ds fs), red. split; [exact E|]. rewrite <- Hst at 2. apply (generate_view OR (ds0 L) ds fs L Hne Hrow); [symmetry; apply ds0_length|].
    intros idx Hi. cbn [lop_holds]. rewrite ds0_length. split.
    + intros (l & Hl & Hone). rewrite ds0_nth in Hone by exact Hl.
      assert (Hac : ~ inactive (vals fs) l). { intros C. apply inact_spec in C. revert Hone. apply inact_not_one; assumption. }
      destruct (H1 l Hl Hac) as (l2 & Hl2 & Hin & Hsd). apply (In_nth _ _ None) in Hin. destruct Hin as (i & Hii & Ei). exists i. split; [exact Hii|]. rewrite Ei. apply (same_all_one fs idx l l2); assumption.
    + intros (i & Hii & Hone). destruct (nth i ds None) as [l|] eqn:Ei.
      * assert (HlL : (l < L)%nat) by (apply H2; rewrite <- Ei; apply nth_In; exact Hii). exists l. split; [exact HlL|]. rewrite ds0_nth by exact HlL. exact Hone.
      * exfalso. revert Hone. apply inact_not_one; [exact Hi|apply inact_none; exact Hne].
Qed.
