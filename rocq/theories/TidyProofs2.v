(** A clean-up of a layer on top, and what it leaves alone. *)
From Coq Require Import String Permutation Lra.
From Verif Require Import Base BaseR BaseLemmas Spec SpecR Canon Fuzzy Clean SpecClean CleanProofs CleanProofs2 Machine Dispatch Inference SpecMachine MachineProofs MachineProofs2 BuiltProofs InferenceProofs InferenceProofs2 PlainProofs SpecOrdinary OrdinaryProofs OrdinaryProofs2 OrdinaryProofs3 SpecTidy TidyProofs.
Local Open Scope R_scope.

(** ** Giving matrices new values *)
Record touched (w w' : world) (l : list (nat * arr)) : Prop := {
  to_layers : layers w' = layers w; to_free : free w' = free w; to_anneal : anneal w' = anneal w; to_clock : clock w' = clock w;
  to_mats : List.length (mats w') = List.length (mats w);
  to_mat : forall i, get_mat w' i = with_val (get_mat w i) (val (get_mat w' i));
  to_stored : stored w';
  to_own : forall i, (i < List.length (mats w))%nat -> own_array w i -> own_array w' i;
  to_new : forall i a, In (i, a) l -> value w' i = a;
  to_old : forall j, (j < List.length (mats w))%nat -> ~ In j (map fst l) -> value w' j = value w j }.
Lemma with_val_same m : with_val m (val m) = m.
Proof. destruct m; reflexivity. Qed.
Lemma touched_none w : stored w -> touched w w [].
Proof. intros S. constructor; auto; [intros i; symmetry; apply with_val_same|contradiction]. Qed.
Lemma touched_write w i a : stored w -> (i < List.length (mats w))%nat -> own_array w i -> touched w (write w (val (get_mat w i)) a) [(i, a)].
Proof.
  intros S Hi Ho. pose proof (stored_val w i S Hi) as Hv. constructor; try reflexivity.
  - intros j. symmetry. apply with_val_same.
  - unfold stored, write, set_arrays. cbn [mats arrays]. rewrite upd_length. exact S.
  - intros j Hj H. exact H.
  - intros j x [E|[]]. injection E as <- <-. unfold value. rewrite get_arr_write by exact Hv. change (get_mat (write w (val (get_mat w i)) a) i) with (get_mat w i). rewrite Nat.eqb_refl. reflexivity.
  - intros j Hj Hn. unfold value. rewrite get_arr_write by exact Hv. change (get_mat (write w (val (get_mat w i)) a) j) with (get_mat w j). destruct (Nat.eqb_spec (val (get_mat w j)) (val (get_mat w i))) as [E|_]; [|reflexivity]. exfalso. apply (Ho j Hj); [intros ->; apply Hn; left; reflexivity|exact E].
Qed.
Lemma touched_assign w i a : stored w -> (i < List.length (mats w))%nat -> touched w (assign_val w i a) [(i, a)].
Proof.
  intros S Hi. assert (GM : forall j, get_mat (assign_val w i a) j = if Nat.eqb j i then with_val (get_mat w i) (List.length (arrays w)) else get_mat w j).
  { intros j. unfold assign_val. rewrite get_mat_set. cbn [set_arrays mats]. rewrite (proj2 (Nat.ltb_lt _ _) Hi), andb_true_r. reflexivity. }
  assert (GA : forall x, get_arr (assign_val w i a) x = nth x (arrays w ++ [a]) (A2 [])) by reflexivity.
  constructor; try reflexivity.
  - unfold assign_val, set_mat, set_mats. cbn [mats]. apply upd_length.
  - intros j. rewrite !GM. destruct (Nat.eqb_spec j i) as [->|_]; [reflexivity|symmetry; apply with_val_same].
  - unfold stored, assign_val, set_mat, set_mats, set_arrays. cbn [mats arrays]. rewrite app_length. cbn [List.length]. apply Forall_upd; [|cbn [with_val val]; lia]. eapply Forall_impl; [|exact S]. cbn. intros m Hm. lia.
  - intros j Hj Ho k Hk Hn. unfold assign_val, set_mat, set_mats in Hk. cbn [mats set_arrays] in Hk. rewrite upd_length in Hk. rewrite !GM. pose proof (stored_val w j S Hj). pose proof (stored_val w k S Hk).
    destruct (Nat.eqb_spec k i) as [->|_], (Nat.eqb_spec j i) as [->|_]; cbn [with_val val]; [contradiction|lia|lia|apply Ho; assumption].
  - intros j x [E|[]]. injection E as <- <-. unfold value. rewrite GM, GA, Nat.eqb_refl. cbn [with_val val]. rewrite app_nth2, Nat.sub_diag by lia. reflexivity.
  - intros j Hj Hn. unfold value. rewrite GM, GA. destruct (Nat.eqb_spec j i) as [->|_]; [exfalso; apply Hn; left; reflexivity|]. rewrite app_nth1 by (apply stored_val; assumption). reflexivity.
Qed.
Lemma touched_cons w w1 w2 i a l : (i < List.length (mats w))%nat -> touched w w1 [(i, a)] -> touched w1 w2 l -> ~ In i (map fst l) -> touched w w2 ((i, a) :: l).
Proof.
  intros Hi T1 T2 Hn. constructor.
  - rewrite (to_layers _ _ _ T2). apply T1.
  - rewrite (to_free _ _ _ T2). apply T1.
  - rewrite (to_anneal _ _ _ T2). apply T1.
  - rewrite (to_clock _ _ _ T2). apply T1.
  - rewrite (to_mats _ _ _ T2). apply T1.
  - intros j. rewrite (to_mat _ _ _ T2 j) at 1. rewrite (to_mat _ _ _ T1 j). reflexivity.
  - apply T2.
  - intros j Hj Ho. apply (to_own _ _ _ T2); [rewrite (to_mats _ _ _ T1); exact Hj|]. apply (to_own _ _ _ T1); assumption.
  - intros j x [E|Hx]; [|apply (to_new _ _ _ T2); exact Hx]. injection E as <- <-. rewrite (to_old _ _ _ T2); [apply (to_new _ _ _ T1); left; reflexivity|rewrite (to_mats _ _ _ T1); exact Hi|exact Hn].
  - intros j Hj Hx. rewrite (to_old _ _ _ T2); [|rewrite (to_mats _ _ _ T1); exact Hj|intros C; apply Hx; right; exact C]. apply (to_old _ _ _ T1); [exact Hj|]. intros [<-|[]]. apply Hx. left. reflexivity.
Qed.
Definition put_cf (reset : bool) (w : world) (p : nat * cfactor) : world := let '(i, cf) := p in if reset then write w (val (get_mat w i)) (A2 (cf_val cf)) else assign_val w i (A2 (cf_val cf)).
Lemma touched_fold reset l : forall w, stored w -> NoDup (map fst l) -> (forall i, In i (map fst l) -> (i < List.length (mats w))%nat /\ own_array w i) ->
  touched w (fold_left (put_cf reset) l w) (map (fun p => (fst p, A2 (cf_val (snd p)))) l).
Proof.
  induction l as [|[i c] l IH]; intros w S ND H; [apply touched_none; exact S|]. cbn [map fst] in ND. inversion ND as [|? ? Hn ND']; subst. destruct (H i (or_introl eq_refl)) as (Hi & Ho).
  assert (T : touched w (put_cf reset w (i, c)) [(i, A2 (cf_val c))]) by (unfold put_cf; destruct reset; [apply touched_write|apply touched_assign]; assumption).
  cbn [fold_left map fst snd]. eapply touched_cons; [exact Hi|exact T| |].
  - apply IH; [apply T|exact ND'|]. intros j Hj. destruct (H j (or_intror Hj)) as (Hj1 & Hj2). split; [rewrite (to_mats _ _ _ T); exact Hj1|apply (to_own _ _ _ T); assumption].
  - rewrite map_map. exact Hn.
Qed.

(** ** New values for the factors of a layer on top *)
Record revalued (w w' : world) (l : nat) : Prop := {
  rv_world : layers w' = layers w /\ free w' = free w /\ anneal w' = anneal w /\ clock w' = clock w /\ List.length (mats w') = List.length (mats w);
  rv_mat : forall i, get_mat w' i = with_val (get_mat w i) (val (get_mat w' i));
  rv_stored : stored w';
  rv_own : forall i, is_factor w i -> own_array w' i;
  rv_old : forall j, (j < List.length (mats w))%nat -> ~ In j (factors (get_lay w l)) -> value w' j = value w j;
  rv_new : exists K, forall k, (k < List.length (factors (get_lay w l)))%nat -> binary_matrix (nth k (shape_of (value w (child (get_lay w l)))) 0%nat) K (value w' (nth k (factors (get_lay w l)) 0%nat)) }.
Lemma top_child w l k i : sound w -> (l < List.length (layers w))%nat -> (forall i, In i (factors (get_lay w l)) -> parents (get_mat w i) = []) -> (k < List.length (layers w))%nat -> In i (factors (get_lay w l)) -> child (get_lay w k) <> i.
Proof.
  intros S Hl HP Hk Hi E. destruct (so_factor _ S l i Hl Hi) as (_ & _ & G & _). rewrite (HP i Hi) in G.
  assert (C : In k (filter (fun k => Nat.eqb (child (get_lay w k)) i) (seq 0 (List.length (layers w))))) by (apply filter_In; split; [apply in_seq; lia|apply Nat.eqb_eq; exact E]). rewrite <- G in C. contradiction.
Qed.
Lemma revalued_edited w w' l : sound w -> revalued w w' l -> edited w w'.
Proof.
  intros S R. destruct (rv_world _ _ _ R) as (EL & EF & EA & _ & EM). unfold edited, disp, get_lay. rewrite EL. split; [exact EM|]. split; [apply R|]. split; [intros i; rewrite (rv_mat _ _ _ R i); auto|]. split; [reflexivity|]. split; [auto|]. split; [|exact EF]. exact (wf_width _ (so_wf _ S)).
Qed.
Lemma sound_revalued w w' l : sound w -> (l < List.length (layers w))%nat -> (forall i, In i (factors (get_lay w l)) -> parents (get_mat w i) = []) -> revalued w w' l -> sound w'.
Proof.
  intros S Hl HP R. pose proof (revalued_edited _ _ _ S R) as ED. destruct (rv_world _ _ _ R) as (EL & EF & EA & _ & EM). pose proof (so_plain _ S) as P.
  assert (GL : forall k, get_lay w' k = get_lay w k) by (intros k; unfold get_lay; rewrite EL; reflexivity). assert (ED' : forall k, disp w' k = disp w k) by (intros k; unfold disp; rewrite GL; reflexivity).
  assert (HI : forall l i, (l < List.length (layers w))%nat -> In i (factors (get_lay w l)) -> (i < List.length (mats w))%nat /\ layer_of (get_mat w i) = Some l) by (intros a i Ha Hi; destruct (wf_placed _ (so_wf _ S) a i Ha Hi) as (G1 & G2 & _); auto).
  assert (VC : forall k, (k < List.length (layers w))%nat -> value w' (child (get_lay w k)) = value w (child (get_lay w k))).
  { intros k Hk. apply (rv_old _ _ _ R); [exact (proj1 (so_layer _ S k Hk))|]. intros C. exact (top_child w l k _ S Hl HP Hk C eq_refl). }
  assert (VF : forall i, In i (free w) -> value w' i = value w i).
  { intros i Hi. apply (rv_old _ _ _ R); [apply (so_free _ S i Hi)|]. intros C. pose proof (wf_free _ (so_wf _ S) i Hi) as G. rewrite (proj2 (HI l i Hl C)) in G. discriminate. }
  assert (VO : forall k i, (k < List.length (layers w))%nat -> k <> l -> In i (factors (get_lay w k)) -> value w' i = value w i).
  { intros k i Hk Hn Hi. apply (rv_old _ _ _ R); [apply (HI k i Hk Hi)|]. intros C. pose proof (proj2 (HI l i Hl C)). pose proof (proj2 (HI k i Hk Hi)). congruence. }
  assert (M2 : forall k i, (k < List.length (layers w))%nat -> In i (factors (get_lay w k)) -> matrix2 (value w' i)).
  { intros k i Hk Hi. destruct (Nat.eq_dec k l) as [->|Hn]; [|rewrite (VO k i Hk Hn Hi); apply (plain_factor _ P k i Hk Hi)]. destruct (rv_new _ _ _ R) as (K & H). apply (In_nth _ _ 0%nat) in Hi. destruct Hi as (j & Hj & <-). destruct (H j Hj) as (m & E & _). exists m. exact E. }
  assert (OC : forall i k, own_closure w' i k = own_closure w i k) by (intros i k; apply edited_closure; [exact ED|]; rewrite (rv_mat _ _ _ R i); reflexivity).
  split.
  - eapply wf_edited; [apply S|exact ED].
  - constructor.
    + intros k. rewrite EL, GL. apply P.
    + intros k. rewrite EL, ED'. apply P.
    + intros k. rewrite EL, GL. apply P.
    + intros k. rewrite EL, GL. intros Hk. rewrite <- (plain_axes _ P k Hk). apply map_ext. intros i. rewrite (rv_mat _ _ _ R i). reflexivity.
    + intros k. rewrite EL, GL. intros Hk. rewrite (VC k Hk). apply (plain_child _ P k Hk).
    + intros k i. rewrite EL, GL. intros Hk Hi. rewrite (rv_mat _ _ _ R i). cbn [with_val fixed_entries fixed parents sfct]. destruct (plain_factor _ P k i Hk Hi) as (_ & A2 & A3 & A4 & A5 & _). split; [apply (M2 k i Hk Hi)|]. split; [exact A2|]. split; [exact A3|]. split; [intros p Hp; rewrite GL; apply A4, Hp|]. split; [exact A5|].
      destruct (so_factor _ S k i Hk Hi) as (_ & [G|G] & _); [left; exact G|right]. eexists. split; [exact G|]. rewrite <- OC. apply own_factor_closure.
    + intros k. rewrite EL. unfold disp_closure. rewrite GL. apply (plain_lbda _ P k).
    + intros i. rewrite EF, (rv_mat _ _ _ R i). apply (plain_data _ P i).
  - intros i (k & Hk & Hi). rewrite EL in Hk. rewrite GL in Hi. apply (rv_own _ _ _ R). exists k. auto.
  - intros i. rewrite EF, EM. intros Hi. rewrite (VF i Hi). apply (so_free _ S i Hi).
  - intros k. rewrite EL, EM. cbv zeta. rewrite GL. intros Hk. rewrite (VC k Hk). destruct (so_layer _ S k Hk) as (G1 & G2 & G3 & (K & G4) & G5). cbv zeta in *. split; [exact G1|]. split; [exact G2|]. split; [exact G3|]. split; [|exact G5].
    destruct (Nat.eq_dec k l) as [->|Hn]; [apply (rv_new _ _ _ R)|]. exists K. intros j Hj. rewrite (VO k _ Hk Hn) by (apply nth_In; exact Hj). apply G4. exact Hj.
  - intros k i. rewrite EL, GL. intros Hk Hi. rewrite (rv_mat _ _ _ R i), OC. cbn [with_val bprior sfct parents]. destruct (so_factor _ S k i Hk Hi) as (G1 & G2 & G3 & G4 & G5). split; [exact G1|]. split; [exact G2|]. split; [|split; [exact G4|]].
    + rewrite G3. apply filter_ext. intros j. rewrite GL. reflexivity.
    + intros a b. rewrite !GL. apply G5.
Qed.

(** ** The clean-up *)
Lemma read_factors w fs ms : map (value w) fs = map A2 ms -> (forall i, In i fs -> matrix2 (fixed_entries (get_mat w i))) ->
  exists cfs, mapM (fun i => bind (read2 w i) (fun m => bind (as2 (fixed_entries (get_mat w i))) (fun e => Ok {| cf_val := m; cf_fixed_entries := e |}))) fs = Ok cfs /\ vals cfs = ms.
Proof.
  revert ms. induction fs as [|i fs IH]; intros [|m ms] E H; try discriminate; [exists []; auto|]. cbn [map] in E. injection E as E1 E2. destruct (IH ms E2) as (cfs & E3 & E4); [intros j Hj; apply H; right; exact Hj|].
  destruct (H i (or_introl eq_refl)) as (e & Ee). cbn [mapM]. unfold read2 at 1. rewrite E1, Ee. cbn [as2 bind]. rewrite E3. cbn [bind]. eexists. split; [reflexivity|]. cbn [vals map cf_val]. f_equal. exact E4.
Qed.
Lemma okmat_restrict n L keep m : okmat n L m -> Forall (fun d => (d < L)%nat) keep -> okmat n (List.length keep) (restrict keep m).
Proof.
  intros ((H1 & H2) & H3) Hk. unfold bin2, bin1 in H3. unfold restrict, okmat, bin2, bin1. split; [split|].
  - rewrite map_length. exact H1.
  - apply Forall_forall. intros r Hr. apply in_map_iff in Hr. destruct Hr as (r0 & <- & _). apply map_length.
  - apply Forall_forall. intros r Hr. apply in_map_iff in Hr. destruct Hr as (r0 & <- & H0). apply Forall_forall. intros x Hx. apply in_map_iff in Hx. destruct Hx as (d & <- & Hd).
    rewrite Forall_forall in H2, H3, Hk. specialize (H3 r0 H0). rewrite Forall_forall in H3. apply H3, nth_In. specialize (H2 r0 H0). specialize (Hk d Hd). cbv beta in H2. rewrite H2. exact Hk.
Qed.
Lemma okmat_cleared n L rs m m' : okmat n L m -> cleared L rs m m' -> okmat n L m'.
Proof.
  intros ((H1 & H2) & H3) (C1 & C2 & C3). unfold okmat, bin2, bin1 in *. split; [split; [rewrite C1; exact H1|exact C2]|]. apply Forall_forall. intros r Hr. apply Forall_forall. intros x Hx. apply (In_nth _ _ []) in Hr. destruct Hr as (i & Hi & <-). apply (In_nth _ _ 0%Z) in Hx. destruct Hx as (j & Hj & <-).
  unfold has_cols in C2. rewrite Forall_forall in C2. pose proof (C2 _ (nth_In m' [] Hi)) as Ew. cbv beta in Ew. assert (Hj2 : (j < L)%nat) by (rewrite <- Ew; exact Hj). clear Hj. rename Hj2 into Hj. assert (Hi2 : (i < List.length m)%nat) by (eapply Nat.lt_le_trans; [exact Hi|]; rewrite <- C1; apply Nat.le_refl). pose proof (C3 i j Hi2 Hj) as G. match goal with |- pm1 ?t => change t with (at2 m' i j) end. rewrite G. destruct (existsb _ _); [right; reflexivity|]. unfold at2, at1, row.
  rewrite Forall_forall in H2, H3. specialize (H2 _ (nth_In m [] Hi2)). specialize (H3 _ (nth_In m [] Hi2)). rewrite Forall_forall in H3. apply H3, nth_In. cbv beta in H2. eapply Nat.lt_le_trans; [exact Hj|]. rewrite <- H2. apply Nat.le_refl.
Qed.

Lemma factors_ok w l : sound (unflagged w) -> (l < List.length (layers w))%nat -> exists ms K, factor_values w l ms /\ List.length ms = List.length (factors (get_lay w l)) /\
  (forall k, (k < List.length (factors (get_lay w l)))%nat -> okmat (nth k (shape_of (value w (child (get_lay w l)))) 0%nat) K (nth k ms [])) /\ ms <> [] /\ NoDup (factors (get_lay w l)) /\
  List.length (factors (get_lay w l)) = List.length (shape_of (value w (child (get_lay w l)))) /\
  forall i, In i (factors (get_lay w l)) -> (i < List.length (mats w))%nat /\ own_array w i /\ matrix2 (fixed_entries (get_mat w i)).
Proof.
  intros S Hl. assert (Hl' : (l < List.length (layers (unflagged w)))%nat) by (rewrite lays_unflagged; exact Hl). destruct (so_layer _ S l Hl') as (_ & _ & _ & (K & H) & _). cbv zeta in H. pose proof (plain_child _ (so_plain _ S) l Hl') as HC. rewrite get_lay_unflagged in H, HC. cbn [unflag factors child] in H, HC.
  change (value (unflagged w)) with (value w) in *.
  assert (G : forall fs (f : nat -> nat), (forall k, (k < List.length fs)%nat -> binary_matrix (f k) K (value w (nth k fs 0%nat))) -> exists ms, map (value w) fs = map A2 ms /\ List.length ms = List.length fs /\ forall k, (k < List.length fs)%nat -> okmat (f k) K (nth k ms [])).
  { clear. induction fs as [|i fs IH]; intros f Hf; [exists []; split; [reflexivity|]; split; [reflexivity|]; cbn; intros; lia|]. destruct (Hf 0%nat ltac:(cbn; lia)) as (m & E & Hm). cbn [nth] in E. destruct (IH (fun k => f (S k))) as (ms & E1 & E2 & E3); [intros k Hk; apply (Hf (S k)); cbn; lia|].
    exists (m :: ms). split; [cbn [map]; rewrite E, E1; reflexivity|]. split; [cbn; lia|]. intros [|k] Hk; [exact Hm|]. apply E3. cbn in Hk. lia. }
  destruct (G _ _ H) as (ms & E1 & E2 & E3). exists ms, K. split; [exact E1|]. split; [exact E2|]. split; [exact E3|].
  assert (HF : forall i, In i (factors (get_lay w l)) -> In i (factors (get_lay (unflagged w) l))) by (intros i; rewrite get_lay_unflagged; auto).
  assert (HN : (0 < List.length (factors (get_lay w l)))%nat) by (destruct HC as [(-> & _)|(-> & _)]; lia).
  split; [intros ->; cbn in E2; lia|]. split.
  - pose proof (wf_placed _ (so_wf _ S) l (nth 0 (factors (get_lay w l)) 0%nat) Hl' (HF _ (nth_In _ _ HN))) as (_ & _ & ND). rewrite get_lay_unflagged in ND. exact ND.
  - split; [destruct HC as [(-> & (m & ->))|(-> & (m & ->))]; reflexivity|]. intros i Hi. split; [apply (wf_placed _ (so_wf _ S) l i Hl' (HF i Hi))|]. split; [apply (so_own _ S); exists l; auto|]. apply (plain_factor _ (so_plain _ S) l i Hl' (HF i Hi)).
Qed.
Lemma map_fst_combine {A B} (a : list A) (b : list B) : List.length a = List.length b -> map fst (combine a b) = a.
Proof. revert b. induction a as [|x a IH]; intros [|y b] H; try discriminate; [reflexivity|]. cbn. f_equal. apply IH. cbn in H. lia. Qed.
Lemma revalued_on_top w w' : (forall i, same_matrix (get_mat w i) (get_mat w' i)) -> layers w' = layers w -> (forall k, (k < List.length (layers w))%nat -> value w' (child (get_lay w k)) = value w (child (get_lay w k))) -> on_top w -> on_top w'.
Proof.
  intros SM EL VC T k. unfold flagged, get_lay. rewrite EL. fold (get_lay w k). intros Hk Fk. rewrite (VC k Hk). destruct (T k Hk Fk) as (G1 & G2). split; [|exact G2]. intros i Hi. specialize (SM i). unfold same_matrix in SM. apply (f_equal parents) in SM. cbn [with_val parents] in SM. rewrite SM. apply G1. exact Hi.
Qed.
Lemma clean_tidied w l reset clean : sound (unflagged w) -> (forall n, In n (shape_of (value w (child (get_lay w l)))) -> n <> 0%nat) -> (l < List.length (layers w))%nat -> flagged w l -> (reset || clean)%bool = true -> (reset = true -> auto_reset (get_lay w l) = true) ->
  exists w' b, clean_layer w l reset clean = Some (Ok (w', b)) /\ (b = false /\ w' = w \/ b = true /\ tidied w l w' /\ revalued (unflagged w) (unflagged w') l /\ (reset = false -> exists ms L ms', factor_values w l ms /\ aligned ms L /\ factor_values w' l ms' /\ removed L ms ms')).
Proof.
  intros S HS Hl Fl Hrc Hr. destruct (factors_ok w l S Hl) as (ms & K & EV & LM & OK & Hne & ND & LS_ & HI). set (fs := factors (get_lay w l)) in *. set (dims := shape_of (value w (child (get_lay w l)))) in *.
  assert (AL : aligned ms K).
  { split; [exact Hne|]. apply Forall_forall. intros m Hm. apply (In_nth _ _ []) in Hm. destruct Hm as (k & Hk0 & <-). assert (Hk : (k < List.length fs)%nat) by (eapply Nat.lt_le_trans; [exact Hk0|]; rewrite <- LM; apply Nat.le_refl). destruct (OK k Hk) as ((O1 & O2) & _). split; [|exact O2]. intros C. apply (HS (nth k dims 0%nat)); [apply nth_In; rewrite <- LS_; exact Hk|]. rewrite <- O1. exact (f_equal (@List.length _) C). }
  destruct (read_factors w fs ms EV) as (cfs & ER & EC); [intros i Hi; apply (HI i Hi)|]. unfold clean_layer. cbv zeta. fold fs. rewrite ER.
  rewrite <- EC in AL. assert (SZ : (K < Datatypes.S (csize cfs))%nat).
  { destruct AL as (A1 & A2). destruct cfs as [|c cfs]; [contradiction|]. cbn [csize]. cbn [vals map] in A2. inversion A2 as [|? ? (B1 & B2) _]; subst. unfold ncols. destruct (cf_val c) as [|r m]; [contradiction|]. cbn [hd]. inversion B2; subst. lia. }
  destruct (C34_lemma cfs K reset clean AL Hrc _ SZ) as (cfs' & red & E & RD & _ & EFX & HRm & HRs). rewrite E. rewrite EC in *.
  eexists _, red. split; [reflexivity|]. destruct red; [right; split; [reflexivity|]|left; auto].
  assert (LC : List.length cfs = List.length fs) by (rewrite <- LM, <- EC; symmetry; apply map_length). assert (LC' : List.length cfs' = List.length fs) by (apply (f_equal (@List.length _)) in EFX; rewrite !map_length in EFX; rewrite EFX; exact LC).
  set (w' := fold_left _ (combine fs cfs') w).
  assert (TO : touched w w' (map (fun p => (fst p, A2 (cf_val (snd p)))) (combine fs cfs'))).
  { apply (touched_fold reset); [exact (wf_stored _ (so_wf _ S))|rewrite map_fst_combine by (symmetry; exact LC'); exact ND|]. rewrite map_fst_combine by (symmetry; exact LC'). intros i Hi. destruct (HI i Hi) as (G1 & G2 & _). auto. }
  assert (VN : forall k, (k < List.length fs)%nat -> value w' (nth k fs 0%nat) = A2 (nth k (vals cfs') [])).
  { intros k Hk. apply (to_new _ _ _ TO). apply in_map_iff. exists (nth k fs 0%nat, nth k cfs' {| cf_val := []; cf_fixed_entries := [] |}). split.
    - cbn [fst snd]. do 2 f_equal. unfold vals. symmetry. exact (map_nth cf_val cfs' {| cf_val := []; cf_fixed_entries := [] |} k).
    - rewrite <- combine_nth by (symmetry; exact LC'). apply nth_In. rewrite combine_length, LC', Nat.min_id. exact Hk. }
  assert (VO : forall j, (j < List.length (mats w))%nat -> ~ In j fs -> value w' j = value w j).
  { intros j Hj Hn. apply (to_old _ _ _ TO); [exact Hj|]. rewrite map_map. cbn [fst]. change (fun x : nat * cfactor => fst x) with (@fst nat cfactor). rewrite map_fst_combine by (symmetry; exact LC'). exact Hn. }
  assert (FV : factor_values w' l (vals cfs')).
  { unfold factor_values, get_lay. rewrite (to_layers _ _ _ TO). fold (get_lay w l). fold fs. apply (nth_ext _ _ (value w' 0%nat) (A2 [])); [unfold vals; rewrite !map_length; symmetry; exact LC'|]. intros k Hk. rewrite map_length in Hk. rewrite !map_nth. apply VN. exact Hk. }
  assert (NW : exists K', forall k, (k < List.length fs)%nat -> binary_matrix (nth k dims 0%nat) K' (value w' (nth k fs 0%nat))).
  { destruct reset.
    - destruct (HRs eq_refl) as (rs & R1 & R2 & _). exists K. intros k Hk. rewrite VN by exact Hk. eexists. split; [reflexivity|]. eapply okmat_cleared; [apply OK; exact Hk|].
      assert (G : forall a b, Forall2 (cleared K rs) a b -> forall k, (k < List.length a)%nat -> cleared K rs (nth k a []) (nth k b [])) by (clear; induction 1 as [|x y a b Hxy _ IH]; intros [|k] Hk; cbn in *; try lia; [exact Hxy|apply IH; lia]). apply G; [exact R2|rewrite LM; exact Hk].
    - destruct (HRm eq_refl) as (keep & R1 & R2 & _). exists (List.length keep). intros k Hk. rewrite VN, R2 by exact Hk. eexists. split; [reflexivity|]. change (@nil vec) with (restrict keep []). rewrite map_nth. apply (okmat_restrict _ K); [apply OK; exact Hk|apply R1]. }
  assert (SM : forall i, same_matrix (get_mat w i) (get_mat w' i)) by (intros i; unfold same_matrix; rewrite (to_mat _ _ _ TO i); reflexivity).
  assert (RV : revalued (unflagged w) (unflagged w') l).
  { constructor.
    - cbn [unflagged layers free anneal clock mats]. rewrite (to_layers _ _ _ TO), (to_free _ _ _ TO), (to_anneal _ _ _ TO), (to_clock _ _ _ TO), (to_mats _ _ _ TO). auto.
    - exact (to_mat _ _ _ TO).
    - exact (to_stored _ _ _ TO).
    - intros i Hi. pose proof (so_own _ S i Hi) as Ho. destruct Hi as (k & Hk & Hi). apply (to_own _ _ _ TO); [apply (wf_placed _ (so_wf _ S) k i Hk Hi)|exact Ho].
    - rewrite get_lay_unflagged. exact VO.
    - rewrite get_lay_unflagged. exact NW. }
  split; [|split; [exact RV|]].
  - constructor.
    + split; [exact Hl|]. split; [exact Fl|]. exists ms, K. split; [exact EV|]. split; [exact AL|]. apply RD. reflexivity.
    + exists ms, K, (vals cfs'). split; [exact EV|]. split; [exact AL|]. split; [exact FV|]. destruct reset.
      * right. split; [apply Hr; reflexivity|]. destruct (HRs eq_refl) as (rs & R1 & R2 & R3). exists rs. split; [|exact R2]. intros d Hd. split; [exact (proj1 (Forall_forall _ _) R1 d Hd)|apply R3; exact Hd].
      * left. destruct (HRm eq_refl) as (keep & R1 & R2 & R3 & R4). exists keep. auto.
    + split; [apply TO|]. split; [apply TO|]. split; [apply TO|]. split; [apply TO|]. split; [apply TO|]. split; [exact SM|]. exact VO.
  - intros ->. exists ms, K, (vals cfs'). split; [exact EV|]. split; [exact AL|]. split; [exact FV|]. destruct (HRm eq_refl) as (keep & R1 & R2 & R3 & R4). exists keep. auto.
Qed.
Lemma clean_step w l reset clean : sound (unflagged w) -> on_top w -> (l < List.length (layers w))%nat -> flagged w l -> (reset || clean)%bool = true -> (reset = true -> auto_reset (get_lay w l) = true) ->
  exists w' b, clean_layer w l reset clean = Some (Ok (w', b)) /\ (b = false /\ w' = w \/ b = true /\ tidied w l w' /\ sound (unflagged w') /\ on_top w' /\ revalued (unflagged w) (unflagged w') l).
Proof.
  intros S T Hl Fl Hrc Hr. destruct (T l Hl Fl) as (HP & HS). destruct (clean_tidied w l reset clean S HS Hl Fl Hrc Hr) as (w' & b & E & [G|(-> & TD & RV & _)]); exists w'; [exists b; split; [exact E|left; exact G]|]. exists true. split; [exact E|]. right. split; [reflexivity|]. split; [exact TD|].
  destruct (td_rest _ _ _ TD) as (EL & _ & _ & _ & _ & SM & VO).
  assert (Hl' : (l < List.length (layers (unflagged w)))%nat) by (rewrite lays_unflagged; exact Hl).
  assert (HP' : forall i, In i (factors (get_lay (unflagged w) l)) -> parents (get_mat (unflagged w) i) = []) by (rewrite get_lay_unflagged; exact HP).
  split; [exact (sound_revalued _ _ _ S Hl' HP' RV)|split; [|exact RV]].
  apply (revalued_on_top w w' SM EL); [|exact T]. intros k Hk. assert (Hk' : (k < List.length (layers (unflagged w)))%nat) by (rewrite lays_unflagged; exact Hk). pose proof (so_layer _ S k Hk') as (G & _). cbv zeta in G. rewrite get_lay_unflagged in G. apply VO; [exact G|]. intros C. apply (top_child (unflagged w) l k (child (get_lay w k)) S Hl' HP' Hk'); [rewrite get_lay_unflagged; exact C|rewrite get_lay_unflagged; reflexivity].
Qed.
