(** C85, C86: what an experiment returns and what it does to the arrays of the caller. *)
From Coq Require Import String Lra Lia.
From Verif Require Import Base BaseLemmas BaseR BaseRLemmas Spec SpecR SpecF SpecOut Canon Fuzzy FuzzyProofs MaxMachine Machine Dispatch DispatchProofs Inference LayerOutput LayerOutputProofs Predict SpecMachine SpecOrdinary SpecPass SpecPredict
  MachineProofs MachineProofs2 BuiltProofs InferenceProofs PlainProofs OrdinaryProofs OrdinaryProofs2 OrdinaryProofs3 OrdinaryProofs4 OrdinaryProofs6 OrdinaryProofs7 PassProofs PredictProofs UnbiasedProofs Experiments SpecExperiments ExperimentProofs ExperimentProofs2.
Local Open Scope R_scope.

(** * What a run changes *)
Lemma explained_frame outs o evs w w' : explained outs o evs w w' -> mats w' = mats w /\ List.length (arrays w') = List.length (arrays w) /\
  (forall a, (forall i, In (EMat i) evs -> val (get_mat w i) <> a) -> get_arr w' a = get_arr w a) /\
  forall l, factors (get_lay w' l) = factors (get_lay w l) /\ child (get_lay w' l) = child (get_lay w l) /\ model (get_lay w' l) = model (get_lay w l) /\ invert_data (get_lay w' l) = invert_data (get_lay w l).
Proof.
  assert (AS : forall u l x, mats (assign_disp u l x) = mats u /\ arrays (assign_disp u l x) = arrays u /\ forall k, factors (get_lay (assign_disp u l x) k) = factors (get_lay u k) /\ child (get_lay (assign_disp u l x) k) = child (get_lay u k) /\ model (get_lay (assign_disp u l x) k) = model (get_lay u k) /\ invert_data (get_lay (assign_disp u l x) k) = invert_data (get_lay u k)).
  { intros u l x. split; [reflexivity|]. split; [reflexivity|]. intros k. unfold assign_disp. rewrite get_lay_set. destruct (Nat.eqb_spec k l) as [->|Hk]; [|repeat split]. destruct (Nat.ltb _ _); repeat split. }
  intros HX. induction HX as [w|evs w w1 H IH|evs w w1 i w2 H IH G|evs w w1 l v w2 H IH G|evs w w1 l win H IH|evs w w1 l x H IH].
  - repeat split.
  - destruct IH as (I1 & I2 & I3 & I4). split; [exact I1|]. split; [exact I2|]. split; [|exact I4]. intros a Ha. change (get_arr (tick w1) a) with (get_arr w1 a). apply I3. intros i Hi. apply Ha, in_or_app. auto.
  - destruct IH as (I1 & I2 & I3 & I4). destruct G as (A & F & N & L & _ & _ & _ & ->). split; [exact I1|]. split; [cbn; rewrite upd_length; exact I2|]. split; [|exact I4]. intros a Ha.
    transitivity (get_arr w1 a); [|apply I3; intros j Hj; apply Ha, in_or_app; auto]. unfold put, get_arr, write, tick, set_arrays. cbn [arrays]. apply nth_upd_other. specialize (Ha i). unfold get_mat in *. rewrite I1. intros EE. symmetry in EE. revert EE. apply Ha. apply in_or_app. right. left. reflexivity.
  - destruct IH as (I1 & I2 & I3 & I4). destruct G as (x & _ & -> & _). destruct (AS w1 l v) as (A1 & A2 & A3). split; [rewrite A1; exact I1|]. split; [rewrite A2; exact I2|]. split.
    + intros a Ha. unfold get_arr at 1. rewrite A2. apply I3. intros i Hi. apply Ha, in_or_app. auto.
    + intros k. destruct (A3 k) as (B1 & B2 & B3 & B4). rewrite B1, B2, B3, B4. apply I4.
  - destruct IH as (I1 & I2 & I3 & I4). split; [exact I1|]. split; [exact I2|]. split; [|exact I4]. intros a Ha. apply I3. intros i Hi. apply Ha, in_or_app. auto.
  - destruct IH as (I1 & I2 & I3 & I4). destruct (AS w1 l (LS x)) as (A1 & A2 & A3). split; [rewrite A1; exact I1|]. split; [rewrite A2; exact I2|]. split.
    + intros a Ha. unfold get_arr at 1. rewrite A2. apply I3. intros i Hi. apply Ha, in_or_app. auto.
    + intros k. destruct (A3 k) as (B1 & B2 & B3 & B4). rewrite B1, B2, B3, B4. apply I4.
Qed.
Lemma strip_frame w w1 : strip w1 = strip w -> arrays w1 = arrays w /\ (forall i, val (get_mat w1 i) = val (get_mat w i)) /\
  forall l, factors (get_lay w1 l) = factors (get_lay w l) /\ child (get_lay w1 l) = child (get_lay w l) /\ model (get_lay w1 l) = model (get_lay w l) /\ invert_data (get_lay w1 l) = invert_data (get_lay w l).
Proof.
  unfold strip. intros E. injection E as E1 E2 E3 _ _ _. split; [exact E1|]. split.
  - intros i. unfold get_mat. set (g := fun m => with_sfct m None) in *. assert (H : g (nth i (mats w1) no_matrix) = g (nth i (mats w) no_matrix)) by (rewrite <- !(map_nth g); f_equal; exact E2). exact (f_equal val H).
  - intros l. unfold get_lay. set (g := fun y => with_lbda y (with_lsfct (lbda y) None)) in *. assert (H : g (nth l (layers w1) no_layer) = g (nth l (layers w) no_layer)) by (rewrite <- !(map_nth g); f_equal; exact E3).
    split; [exact (f_equal factors H)|]. split; [exact (f_equal child H)|]. split; [exact (f_equal model H)|exact (f_equal invert_data H)].
Qed.
Lemma run_frame fuel o cfg n s s' : random o -> ordinary o (wd s) -> infer fuel o cfg n s = Some (Ok s') -> List.length (arrays (wd s')) = List.length (arrays (wd s)) /\
  (forall a, (forall i, is_factor (wd s) i -> val (get_mat (wd s) i) <> a) -> get_arr (wd s') a = get_arr (wd s) a) /\
  forall l, factors (get_lay (wd s') l) = factors (get_lay (wd s) l) /\ child (get_lay (wd s') l) = child (get_lay (wd s) l) /\ model (get_lay (wd s') l) = model (get_lay (wd s) l) /\ invert_data (get_lay (wd s') l) = invert_data (get_lay (wd s) l).
Proof.
  intros Hr HO E. destruct (run_ordinary the_outputs fuel o cfg n s s' the_outputs_ok Hr (ordinary_sound _ _ Hr HO) E) as (_ & w1 & evs & E1 & _ & EX & HF & _).
  destruct (strip_frame _ _ E1) as (S1 & S2 & S3). destruct (explained_frame _ _ _ _ _ EX) as (_ & X2 & X3 & X4). split; [rewrite X2, S1; reflexivity|]. split.
  - intros a Ha. rewrite X3; [unfold get_arr; rewrite S1; reflexivity|]. intros i Hi. rewrite S2. apply Ha. apply (HF i Hi).
  - intros l. destruct (X4 l) as (-> & -> & -> & ->). apply S3.
Qed.

(** * Settings of the experiment *)
Definition ready (w : world) (x : R) (an : bool) : world := let w3 := assign_disp w 0 (LS x) in if an then set_anneal w3 true else w3.
Lemma ready_adjusted w x an : sound w -> (forall i, (i < List.length (mats w))%nat -> (exists b, fixed (get_mat w i) = FBool b) /\ 0 < bprior (get_mat w i) < 1) -> adjusted w (ready w x an).
Proof.
  intros S HB. set (w' := ready w x an). assert (EM : mats w' = mats w) by (unfold w', ready; destruct an; reflexivity). assert (EA : arrays w' = arrays w) by (unfold w', ready; destruct an; reflexivity). assert (EF : free w' = free w) by (unfold w', ready; destruct an; reflexivity).
  assert (EL : layers w' = layers (assign_disp w 0 (LS x))) by (unfold w', ready; destruct an; reflexivity). clearbody w'.
  assert (GM : forall i, get_mat w' i = get_mat w i) by (intros; unfold get_mat; rewrite EM; reflexivity). assert (GV : forall i, value w' i = value w i) by (intros; unfold value, get_arr; rewrite GM, EA; reflexivity).
  assert (LL : List.length (layers w') = List.length (layers w)) by (rewrite EL; unfold assign_disp, set_lay, set_layers; cbn [layers]; apply upd_length).
  assert (GL : forall l, exists y, (y = lv (lbda (get_lay w l)) \/ y = LS x) /\ get_lay w' l = with_lbda (get_lay w l) (with_lv (lbda (get_lay w l)) y)).
  { intros l. assert (EG : get_lay w' l = get_lay (assign_disp w 0 (LS x)) l) by (unfold get_lay; rewrite EL; reflexivity). rewrite EG. unfold assign_disp. rewrite get_lay_set. destruct (_ && _)%bool eqn:EB.
    - apply andb_prop in EB. destruct EB as (EB & _). apply Nat.eqb_eq in EB. subst l. exists (LS x). split; [right; reflexivity|reflexivity].
    - exists (lv (lbda (get_lay w l))). split; [left; reflexivity|]. destruct (get_lay w l) as [? ? ? [? ? ? ?] ? ? ? ? ? ? ? ?]. reflexivity. }
  assert (GD : forall l, (l < List.length (layers w))%nat -> exists z, disp w' l = LS z).
  { intros l Hl. destruct (GL l) as (y & [Hy|Hy] & E); unfold disp; rewrite E; cbn [with_lbda lbda with_lv lv]; [|exists x; exact Hy]. rewrite Hy. apply (plain_disp _ (so_plain _ S) l Hl). }
  split; [|split; [|split; [|split; [|split]]]].
  - split; [rewrite EM; reflexivity|]. split; [unfold stored; rewrite EM, EA; exact (wf_stored _ (so_wf _ S))|]. split; [intros i; rewrite GM; auto|]. split; [exact LL|]. split; [|split; [|exact EF]].
    + intros l. destruct (GL l) as (y & _ & ->). cbn. auto.
    + intros l Hl. rewrite LL in Hl. destruct (GD l Hl) as (z & ->). cbn. lia.
  - intros i _. rewrite GV. auto.
  - intros i Hi. rewrite GM. destruct (HB i Hi) as (B1 & B2). auto 10.
  - intros i Hi. rewrite GM. apply (plain_data _ (so_plain _ S) i Hi).
  - intros i Hi. pose proof (so_own _ S i Hi) as HO. unfold own_array in *. rewrite EM. intros j Hj Hji. rewrite !GM. apply HO; assumption.
  - intros l Hl. destruct (plain_flags _ (so_plain _ S) l Hl) as (A1 & A2). destruct (so_layer _ S l Hl) as (_ & _ & _ & _ & _ & B1 & B2). split; [apply GD, Hl|]. destruct (GL l) as (y & _ & ->). cbn. auto 10.
Qed.

(** * Frequencies and means *)
Lemma frequency_mean f tr n N K r c : f_trace f = Some tr -> List.length tr = n -> (1 <= n)%nat -> (forall j, (j < n)%nat -> okmat N K (nth j tr [])) -> (r < N)%nat -> (c < K)%nat -> frequency f r c = (1 + rat2 (factor_mean f) r c) / 2.
Proof.
  intros E Hn H1 HO Hr Hc. rewrite (mean_entry f tr n N K r c E Hn H1 HO Hr Hc). unfold frequency. rewrite E, Hn. assert (Hp : INR n <> 0) by (apply not_0_INR; lia).
  assert (G : Rsum (fun j => IZR (at2 (nth j tr []) r c)) (seq 0 n) = 2 * INR (List.length (filter (fun m => at2 m r c =? 1)%Z tr)) - INR n).
  { clear H1 Hp E. revert n Hn HO. induction tr as [|m tr IH] using rev_ind; intros n Hn HO; [cbn in Hn; subst n; cbn; lra|]. rewrite app_length in Hn. cbn in Hn. rewrite Nat.add_1_r in Hn. subst n. rewrite List.seq_S, Rsum_app, filter_app, app_length, plus_INR.
    rewrite (Rsum_ext _ (fun j => IZR (at2 (nth j tr []) r c))) by (intros j Hj; apply in_seq in Hj; rewrite app_nth1 by lia; reflexivity). rewrite (IH (List.length tr) eq_refl) by (intros j Hj; specialize (HO j ltac:(lia)); rewrite app_nth1 in HO by lia; exact HO).
    cbn [Nat.add Rsum map fold_right]. rewrite nth_middle. specialize (HO (List.length tr) ltac:(lia)). rewrite nth_middle in HO. destruct HO as ((O1 & O2) & O3).
    assert (B : pm1 (at2 m r c)) by (apply (bin2_at m N K); [split; assumption|exact O3|exact Hr|exact Hc]). rewrite S_INR. cbn [filter]. destruct B as [B|B]; rewrite B; cbn; lra. }
  rewrite G. field. exact Hp.
Qed.
