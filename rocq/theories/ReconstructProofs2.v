(** C93: what tensorm_reconstruct returns. *)
From Coq Require Import String Lra Lia.
From Verif Require Import Base BaseLemmas BaseR BaseRLemmas Spec SpecR SpecF SpecOut Canon Fuzzy FuzzyProofs MaxMachine Machine Dispatch DispatchProofs Inference LayerOutput LayerOutputProofs Predict SpecMachine SpecOrdinary SpecPass SpecPredict
  MachineProofs MachineProofs2 BuiltProofs InferenceProofs InferenceProofs2 PlainProofs OrdinaryProofs OrdinaryProofs2 OrdinaryProofs3 OrdinaryProofs4 OrdinaryProofs6 OrdinaryProofs7 PassProofs PredictProofs UnbiasedProofs Experiments SpecExperiments ExperimentProofs ExperimentProofs2 ExperimentProofs3 ExperimentProofs4 Reconstruct SpecReconstruct ReconstructProofs.
Local Open Scope R_scope.

Lemma tensorm_settings_ok : usable tensorm_settings.
Proof. unfold usable, tensorm_settings; cbn; repeat split; lia. Qed.
Lemma tensorm_fuel : (enough tensorm_settings <= 2002)%nat.
Proof. apply Nat.leb_le. reflexivity. Qed.
(** The machine on which inference is run. *)
Lemma tensorm_machine o arrs clk s L X : random o -> training_data arrs s X -> data_ok X -> (matrix2 X -> small X) ->
  exists w1 w, add_matrix o (World arrs [] [] [] false clk) s None (FBool true) = Ok w1 /\ add_layer o w1 L (Some 0%nat) None "OR-AND" = (w, Ok tt) /\
    ordinary o w /\ one_layer_machine w X "OR-AND" L (5 / 100) false /\ (exists fs, arrays w = stored_arrays arrs s ++ fs) /\
    forall i, is_factor w i -> (List.length (stored_arrays arrs s) <= val (get_mat w i))%nat.
Proof.
  intros Hr HT HD Hsm. destruct (set_up o arrs clk s L "OR-AND" "OR-AND" false false X HT HD Hsm eq_refl) as (w1 & w & E1 & E2 & O2 & L2 & AN & FR & V0 & LM & (fs & AR & _) & F0 & B0 & _ & HK); [cbn; auto 10|]. cbv zeta in *.
  exists w1, w. split; [exact E1|]. split; [exact E2|]. split; [exact O2|]. set (n := List.length (shape_of X)) in *.
  assert (GL : get_lay w 0 = Lay (seq 1 n) 0 "OR-AND" (Par (LS (5 / 100)) false (1, 1) None) None None None 1 false false false false) by (unfold get_lay; rewrite L2; reflexivity).
  split; [|split].
  - unfold one_layer_machine. fold n. unfold disp. rewrite !GL, L2. cbn [child factors model lbda lv lfixed List.length]. split; [exact V0|]. split; [exact F0|]. split; [exact LM|]. do 6 (split; [reflexivity|]). split; [exact AN|].
    intros k Hk. destruct (HK k Hk) as (H1 & _ & _ & _ & H5). split; [exact H1|exact H5].
  - exists fs. exact AR.
  - intros i (l & Hl & Hi). rewrite L2 in Hl. cbn in Hl. assert (l = 0%nat) by lia. subst l. rewrite GL in Hi. cbn [factors] in Hi. apply in_seq in Hi. destruct i as [|k]; [lia|]. destruct (HK k ltac:(lia)) as (_ & _ & H3 & _). cbn [Nat.add] in H3. lia.
Qed.
(** Inference on it. *)
Lemma tensorm_run o arrs clk s L X : random o -> training_data arrs s X -> data_ok X -> (matrix2 X -> small X) -> forall fuel, (2002 <= fuel)%nat ->
  exists w1 w st, add_matrix o (World arrs [] [] [] false clk) s None (FBool true) = Ok w1 /\ add_layer o w1 L (Some 0%nat) None "OR-AND" = (w, Ok tt) /\
    ordinary o w /\ one_layer_machine w X "OR-AND" L (5 / 100) false /\ infer fuel o tensorm_settings 50 (fresh_state w) = Some (Ok st) /\
    firstn (List.length arrs) (arrays (wd st)) = arrs /\ factors (get_lay (wd st) 0) = seq 1 (List.length (shape_of X)).
Proof.
  intros Hr HT HD Hsm fuel Hf. destruct (tensorm_machine o arrs clk s L X Hr HT HD Hsm) as (w1 & w & E1 & E2 & HO & HM & (fs & AR) & HV).
  pose proof HM as (M1 & M2 & M3 & M4 & M5 & M6 & M7 & M8 & M9 & M10 & M11).
  assert (AN : annealable tensorm_settings w) by (intros Ha _; rewrite M10 in Ha; discriminate Ha).
  pose proof (ordinary_sound _ _ Hr HO) as S. destruct (infer_ok_lemma fuel o tensorm_settings 50 (fresh_state w) (proj1 Hr) tensorm_settings_ok (so_wf _ S) (so_plain _ S) AN ltac:(pose proof tensorm_fuel; lia)) as (st & E & _).
  exists w1, w, st. do 5 (split; [assumption|]). destruct (run_frame fuel o tensorm_settings 50 (fresh_state w) st Hr HO E) as (R1 & R2 & R3). change (wd (fresh_state w)) with w in *. destruct (R3 0%nat) as (R4 & _). split; [|rewrite R4; exact M6].
  assert (LA : (List.length arrs <= List.length (stored_arrays arrs s))%nat) by (unfold stored_arrays; destruct s; rewrite ?app_length; lia).
  assert (FA : firstn (List.length arrs) (arrays (wd st)) = firstn (List.length arrs) (arrays w)).
  { apply (prefix_same (A2 [])); [rewrite AR, app_length; lia|exact R1|]. intros a Ha. apply (R2 a). intros i Hi C. specialize (HV i Hi). lia. }
  rewrite FA, AR. unfold stored_arrays. destruct s; rewrite <- ?app_assoc, firstn_app, Nat.sub_diag, firstn_O, app_nil_r; apply firstn_all.
Qed.

Lemma votes_mean V n N K r c : (1 <= n)%nat -> (forall j, (j < n)%nat -> okmat N K (V j)) -> (r < N)%nat -> (c < K)%nat ->
  (vote V n r c = 1%Z <-> 0 < Rsum (fun j => IZR (at2 (V j) r c)) (seq 0 n) / INR n).
Proof.
  intros H1 HO Hr Hc. assert (Hp : 0 < INR n) by (apply lt_0_INR; lia).
  assert (G : Rsum (fun j => IZR (at2 (V j) r c)) (seq 0 n) = 2 * INR (List.length (filter (fun j => at2 (V j) r c =? 1)%Z (seq 0 n))) - INR n).
  { clear H1 Hp. induction n as [|n IH]; [cbn; lra|]. rewrite List.seq_S, Rsum_app, filter_app, app_length, plus_INR. rewrite IH by (intros j Hj; apply HO; lia). cbn [Nat.add Rsum map fold_right filter]. destruct (HO n ltac:(lia)) as ((O1 & O2) & O3).
    assert (B : pm1 (at2 (V n) r c)) by (apply (bin2_at (V n) N K); [split; assumption|exact O3|exact Hr|exact Hc]). rewrite S_INR. destruct B as [B|B]; rewrite B; cbn; lra. }
  rewrite G. unfold vote. set (m := List.length _). assert (Q : 0 < (2 * INR m - INR n) / INR n <-> (n < 2 * m)%nat).
  { split; intros H.
    - apply INR_lt. rewrite mult_INR. cbn [INR]. assert (0 < (2 * INR m - INR n) / INR n * INR n) by (apply Rmult_lt_0_compat; assumption). replace ((2 * INR m - INR n) / INR n * INR n) with (2 * INR m - INR n) in H0 by (field; lra). lra.
    - apply lt_INR in H. rewrite mult_INR in H. cbn [INR] in H. apply Rmult_lt_0_compat; [lra|apply Rinv_0_lt_compat; exact Hp]. }
  rewrite Q. destruct (Nat.ltb_spec n (2 * m)) as [Hb|Hb]; split; intros; try lia; try reflexivity.
Qed.

Lemma map_seq_nth {A B} (f : A -> B) (l : list A) d : map (fun j => f (nth j l d)) (seq 0 (List.length l)) = map f l.
Proof. apply nth_ext with (d := f d) (d' := f d); rewrite !map_length, ?seq_length; [reflexivity|]. intros j Hj. rewrite (nth_indep _ _ (f (nth 0 l d))) by (rewrite map_length, seq_length; exact Hj). rewrite (map_nth (fun j => f (nth j l d))), seq_nth, map_nth by exact Hj. reflexivity. Qed.
Lemma majority_mean f tr n N K r c : f_trace f = Some tr -> List.length tr = n -> (1 <= n)%nat -> (forall j, (j < n)%nat -> okmat N K (nth j tr [])) -> (r < N)%nat -> (c < K)%nat ->
  (majority tr r c = true <-> 0 < rat2 (factor_mean f) r c).
Proof.
  intros E Hn H1 HO Hr Hc. rewrite (mean_entry f tr n N K r c E Hn H1 HO Hr Hc). rewrite <- (votes_mean (fun j => nth j tr []) n N K r c H1 HO Hr Hc). unfold majority, vote. rewrite Hn.
  assert (G : List.length (filter (fun m => at2 m r c =? 1)%Z tr) = List.length (filter (fun j => at2 (nth j tr []) r c =? 1)%Z (seq 0 n))).
  { rewrite <- (filter_map_length (fun j => nth j tr []) (fun m => at2 m r c =? 1)%Z (seq 0 n)). rewrite <- Hn. rewrite (map_seq_nth (fun m => m) tr []), map_id. reflexivity. }
  rewrite G. destruct (Nat.ltb _ _); split; intros H; try reflexivity; discriminate.
Qed.
Lemma some_inj {A} (a b : A) : Some a = Some b -> a = b.
Proof. intros H. injection H. auto. Qed.

Lemma C93_lemma argsort o arrs clk s X L h0 h1 hs : random o -> training_data arrs s X -> rectangular X -> zero_one X \/ ternary X -> List.length (shape_of X) = 3%nat -> (forall n, In n (shape_of X) -> (0 < n)%nat) ->
  let shape := shape_of X in forall fuel, (2002 <= fuel)%nat -> exists w D st Xr means Xp,
    factorised X D /\ ordinary o w /\ one_layer_machine w D (model_name OR AND) L (5 / 100) false /\ infer fuel o tensorm_settings 50 (fresh_state w) = Some (Ok st) /\
    tensorm_reconstruct argsort fuel o arrs clk s L (h0 :: h1 :: hs) = Some (Ok (arrs, (Xr, means, Xp))) /\ List.length means = 3%nat /\
    (forall k row c, (k < 3)%nat -> (row < nth k shape 0)%nat -> (c < L)%nat -> rat2 (nth k means []) row c = Rsum (fun j => IZR (at2 (nth k (recorded (factors (get_lay w 0)) j st) []) row c)) (seq 0 50) / 50) /\
    all_entries Xr shape (fun idx x => is_prob OR AND 3 L (fun k c => (1 + rat2 (nth k means []) (nth k idx 0%nat) c) / 2) x) /\
    all_entries Xp shape (fun idx x => let some := exists c, (c < L)%nat /\ forall k, (k < 3)%nat -> 0 < rat2 (nth k means []) (nth k idx 0%nat) c in (some -> x = 1) /\ (~ some -> x = 0)).
Proof.
  intros Hr HT HR HX H3 Hpos shape fuel Hf. destruct (prepared_data arrs s X HT HR HX) as (D & HF & HD & SD & HTD). fold shape in SD, H3, Hpos.
  assert (Hsm : matrix2 D -> small D) by (intros (m & ->); cbn in SD; rewrite <- SD in H3; discriminate H3).
  destruct (tensorm_run o arrs clk (prepared arrs s) L D Hr HTD HD Hsm fuel Hf) as (w1 & w & st & E1 & E2 & HO & HM & E & FA & FF). rewrite SD, H3 in FF.
  pose proof HM as (M1 & M2 & M3 & M4 & M5 & M6 & M7 & M8 & M9 & M10 & M11). rewrite SD, H3 in M6, M11. pose proof (ordinary_sound _ _ Hr HO) as S. assert (Hl : (0 < List.length (layers w))%nat) by lia.
  assert (Hfx : forall i, In i (factors (get_lay w 0)) -> fixed (get_mat w i) = FBool false). { intros i Hi. rewrite M6 in Hi. apply in_seq in Hi. destruct i as [|k]; [lia|]. apply M11. lia. }
  destruct (view_sampled fuel o tensorm_settings 50 (fresh_state w) st 0 Hr S (proj1 tensorm_settings_ok) E Hl ltac:(lia) Hfx M9) as (ms & ls & W & K & _ & _ & Wn & _ & SA & EMo & ES & TR & EF & OK). change (wd (fresh_state w)) with w in *.
  rewrite M5, M1, SD in ES, OK. rewrite M6 in TR, EF, OK. rewrite M7 in EMo. rewrite seq_length in OK.
  assert (HN : forall k, (k < 3)%nat -> (0 < nth k shape 0)%nat) by (intros k Hk; apply Hpos, nth_In; lia).
  assert (EK : K = L).
  { assert (Hin : In 1%nat (factors (get_lay w 0))) by (rewrite M6; cbn; auto). destruct (factor_trace fuel o tensorm_settings 50 (fresh_state w) st 0 1 Hr S (proj1 tensorm_settings_ok) E Hl Hin (Hfx _ Hin)) as (t & T1 & T2 & T3). specialize (T3 0%nat ltac:(lia)). change (wd (fresh_state w)) with w in T3.
    destruct (M11 0%nat ltac:(lia)) as (_ & m & Em & Hm). unfold matrix_of in T3. rewrite Em in T3. destruct (okmat_dims _ _ _ Hm) as (_ & Q1 & [Q2|Q2]); [specialize (HN 0%nat ltac:(lia)); lia|]. rewrite <- Q1, <- Q2 in T3.
    specialize (TR 1%nat ltac:(cbn; auto)). cbn [factor_view f_trace] in TR. rewrite T1 in TR. cbn [option_map] in TR. injection TR as TR. apply (f_equal (fun l => nth 0 l [])) in TR. change ([] : mat) with (matrix_in None) in TR at 1. rewrite map_nth in TR. cbn [seq map nth] in TR. rewrite TR in T3.
    specialize (OK 0%nat 1%nat ltac:(lia) ltac:(lia)). cbn [seq nth] in OK. specialize (HN 0%nat ltac:(lia)). destruct (okmat_cols _ _ _ OK) as (Q3 & [Q4|Q4]); [lia|]. destruct (okmat_cols _ _ _ T3) as (Q5 & [Q6|Q6]); [lia|]. congruence. }
  subst K.
  assert (TRK : forall k, (k < 3)%nat -> exists tr, f_trace (factor_view st (Datatypes.S k)) = Some tr /\ List.length tr = 50%nat /\ forall j, (j < 50)%nat -> okmat (nth k shape 0%nat) L (nth j tr []) /\ nth j tr [] = nth k (recorded (factors (get_lay w 0)) j st) []).
  { intros k Hk. assert (Hin : In (Datatypes.S k) (seq 1 3)) by (apply in_seq; lia). specialize (TR _ Hin). eexists. split; [exact TR|]. split; [rewrite map_length, seq_length; reflexivity|]. intros j Hj.
    assert (EN : nth j (map (fun j => matrix_of (W (Datatypes.S j)) (Datatypes.S k)) (seq 0 50)) [] = matrix_of (W (Datatypes.S j)) (Datatypes.S k)) by (rewrite (nth_indep _ [] (matrix_of (W 1%nat) (Datatypes.S k))) by (rewrite map_length, seq_length; exact Hj); rewrite (map_nth (fun j => matrix_of (W (Datatypes.S j)) (Datatypes.S k)) (seq 0 50) 0%nat), seq_nth by exact Hj; reflexivity).
    split; [rewrite EN; specialize (OK k (Datatypes.S j) Hk ltac:(lia)); rewrite seq_nth in OK by exact Hk; exact OK|].
    cbn [factor_view f_trace] in TR. destruct (mtr st (Datatypes.S k)) as [t|] eqn:Et; [|discriminate TR]. cbn [option_map] in TR. apply some_inj in TR. rewrite <- TR. change ([] : mat) with (matrix_in None) at 1. rewrite map_nth.
    rewrite M6. unfold recorded. destruct k as [|[|[|k]]]; [| | |lia]; cbn [seq map nth]; rewrite Et; reflexivity. }
  assert (SV : shape = [nth 0 shape 0%nat; nth 1 shape 0%nat; nth 2 shape 0%nat]) by (destruct shape as [|a [|b [|c [|]]]]; cbn in H3; try discriminate; reflexivity).
  assert (IM : is_model (layer_view st 0) OR AND) by (left; exact EMo).
  assert (FS : fuzzy_supported (layer_view st 0) OR AND) by (unfold fuzzy_supported; right; rewrite EF, map_length, seq_length; auto).
  destruct (C22_mean_lemma argsort _ OR AND L 50 SA IM FS) as (Xr & E4 & H4). destruct (C23_lemma argsort _ OR AND L 50 SA IM) as (_ & _ & (Xp & votes & E5 & HV & H5) & _). rewrite ES in H4, H5. rewrite EF, map_length, seq_length in H4. rewrite EF in HV.
  set (means := map (fun i => factor_mean (factor_view st i)) [1; 2; 3]%nat). exists w, D, st, Xr, means, Xp. split; [exact HF|]. split; [exact HO|]. split; [exact HM|]. split; [exact E|].
  assert (EMN : forall k, (k < 3)%nat -> nth k means [] = factor_mean (factor_view st (Datatypes.S k))) by (intros [|[|[|k]]] Hk; try lia; reflexivity).
  split; [|split; [|split; [|split]]].
  - unfold tensorm_reconstruct. rewrite E1, E2, E. unfold layer_output. rewrite E4. cbn [bind]. rewrite E5. cbn [bind]. rewrite FF. cbn [seq]. rewrite FA. reflexivity.
  - reflexivity.
  - intros k row c Hk Hrow Hc. rewrite EMN by exact Hk. destruct (TRK k Hk) as (tr & T1 & T2 & T3). rewrite (mean_entry _ tr 50 (nth k shape 0%nat) L row c T1 T2 ltac:(lia)); [|intros j Hj; apply T3, Hj|exact Hrow|exact Hc]. replace (INR 50) with 50 by (rewrite INR_IZR_INZ; reflexivity). f_equal. apply Rsum_ext. intros j Hj. apply in_seq in Hj. destruct (T3 j ltac:(lia)) as (_ & ->). reflexivity.
  - destruct H4 as (H4 & H4'). split; [exact H4|]. intros idx Hidx. destruct (H4' idx Hidx) as (x & G1 & G2). exists x. split; [exact G1|]. unfold is_prob in *. eapply is_expect_ext; [|exact G2]. intros k c Hk Hc. cbn beta.
    assert (Hk' : (nth k idx 0 < nth k shape 0)%nat). { clear - Hidx Hk H3. rewrite <- H3 in Hk. clear H3. revert k Hk. induction Hidx as [|x y l l' H1 H2 IH]; intros k Hk; [cbn in Hk; lia|]. destruct k as [|k]; [exact H1|]. cbn in Hk. apply IH. lia. }
    destruct (TRK k Hk) as (tr & T1 & T2 & T3). rewrite (nth_indep _ _ (factor_view st 0%nat)) by (rewrite map_length, seq_length; exact Hk). rewrite map_nth, seq_nth, EMN by exact Hk. cbn [Nat.add].
    rewrite (frequency_mean _ tr 50 (nth k shape 0%nat) L _ _ T1 T2 ltac:(lia)); [|intros j Hj; apply T3, Hj|exact Hk'|exact Hc]. reflexivity.
  - destruct H5 as (H5 & H5'). split; [exact H5|]. intros idx Hidx. destruct (H5' idx Hidx) as (x & G1 & G2). exists x. split; [exact G1|]. cbv zeta.
    assert (Q : lom_true OR AND (selected votes idx) L <-> exists c, (c < L)%nat /\ forall k, (k < 3)%nat -> 0 < rat2 (nth k means []) (nth k idx 0%nat) c).
    { assert (LI : List.length idx = 3%nat) by (rewrite (Forall2_length _ _ _ Hidx); exact H3). assert (LV : List.length votes = 3%nat) by (rewrite <- (Forall2_length _ _ _ HV), map_length; apply seq_length).
      assert (LS' : List.length (selected votes idx) = 3%nat) by (unfold selected; rewrite map_length, combine_length; lia).
      assert (EV : forall k c, (k < 3)%nat -> (c < L)%nat -> nth c (nth k (selected votes idx) []) 0%Z = 1%Z <-> 0 < rat2 (nth k means []) (nth k idx 0%nat) c).
      { intros k c Hk Hc. assert (Hk' : (nth k idx 0 < nth k shape 0)%nat). { clear - Hidx Hk H3. rewrite <- H3 in Hk. clear H3. revert k Hk. induction Hidx as [|x y l l' H1 H2 IH]; intros k Hk; [cbn in Hk; lia|]. destruct k as [|k]; [exact H1|]. cbn in Hk. apply IH. lia. }
        assert (EN : nth k (selected votes idx) [] = nth (nth k idx 0%nat) (nth k votes []) []). { unfold selected. set (g := fun p => _). rewrite (nth_indep _ _ (g ([], 0%nat))) by (rewrite map_length, combine_length; unfold mat, vec in *; lia). rewrite map_nth, combine_nth by (unfold mat, vec in *; lia). reflexivity. }
        rewrite EN. destruct (TRK k Hk) as (tr & T1 & T2 & T3).
        assert (MV : majority_of (factor_view st (Datatypes.S k)) (nth k votes []) L). { clear - HV Hk. cbn [seq map] in HV. inversion HV as [|? ? ? ? V1 HV1]; subst. inversion HV1 as [|? ? ? ? V2 HV2]; subst. inversion HV2 as [|? ? ? ? V3 HV3]; subst. destruct k as [|[|[|k]]]; try lia; assumption. }
        destruct MV as (V1 & V2 & V3). assert (LF : List.length (f_val (factor_view st (Datatypes.S k))) = nth k shape 0%nat). { specialize (OK k 50%nat Hk ltac:(lia)). rewrite seq_nth in OK by exact Hk. rewrite Wn in OK. destruct OK as ((O1 & _) & _). exact O1. }
        change (at2 (nth k votes []) (nth k idx 0%nat) c = 1%Z <-> 0 < rat2 (nth k means []) (nth k idx 0%nat) c). rewrite V3; [|lia|exact Hc]. rewrite T1, EMN by exact Hk. rewrite <- (majority_mean _ tr 50 (nth k shape 0%nat) L _ _ T1 T2 ltac:(lia)); [|intros j Hj; apply T3, Hj|exact Hk'|exact Hc]. destruct (majority tr _ c); split; intros; try reflexivity; discriminate. }
      unfold lom_true, lop_holds. rewrite LS'. split; intros (c & Hc & H); exists c; (split; [exact Hc|]); intros k Hk; apply (EV k c Hk Hc), H, Hk. }
    rewrite <- Q. exact G2.
Qed.
