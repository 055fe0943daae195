(** C85, C86: what an experiment returns and what it does to the arrays of the caller. *)
From Coq Require Import String Lra Lia.
From Verif Require Import Base BaseLemmas BaseR BaseRLemmas Spec SpecR SpecF SpecOut Canon Fuzzy FuzzyProofs MaxMachine Machine Dispatch DispatchProofs Inference LayerOutput LayerOutputProofs Predict SpecMachine SpecOrdinary SpecPass SpecPredict
  MachineProofs MachineProofs2 BuiltProofs InferenceProofs InferenceProofs2 PlainProofs OrdinaryProofs OrdinaryProofs2 OrdinaryProofs3 OrdinaryProofs4 OrdinaryProofs6 OrdinaryProofs7 PassProofs PredictProofs UnbiasedProofs Experiments SpecExperiments ExperimentProofs ExperimentProofs2 ExperimentProofs3.
Local Open Scope R_scope.

Lemma canon_implemented o i o' i' d f : canonise_name (model_name o i) = Ok (model_name o' i', d, f) -> In (o', i') implemented.
Proof. intros H. destruct o, i; vm_compute in H; injection H as H <- <-; destruct o', i'; try discriminate H; cbn; auto 10. Qed.
Lemma neg_shape_of inv X : shape_of (if inv : bool then neg_arr X else X) = shape_of X.
Proof. destruct inv; [apply neg_shape|reflexivity]. Qed.
(** The machine on which inference is run. *)
Lemma experiment_machine o arrs clk e m' inv invf X : random o -> training_data arrs (e_train e) X -> data_ok X -> (matrix2 X -> small X) -> canonise_name (e_model e) = Ok (m', inv, invf) -> In m' standard_models ->
  exists w1 w2, add_matrix o (World arrs [] [] [] false clk) (e_train e) None (FBool true) = Ok w1 /\ add_layer o w1 (e_latent e) (Some 0%nat) None (e_model e) = (w2, Ok tt) /\
    let w := ready w2 (e_lbda e) (e_anneal e) in
    ordinary o w /\ one_layer_machine w (if inv then neg_arr X else X) m' (e_latent e) (e_lbda e) (e_anneal e) /\ invert_data (get_lay w 0) = inv /\
    (exists fs, arrays w = (if inv then upd (stored_arrays arrs (e_train e)) (train_index arrs (e_train e)) (neg_arr X) else stored_arrays arrs (e_train e)) ++ fs) /\
    forall i, is_factor w i -> (List.length (stored_arrays arrs (e_train e)) <= val (get_mat w i))%nat.
Proof.
  intros Hr HT HD Hsm EC Hm. destruct (set_up o arrs clk (e_train e) (e_latent e) (e_model e) m' inv invf X HT HD Hsm EC Hm) as (w1 & w2 & E1 & E2 & O2 & L2 & AN & FR & V0 & LM & (fs & AR & _) & F0 & B0 & _ & HK). cbv zeta in *.
  exists w1, w2. split; [exact E1|]. split; [exact E2|]. set (n := List.length (shape_of X)) in *. set (w := ready w2 (e_lbda e) (e_anneal e)).
  assert (EM : mats w = mats w2) by (unfold w, ready; destruct (e_anneal e); reflexivity). assert (EA : arrays w = arrays w2) by (unfold w, ready; destruct (e_anneal e); reflexivity).
  assert (EL : layers w = [Lay (seq 1 n) 0 m' (Par (LS (e_lbda e)) false (1, 1) None) None None None 1 false false inv invf]).
  { unfold w, ready. assert (G : layers (assign_disp w2 0 (LS (e_lbda e))) = [Lay (seq 1 n) 0 m' (Par (LS (e_lbda e)) false (1, 1) None) None None None 1 false false inv invf]) by (unfold assign_disp, set_lay, set_layers, get_lay; cbn [layers]; rewrite L2; reflexivity). destruct (e_anneal e); exact G. }
  assert (GM : forall i, get_mat w i = get_mat w2 i) by (intros; unfold get_mat; rewrite EM; reflexivity). assert (GV : forall i, value w i = value w2 i) by (intros; unfold value, get_arr; rewrite GM, EA; reflexivity).
  assert (GL : get_lay w 0 = Lay (seq 1 n) 0 m' (Par (LS (e_lbda e)) false (1, 1) None) None None None 1 false false inv invf) by (unfold get_lay; rewrite EL; reflexivity).
  split.
  { eapply ord_adjust; [exact O2|]. apply ready_adjusted; [exact (ordinary_sound _ _ Hr O2)|]. intros i Hi. rewrite LM in Hi. destruct i as [|k]; [rewrite F0, B0; split; [eexists; reflexivity|lra]|]. destruct (HK k ltac:(lia)) as (H1 & H2 & _). cbn [Nat.add] in H1, H2. rewrite H1, H2. split; [eexists; reflexivity|lra]. }
  split.
  { unfold one_layer_machine. rewrite neg_shape_of. fold n. unfold disp. rewrite !GL, GV, GM, EM, EL. cbn [child factors model lbda lv lfixed List.length]. split; [exact V0|]. split; [exact F0|]. split; [exact LM|]. do 6 (split; [reflexivity|]). split; [unfold w, ready; destruct (e_anneal e); [reflexivity|exact AN]|].
    intros k Hk. rewrite GM, GV. destruct (HK k Hk) as (H1 & _ & _ & _ & H5). split; [exact H1|exact H5]. }
  split; [rewrite GL; reflexivity|]. split; [exists fs; rewrite EA; exact AR|].
  intros i (l & Hl & Hi). rewrite EL in Hl. cbn in Hl. assert (l = 0%nat) by lia. subst l. rewrite GL in Hi. cbn [factors] in Hi. apply in_seq in Hi. rewrite GM. destruct i as [|k]; [lia|]. destruct (HK k ltac:(lia)) as (_ & _ & H3 & _). cbn [Nat.add] in H3. lia.
Qed.
Lemma experiment_settings_ok an : usable (experiment_settings an).
Proof. destruct an; unfold usable, experiment_settings; cbn; repeat split; lia. Qed.

Lemma experiment_fuel an : (enough (experiment_settings an) <= 1002)%nat.
Proof. apply Nat.leb_le. destruct an; reflexivity. Qed.

(** The accuracy computed from the canonical model. *)
Lemma accuracy_rate shape mask truth inv out : ndR_has_shape out shape -> List.length mask = fold_right Nat.mul 1%nat shape -> List.length truth = fold_right Nat.mul 1%nat shape ->
  (forall idx, In idx (indices shape) -> nth (position shape idx) mask false = true -> at1 truth (position shape idx) = 1%Z \/ at1 truth (position shape idx) = (-1)%Z) ->
  exists ps xs, masked mask (ndR_entries out) = Ok ps /\ masked mask truth = Ok xs /\
    agreement (map (fun x => Rltb (5 / 10) x) ps) (map (fun x => ((-2 * (if inv : bool then 1 else 0) + 1) * x =? 1)%Z) xs) =
    rate shape mask truth (if inv then 1 else -1)%Z (fun idx => let v := match ndR_get out idx with Some x => x | None => 0 end in if inv then 1 - v else v).
Proof.
  intros HO Hm Ht HB. rewrite (entries_get shape out HO). do 2 eexists. split; [apply masked_map, Hm|]. split; [etransitivity; [exact (f_equal (masked mask) (vec_by_index shape truth Ht))|apply masked_map, Hm]|].
  set (g := fun idx => match ndR_get out idx with Some x => x | None => 0 end). unfold rate, agreement. set (held := filter (fun idx => nth (position shape idx) mask false) (indices shape)). rewrite !map_map.
  assert (HL : forall A B (f : list nat -> A) (h : list nat -> B), List.length (map (fun p : A * B => p) (combine (map f held) (map h held))) = List.length held) by (intros; rewrite map_length, combine_length, !map_length; lia).
  assert (HC : map (fun p => Bool.eqb (fst p) (snd p)) (combine (map (fun x => Rltb (5 / 10) (g x)) held) (map (fun x => ((-2 * (if inv then 1 else 0) + 1) * at1 truth (position shape x) =? 1)%Z) held)) =
    map (fun idx => (at1 truth (position shape idx) =? predicted (if inv then 1 else -1) (if inv then 1 - g idx else g idx))%Z) held).
  { rewrite combine_map_both, map_map. apply map_ext_in. intros idx Hi. apply filter_In in Hi. destruct Hi as (H1 & H2). cbn [fst snd]. specialize (HB idx H1 H2). unfold predicted. replace (5 / 10) with (1 / 2) by lra.
    destruct HB as [->| ->], inv; cbn [Z.mul Z.add]; unfold Rltb; repeat destruct (Rlt_dec _ _); try reflexivity; exfalso; lra. }
  cbv beta in HC |- *. rewrite HC. clear HL HC.
  set (f := fun idx => _). assert (G : forall l : list (list nat), List.length (filter (fun x => x) (map f l)) = List.length (filter f l)) by (induction l as [|x l IH]; [reflexivity|]; cbn; destruct (f x); cbn; rewrite IH; reflexivity).
  rewrite G, map_length. destruct held; reflexivity.
Qed.

(** * The whole experiment *)
Lemma firstn_upd {A} (l r : list A) i x : firstn (List.length l) (upd l i x ++ r) = upd l i x.
Proof. rewrite firstn_app, upd_length, Nat.sub_diag, firstn_O, app_nil_r. rewrite <- (upd_length l i x). apply firstn_all. Qed.
Lemma prefix_same {A} (d : A) (a b : list A) n : (n <= List.length a)%nat -> List.length b = List.length a -> (forall i, (i < n)%nat -> nth i b d = nth i a d) -> firstn n b = firstn n a.
Proof.
  intros H1 H2 H. apply nth_ext with (d := d) (d' := d); [rewrite !firstn_length; lia|]. intros i Hi. rewrite firstn_length in Hi. rewrite <- (firstn_skipn n a) in H, H2 at 1. rewrite <- (firstn_skipn n b) in H. specialize (H i ltac:(lia)). rewrite !app_nth1 in H by (rewrite firstn_length, ?H2; lia). exact H.
Qed.
Definition arrays_after (arrs : list arr) (s : source) (inv : bool) (X : arr) : list arr := match s with Given a => if inv then upd arrs a (neg_arr X) else arrs | _ => arrs end.
Lemma experiment_lemma argsort o arrs clk e oo ii o' i' inv invf X : random o -> e_model e = model_name oo ii -> canonise_name (e_model e) = Ok (model_name o' i', inv, invf) ->
  training_data arrs (e_train e) X -> data_ok X -> (matrix2 X -> small X) -> matrix2 X \/ (o', i') = (OR, AND) -> (forall n, In n (shape_of X) -> (0 < n)%nat) ->
  let shape := shape_of X in
  List.length (e_mask e) = fold_right Nat.mul 1%nat shape -> List.length (e_truth e) = fold_right Nat.mul 1%nat shape ->
  (forall idx, In idx (indices shape) -> nth (position shape idx) (e_mask e) false = true -> at1 (e_truth e) (position shape idx) = 1%Z \/ at1 (e_truth e) (position shape idx) = (-1)%Z) ->
  (e_anneal e = true -> e_lbda e <> 0) ->
  forall fuel, (1002 <= fuel)%nat -> exists w s arrs' r p,
    ordinary o w /\ one_layer_machine w (if inv then neg_arr X else X) (model_name o' i') (e_latent e) (e_lbda e) (e_anneal e) /\
    infer fuel o (experiment_settings (e_anneal e)) 10 (fresh_state w) = Some (Ok s) /\
    LOM_predictive argsort fuel o arrs clk e = Some (Ok (arrs', clock (wd s), r)) /\ arrs' = arrays_after arrs (e_train e) inv X /\
    r_model r = e_model e /\ r_size r = e_latent e /\ List.length (r_means r) = List.length shape /\
    (forall k row c, (k < List.length shape)%nat -> (row < nth k shape 0)%nat -> (c < e_latent e)%nat ->
       rat2 (nth k (r_means r) []) row c = Rsum (fun j => IZR (at2 (nth k (recorded (factors (get_lay w 0)) j s) []) row c)) (seq 0 10) / 10) /\
    (forall idx, In idx (indices shape) -> is_prob oo ii (List.length shape) (e_latent e) (fun k c => let f := (1 + rat2 (nth k (r_means r) []) (nth k idx 0%nat) c) / 2 in if invf then 1 - f else f) (p idx)) /\
    accuracy r = rate shape (e_mask e) (e_truth e) (if inv then 1 else -1)%Z p.
Proof.
  intros Hr EM EC HT HD Hsm HX Hpos shape Lm Lt HB HA. rewrite EM in EC. pose proof (canon_implemented _ _ _ _ _ _ EC) as Himp. pose proof (implemented_standard _ _ Himp) as Hst.
  pose proof EC as EC'. rewrite <- EM in EC'. destruct (experiment_machine o arrs clk e (model_name o' i') inv invf X Hr HT HD Hsm EC' Hst) as (w1 & w2 & E1 & E2 & HO & HM & HI & (fs & AR) & HV).
  set (w := ready w2 (e_lbda e) (e_anneal e)) in *. set (cfg := experiment_settings (e_anneal e)). pose proof (experiment_settings_ok (e_anneal e)) as HU. fold cfg in HU.
  destruct HM as (M1 & M2 & M3 & M4 & M5 & M6 & M7 & M8 & M9 & M10 & M11). rewrite neg_shape_of in M3, M6, M11. fold shape in M3, M6, M11.
  assert (AN : annealable cfg w).
  { intros Ha _. rewrite M10 in Ha. split; [unfold cfg; rewrite Ha; reflexivity|]. intros l Hl _. assert (l = 0%nat) by lia. subst l. rewrite M8. intros C. injection C as C. exact (HA Ha C). }
  pose proof (ordinary_sound _ _ Hr HO) as S. intros fuel Hf. destruct (infer_ok_lemma fuel o cfg 10 (fresh_state w) (proj1 Hr) HU (so_wf _ S) (so_plain _ S) AN ltac:(pose proof (experiment_fuel (e_anneal e)); unfold cfg; lia)) as (s & E & _).
  assert (HOs : ordinary o (wd s)) by (eapply (ord_infer o fuel cfg 10 (fresh_state w)); [exact HO|exact E]). exists w, s. assert (Hl : (0 < List.length (layers w))%nat) by lia.
  assert (Hfx : forall i, In i (factors (get_lay w 0)) -> fixed (get_mat w i) = FBool false). { intros i Hi. rewrite M6 in Hi. apply in_seq in Hi. destruct i as [|k]; [lia|]. apply M11. lia. }
  destruct (view_sampled fuel o cfg 10 (fresh_state w) s 0 Hr S (proj1 HU) E Hl ltac:(lia) Hfx M9) as (ms & ls & W & K & _ & _ & Wn & _ & SA & EMo & ES & TR & EF & OK). change (wd (fresh_state w)) with w in *.
  rewrite M5, M1, neg_shape_of in ES, OK. fold shape in ES, OK. rewrite M6 in TR, EF, OK. rewrite M7 in EMo. rewrite seq_length in OK.
  destruct (run_frame fuel o cfg 10 (fresh_state w) s Hr HO E) as (R1 & R2 & R3). change (wd (fresh_state w)) with w in *. destruct (R3 0%nat) as (R4 & R5 & R6 & R7).
  assert (D0 : (0 < List.length shape)%nat /\ (0 < nth 0 shape 0)%nat). { unfold shape in *. destruct X; cbn in *; (split; [lia|]); apply Hpos; auto. } destruct D0 as (D0 & D0').
  assert (FT : forall k, (k < List.length shape)%nat -> exists t, mtr s (Datatypes.S k) = Some t /\ List.length (mcells t) = 10%nat /\ forall j, (j < 10)%nat -> okmat (nth k shape 0%nat) (e_latent e) (matrix_in (nth j (mcells t) None))).
  { intros k Hk. assert (Hin : In (Datatypes.S k) (factors (get_lay w 0))) by (rewrite M6; apply in_seq; lia). destruct (factor_trace fuel o cfg 10 (fresh_state w) s 0 (Datatypes.S k) Hr S (proj1 HU) E Hl Hin (Hfx _ Hin)) as (t & T1 & T2 & T3). exists t. split; [exact T1|]. split; [exact T2|]. intros j Hj. specialize (T3 j Hj).
    change (wd (fresh_state w)) with w in T3. destruct (M11 k Hk) as (_ & m & Em & Hm). unfold matrix_of in T3. rewrite Em in T3. destruct (okmat_dims _ _ _ Hm) as (_ & Q1 & [Q2|Q2]); [|rewrite Q1, Q2; exact T3]. exfalso. assert (0 < nth k shape 0)%nat by (apply Hpos, nth_In; exact Hk). lia. }
  assert (TR' : forall k, (k < List.length shape)%nat -> exists tr, f_trace (factor_view s (Datatypes.S k)) = Some tr /\ List.length tr = 10%nat /\ forall j, (j < 10)%nat -> okmat (nth k shape 0%nat) (e_latent e) (nth j tr []) /\ nth j tr [] = nth k (recorded (seq 1 (List.length shape)) j s) []).
  { intros k Hk. destruct (FT k Hk) as (t & T1 & T2 & T3). exists (map matrix_in (mcells t)). cbn [factor_view f_trace]. rewrite T1. split; [reflexivity|]. split; [rewrite map_length; exact T2|]. intros j Hj. change ([] : mat) with (matrix_in None). rewrite map_nth. split; [apply T3, Hj|].
    unfold recorded. set (g := fun i => _). change (matrix_in None) with (g (List.length (mcells t) + 0)%nat) || idtac. rewrite (nth_indep _ _ (g 0%nat)) by (rewrite map_length, seq_length; exact Hk). rewrite map_nth, seq_nth by exact Hk. unfold g. cbn [Nat.add]. rewrite T1. reflexivity. }
  assert (EK : K = e_latent e).
  { destruct (TR' 0%nat D0) as (tr & T1 & T2 & T3). destruct (T3 0%nat ltac:(lia)) as (T4 & _). rewrite (TR 1%nat) in T1 by (apply in_seq; lia). injection T1 as <-. cbn [seq map nth] in T4. specialize (OK 0%nat 1%nat D0 ltac:(lia)). rewrite seq_nth in OK by exact D0. cbn [Nat.add] in OK.
    destruct (okmat_cols _ _ _ OK) as (Q1 & [Q2|Q2]); [lia|]. destruct (okmat_cols _ _ _ T4) as (Q3 & [Q4|Q4]); [lia|]. congruence. }
  subst K.
  assert (IM : is_model (layer_view s 0) o' i') by (left; exact EMo).
  assert (FS : fuzzy_supported (layer_view s 0) o' i').
  { unfold fuzzy_supported. rewrite EF, map_length, seq_length. destruct HX as [HX|HX]; [left; split; [apply dims2; exact HX|exact Himp]|]. unfold shape. destruct X; [left; auto|right; auto]. }
  destruct (C22_mean_lemma argsort _ o' i' (e_latent e) 10 SA IM FS) as (out & E4 & H4 & H4'). rewrite ES in H4, H4'. rewrite EF, map_length, seq_length in H4'.
  destruct (accuracy_rate shape (e_mask e) (e_truth e) inv out H4 Lm Lt HB) as (ps & xs & P1 & P2 & P3).
  set (r := {| accuracy := agreement (map (fun x => Rltb (5 / 10) x) ps) (map (fun x => ((-2 * (if inv then 1 else 0) + 1) * x =? 1)%Z) xs); r_model := e_model e;
               r_size := nth 1 (shape_of (value (wd s) (nth 0 (seq 1 (List.length shape)) 0%nat))) 0%nat; r_means := map (fun i => factor_mean (factor_view s i)) (seq 1 (List.length shape)) |}).
  set (p := fun idx => let v := match ndR_get out idx with Some x => x | None => 0 end in if inv then 1 - v else v).
  exists (firstn (List.length arrs) (arrays (wd s))), r, p. split; [exact HO|]. split; [unfold one_layer_machine; rewrite neg_shape_of; repeat (split; [assumption|]); assumption|]. split; [exact E|]. split; [|split; [|split; [|split; [|split; [|split; [|split]]]]]].
  - unfold LOM_predictive. rewrite E1, E2. change (if e_anneal e then set_anneal (assign_disp w2 0 (LS (e_lbda e))) true else assign_disp w2 0 (LS (e_lbda e))) with w. fold cfg. rewrite E. cbv zeta.
    unfold layer_output. rewrite E4. cbn [bind]. rewrite P1. cbn [bind]. rewrite P2. cbn [bind]. rewrite R4, R7, HI, M6. reflexivity.
  - assert (FA : firstn (List.length arrs) (arrays (wd s)) = firstn (List.length arrs) (arrays w)).
    { apply (prefix_same (A2 [])); [|exact R1|].
      - rewrite AR, app_length. destruct inv; rewrite ?upd_length; unfold stored_arrays; destruct (e_train e); rewrite ?app_length; lia.
      - intros a Ha. apply (R2 a). intros i Hi C. specialize (HV i Hi). assert (List.length arrs <= List.length (stored_arrays arrs (e_train e)))%nat by (unfold stored_arrays; destruct (e_train e); rewrite ?app_length; lia). lia. }
    rewrite FA, AR. unfold arrays_after, stored_arrays, train_index. destruct (e_train e) as [a|x|sh]; [| |contradiction HT].
    + destruct inv; [apply firstn_upd|]. rewrite firstn_app, Nat.sub_diag, firstn_O, app_nil_r. apply firstn_all.
    + destruct inv; rewrite ?upd_app_last.
      * assert (G : upd (arrs ++ [x]) (List.length arrs) (neg_arr X) = arrs ++ [neg_arr X]). { clear. induction arrs as [|y t IH]; [reflexivity|]. cbn. rewrite IH. reflexivity. } rewrite G, <- app_assoc, firstn_app, Nat.sub_diag, firstn_O, app_nil_r. apply firstn_all.
      * rewrite <- app_assoc, firstn_app, Nat.sub_diag, firstn_O, app_nil_r. apply firstn_all.
  - reflexivity.
  - cbn [r r_size]. rewrite seq_nth by exact D0. cbn [Nat.add]. specialize (OK 0%nat 10%nat D0 ltac:(lia)).
    destruct (sound_value (wd s) 0 1%nat) as (SV & _); [exact (ordinary_sound o _ Hr HOs)| | |].
    + pose proof (R6 : model (get_lay (wd s) 0) = _) as G. destruct (layers (wd s)) eqn:EL; [|cbn; lia]. exfalso. unfold get_lay in G. rewrite EL in G. cbn in G. change (nth 0 (layers w) no_layer) with (get_lay w 0) in G. rewrite M7 in G. destruct o', i'; discriminate G.
    + rewrite R4, M6. apply in_seq. lia.
    + rewrite Wn, seq_nth in OK by exact D0. cbn [Nat.add] in OK. rewrite SV. destruct (okmat_cols _ _ _ OK) as (Q1 & [Q2|Q2]); [lia|]. exact Q2.
  - cbn [r r_means]. rewrite map_length, seq_length. reflexivity.
  - intros k row c Hk Hrow Hc. rewrite M6. cbn [r r_means]. rewrite (nth_indep _ _ (factor_mean (factor_view s 0%nat))) by (rewrite map_length, seq_length; exact Hk). rewrite (map_nth (fun i => factor_mean (factor_view s i))), seq_nth by exact Hk. cbn [Nat.add].
    destruct (TR' k Hk) as (tr & T1 & T2 & T3). rewrite (mean_entry _ tr 10 (nth k shape 0%nat) (e_latent e) row c T1 T2 ltac:(lia)); [|intros j Hj; apply T3, Hj|exact Hrow|exact Hc]. replace (INR 10) with 10 by (cbn; lra). f_equal. apply Rsum_ext. intros j Hj. apply in_seq in Hj. destruct (T3 j ltac:(lia)) as (_ & ->). reflexivity.
  - intros idx Hidx. apply indices_lt in Hidx. destruct (H4' idx Hidx) as (x & G1 & G2). unfold p. rewrite G1. cbv zeta. apply (prob_canon oo ii o' i' inv invf); [exact EC|]. unfold is_prob in *. eapply is_expect_ext; [|exact G2]. intros k c Hk Hc. cbn beta. unfold negated.
    assert (Hk' : (nth k idx 0 < nth k shape 0)%nat). { clear - Hidx Hk. revert k Hk. induction Hidx as [|x y l l' H1 H2 IH]; intros k Hk; [cbn in Hk; lia|]. destruct k as [|k]; [exact H1|]. cbn in Hk. apply IH. lia. }
    destruct (TR' k Hk) as (tr & T1 & T2 & T3). cbn [r r_means]. rewrite (nth_indep _ _ (factor_view s 0%nat)) by (rewrite map_length, seq_length; exact Hk). rewrite (nth_indep (map (fun i => factor_mean (factor_view s i)) _) _ (factor_mean (factor_view s 0%nat))) by (rewrite map_length, seq_length; exact Hk).
    rewrite map_nth, (map_nth (fun i => factor_mean (factor_view s i))), seq_nth by exact Hk. cbn [Nat.add]. rewrite (frequency_mean _ tr 10 (nth k shape 0%nat) (e_latent e) _ _ T1 T2 ltac:(lia)); [|intros j Hj; apply T3, Hj|exact Hk'|exact Hc]. destruct invf; [ring|reflexivity].
  - exact P3.
Qed.
Lemma C85_lemma argsort o arrs clk e oo ii o' i' inv invf X : random o -> e_model e = model_name oo ii -> canonise_name (e_model e) = Ok (model_name o' i', inv, invf) ->
  admissible arrs e X -> matrix2 X \/ (o', i') = (OR, AND) -> let shape := shape_of X in
  forall fuel, (1002 <= fuel)%nat -> exists w D s arrs' r p,
    ordinary o w /\ (if inv then opposite X D else D = X) /\ one_layer_machine w D (model_name o' i') (e_latent e) (e_lbda e) (e_anneal e) /\
    infer fuel o (experiment_settings (e_anneal e)) 10 (fresh_state w) = Some (Ok s) /\
    LOM_predictive argsort fuel o arrs clk e = Some (Ok (arrs', clock (wd s), r)) /\
    r_model r = e_model e /\ r_size r = e_latent e /\ List.length (r_means r) = List.length shape /\
    (forall k row c, (k < List.length shape)%nat -> (row < nth k shape 0)%nat -> (c < e_latent e)%nat ->
       rat2 (nth k (r_means r) []) row c = Rsum (fun j => IZR (at2 (nth k (recorded (factors (get_lay w 0)) j s) []) row c)) (seq 0 10) / 10) /\
    (forall idx, In idx (indices shape) -> is_prob oo ii (List.length shape) (e_latent e) (fun k c => let f := (1 + rat2 (nth k (r_means r) []) (nth k idx 0%nat) c) / 2 in if invf then 1 - f else f) (p idx)) /\
    accuracy r = rate shape (e_mask e) (e_truth e) (if inv then 1 else -1)%Z p.
Proof.
  intros Hr EM EC (A1 & A2 & A3 & A4 & A5 & A6 & A7 & A8) HX. pose proof (experiment_lemma argsort o arrs clk e oo ii o' i' inv invf X Hr EM EC A1 A2 A3 HX A4 A5 A6 A7 A8) as H. intros shape fuel Hf.
  destruct (H fuel Hf) as (w & s & arrs' & r & p & H1 & H2 & H3 & H4 & _ & H5). exists w, (if inv then neg_arr X else X), s, arrs', r, p. split; [exact H1|]. split; [destruct inv; [apply neg_opposite, A2|reflexivity]|]. split; [exact H2|]. split; [exact H3|]. split; [exact H4|exact H5].
Qed.
Lemma C86_lemma argsort o arrs clk e oo ii o' i' inv invf X : random o -> e_model e = model_name oo ii -> canonise_name (e_model e) = Ok (model_name o' i', inv, invf) ->
  admissible arrs e X -> matrix2 X \/ (o', i') = (OR, AND) ->
  forall fuel, (1002 <= fuel)%nat -> exists arrs' clk' r, LOM_predictive argsort fuel o arrs clk e = Some (Ok (arrs', clk', r)) /\
    List.length arrs' = List.length arrs /\ (forall b, e_train e <> Given b \/ inv = false -> nth_error arrs' b = nth_error arrs b) /\
    (forall a, e_train e = Given a -> inv = true -> exists Y, nth_error arrs' a = Some Y /\ opposite X Y).
Proof.
  intros Hr EM EC (A1 & A2 & A3 & A4 & A5 & A6 & A7 & A8) HX. pose proof (experiment_lemma argsort o arrs clk e oo ii o' i' inv invf X Hr EM EC A1 A2 A3 HX A4 A5 A6 A7 A8) as H. intros fuel Hf.
  destruct (H fuel Hf) as (w & s & arrs' & r & p & _ & _ & _ & H4 & H5 & _). exists arrs', (clock (wd s)), r. split; [exact H4|]. subst arrs'. unfold arrays_after. split; [|split].
  - destruct (e_train e), inv; rewrite ?upd_length; reflexivity.
  - intros b [Hb|Hb]; [|rewrite Hb; destruct (e_train e); reflexivity]. destruct (e_train e) as [a|x|sh]; try reflexivity. destruct inv; [|reflexivity]. assert (Hab : b <> a) by congruence. clear - Hab. revert a b Hab. induction arrs as [|y t IH]; intros [|a] [|b] Hab; try reflexivity; try congruence. cbn. apply IH. congruence.
  - intros a E1 E2. subst inv. rewrite E1 in *. cbn [training_data] in A1. exists (neg_arr X). split; [|apply neg_opposite, A2]. clear - A1. revert a A1. induction arrs as [|y t IH]; intros [|a] E; try discriminate; [reflexivity|]. cbn in *. apply IH. exact E.
Qed.
(** Experiments in a chunk. *)
Lemma neg_twice X : data_ok X -> neg_arr (neg_arr X) = X.
Proof.
  intros (_ & H). assert (G1 : forall v, tern1 v -> map (fun x => wrap8 (- x)) (map (fun x => wrap8 (- x)) v) = v).
  { intros v Hv. rewrite map_map. rewrite <- (map_id v) at 2. apply map_ext_in. intros x Hx. unfold tern1 in Hv. rewrite Forall_forall in Hv. specialize (Hv x Hx). destruct Hv as [->|[->| ->]]; reflexivity. }
  assert (G2 : forall m, tern2 m -> map (map (fun x => wrap8 (- x))) (map (map (fun x => wrap8 (- x))) m) = m).
  { intros m Hm. rewrite map_map. rewrite <- (map_id m) at 2. apply map_ext_in. intros v Hv. apply G1. unfold tern2 in Hm. rewrite Forall_forall in Hm. apply Hm, Hv. }
  destruct X as [m|t]; cbn in *; f_equal; [apply G2, H|]. rewrite map_map. rewrite <- (map_id t) at 2. apply map_ext_in. intros m Hm. apply G2. unfold tern3 in H. rewrite Forall_forall in H. apply H, Hm.
Qed.
Lemma neg_matrix2 X : matrix2 (neg_arr X) <-> matrix2 X.
Proof. destruct X; cbn; split; intros (m0 & E); try discriminate E; eexists; reflexivity. Qed.
Lemma admissible_neg arrs arrs' e a X : e_train e = Given a -> nth_error arrs' a = Some (neg_arr X) -> admissible arrs e X -> admissible arrs' e (neg_arr X).
Proof.
  intros Et Ea (A1 & A2 & A3 & A4 & A5 & A6 & A7 & A8). unfold admissible. cbv zeta. rewrite neg_shape. split; [rewrite Et; exact Ea|]. split; [apply neg_data, A2|]. split; [rewrite neg_matrix2; unfold small; rewrite neg_shape; exact A3|]. auto.
Qed.
Lemma admissible_same arrs arrs' e a X : e_train e = Given a -> nth_error arrs' a = Some X -> admissible arrs e X -> admissible arrs' e X.
Proof. intros Et Ea (_ & A). split; [rewrite Et; exact Ea|exact A]. Qed.
Lemma C86_chunk_lemma argsort o a X es : forall arrs clk, random o -> 
  Forall (fun e => e_train e = Given a /\ admissible arrs e X /\ exists oo ii o' i' inv invf, e_model e = model_name oo ii /\ canonise_name (e_model e) = Ok (model_name o' i', inv, invf) /\ (matrix2 X \/ (o', i') = (OR, AND))) es ->
  forall fuel, (1002 <= fuel)%nat -> exists arrs' rs, run_chunk argsort fuel o arrs clk es = Some (Ok (arrs', rs)) /\ List.length rs = List.length es /\
    forall k e r, nth_error es k = Some e -> nth_error rs k = Some r -> exists arrs_k clk_k arrs_k' clk_k' Y, LOM_predictive argsort fuel o arrs_k clk_k e = Some (Ok (arrs_k', clk_k', r)) /\
      nth_error arrs_k a = Some Y /\ (if Nat.odd (List.length (filter inverts (firstn k es))) then opposite X Y else Y = X) /\ admissible arrs_k e Y.
Proof.
  intros arrs clk Hr HF fuel Hf.
  assert (G : forall es (b : bool) arrs clk, (es <> [] -> nth_error arrs a = Some (if b then neg_arr X else X)) ->
    Forall (fun e => e_train e = Given a /\ (exists arrs0, admissible arrs0 e X) /\ exists oo ii o' i' inv invf, e_model e = model_name oo ii /\ canonise_name (e_model e) = Ok (model_name o' i', inv, invf) /\ (matrix2 X \/ (o', i') = (OR, AND))) es ->
    exists arrs' rs, run_chunk argsort fuel o arrs clk es = Some (Ok (arrs', rs)) /\ List.length rs = List.length es /\
    forall k e r, nth_error es k = Some e -> nth_error rs k = Some r -> exists arrs_k clk_k arrs_k' clk_k' Y, LOM_predictive argsort fuel o arrs_k clk_k e = Some (Ok (arrs_k', clk_k', r)) /\
      nth_error arrs_k a = Some Y /\ (if xorb b (Nat.odd (List.length (filter inverts (firstn k es)))) then opposite X Y else Y = X) /\ admissible arrs_k e Y).
  { clear es arrs clk HF. induction es as [|e es IH]; intros b arrs clk HA HF.
    - exists arrs, []. split; [reflexivity|]. split; [reflexivity|]. intros [|k] e r E; discriminate E.
    - inversion HF as [|? ? (Et & (arrs0 & AD) & oo & ii & o' & i' & inv & invf & EM & EC & HX) HF']; subst. specialize (HA ltac:(discriminate)). pose proof AD as (_ & DX & _).
      assert (AD' : admissible arrs e (if b then neg_arr X else X)) by (destruct b; [eapply admissible_neg; eassumption|eapply admissible_same; eassumption]).
      assert (HX' : matrix2 (if b then neg_arr X else X) \/ (o', i') = (OR, AND)) by (destruct b; [rewrite neg_matrix2; exact HX|exact HX]).
      pose proof AD' as (A1 & A2 & A3 & A4 & A5 & A6 & A7 & A8). destruct (experiment_lemma argsort o arrs clk e oo ii o' i' inv invf _ Hr EM EC A1 A2 A3 HX' A4 A5 A6 A7 A8 fuel Hf) as (w & s & arrs1 & r & p & _ & _ & _ & H4 & H5 & _).
      assert (HI : inverts e = inv) by (unfold inverts; rewrite EC; reflexivity).
      destruct (IH (xorb b inv) arrs1 (clock (wd s))) as (arrs' & rs & R1 & R2 & R3); [|exact HF'|].
      { intros _. rewrite H5. unfold arrays_after. rewrite Et. destruct inv; [|destruct b; exact HA]. assert (NU : forall Z, nth_error (upd arrs a Z) a = Some Z) by (intros Z; clear - HA; revert a HA; induction arrs as [|y t IHt]; intros [|a] E; try discriminate; [reflexivity|]; cbn in *; apply IHt; exact E). rewrite NU. destruct b; [rewrite neg_twice by exact DX; reflexivity|reflexivity]. }
      exists arrs', (r :: rs). cbn [run_chunk]. rewrite H4, R1. split; [reflexivity|]. split; [cbn; rewrite R2; reflexivity|]. intros [|k] e0 r0 E1 E2; cbn [nth_error] in E1, E2.
      + injection E1 as <-. injection E2 as <-. exists arrs, clk, arrs1, (clock (wd s)), (if b then neg_arr X else X). split; [exact H4|]. split; [exact HA|]. cbn [firstn filter List.length Nat.odd]. rewrite xorb_false_r. split; [destruct b; [apply neg_opposite, DX|reflexivity]|exact AD'].
      + destruct (R3 k e0 r0 E1 E2) as (x1 & x2 & x3 & x4 & Y & Y1 & Y2 & Y3 & Y4). exists x1, x2, x3, x4, Y. split; [exact Y1|]. split; [exact Y2|]. split; [|exact Y4]. cbn [firstn filter]. rewrite HI. destruct inv; [|rewrite xorb_false_r in Y3; exact Y3].
        cbn [List.length]. rewrite Nat.odd_succ, <- Nat.negb_odd. replace (xorb b (negb (Nat.odd (List.length (filter inverts (firstn k es)))))) with (xorb (xorb b true) (Nat.odd (List.length (filter inverts (firstn k es))))); [exact Y3|]. destruct b, (Nat.odd _); reflexivity. }
  destruct (G es false arrs clk) as (arrs' & rs & R1 & R2 & R3).
  - intros Hne. destruct es as [|e es]; [contradiction|]. inversion HF as [|? ? (Et & (A1 & _) & _) _]; subst. rewrite Et in A1. exact A1.
  - eapply Forall_impl; [|exact HF]. intros e (H1 & H2 & H3). split; [exact H1|]. split; [exists arrs; exact H2|exact H3].
  - exists arrs', rs. split; [exact R1|]. split; [exact R2|]. intros k e r E1 E2. specialize (R3 k e r E1 E2). rewrite xorb_false_l in R3. exact R3.
Qed.
