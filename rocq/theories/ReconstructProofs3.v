(** C93, C94: errors of tensorm_reconstruct; missing entries. *)
From Coq Require Import String Lra Lia.
From Verif Require Import Base BaseLemmas BaseR BaseRLemmas Spec SpecR SpecF SpecOut Canon Fuzzy FuzzyProofs MaxMachine Machine Dispatch DispatchProofs Inference LayerOutput LayerOutputProofs Predict SpecMachine SpecOrdinary SpecPass SpecPredict
  MachineProofs MachineProofs2 BuiltProofs InferenceProofs InferenceProofs2 PlainProofs OrdinaryProofs OrdinaryProofs2 OrdinaryProofs3 OrdinaryProofs4 OrdinaryProofs6 OrdinaryProofs7 PassProofs PredictProofs UnbiasedProofs Experiments SpecExperiments ExperimentProofs ExperimentProofs2 ExperimentProofs3 ExperimentProofs4 Reconstruct SpecReconstruct ReconstructProofs ReconstructProofs2.
Local Open Scope R_scope.

Lemma small_shape X D : shape_of D = shape_of X -> small X -> small D.
Proof. intros E H n Hn. rewrite E in Hn. apply H, Hn. Qed.
Lemma matrix2_shape X D : shape_of D = shape_of X -> matrix2 D -> matrix2 X.
Proof. intros E (m & ->). destruct X; [eexists; reflexivity|discriminate E]. Qed.
Lemma C93_matrix_lemma argsort o arrs clk s X L hyper : random o -> training_data arrs s X -> rectangular X -> zero_one X \/ ternary X -> matrix2 X -> small X ->
  forall fuel, (2002 <= fuel)%nat -> tensorm_reconstruct argsort fuel o arrs clk s L hyper = Some (Err IndexError).
Proof.
  intros Hr HT HR HX (m & Em) Hsm fuel Hf. destruct hyper as [|h0 [|h1 hs]]; try reflexivity. destruct (prepared_data arrs s X HT HR HX) as (D & HF & HD & SD & HTD).
  destruct (tensorm_run o arrs clk (prepared arrs s) L D Hr HTD HD (fun _ => small_shape X D SD Hsm) fuel Hf) as (w1 & w & st & E1 & E2 & HO & HM & E & FA & FF).
  assert (H2 : List.length (shape_of D) = 2%nat) by (rewrite SD, Em; reflexivity). rewrite H2 in FF.
  pose proof HM as (M1 & M2 & M3 & M4 & M5 & M6 & M7 & M8 & M9 & M10 & M11). rewrite H2 in M6, M11. pose proof (ordinary_sound _ _ Hr HO) as S. assert (Hl : (0 < List.length (layers w))%nat) by lia.
  assert (Hfx : forall i, In i (factors (get_lay w 0)) -> fixed (get_mat w i) = FBool false). { intros i Hi. rewrite M6 in Hi. apply in_seq in Hi. destruct i as [|k]; [lia|]. apply M11. lia. }
  destruct (view_sampled fuel o tensorm_settings 50 (fresh_state w) st 0 Hr S (proj1 tensorm_settings_ok) E Hl ltac:(lia) Hfx M9) as (ms & ls & W & K & _ & _ & Wn & _ & SA & EMo & ES & TR & EF & OK). change (wd (fresh_state w)) with w in *.
  rewrite M6 in EF. rewrite M7 in EMo. assert (IM : is_model (layer_view st 0) OR AND) by (left; exact EMo).
  assert (FS : fuzzy_supported (layer_view st 0) OR AND) by (unfold fuzzy_supported; left; rewrite EF, map_length, seq_length; cbn; auto).
  destruct (C22_mean_lemma argsort _ OR AND K 50 SA IM FS) as (Xr & E4 & _). destruct (C23_lemma argsort _ OR AND K 50 SA IM) as (_ & _ & (Xp & votes & E5 & _ & _) & _).
  unfold tensorm_reconstruct. rewrite E1, E2, E. unfold layer_output. rewrite E4. cbn [bind]. rewrite E5. cbn [bind]. rewrite FF. reflexivity.
Qed.
Lemma C93_hyper_lemma argsort fuel o arrs clk s L hyper : (List.length hyper < 2)%nat -> tensorm_reconstruct argsort fuel o arrs clk s L hyper = Some (Err IndexError).
Proof. destruct hyper as [|h0 [|h1 hs]]; cbn; try lia; reflexivity. Qed.

(** * C94 *)
Lemma C94_lemma X : rectangular X -> ternary X -> (exists i j k, inside X i j k /\ entry X i j k = (-1)%Z) -> forall D, factorised X D -> D = X.
Proof. intros _ _ (i & j & k & H1 & H2) D [(H & _)|(_ & H)]; [|exact H]. destruct (H i j k H1); congruence. Qed.
Lemma C94_refuted_lemma X : rectangular X -> zero_one X -> (exists i j k, inside X i j k /\ entry X i j k = 0%Z) -> exists D, coded X D /\
  forall argsort fuel o arrs clk L hyper, tensorm_reconstruct argsort fuel o arrs clk (Convert X) L hyper = tensorm_reconstruct argsort fuel o arrs clk (Convert D) L hyper.
Proof.
  intros HR H0 (i & j & k & H1 & H2). exists (recode X). pose proof (recode_coded X HR H0) as HC. split; [exact HC|]. intros. unfold tensorm_reconstruct. destruct hyper as [|h0 [|h1 hs]]; try reflexivity.
  assert (E1 : prepared arrs (Convert X) = Convert (recode X)) by (cbn; rewrite (proj2 (only_01_spec X HR) H0); reflexivity).
  assert (E2 : prepared arrs (Convert (recode X)) = Convert (recode X)).
  { cbn. destruct (only_01 (recode X)) eqn:E; [|reflexivity]. exfalso. apply (only_01_spec _ (recode_rect X HR)) in E. destruct HC as (C1 & _ & C3). destruct (C3 i j k H1) as (_ & C4). specialize (C4 H2). specialize (E i j k). unfold inside in *. rewrite C1 in E. specialize (E H1). lia. }
  rewrite E1, E2. reflexivity.
Qed.
