(** C93: what tensorm_reconstruct returns. *)
From Coq Require Import String Lra Lia.
From Verif Require Import Base BaseLemmas BaseR BaseRLemmas Spec SpecR SpecF SpecOut Canon Fuzzy FuzzyProofs MaxMachine Machine Dispatch DispatchProofs Inference LayerOutput LayerOutputProofs Predict SpecMachine SpecOrdinary SpecPass SpecPredict
  MachineProofs MachineProofs2 BuiltProofs InferenceProofs InferenceProofs2 PlainProofs OrdinaryProofs OrdinaryProofs2 OrdinaryProofs3 OrdinaryProofs4 OrdinaryProofs6 OrdinaryProofs7 PassProofs PredictProofs UnbiasedProofs Experiments SpecExperiments ExperimentProofs ExperimentProofs2 ExperimentProofs3 ExperimentProofs4 Reconstruct SpecReconstruct.
From Verif Require HelpersProofs.
Local Open Scope R_scope.

(** * The data *)
Lemma Forall_nth_iff {A} (P : A -> Prop) (l : list A) d : Forall P l <-> forall i, (i < List.length l)%nat -> P (nth i l d).
Proof. rewrite Forall_nth. split; intros H i; [intros Hi; apply H, Hi|intros d' Hi; rewrite (nth_indep _ d' d Hi); apply H, Hi]. Qed.
Lemma forall2_entries (P : Z -> Prop) m n d : has_shape2 m n d -> (Forall (Forall P) m <-> forall i j, (i < n)%nat -> (j < d)%nat -> P (at2 m i j)).
Proof.
  intros (H1 & H2). rewrite (Forall_nth_iff _ _ []). unfold mat, vec in *. rewrite H1. split.
  - intros H i j Hi Hj. specialize (H i Hi). rewrite (Forall_nth_iff _ _ 0%Z) in H. apply H. rewrite Forall_forall in H2. rewrite (H2 (nth i m [])); [exact Hj|]. apply nth_In. lia.
  - intros H i Hi. rewrite (Forall_nth_iff _ _ 0%Z). intros j Hj. apply H; [exact Hi|]. rewrite Forall_forall in H2. rewrite (H2 (nth i m [])) in Hj; [exact Hj|]. apply nth_In. lia.
Qed.
Lemma forall3_entries (P : Z -> Prop) t n d m : has_shape3 t n d m -> (Forall (Forall (Forall P)) t <-> forall i j k, (i < n)%nat -> (j < d)%nat -> (k < m)%nat -> P (at3 t i j k)).
Proof.
  intros (H1 & H2). rewrite (Forall_nth_iff _ _ []). unfold ten, mat, vec in *. rewrite H1. assert (HS : forall i, (i < n)%nat -> has_shape2 (nth i t []) d m) by (intros i Hi; rewrite Forall_forall in H2; apply H2, nth_In; lia). split.
  - intros H i j k Hi Hj Hk. specialize (H i Hi). rewrite (forall2_entries P _ d m (HS i Hi)) in H. apply H; assumption.
  - intros H i Hi. rewrite (forall2_entries P _ d m (HS i Hi)). intros j k Hj Hk. apply (H i j k Hi Hj Hk).
Qed.
Definition every (P : Z -> Prop) (a : arr) : Prop := match a with A2 m => Forall (Forall P) m | A3 t => Forall (Forall (Forall P)) t end.
Lemma every_entries P a : rectangular a -> (every P a <-> forall i j k, inside a i j k -> P (entry a i j k)).
Proof.
  destruct a as [m|t]; cbn [rectangular every entry]; intros H; unfold inside; cbn [shape_of].
  - rewrite (forall2_entries P _ _ _ H). split; [intros G i j k (G1 & G2 & _); apply G; assumption|intros G i j G1 G2; apply (G i j 0%nat); auto].
  - rewrite (forall3_entries P _ _ _ _ H). split; [intros G i j k (G1 & G2 & G3); apply G; assumption|intros G i j k G1 G2 G3; apply (G i j k); auto].
Qed.
Lemma every_forallb a p : forallb p (entries a) = true <-> every (fun x => p x = true) a.
Proof.
  rewrite forallb_forall, <- Forall_forall. destruct a as [m|t]; cbn [entries every].
  - rewrite Forall_concat. reflexivity.
  - rewrite Forall_concat, Forall_map. split; apply Forall_impl; intros m; rewrite Forall_concat; auto.
Qed.
Lemma only_01_spec X : rectangular X -> (only_01 X = true <-> zero_one X).
Proof.
  intros H. unfold only_01, zero_one. rewrite every_forallb, (every_entries _ X H). split; intros G i j k Hi; specialize (G i j k Hi).
  - apply Bool.orb_true_iff in G. rewrite !Z.eqb_eq in G. exact G.
  - apply Bool.orb_true_iff. rewrite !Z.eqb_eq. exact G.
Qed.
Lemma hd_map_len {A B} (f : A -> B) (l : list (list A)) : List.length (hd [] (map (map f) l)) = List.length (hd [] l).
Proof. destruct l; cbn; [reflexivity|apply map_length]. Qed.
Lemma recode_shape X : shape_of (recode X) = shape_of X.
Proof.
  destruct X as [m|t]; cbn [recode shape_of].
  - unfold nrows, ncols. rewrite map_length. destruct m as [|r m]; cbn; [reflexivity|]. rewrite map_length. reflexivity.
  - rewrite map_length. destruct t as [|m t]; cbn; [reflexivity|]. rewrite map_length. destruct m as [|r m]; cbn; [reflexivity|]. rewrite map_length. reflexivity.
Qed.
Lemma map_shape2 f m n d : has_shape2 m n d -> has_shape2 (map (map f) m) n d.
Proof. intros (H1 & H2). split; [rewrite map_length; exact H1|]. apply Forall_map. eapply Forall_impl; [|exact H2]. intros r Hr. rewrite map_length. exact Hr. Qed.
Lemma map_shape3 f t n d m : has_shape3 t n d m -> has_shape3 (map (map (map f)) t) n d m.
Proof. intros (H1 & H2). split; [rewrite map_length; exact H1|]. apply Forall_map. eapply Forall_impl; [|exact H2]. intros x Hx. apply map_shape2, Hx. Qed.
Definition recoded (x : Z) : Z := wrap8 (2 * x - 1).
Lemma recode_rect X : rectangular X -> rectangular (recode X).
Proof.
  intros H. pose proof (recode_shape X) as E. destruct X as [m|t]; cbn [recode shape_of rectangular] in *; fold recoded in *; [change (fun x => wrap8 (2 * x - 1)) with recoded in *|change (fun x => wrap8 (2 * x - 1)) with recoded in *].
  - injection E as E1 E2. rewrite E1, E2. apply map_shape2, H.
  - injection E as E1 E2 E3. rewrite E1, E2, E3. apply map_shape3, H.
Qed.
Lemma at2_map_in f m n d i j : has_shape2 m n d -> (i < n)%nat -> (j < d)%nat -> at2 (map (map f) m) i j = f (at2 m i j).
Proof.
  intros (H1 & H2) Hi Hj. unfold at2, row, at1, mat, vec in *. rewrite (HelpersProofs.nth_map_lt (map f) m i [] []) by (unfold mat, vec in *; lia). rewrite Forall_forall in H2. assert (HL : List.length (nth i m []) = d) by (unfold mat, vec in *; apply H2, nth_In; lia).
  rewrite (nth_indep _ 0%Z (f 0%Z)) by (rewrite map_length, HL; exact Hj). rewrite map_nth. reflexivity.
Qed.
Lemma entry_recode X i j k : rectangular X -> inside X i j k -> entry (recode X) i j k = recoded (entry X i j k).
Proof.
  destruct X as [m|t]; unfold inside; cbn [rectangular shape_of recode entry]; change (fun x => wrap8 (2 * x - 1)) with recoded; intros H HI.
  - destruct HI as (H1 & H2 & _). apply (at2_map_in recoded m _ _ i j H H1 H2).
  - destruct HI as (H1 & H2 & H3). unfold at3, slab. unfold ten, mat, vec in *. rewrite (HelpersProofs.nth_map_lt (map (map recoded)) t i [] []) by lia. destruct H as (G1 & G2). rewrite Forall_forall in G2. assert (HS : has_shape2 (nth i t []) (List.length (hd [] t)) (List.length (hd [] (hd [] t)))) by (apply G2, nth_In; lia).
    apply (at2_map_in recoded _ _ _ j k HS H2 H3).
Qed.
Lemma recode_coded X : rectangular X -> zero_one X -> coded X (recode X).
Proof.
  intros HR H0. split; [apply recode_shape|]. assert (HV : forall i j k, inside X i j k -> (entry X i j k = 1%Z -> entry (recode X) i j k = 1%Z) /\ (entry X i j k = 0%Z -> entry (recode X) i j k = (-1)%Z)).
  { intros i j k Hi. rewrite (entry_recode X i j k HR Hi). split; intros ->; reflexivity. }
  split; [|exact HV]. split; [apply recode_rect, HR|]. assert (G : every tern (recode X)); [|destruct X; exact G]. apply (every_entries tern (recode X) (recode_rect X HR)). intros i j k Hi.
  assert (Hi' : inside X i j k) by (unfold inside in *; rewrite recode_shape in Hi; exact Hi). destruct (HV i j k Hi') as (G1 & G2). unfold tern. destruct (H0 i j k Hi') as [E|E]; [rewrite (G2 E); auto|rewrite (G1 E); auto].
Qed.
(** An array with entries other than 0 and 1 is left as it is; its entries have to be admissible. *)
Lemma prepared_data arrs s X : training_data arrs s X -> rectangular X -> zero_one X \/ ternary X -> exists D, factorised X D /\ data_ok D /\ shape_of D = shape_of X /\ training_data arrs (prepared arrs s) D.
Proof.
  intros HT HR HX. assert (EP : prepared arrs s = if only_01 X then Convert (recode X) else s).
  { destruct s as [a|x|sh]; cbn in HT |- *; [|subst x; reflexivity|contradiction]. apply nth_error_nth with (d := A2 []) in HT. rewrite HT. reflexivity. }
  rewrite EP. destruct (only_01 X) eqn:E.
  - apply (only_01_spec X HR) in E. pose proof (recode_coded X HR E) as HC. exists (recode X). split; [left; auto|]. destruct HC as (C1 & C2 & _). split; [exact C2|]. split; [exact C1|]. reflexivity.
  - assert (NZ : ~ zero_one X) by (intros C; apply (only_01_spec X HR) in C; congruence). exists X. split; [right; auto|]. destruct HX as [HX|HX]; [contradiction|]. split; [split; assumption|]. split; [reflexivity|]. exact HT.
Qed.
