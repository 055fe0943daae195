(** Proofs of C104. *)
From Coq Require Import String Lia Lra Permutation.
From Verif Require Import Base BaseLemmas BaseR Spec SpecR SpecQL Canon Sampling MaxMachine Machine Dispatch Inference SpecMachine SpecOrdinary SpecExperiments SpecMax SpecMaxRun SpecQRun SpecAccept MachineProofs MachineProofs2 ExperimentProofs2 ExperimentProofs4 MaxRunProofs MaxRunProofs2 QRunProofs QRunProofs2 OrdinaryProofs7 LayerOutputProofs2 QLProofs2.
Local Open Scope R_scope.

Ltac logical := first [exists OR, AND; reflexivity|exists OR, NAND; reflexivity|exists OR, OR; reflexivity|exists OR, NOR; reflexivity|exists OR, XOR; reflexivity|exists OR, NXOR; reflexivity
 |exists AND, AND; reflexivity|exists AND, NAND; reflexivity|exists AND, OR; reflexivity|exists AND, NOR; reflexivity|exists AND, XOR; reflexivity|exists AND, NXOR; reflexivity
 |exists NOR, AND; reflexivity|exists NOR, NAND; reflexivity|exists NOR, OR; reflexivity|exists NOR, NOR; reflexivity|exists NOR, XOR; reflexivity|exists NOR, NXOR; reflexivity
 |exists NAND, AND; reflexivity|exists NAND, NAND; reflexivity|exists NAND, OR; reflexivity|exists NAND, NOR; reflexivity|exists NAND, XOR; reflexivity|exists NAND, NXOR; reflexivity
 |exists XOR, AND; reflexivity|exists XOR, NAND; reflexivity|exists XOR, OR; reflexivity|exists XOR, NOR; reflexivity|exists XOR, XOR; reflexivity|exists XOR, NXOR; reflexivity
 |exists NXOR, AND; reflexivity|exists NXOR, NAND; reflexivity|exists NXOR, OR; reflexivity|exists NXOR, NOR; reflexivity|exists NXOR, XOR; reflexivity|exists NXOR, NXOR; reflexivity].
Lemma unknown_name m : ~ logical_name m -> ~ special_name m -> canonise_name m = Err NotImplementedError.
Proof.
  intros HL HS. assert (N : forall s, logical_name s \/ special_name s -> String.eqb m s = false) by (intros s Hs; apply String.eqb_neq; intros ->; tauto).
  assert (ER : replace_equivalent_model m = m). { unfold replace_equivalent_model. cbn [equivalent_pairs map snd existsb]. rewrite !N by (left; logical). reflexivity. }
  unfold canonise_name. rewrite ER. cbv zeta. repeat (rewrite N by first [left; logical|right; unfold special_name; auto]). reflexivity.
Qed.
Lemma logical_canonical m : logical_name m -> exists m' inv invf, canonise_name m = Ok (m', inv, invf) /\ In m' standard_models.
Proof. intros (o & i & ->). destruct o, i; vm_compute; do 3 eexists; (split; [reflexivity|]); auto 20. Qed.

Section Accept.
Context (o : oracle) (arrs : list arr) (clk : nat) (src : source) (L : nat) (cfg : settings) (n : nat) (X : arr).
Context (HT : training_data arrs src X).
Lemma add_data : exists w1, add_matrix o (World arrs [] [] [] false clk) src None (FBool true) = Ok w1 /\ value w1 0 = X /\ mats w1 = [Mat (train_index arrs src) None (FBool true) (zeros_like X) (1 / 2) None [] None] /\ layers w1 = [] /\ free w1 = [0%nat] /\ anneal w1 = false.
Proof.
  destruct (train_stored _ _ _ HT) as (T1 & T2). exists (World (stored_arrays arrs src) [Mat (train_index arrs src) None (FBool true) (zeros_like X) (1 / 2) None [] None] [] [0%nat] false clk).
  split; [|split; [exact T2|auto]]. unfold add_matrix. destruct src as [b|x|sh]; [| |contradiction HT]; cbn; do 4 f_equal; unfold get_arr; cbn; (rewrite <- T2; reflexivity).
Qed.
Lemma accept_unknown m : ~ logical_name m -> ~ special_name m -> rejected o arrs clk src L m NotImplementedError.
Proof.
  intros H1 H2. destruct add_data as (w1 & E1 & _). exists w1. split; [exact E1|]. unfold add_layer, canonise_model. rewrite (unknown_name m H1 H2). reflexivity.
Qed.
Lemma accept_logical m : random o -> usable cfg -> data_ok X -> (matrix2 X -> small X) -> logical_name m -> fits o arrs clk src L m cfg n.
Proof.
  intros Hr HU HD Hsm Hm. destruct (logical_canonical m Hm) as (m' & inv & invf & EC & Hs). destruct (set_up o arrs clk src L m m' inv invf X HT HD Hsm EC Hs) as (w1 & w2 & E1 & E2 & O2 & _ & AN & _). cbv zeta in *.
  exists w1, w2. split; [exact E1|]. split; [exact E2|]. destruct (C72_lemma o cfg n (fresh_state w2) Hr O2 HU) as (F & HF); [intros G; cbn in G; rewrite AN in G; discriminate G|]. exists F. intros fuel Hfu. destruct (HF fuel Hfu) as (s' & E & _). exists s'. exact E.
Qed.
End Accept.
Lemma accept_max o arrs clk src L cfg n X N D : random o -> (forall v, is_argsort v (o_argsort o v)) -> usable cfg -> training_data arrs src (A2 X) -> has_shape2 X N D -> (0 < N)%nat -> (0 < D)%nat -> (0 < L)%nat ->
  fits o arrs clk src L "MAX-AND" cfg n.
Proof.
  intros Hr HS HU HT HX HN HD HL. destruct (C88_built_lemma o arrs clk src X N D L HT HX HN HD HL) as (w1 & w2 & A & B & E1 & E2 & HM & AN & _). exists w1, w2. split; [exact E1|]. split; [exact E2|].
  destruct (C88_run_lemma o Hr HS N D L X cfg HU n (fresh_state w2) A B _ HM AN) as (F & HF). exists F. intros fuel Hfu. destruct (HF fuel Hfu) as (s' & w' & evs & E & _). exists s'. exact E.
Qed.
Lemma accept_q o arrs clk src L cfg n X N D : random o -> (forall k d, SpecR.is_draw (o_feature o k d)) -> usable cfg -> training_data arrs src (A2 X) -> has_shape2 X N D -> tern2 X -> (Z.of_nat N <= 32767)%Z -> (Z.of_nat D <= 32767)%Z -> (0 < N)%nat -> (0 < D)%nat -> (0 < L)%nat ->
  fits o arrs clk src L "qL-AND" cfg n.
Proof.
  intros Hr HF HU HT HX H3 BN BD HN HD HL. destruct (C89_built_lemma o arrs clk src X N D L HT HX H3 BN BD HN HD HL) as (w1 & w2 & A & B & lam & E1 & E2 & HM & AN & F1 & _). exists w1, w2. split; [exact E1|]. split; [exact E2|].
  destruct (C89_run_lemma q_out q_out_is o Hr HF N D L X cfg n (fresh_state w2) A B _ _ HU HM) as (F & HFu); [left; exact F1|exact AN|]. exists F. intros fuel Hfu. destruct (HFu fuel Hfu) as (s' & w' & evs & E & _). exists s'. exact E.
Qed.
Lemma accept_tensor o arrs clk src L cfg n X m : training_data arrs src (A3 X) -> special_name m -> rejected_late o arrs clk src L m cfg n NotImplementedError.
Proof.
  intros HT Hm. destruct (add_data o arrs clk src (A3 X) HT) as (w1 & E1 & V1 & M1 & L1 & F1 & A1). exists w1. destruct w1 as [ar ms ls fr an ck]. cbn in M1, L1, F1, A1. subst ms ls fr an.
  destruct Hm as [-> | [-> | ->]]; unfold add_layer, canonise_model; (match goal with |- context [canonise_name ?q] => change (canonise_name q) with (Ok (q, false, false)) end); cbv beta iota zeta; rewrite V1; cbn [shape_of]; eexists; (split; [exact E1|]); (split; [reflexivity|]); intros fuel; reflexivity.
Qed.
(** Three factors, all fixed: only the dispersion is to be updated. *)
Lemma not_fixed_none w l : (forall i, In i l -> fixed (get_mat w i) = FBool true) -> not_fixed w l = Ok [].
Proof. induction l as [|i l IH]; intros H; [reflexivity|]. cbn [not_fixed]. rewrite (H i (or_introl eq_refl)). cbn [truth bind]. rewrite IH by (intros j Hj; apply H; right; exact Hj). reflexivity. Qed.
Lemma fixed_max fuel o cfg n s lay : layers (wd s) = [lay] -> model lay = "MAX-AND"%string -> List.length (factors lay) = 3%nat -> lfixed (lbda lay) = false -> lsfct (lbda lay) = None ->
  (forall i, In i (members (wd s)) -> fixed (get_mat (wd s) i) = FBool true) -> infer fuel o cfg n s = Some (Err AttributeError).
Proof.
  intros E1 E2 E3 E4 E5 HF. unfold infer, prepare. rewrite (not_fixed_none _ _ HF). cbn [bind foldM]. unfold free_lbdas, all_layers. rewrite E1. cbn [List.length seq filter]. assert (G : get_lay (wd s) 0 = lay) by (unfold get_lay; rewrite E1; reflexivity). rewrite G, E4. cbn [negb foldM bind]. unfold assign_lbda at 1. unfold get_update_fct. rewrite G, E5, E2, E3. reflexivity.
Qed.
(** A matrix given with an array that says what is fixed. *)
Lemma fixed_array_shape o w src X ax f : training_data (arrays w) src X ->
  (shape_of (A2 f) = shape_of X -> exists w', add_matrix o w src ax (FArr f) = Ok w' /\ value w' (List.length (mats w)) = X /\ fixed (get_mat w' (List.length (mats w))) = FArr f) /\
  (shape_of (A2 f) <> shape_of X -> add_matrix o w src ax (FArr f) = Err AssertionError).
Proof.
  intros HT. destruct (train_stored _ _ _ HT) as (T1 & T2).
  assert (G : forall w1 a, get_arr w1 a = X -> mats w1 = mats w -> exists w', set_free (new_matrix w1 a ax (FArr f)) (free (new_matrix w1 a ax (FArr f)) ++ [List.length (mats w)]) = w' /\ value w' (List.length (mats w)) = X /\ fixed (get_mat w' (List.length (mats w))) = FArr f).
  { intros w1 a Ha Hm. eexists. split; [reflexivity|]. unfold value, get_mat, new_matrix, set_free, set_mats. cbn [mats]. rewrite Hm, nth_middle. cbn [val fixed]. split; [exact Ha|reflexivity]. }
  destruct src as [b|x|sh]; [| |contradiction HT]; cbn in T1, T2; unfold add_matrix; cbv zeta iota beta.
  - assert (Ga : get_arr w b = X) by (unfold get_arr; exact T2). rewrite Ga. destruct (list_eq_dec Nat.eq_dec (shape_of (A2 f)) (shape_of X)) as [E|E]; split; intros H; try contradiction; [|reflexivity]. destruct (G w b Ga eq_refl) as (w' & <- & G1 & G2). eexists. split; [reflexivity|]. split; assumption.
  - assert (Ga : get_arr (set_arrays w (arrays w ++ [x])) (List.length (arrays w)) = X) by (unfold get_arr; cbn [set_arrays arrays]; exact T2). rewrite Ga. destruct (list_eq_dec Nat.eq_dec (shape_of (A2 f)) (shape_of X)) as [E|E]; split; intros H; try contradiction; [|reflexivity]. destruct (G _ _ Ga eq_refl) as (w' & <- & G1 & G2). eexists. split; [reflexivity|]. split; assumption.
Qed.
