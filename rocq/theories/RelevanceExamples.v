(** Instances for C108. *)
From Coq Require Import String Lra.
From Verif Require Import Base BaseR BaseLemmas BaseRLemmas Spec SpecR SamplingExamples Fuzzy SpecMax Relevance RelevanceProofs SpecRelevance.
Local Open Scope R_scope.

(** Two dimensions, both active for the first one of the data, only the weaker for the second. *)
Definition ex_alphas : list (list R) := [[1 / 2; 3 / 4; 1 / 8]].
Definition ex_As : list mat := [[[1; 1]; [1; -1]]]%Z.
Definition ex_Bs : list mat := [[[1; 1]]]%Z.
Definition ex_x : mat := [[1]; [1]]%Z.
Lemma ex_samples : samples_ok ex_alphas ex_As ex_Bs 1 2 1 2.
Proof. repeat (split; [reflexivity|]). intros [|t] Ht; [|lia]. cbn. split; [reflexivity|]. split; shape_tac. Qed.
Lemma ex_shape : has_shape2 ex_x 2 1. Proof. shape_tac. Qed.
Lemma ex_ones : ones ex_x 2 1 <> []. Proof. discriminate. Qed.
Lemma ex_distinct : distinct_dispersions ex_alphas 1 2.
Proof. intros [|t] l l' Ht Hl Hl'; [|lia]. destruct l as [|[|l]], l' as [|[|l']]; try lia; cbn; intros; lra. Qed.
Lemma ex_value : exists e s', maxmachine_relevance (RL (Some None) (Some ex_alphas) (Some ex_As) (Some ex_Bs) ex_x) "mcmc" = Ok (e, s') /\
  nth 0 e 0 = 1 / 4 /\ nth 1 e 0 = 3 / 8 /\ nth 2 e 0 = 1 / 16.
Proof.
  exists (relevance_mcmc ex_alphas ex_As ex_Bs ex_x). eexists. split; [reflexivity|]. destruct (mcmc_spec _ _ _ _ _ _ _ _ ex_samples ex_shape ex_ones ltac:(lia)) as (_ & E2 & E3).
  rewrite (E2 0%nat), (E2 1%nat), E3 by lia. unfold mean_over_ones, credit, strongest_b, predicted_above. cbn.
  repeat match goal with |- context [Rltb ?a ?b] => destruct (Rltb_spec a b); [try lra|try lra] end; cbn; repeat split; lra.
Qed.

(** The clamped dimension explains both ones. *)
Definition cl_alphas : list (list R) := [[1 / 2; 1 / 4]].
Definition cl_As : list mat := [[[1]]]%Z.
Definition cl_Bs : list mat := [[[-1]; [-1]]]%Z.
Definition cl_x : mat := [[1; 1]]%Z.
Lemma cl_samples : samples_ok cl_alphas cl_As cl_Bs 1 1 2 1.
Proof. repeat (split; [reflexivity|]). intros [|t] Ht; [|lia]. cbn. split; [reflexivity|]. split; shape_tac. Qed.
Lemma C108_total_refuted_lemma : ~ (forall alphas As Bs x T N D L s e s', samples_ok alphas As Bs T N D L -> has_shape2 x N D -> ones x N D <> [] -> (0 < T)%nat ->
  distinct_dispersions alphas T L -> s = RL (Some None) (Some alphas) (Some As) (Some Bs) x -> maxmachine_relevance s "mcmc" = Ok (e, s') ->
  is_total alphas As Bs x T N D L (Rsum (fun l => nth l e 0) (seq 0 (S L)))).
Proof.
  intros H. assert (HX : has_shape2 cl_x 1 2) by shape_tac. assert (HO : ones cl_x 1 2 <> []) by discriminate.
  destruct (mcmc_spec _ _ _ _ _ _ _ _ cl_samples HX HO ltac:(lia)) as (_ & E2 & E3). specialize (E2 0%nat ltac:(lia)).
  assert (HD : distinct_dispersions cl_alphas 1 1) by (intros t l l' _ Hl Hl' _; lia).
  destruct (H cl_alphas cl_As cl_Bs cl_x 1%nat 1%nat 2%nat 1%nat _ (relevance_mcmc cl_alphas cl_As cl_Bs cl_x) _ cl_samples HX HO ltac:(lia) HD eq_refl eq_refl) as (r & Hr & V).
  assert (R : forall d, (d < 2)%nat -> r 0%nat 0%nat d = 1 / 4).
  { intros d Hd. destruct (Hr 0%nat 0%nat d ltac:(lia) ltac:(lia) Hd) as [((l & Hl & (Ha & Hb) & _) & _)|(_ & ->)]; [|reflexivity].
    exfalso. destruct l as [|l]; [|lia]. destruct d as [|[|d]]; [| |lia]; cbn in Hb; discriminate Hb. }
  cbn [seq Rsum fold_right] in V. rewrite E2, E3 in V. unfold mean_over_ones, credit, strongest_b, predicted_above in V. cbn in V.
  rewrite (R 0%nat), (R 1%nat) in V by lia. lra.
Qed.

(** Two dimensions with the dispersion every layer starts with. *)
Definition ti_alphas : list (list R) := [[8 / 10; 8 / 10; 1 / 100]].
Definition ti_As : list mat := [[[1; 1]]]%Z.
Definition ti_x : mat := [[1]]%Z.
Lemma ti_samples : samples_ok ti_alphas ti_As ti_As 1 1 1 2.
Proof. repeat (split; [reflexivity|]). intros [|t] Ht; [|lia]. cbn. split; [reflexivity|]. split; shape_tac. Qed.
Lemma C108_ties_refuted_lemma : exists alphas As Bs x T N D L e s', samples_ok alphas As Bs T N D L /\ has_shape2 x N D /\ ones x N D <> [] /\ (0 < T)%nat /\
  (forall t l, (t < T)%nat -> (l <= L)%nat -> 0 < nth l (nth t alphas []) 0 < 1) /\
  maxmachine_relevance (RL (Some None) (Some alphas) (Some As) (Some Bs) x) "mcmc" = Ok (e, s') /\ 1 < Rsum (fun l => nth l e 0) (seq 0 L) /\
  ~ is_latent_total alphas As Bs x T N D L (Rsum (fun l => nth l e 0) (seq 0 L)).
Proof.
  assert (HX : has_shape2 ti_x 1 1) by shape_tac. assert (HO : ones ti_x 1 1 <> []) by discriminate.
  destruct (mcmc_spec _ _ _ _ _ _ _ _ ti_samples HX HO ltac:(lia)) as (_ & E2 & _).
  assert (S : Rsum (fun l => nth l (relevance_mcmc ti_alphas ti_As ti_As ti_x) 0) (seq 0 2) = 16 / 10).
  { cbn [seq Rsum fold_right]. rewrite (E2 0%nat), (E2 1%nat) by lia. unfold mean_over_ones, credit, strongest_b, predicted_above. cbn.
    destruct (Rltb_spec (8 / 10) (8 / 10)); [lra|]. cbn. lra. }
  exists ti_alphas, ti_As, ti_As, ti_x, 1%nat, 1%nat, 1%nat, 2%nat, (relevance_mcmc ti_alphas ti_As ti_As ti_x). eexists. split; [exact ti_samples|]. split; [exact HX|]. split; [exact HO|]. split; [lia|].
  split. { intros [|t] l Ht Hl; [|lia]. destruct l as [|[|[|l]]]; [cbn; lra|cbn; lra|cbn; lra|lia]. }
  split; [reflexivity|]. rewrite S. split; [lra|]. intros (r & Hr & V). unfold mean_over_ones in V. cbn in V.
  assert (R : r 0%nat 0%nat 0%nat <= 8 / 10); [|lra].
  destruct (Hr 0%nat 0%nat 0%nat ltac:(lia) ltac:(lia) ltac:(lia)) as [((l & Hl & _ & <-) & _)|(_ & ->)]; [|lra].
  destruct l as [|[|l]]; [cbn; lra|cbn; lra|lia].
Qed.
