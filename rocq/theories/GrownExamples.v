(** Examples for machines that are extended between two calls of infer. *)
From Coq Require Import String Lra.
From Verif Require Import Base BaseLemmas BaseR BaseRLemmas Spec SpecR SpecClean Canon Outputs OutputsProofs Fuzzy Scores Sampling SamplingProofs SamplingExamples Ibp Lambda Clean Machine Dispatch Inference SpecMachine MachineProofs MachineProofs2
  BuiltProofs InferenceProofs UpdateProofs MachineExamples GrownProofs SpecGrown.
Local Open Scope R_scope.

(** Draws for which new matrices are made of ones and most proposals are refused. *)
Definition late : oracle := {|
  o_perm := fun _ l => l; o_cell := fun _ _ _ => 99 / 100; o_feature := fun _ _ => 1 / 2;
  o_ibp := fun _ _ => {| dz := fun _ => 1 / 2; dk := 1 / 2; du := fun _ _ => 1 / 2 |};
  o_init := fun _ _ _ _ => 9 / 10; o_argsort := fun v => seq 0 (List.length v); o_memory := fun _ _ => LS 0 |}.
Lemma late_one : Rltb (1 / 2) (9 / 10) = true.
Proof. apply Rltb_true. lra. Qed.
(** One OR-AND layer on one missing data point; the machine with the closure of factor 1; a layer on factor 1 is added. *)
Definition plot0 : world := one_layer [[0]]%Z [[1]]%Z [[1]]%Z (1 / 2) false false 1 false false false.
Definition plot1 : world := match assign_mat plot0 1 with Ok w => w | Err _ => new_machine end.
Definition plot2 : world := fst (add_layer late plot1 1 (Some 1%nat) None "OR-AND").
Lemma plot0_built : built late plot0.
Proof.
  pose proof (built_new late) as H0. apply (built_array late _ (A2 [[0%Z]])) in H0.
  assert (H1 : exists w, add_matrix late (set_arrays new_machine (arrays new_machine ++ [A2 [[0%Z]]])) (Given 0) None (FBool true) = Ok w) by (eexists; reflexivity).
  destruct H1 as (w1 & E1). assert (B1 : built late w1).
  { eapply built_matrix; [exact H0| |exact E1]. intros a Ea. injection Ea as <-. cbn. lia. }
  injection E1 as <-. eapply built_edit; [eapply built_layer with (K := 1%nat) (c := 0%nat) (m := "OR-AND"%string); [exact B1|cbn; lia|]|].
  - cbn -[random_arr nrows ncols]. reflexivity.
  - unfold edited. cbn -[random_arr nrows ncols get_mat get_lay stored]. split; [reflexivity|]. split; [repeat constructor|].
    split; [intros [|[|[|[|i]]]]; cbn; auto|]. split; [reflexivity|]. split; [intros [|[|l]]; cbn; auto|]. split; [|reflexivity].
    intros [|l] Hl; [cbn; lia|lia].
Qed.
Lemma plot1_made : assign_mat plot0 1 = Ok plot1.
Proof. reflexivity. Qed.
Lemma plot1_built : built late plot1.
Proof.
  eapply built_edit; [exact plot0_built|]. unfold edited. cbn -[get_mat get_lay stored]. split; [reflexivity|]. split; [repeat constructor|].
  split; [intros [|[|[|[|i]]]]; cbn; auto|]. split; [reflexivity|]. split; [intros [|[|l]]; cbn; auto|]. split; [|reflexivity].
  intros [|l] Hl; [cbn; lia|cbn in Hl; lia].
Qed.
Lemma plot2_made : add_layer late plot1 1 (Some 1%nat) None "OR-AND" = (plot2, Ok tt).
Proof. unfold plot2. assert (E : snd (add_layer late plot1 1 (Some 1%nat) None "OR-AND") = Ok tt) by reflexivity. destruct (add_layer late plot1 1 (Some 1%nat) None "OR-AND") as [w r]. cbn in *. rewrite E. reflexivity. Qed.
Lemma plot2_added : grown plot1 plot2 /\ parents (get_mat plot2 1) = [1%nat] /\ forall i, (i < 3)%nat -> sfct (get_mat plot2 i) = sfct (get_mat plot1 i).
Proof. assert (H1 : (1 < List.length (mats plot1))%nat) by (cbn; lia). exact (C111_added_lemma late plot1 1 1 "OR-AND" plot2 plot1_built H1 plot2_made). Qed.
Lemma plot_before : set_up_before plot0 1 plot2.
Proof. split; [reflexivity|]. exists plot1. split; [exact plot1_made|]. destruct plot2_added as (G & _ & S). split; [exact G|]. apply S. lia. Qed.
Lemma plot2_layer : layer2 plot2 0 1 2 1 1 1 [[1%Z]] [[1%Z]] [[0%Z]] 1.
Proof.
  constructor; [cbn; auto|cbn; auto 10|cbn; auto|]. split; [apply single_ok; left; reflexivity|]. split; [apply single_ok; left; reflexivity|]. split; [shape_tac|bin_tac].
Qed.
Lemma plot2_parent : layer2 plot2 1 3 4 1 1 1 [[1%Z]] [[1%Z]] [[1%Z]] (5 / 100).
Proof.
  constructor; [cbn; auto|cbn; auto 10| |].
  - split; [|split; [|split; [reflexivity|reflexivity]]]; cbn -[Rltb]; rewrite late_one; reflexivity.
  - split; [apply single_ok; left; reflexivity|]. split; [apply single_ok; left; reflexivity|]. split; [shape_tac|bin_tac].
Qed.
Lemma plot2_draws : draws_ok (o_cell late (clock plot2)) 1 1.
Proof. intros n l _ _. unfold SpecR.is_draw. cbn. lra. Qed.
(** With the parent the entry stays, without it changes. *)
Lemma with_parent_stays out outp : is_output OR AND out -> is_output OR AND outp ->
  ref_sweep (fun A' => post2 out 1 [[0%Z]] 1 1 1 (1 / 2) (1 / 2) A' [[1%Z]] * parent_lik outp (5 / 100) [[1%Z]] [[1%Z]] 1 1 1 A') [[0%Z]] (fun _ _ => 99 / 100) 1 1 [[1%Z]] = [[1%Z]].
Proof.
  intros Hout Houtp. assert (P2 : 0 < 1 / 2 < 1) by lra. unfold ref_sweep. cbn [cells seq list_prod map app fold_left]. change (at2 [[0%Z]] 0 0 =? 1)%Z with false. cbn iota.
  rewrite log_odds_mul by (intros; first [apply post2_pos; assumption|apply parent_lik_pos]). rewrite (flip_odds out (1 / 2) P2).
  assert (S1 : has_shape2 [[1%Z]] 1 1) by shape_tac. rewrite (log_odds_parent OR AND outp (5 / 100) [[1%Z]] [[1%Z]] 1%nat 1%nat 1%nat [[1%Z]] 0%nat 0%nat Houtp S1) by lia.
  assert (EO : outp [row [[1%Z]] 0; row [[1%Z]] 0] 1%nat = 1%Z).
  { symmetry. eapply lom_output_unique; [|apply Houtp]. left. split; [reflexivity|]. exists 0%nat. split; [lia|]. intros k Hk. destruct k as [|[|k]]; [reflexivity|reflexivity|cbn in Hk; lia]. }
  rewrite EO. replace (1 / 2 / (1 - 1 / 2)) with 1 by field. rewrite ln_1. change (at2 [[1%Z]] 0 0) with 1%Z. unfold mg_flip.
  destruct (Rltb_spec (99 / 100) (Rmin 1 (exp (- (1) * (0 + 5 / 100 * 1))))) as [H|H]; [|reflexivity]. exfalso.
  pose proof (Rmin_r 1 (exp (- (1) * (0 + 5 / 100 * 1)))) as Q. replace (- (1) * (0 + 5 / 100 * 1)) with (- (5 / 100)) in * by lra. rewrite exp_Ropp in *.
  pose proof (exp_ineq1 (5 / 100) ltac:(lra)) as I. assert (J : / exp (5 / 100) < / (1 + 5 / 100)) by (apply Rinv_lt_contravar; [apply Rmult_lt_0_compat; [lra|apply exp_pos]|exact I]).
  assert (JJ : / (1 + 5 / 100) < 99 / 100) by lra. lra.
Qed.
Lemma without_parent_changes out : ref_sweep (fun A' => post2 out 1 [[0%Z]] 1 1 1 (1 / 2) (1 / 2) A' [[1%Z]]) [[0%Z]] (fun _ _ => 99 / 100) 1 1 [[1%Z]] = [[(-1)%Z]].
Proof.
  rewrite flip_sweep by lra. unfold mg_flip. replace (1 / 2 / (1 - 1 / 2)) with 1 by field. rewrite ln_1, Rmult_0_r, exp_0.
  destruct (Rltb_spec (99 / 100) (Rmin 1 1)) as [|H]; [reflexivity|]. exfalso. apply H. rewrite Rmin_left; lra.
Qed.
Lemma C111_refuted_lemma : exists orc w0 w1 w, built orc w0 /\ assign_mat w0 1 = Ok w1 /\ add_layer orc w1 1 (Some 1%nat) None "OR-AND" = (w, Ok tt) /\
  layer2 w 0 1 2 1 1 1 [[1%Z]] [[1%Z]] [[0%Z]] 1 /\ model (get_lay w 0) = model_name OR AND /\ parents (get_mat w 1) = [1%nat] /\ layer2 w 1 3 4 1 1 1 [[1%Z]] [[1%Z]] [[1%Z]] (5 / 100) /\ model (get_lay w 1) = model_name OR AND /\
  fixed_entries (get_mat w 1) = A2 [[0%Z]] /\ bprior (get_mat w 1) = 1 / 2 /\ draws_ok (o_cell orc (clock w)) 1 1 /\ assign_mat w 1 = Ok w /\
  forall out, is_output OR AND out -> ~ updates_to orc w 1 (ref_sweep (fun A' => post2 out 1 [[0%Z]] 1 1 1 (1 / 2) (1 / 2) A' [[1%Z]] * parent_lik out (5 / 100) [[1%Z]] [[1%Z]] 1 1 1 A') [[0%Z]] (o_cell orc (clock w)) 1 1 [[1%Z]]).
Proof.
  exists late, plot0, plot1, plot2. split; [exact plot0_built|]. split; [exact plot1_made|]. split; [exact plot2_made|]. split; [exact plot2_layer|]. split; [reflexivity|]. split; [apply plot2_added|].
  split; [exact plot2_parent|]. split; [reflexivity|]. split; [reflexivity|]. split; [reflexivity|]. split; [exact plot2_draws|].
  split; [eapply C111_cached_lemma; reflexivity|]. intros out Hout U. assert (P2 : 0 < 1 / 2 < 1) by lra.
  destruct (C111_stale_lemma late OR AND ltac:(simpl; auto) out Hout plot0 plot2 0 1 2 1 1 1 [[1%Z]] [[1%Z]] [[0%Z]] 1 [[0%Z]] (1 / 2) plot2_layer eq_refl P2) as (G & _); [cbn; lia|cbn; lia|cbn; lia|].
  specialize (G plot_before eq_refl eq_refl P2 ltac:(lia) plot2_draws). pose proof (updates_to_inj _ _ _ _ _ U G) as E.
  change (o_cell late (clock plot2)) with (fun _ _ : nat => 99 / 100) in E. change (bprior (get_mat plot0 1)) with (1 / 2) in E.
  rewrite (with_parent_stays out out Hout Hout), without_parent_changes in E. discriminate.
Qed.
