(** Concrete machines for the examples and refutations about machines. *)
From Coq Require Import String Permutation Lra.
From Verif Require Import Base BaseR BaseLemmas BaseRLemmas Spec SpecR SpecClean Canon Outputs Fuzzy Scores Sampling SamplingProofs SamplingExamples Ibp Lambda Clean Machine Dispatch Inference SpecMachine
  IbpProofs5 MachineProofs MachineProofs2 BuiltProofs InferenceProofs InferenceProofs2 PlainProofs DispatchProofs UpdateProofs.
Local Open Scope R_scope.

(** Permutations that keep the order, all draws 1/2. *)
Definition demo : oracle := {|
  o_perm := fun _ l => l; o_cell := fun _ _ _ => 1 / 2; o_feature := fun _ _ => 1 / 2;
  o_ibp := fun _ _ => {| dz := fun _ => 1 / 2; dk := 1 / 2; du := fun _ _ => 1 / 2 |};
  o_init := fun _ _ _ _ => 1 / 2; o_argsort := fun v => seq 0 (List.length v); o_memory := fun _ _ => LS 0 |}.
Lemma demo_fair : fair demo.
Proof. intros k l. apply Permutation_refl. Qed.

(** One OR-AND layer with factors A (1) and B (2) on the fixed data X (0). *)
Definition one_layer (X A B : mat) (pA : R) (fA fB : bool) (lam : R) (lfix clean ann : bool) : world :=
  World [A2 X; A2 A; A2 B]
    [Mat 0 None (FBool true) (zeros_like (A2 X)) (1 / 2) None [0%nat] None;
     Mat 1 (Some 0%nat) (FBool fA) (zeros_like (A2 A)) pA (Some 0%nat) [] None;
     Mat 2 (Some 1%nat) (FBool fB) (zeros_like (A2 B)) (1 / 2) (Some 0%nat) [] None]
    [Lay [1; 2]%nat 0 "OR-AND" (Par (LS lam) lfix (1, 1) None) None None None 1 clean false false false] [0%nat] ann 0.
Lemma one_layer_built X A B pA fA fB lam lfix clean ann : built demo (one_layer X A B pA fA fB lam lfix clean ann).
Proof.
  pose proof (built_new demo) as H0. apply (built_array demo _ (A2 X)) in H0.
  assert (H1 : exists w, add_matrix demo (set_arrays new_machine (arrays new_machine ++ [A2 X])) (Given 0) None (FBool true) = Ok w) by (eexists; reflexivity).
  destruct H1 as (w1 & E1). assert (B1 : built demo w1).
  { eapply built_matrix; [exact H0| |exact E1]. intros a Ea. injection Ea as <-. cbn. lia. }
  injection E1 as <-. eapply built_edit; [eapply built_layer with (K := 1%nat) (c := 0%nat) (m := "OR-AND"%string); [exact B1|cbn; lia|]|].
  - cbn -[random_arr nrows ncols]. reflexivity.
  - unfold edited. cbn -[random_arr nrows ncols get_mat get_lay stored]. split; [reflexivity|]. split; [repeat constructor|].
    split; [intros [|[|[|[|i]]]]; cbn; auto|]. split; [reflexivity|]. split; [intros [|[|l]]; cbn; auto|]. split; [|reflexivity].
    intros [|l] Hl; [cbn; lia|lia].
Qed.
Lemma one_layer_plain X A B pA fA fB lam lfix : plain (one_layer X A B pA fA fB lam lfix false false).
Proof.
  constructor; try (intros [|l] Hl; [|cbn in Hl; lia]); [| | | | |intros [|l] i Hl; [|cbn in Hl; lia]| |].
  - left. reflexivity.
  - exists lam. reflexivity.
  - split; reflexivity.
  - reflexivity.
  - left. split; [reflexivity|exists X; reflexivity].
  - intros Hi. cbn in Hi. destruct Hi as [<-|[<-|[]]]; (split; [eexists; reflexivity|split; [eexists; reflexivity|split; [eexists; reflexivity|split; [intros p []|split; [intros E; destruct (E eq_refl)|left; reflexivity]]]]]).
  - left. reflexivity.
  - reflexivity.
Qed.
Definition demo_settings : settings := {| eps := 1 / 100; window := 2; burn_in_min := 3; burn_in_max := 6; print_step := 10; fix_lbda_iters := 1 |}.
(** Both factors and the dispersion are updated. *)
Definition demo_world : world := one_layer [[1; 0]; [-1; 1]]%Z [[1; -1]; [1; 1]]%Z [[1; 1]; [-1; 1]]%Z (1 / 4) false false 1 false false false.
Lemma demo_runs : exists s', infer (enough demo_settings) demo demo_settings 5 (fresh_state demo_world) = Some (Ok s').
Proof.
  destruct (infer_ok_lemma (enough demo_settings) demo demo_settings 5 (fresh_state demo_world) demo_fair) as (s' & E & _); [| | | |lia|exists s'; exact E].
  - unfold usable. cbn. lia.
  - apply (built_wf demo). apply one_layer_built.
  - apply one_layer_plain.
  - intros Ha. discriminate Ha.
Qed.

(** ** C30: everything is fixed, but the layer is flagged for clean-up and has two equal columns. *)
Definition idle_settings : settings := {| eps := 1 / 100; window := 1; burn_in_min := 0; burn_in_max := 10; print_step := 10; fix_lbda_iters := 0 |}.
Definition twin_world : world := one_layer [[1; 1]; [1; 1]]%Z [[1; 1]; [1; 1]]%Z [[1; 1]; [1; 1]]%Z (1 / 2) true true 1 true true false.
Lemma C30_refuted_lemma : exists o cfg n s s' i fuel, built o (wd s) /\ fair o /\ infer fuel o cfg n s = Some (Ok s') /\
  is_member (wd s) i /\ fixed (get_mat (wd s) i) = FBool true /\ own_array (wd s) i /\ value (wd s) i = A2 [[1; 1]; [1; 1]]%Z /\ value (wd s') i = A2 [[1]; [1]]%Z.
Proof.
  assert (E : match infer 5 demo idle_settings 1 (fresh_state twin_world) with Some (Ok s') => value (wd s') 1 = A2 [[1]; [1]]%Z | _ => False end) by reflexivity.
  destruct (infer 5 demo idle_settings 1 (fresh_state twin_world)) as [[s'|]|] eqn:EI; try contradiction.
  exists demo, idle_settings, 1%nat, (fresh_state twin_world), s', 1%nat, 5%nat. split; [apply one_layer_built|]. split; [exact demo_fair|]. split; [exact EI|].
  split; [left; exists 0%nat; cbn; auto|]. split; [reflexivity|]. split; [|split; [reflexivity|exact E]].
  intros j Hj Hn. destruct j as [|[|[|j]]]; cbn in *; lia.
Qed.

(** ** C58: the prior 1/2 is in place when the closure is made, then 9/10 is set. *)
Definition flip_world (p : R) : world := one_layer [[0]]%Z [[1]]%Z [[1]]%Z p false false 1 false false false.
Lemma one_layer2 X A B pA fA fB lam lfix clean ann N D L : okmat N L A -> okmat D L B -> has_shape2 X N D -> tern2 X ->
  layer2 (one_layer X A B pA fA fB lam lfix clean ann) 0 1 2 N D L A B X lam.
Proof.
  intros HA HB HX HT. constructor; [cbn; auto|cbn; auto 10|cbn; auto|auto].
Qed.
Lemma single_ok z : pm1 z -> okmat 1 1 [[z]].
Proof. intros H. split; [shape_tac|]. constructor; [|constructor]. constructor; [exact H|constructor]. Qed.
Definition with_prior (m : matrix) p : matrix := Mat (val m) (axis m) (fixed m) (fixed_entries m) p (layer_of m) (parents m) (sfct m).
Definition set_prior (w : world) (i : nat) (p : R) : world := set_mat w i (with_prior (get_mat w i) p).
Definition flip_later : world := match assign_mat (flip_world (1 / 2)) 1 with Ok w => set_prior w 1 (9 / 10) | Err _ => new_machine end.
Lemma flip_set_up : set_up (flip_world (1 / 2)) 1 flip_later.
Proof.
  split; [reflexivity|]. eexists. split; [reflexivity|]. split; [|reflexivity].
  unfold edited. cbn -[get_mat get_lay stored]. split; [reflexivity|]. split; [repeat constructor|].
  split; [intros [|[|[|[|i]]]]; cbn; auto|]. split; [reflexivity|]. split; [intros [|[|l]]; cbn; auto|]. split; [|reflexivity].
  intros [|l] Hl; [cbn; lia|cbn in Hl; lia].
Qed.
Lemma flip_layer : layer2 flip_later 0 1 2 1 1 1 [[1%Z]] [[1%Z]] [[0%Z]] 1.
Proof.
  constructor; [cbn; auto|cbn; auto 10|cbn; auto|]. split; [apply single_ok; left; reflexivity|]. split; [apply single_ok; left; reflexivity|]. split; [shape_tac|bin_tac].
Qed.
Lemma flip_odds out p : 0 < p < 1 -> log_odds (fun A' => post2 out 1 [[0%Z]] 1 1 1 p (1 / 2) A' [[1%Z]]) [[1%Z]] 0 0 = ln (p / (1 - p)).
Proof.
  intros Hp. rewrite post2_log_odds_A by (try (apply single_ok; left; reflexivity); lia || lra). unfold logit. rewrite <- (Rplus_0_l (ln (p / (1 - p)))) at 2. f_equal.
  unfold log_odds, lik2. cbn -[sigma ln]. rewrite !Rmult_0_r, !Rmult_0_l. lra.
Qed.
Lemma flip_sweep out p r : 0 < p < 1 -> ref_sweep (fun A' => post2 out 1 [[0%Z]] 1 1 1 p (1 / 2) A' [[1%Z]]) [[0%Z]] (fun _ _ => r) 1 1 [[1%Z]] = [[mg_flip (ln (p / (1 - p))) 1 r]].
Proof. intros Hp. unfold ref_sweep. cbn [cells seq list_prod map app fold_left]. change (at2 [[0%Z]] 0 0 =? 1)%Z with false. cbn iota. rewrite flip_odds by exact Hp. reflexivity. Qed.
Lemma flip_half : mg_flip (ln (1 / 2 / (1 - 1 / 2))) 1 (1 / 2) = (-1)%Z.
Proof.
  unfold mg_flip. replace (1 / 2 / (1 - 1 / 2)) with 1 by field. rewrite ln_1, Rmult_0_r, exp_0. destruct (Rltb_spec (1 / 2) (Rmin 1 1)) as [|H]; [reflexivity|]. exfalso. apply H. rewrite Rmin_left; lra.
Qed.
Lemma stay_high : mg_flip (ln (9 / 10 / (1 - 9 / 10))) 1 (1 / 2) = 1%Z.
Proof.
  unfold mg_flip. replace (9 / 10 / (1 - 9 / 10)) with 9 by field. replace (- (1) * ln 9) with (- ln 9) by ring. rewrite exp_Ropp, exp_ln by lra.
  destruct (Rltb_spec (1 / 2) (Rmin 1 (/ 9))) as [H|]; [|reflexivity]. exfalso. pose proof (Rmin_r 1 (/ 9)). lra.
Qed.
Lemma updates_to_inj o w i Z1 Z2 : updates_to o w i Z1 -> updates_to o w i Z2 -> Z1 = Z2.
Proof. intros (w1 & E1 & V1 & _) (w2 & E2 & V2 & _). congruence. Qed.
Lemma C58_refuted_lemma : exists orc w0 w, built orc w0 /\ set_up w0 1 w /\ layer2 w 0 1 2 1 1 1 [[1%Z]] [[1%Z]] [[0%Z]] 1 /\ model (get_lay w 0) = model_name OR AND /\ parents (get_mat w 1) = [] /\
  fixed_entries (get_mat w 1) = A2 [[0%Z]] /\ bprior (get_mat w 1) = 9 / 10 /\ draws_ok (o_cell orc (clock w)) 1 1 /\
  forall out, is_output OR AND out -> ~ updates_to orc w 1 (ref_sweep (fun A' => post2 out 1 [[0%Z]] 1 1 1 (bprior (get_mat w 1)) (1 / 2) A' [[1%Z]]) [[0%Z]] (o_cell orc (clock w)) 1 1 [[1%Z]]).
Proof.
  exists demo, (flip_world (1 / 2)), flip_later. split; [apply one_layer_built|]. split; [exact flip_set_up|]. split; [exact flip_layer|]. split; [reflexivity|]. split; [reflexivity|]. split; [reflexivity|]. split; [reflexivity|].
  assert (DO : draws_ok (o_cell demo (clock flip_later)) 1 1) by (intros n l _ _; unfold SpecR.is_draw; cbn; lra). split; [exact DO|].
  intros out Hout U. assert (P2 : 0 < 1 / 2 < 1) by lra. destruct (C74_2_lemma demo OR AND ltac:(simpl; auto) out Hout (flip_world (1 / 2)) flip_later 0 1 2 1 1 1 [[1%Z]] [[1%Z]] [[0%Z]] 1 [[0%Z]] (1 / 2) flip_layer eq_refl P2) as (G & _).
  specialize (G flip_set_up eq_refl eq_refl P2 ltac:(lia) DO). pose proof (updates_to_inj _ _ _ _ _ U G) as E.
  change (o_cell demo (clock flip_later)) with (fun _ _ : nat => 1 / 2) in E. change (bprior (get_mat flip_later 1)) with (9 / 10) in E. change (bprior (get_mat (flip_world (1 / 2)) 1)) with (1 / 2) in E.
  rewrite !flip_sweep in E by lra. rewrite flip_half, stay_high in E. discriminate.
Qed.

(** ** Factors with parents: layers 1, 2 and 3 (factors 3 to 8) on factor 1 of layer 0. *)
Definition bitm : mat := [[1; -1]; [1; 1]]%Z.
Definition tower (ps : list nat) : world :=
  World [A2 [[1; 0]; [-1; 1]]%Z; A2 bitm; A2 bitm; A2 bitm; A2 bitm; A2 bitm; A2 bitm; A2 bitm; A2 bitm]
    ([Mat 0 None (FBool true) (A2 [[0; 0]; [0; 0]]%Z) (1 / 2) None [0%nat] None;
      Mat 1 (Some 0%nat) (FBool false) (A2 [[0; 1]; [0; 0]]%Z) (1 / 4) (Some 0%nat) ps None;
      Mat 2 (Some 1%nat) (FBool false) (A2 [[0; 0]; [0; 0]]%Z) (1 / 2) (Some 0%nat) [] None] ++
     map (fun k => Mat (3 + k) (Some (Nat.modulo k 2)) (FBool false) (A2 [[0; 0]; [0; 0]]%Z) (1 / 2) (Some (1 + Nat.div k 2)%nat) [] None) (seq 0 6))
    ([Lay [1; 2]%nat 0 "XOR-AND" (Par (LS 1) false (1, 1) None) None None None 1 false false false false] ++
     map (fun k => Lay [3 + 2 * k; 4 + 2 * k]%nat 1 "OR-AND" (Par (LS 2) false (1, 1) None) None None None 1 false false false false) (seq 0 3)) [0%nat] false 0.
Definition tower_ready (ps : list nat) : world := match assign_mat (tower ps) 1 with Ok w => w | Err _ => new_machine end.
Lemma bitm_ok : okmat 2 2 bitm.
Proof. split; [shape_tac|bin_tac]. Qed.
Lemma data_ok : has_shape2 [[1; 0]; [-1; 1]]%Z 2 2 /\ tern2 [[1; 0]; [-1; 1]]%Z.
Proof. split; [shape_tac|bin_tac]. Qed.
Lemma bitm_data : has_shape2 bitm 2 2 /\ tern2 bitm.
Proof. split; [shape_tac|bin_tac]. Qed.
Lemma tower_set_up ps : ps = [1]%nat \/ ps = [1; 2]%nat \/ ps = [1; 2; 3]%nat -> set_up (tower ps) 1 (tower_ready ps).
Proof.
  intros [->|[->| ->]]; (split; [reflexivity|]); eexists; (split; [reflexivity|]); (split; [|reflexivity]);
    (unfold edited; cbn -[get_mat get_lay stored]; (split; [reflexivity|]); (split; [unfold stored; cbn; repeat (apply Forall_cons; [cbn; lia|]); apply Forall_nil|]);
     (split; [intros i; do 9 (destruct i as [|i]; [cbn; auto|]); cbn; auto|]); (split; [reflexivity|]);
     (split; [intros l; do 4 (destruct l as [|l]; [cbn; auto|]); cbn; auto|]); split; [|reflexivity]);
    intros [|[|[|[|l]]]] Hl; cbn in *; lia.
Qed.
Lemma tower_layer0 ps : ps = [1]%nat \/ ps = [1; 2]%nat \/ ps = [1; 2; 3]%nat -> layer2 (tower_ready ps) 0 1 2 2 2 2 bitm bitm [[1; 0]; [-1; 1]]%Z 1.
Proof.
  intros [->|[->| ->]]; (constructor; [cbn; repeat split; lia|cbn; repeat split; lia|cbn; auto|exact (conj bitm_ok (conj bitm_ok data_ok))]).
Qed.
Lemma tower_layer ps k : ps = [1]%nat \/ ps = [1; 2]%nat \/ ps = [1; 2; 3]%nat -> (1 <= k <= 3)%nat -> layer2 (tower_ready ps) k (2 * k + 1) (2 * k + 2) 2 2 2 bitm bitm bitm 2.
Proof.
  intros [->|[->| ->]] Hk; destruct k as [|[|[|[|k]]]]; try lia; (constructor; [cbn; repeat split; lia|cbn; repeat split; lia|cbn; auto|exact (conj bitm_ok (conj bitm_ok bitm_data))]).
Qed.

(** ** Three factors (1, 2, 3) on a three-axis array (0). *)
Definition cube : world :=
  World [A3 [[[1]; [0]]]%Z; A2 [[1]]%Z; A2 [[1]; [-1]]%Z; A2 [[-1]]%Z]
    [Mat 0 None (FBool true) (A3 [[[0]; [0]]]%Z) (1 / 2) None [0%nat] None;
     Mat 1 (Some 0%nat) (FBool false) (A2 [[0]]%Z) (1 / 4) (Some 0%nat) [] None;
     Mat 2 (Some 1%nat) (FBool false) (A2 [[0]; [0]]%Z) (1 / 2) (Some 0%nat) [] None;
     Mat 3 (Some 2%nat) (FBool false) (A2 [[0]]%Z) (1 / 2) (Some 0%nat) [] None]
    [Lay [1; 2; 3]%nat 0 "XOR-NAND" (Par (LS 1) false (1, 1) None) None None None 1 false false false false] [0%nat] false 0.
Definition cube_ready : world :=
  match bind (assign_mat cube 2) (fun w => assign_lbda w 0) with Ok w => w | Err _ => new_machine end.
Lemma cube_layer : layer3 cube_ready 0 1 2 3 1 2 1 1 [[1%Z]] [[1%Z]; [(-1)%Z]] [[(-1)%Z]] [[[1%Z]; [0%Z]]] 1.
Proof.
  constructor; [cbn; repeat split; try lia; repeat constructor; cbn; lia|cbn; repeat split; lia|cbn; auto|].
  split; [apply single_ok; left; reflexivity|]. split; [split; [shape_tac|bin_tac]|]. split; [apply single_ok; right; reflexivity|]. shape_tac.
Qed.
Lemma cube_edited w : w = match assign_mat cube 2 with Ok w => w | Err _ => new_machine end \/ w = match assign_lbda cube 0 with Ok w => w | Err _ => new_machine end -> edited w cube_ready.
Proof.
  intros [->| ->]; (unfold edited; cbn -[get_mat get_lay stored]; (split; [reflexivity|]); (split; [unfold stored; cbn; repeat (apply Forall_cons; [cbn; lia|]); apply Forall_nil|]);
     (split; [intros i; do 4 (destruct i as [|i]; [cbn; auto|]); cbn; auto|]); (split; [reflexivity|]);
     (split; [intros l; do 1 (destruct l as [|l]; [cbn; auto|]); cbn; auto|]); split; [|reflexivity]);
    intros [|l] Hl; cbn in *; lia.
Qed.
Lemma cube_set_up : set_up cube 2 cube_ready /\ set_up_disp cube 0 cube_ready.
Proof.
  split; (split; [reflexivity|]); eexists; (split; [reflexivity|]); (split; [|reflexivity]); apply cube_edited; [left|right]; reflexivity.
Qed.

(** ** C25: the trace of an IBP factor. *)
Definition still : oracle := {|
  o_perm := fun _ l => l; o_cell := fun _ _ _ => 1 / 2; o_feature := fun _ _ => 1 / 2;
  o_ibp := fun _ _ => {| dz := fun _ => 1 / 2; dk := 0; du := fun _ _ => 1 / 2 |};
  o_init := fun _ _ _ _ => 1 / 2; o_argsort := fun v => seq 0 (List.length v); o_memory := fun _ _ => LS 0 |}.
Definition ibp_world : world :=
  World [A2 [[1]]%Z; A2 [[1]]%Z; A2 [[1]]%Z]
    [Mat 0 None (FBool true) (A2 [[0]]%Z) (1 / 2) None [0%nat] None;
     Mat 1 (Some 0%nat) (FBool false) (A2 [[0]]%Z) (1 / 2) (Some 0%nat) [] None;
     Mat 2 (Some 1%nat) (FBool true) (A2 [[0]]%Z) (1 / 2) (Some 0%nat) [] None]
    [Lay [1; 2]%nat 0 "OR-AND-IBP" (Par (LS 1) true (1, 1) None) None None None 1 false false false false] [0%nat] false 0.
Lemma ibp_built : built still ibp_world.
Proof.
  pose proof (built_new still) as H0. apply (built_array still _ (A2 [[1%Z]])) in H0.
  assert (H1 : exists w, add_matrix still (set_arrays new_machine (arrays new_machine ++ [A2 [[1%Z]]])) (Given 0) None (FBool true) = Ok w) by (eexists; reflexivity).
  destruct H1 as (w1 & E1). assert (B1 : built still w1).
  { eapply built_matrix; [exact H0| |exact E1]. intros a Ea. injection Ea as <-. cbn. lia. }
  injection E1 as <-. eapply built_edit; [eapply built_layer with (K := 1%nat) (c := 0%nat) (m := "OR-AND-IBP"%string); [exact B1|cbn; lia|]|].
  - cbn -[random_arr]. reflexivity.
  - unfold edited. cbn -[random_arr get_mat get_lay stored]. split; [reflexivity|]. split; [repeat constructor|].
    split; [intros [|[|[|[|i]]]]; cbn; auto|]. split; [reflexivity|]. split; [intros [|[|l]]; cbn; auto|]. split; [|reflexivity].
    intros [|l] Hl; [cbn; lia|lia].
Qed.
Lemma C25_refuted_lemma : exists o cfg s s' i tr fuel, built o (wd s) /\ fair o /\ infer fuel o cfg 1 s = Some (Ok s') /\ is_member (wd s) i /\ fixed (get_mat (wd s) i) = FBool false /\
  mtr s' i = Some tr /\ mcells tr = [Some (A2 [repeat (-1)%Z 11])] /\ value (wd s') i = A2 [[]].
Proof.
  assert (E : match infer 5 still idle_settings 1 (fresh_state ibp_world) with Some (Ok s') => match mtr s' 1%nat with Some tr => mcells tr = [Some (A2 [repeat (-1)%Z 11])] | None => False end /\ value (wd s') 1 = A2 [[]] | _ => False end).
  { lazy -[IBP_sampler Rdiv IZR]. match goal with |- context[IBP_sampler _ _ ?fA ?fB ?X ?sf ?l ?q ?al ?w] => rewrite (C71_refuted_lemma X l q al w fA fB sf eq_refl) end. split; reflexivity. }
  destruct (infer 5 still idle_settings 1 (fresh_state ibp_world)) as [[s'|]|] eqn:EI; try contradiction. destruct E as (E1 & E2). destruct (mtr s' 1%nat) as [tr|] eqn:ET; [|contradiction].
  exists still, idle_settings, (fresh_state ibp_world), s', 1%nat, tr, 5%nat. split; [exact ibp_built|]. split; [intros k l; apply Permutation_refl|]. split; [exact EI|]. split; [left; exists 0%nat; cbn; auto|]. auto.
Qed.
(** The demonstration machine with its update functions. *)
Definition demo_ready : world := match bind (foldM assign_mat [1; 2]%nat demo_world) (foldM assign_lbda [0%nat]) with Ok w => w | Err _ => new_machine end.
Lemma infer_parts fuel o cfg n s s' ms ls s1 : prepare s = Ok (ms, ls, s1) -> infer fuel o cfg n s = Some (Ok s') -> exists s2, burn_in fuel o cfg ms ls s1 = Some (Ok s2).
Proof. intros EP E. unfold infer in E. rewrite EP in E. destruct (burn_in fuel o cfg ms ls s1) as [[s2|]|]; [|discriminate E|discriminate E]. exists s2. reflexivity. Qed.
Lemma demo_prepared : exists s1, prepare (fresh_state demo_world) = Ok ([1; 2]%nat, [0%nat], s1) /\ wd s1 = demo_ready.
Proof. eexists. split; [lazy -[Rdiv IZR]; reflexivity|lazy -[Rdiv IZR]; reflexivity]. Qed.
Lemma demo_burn_in : exists s s', wd s = demo_ready /\ burn_in (enough demo_settings) demo demo_settings [1; 2]%nat [0%nat] s = Some (Ok s').
Proof.
  destruct demo_prepared as (s1 & EP & EW). pose proof demo_runs as R. revert R. generalize (enough demo_settings). intros k R. destruct R as (s' & E). destruct (infer_parts _ _ _ _ _ _ _ _ _ EP E) as (s2 & E2).
  exists s1, s2. split; [exact EW|exact E2].
Qed.
