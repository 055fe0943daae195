(** qL-AND machines: every update succeeds and does what q_update says (C89). *)
From Coq Require Import String Lia Lra Permutation.
From Verif Require Import Base BaseLemmas BaseR BaseRLemmas Spec SpecR SpecQL Canon Sampling SamplingProofs Lambda QL QLProofs QLProofs2 LayerOutputProofs2 Clean Machine Dispatch Inference SpecMachine SpecOrdinary SpecExperiments SpecMaxRun SpecQRun MachineProofs InferenceProofs InferenceProofs2 InferenceProofs6 ProgressProofs PlainProofs PreserveProofs OrdinaryProofs6 EngineProofs.
Local Open Scope R_scope.

Section Q.
Context (out : Z -> vec -> vec -> nat -> Z) (Ho : is_qout out) (o : oracle) (Hr : random o) (Hf : forall k d, SpecR.is_draw (o_feature o k d)) (N D L : nat) (X : mat).
Lemma qm_put w A B Q lam i M : q_machine w N D L A B X Q lam -> (i = 1%nat /\ okmat N L M) \/ (i = 2%nat /\ okmat D L M) \/ (i = 3%nat /\ has_shape2 M 1 D /\ forall d, (d < D)%nat -> (1 <= at2 M 0 d)%Z) ->
  q_machine (tick (put w i M)) N D L (if Nat.eqb i 1 then M else A) (if Nat.eqb i 2 then M else B) X (if Nat.eqb i 3 then M else Q) lam.
Proof.
  intros H Hi. destruct H as [h1 h2 h3 h4 h5 h6 h7 h8 h9 h10 h11 h12]. destruct h3 as [k1 (k2 & k3 & k4) (k5 & k6 & k7)]. destruct h6 as (t1 & t2 & t3).
  assert (HV : forall j, (j < 4)%nat -> value (tick (put w i M)) j = if Nat.eqb j i then A2 M else value w j).
  { intros j Hj. change (value (tick (put w i M)) j) with (value (put w i M) j). apply (single_put_value w "qL-AND" h1); rewrite h2; lia. }
  constructor; try assumption.
  - apply single_tick, single_put. exact h1.
  - constructor; [exact k1| |].
    + rewrite !HV by lia. destruct Hi as [(-> & _)|[(-> & _)|(-> & _)]]; cbn [Nat.eqb]; auto.
    + destruct Hi as [(-> & Hi)|[(-> & Hi)|(-> & _)]]; cbn [Nat.eqb]; auto.
  - rewrite HV by lia. destruct Hi as [(-> & _)|[(-> & _)|(-> & Hi)]]; cbn [Nat.eqb]; auto.
Qed.
Lemma loop_shape (lg : mat -> nat -> nat -> R) r n l M : okmat n l M -> okmat n l (sample_loop lg M [] r).
Proof. apply sample_loop_ok. Qed.
Lemma sib_read w i U : single w "qL-AND" -> i = 1%nat \/ i = 2%nat -> value w (3 - i) = A2 U -> bind (pick (siblings w i) 0) (read2 w) = Ok U.
Proof. intros H Hi E. rewrite (single_siblings w _ H i Hi). cbn [pick nth_error of_option]. rewrite bindE. unfold read2. rewrite E. reflexivity. Qed.
Definition q_fct (i : nat) : fct := match i with 1%nat => FqZ [0; 1]%nat | 2%nat => FqU [1; 0]%nat | _ => Fqq end.
Lemma q_run_mat w A B Q lam i : q_machine w N D L A B X Q lam -> i = 1%nat \/ i = 2%nat \/ i = 3%nat -> sfct (get_mat w i) = Some (q_fct i) ->
  exists w', run_mat o w i = Ok w' /\ q_update true out o w i w' /\ (exists A' B' Q', q_machine w' N D L A' B' X Q' lam) /\ mats w' = mats w /\ layers w' = layers w /\ anneal w' = anneal w.
Proof.
  intros H Hi ES. pose proof H as [h1 h2 h3 (h4 & h4' & h4'') (h5 & h5' & h5g & h5a & h5b) (t1 & t2 & t3) (g1 & g2 & g3 & g4 & Fq & g5) h8 h9 h10 h11 h12]. destruct h3 as [(k0 & k0' & k1) (k2 & k3 & k4) (k5 & k6 & k7)].
  destruct (si_layer _ _ h1) as (EFc & EC & _). unfold disp in h5'.
  assert (GO : forall M F, fixed_entries (get_mat w i) = A2 F -> run_mat o w i = Ok (tick (put w i M)) -> ((i = 1%nat /\ okmat N L M) \/ (i = 2%nat /\ okmat D L M) \/ (i = 3%nat /\ has_shape2 M 1 D /\ forall d, (d < D)%nat -> (1 <= at2 M 0 d)%Z)) ->
    ((i = 1%nat /\ M = ref_sweep (fun A' => q_post out (fun d => at2 Q 0 d) 1 X N D L (1 / 2) (1 / 2) A' B) [] (o_cell o (clock w)) N L A) \/
     (i = 2%nat /\ M = ref_sweep (fun B' => q_post out (fun d => at2 Q 0 d) 1 X N D L (1 / 2) (1 / 2) A B') [] (o_cell o (clock w)) D L B) \/
     (i = 3%nat /\ has_shape2 M 1 D /\ forall d, (d < D)%nat -> exists k, at2 M 0 d = Z.of_nat k /\ selects (q_weight out lam (gamma (get_lay w 0)) (map (map (fun _ => 1%Z)) X) N L d A B) (o_feature o (clock w) d) k)) ->
    exists w', run_mat o w i = Ok w' /\ q_update true out o w i w' /\ (exists A' B' Q', q_machine w' N D L A' B' X Q' lam) /\ mats w' = mats w /\ layers w' = layers w /\ anneal w' = anneal w).
  { intros M F EF ER HM HU. exists (tick (put w i M)). split; [exact ER|]. split; [|split; [|auto]].
    - exists N, D, L, A, B, X, Q, lam, F, M. split; [exact H|]. split; [exact EF|]. split; [reflexivity|]. cbv zeta. exact HU.
    - eexists _, _, _. apply (qm_put w A B Q lam i M H HM). }
  assert (HD : forall k n l, SpecR.draws_ok (o_cell o k) n l) by (intros k n l a b _ _; apply Hr).
  destruct (C44_lemma out Ho N D L A B [] X Q (1 / 2) (o_cell o (clock w)) k6 k7 k5 h4 t3 ltac:(lra)) as (C1 & C2); [intros n l; rewrite at2_nil; discriminate|].
  destruct Hi as [-> |[-> | ->]]; cbn [q_fct] in ES.
  - destruct (si_factor _ _ h1 1 (or_introl eq_refl)) as (_ & _ & _ & _ & F & EF). apply (GO (qL_sampler 0 A B F X Q lam (bprior (get_mat w 1)) (o_cell o (clock w))) F EF).
    + unfold run_mat. rewrite ES. cbn [of_option]. rewrite bindE. unfold compute. cbv zeta. unfold read2 at 1. rewrite k3, EF. cbn [as2]. rewrite !bindE, (single_own w _ h1 1 (or_introl eq_refl)), bindE, (sib_read w 1 B h1 (or_introl eq_refl) k4), bindE. cbn [axis2]. rewrite bindE, EC, k2. cbn [child2]. rewrite bindE, h5. cbn [of_option]. rewrite bindE. unfold read2. rewrite t1. cbn [as2]. rewrite bindE, h5'. reflexivity.
    + left. split; [reflexivity|]. cbn [qL_sampler]. rewrite sample_Z_loop. apply loop_shape. exact k6.
    + left. split; [reflexivity|]. rewrite (C44_ignored_lemma 0 A B X Q _ F [] lam 1 _ (1 / 2)). apply C1; [exact h4''|apply HD].
  - destruct (si_factor _ _ h1 2 (or_intror eq_refl)) as (_ & _ & _ & _ & F & EF). apply (GO (qL_sampler 1 A B F X Q lam (bprior (get_mat w 2)) (o_cell o (clock w))) F EF).
    + unfold run_mat. rewrite ES. cbn [of_option]. rewrite bindE. unfold compute. cbv zeta. unfold read2 at 1. rewrite k4, EF. cbn [as2]. rewrite !bindE, (single_own w _ h1 2 (or_intror eq_refl)), bindE, (sib_read w 2 A h1 (or_intror eq_refl) k3), bindE. cbn [axis2]. rewrite bindE, EC, k2. cbn [child2]. rewrite bindE, h5. cbn [of_option]. rewrite bindE. unfold read2. rewrite t1. cbn [as2]. rewrite bindE, h5'. reflexivity.
    + right; left. split; [reflexivity|]. cbn [qL_sampler]. rewrite sample_U_loop. apply loop_shape. exact k7.
    + right; left. split; [reflexivity|]. rewrite (C44_ignored_lemma 1 A B X Q _ F [] lam 1 _ (1 / 2)). apply C2; [exact h4'|apply HD].
  - destruct (C67_lemma out A B X Q N D L lam (gamma (get_lay w 0)) (o_feature o (clock w)) Ho k6 k7 k5 k0 t2 h5g) as (P1 & P2); [intros d _; apply Hf|].
    apply (GO (sample_qL_q A B X Q lam (gamma (get_lay w 0)) (o_feature o (clock w))) Fq g5).
    + unfold run_mat. rewrite ES. cbn [of_option]. rewrite bindE. unfold compute. cbv zeta. unfold read2 at 1. rewrite t1, g5. cbn [as2]. rewrite !bindE. unfold own_layer. rewrite g2, bindE, EFc. cbn [pick nth_error of_option]. rewrite !bindE. unfold read2. rewrite k3, k4. cbn [as2]. rewrite !bindE, EC, k2. cbn [as2]. rewrite bindE, h5'. reflexivity.
    + right; right. split; [reflexivity|]. split; [exact P1|]. intros d Hd. destruct (P2 d Hd) as (k & -> & (K & _)). lia.
    + right; right. split; [reflexivity|]. split; [exact P1|exact P2].
Qed.
Lemma qm_set_disp w A B Q lam x : q_machine w N D L A B X Q lam -> q_machine (assign_disp w 0 (LS x)) N D L A B X Q x.
Proof.
  intros H. destruct H as [h1 h2 h3 h4 (h5 & h5' & h5g & h5a & h5b) h6 h7 h8 h9 h10 h11 h12]. pose proof (si_layers _ _ h1) as L1.
  assert (G : get_lay (assign_disp w 0 (LS x)) 0 = with_lbda (get_lay w 0) (with_lv (lbda (get_lay w 0)) (LS x))) by (unfold assign_disp; rewrite get_lay_set, L1; reflexivity).
  constructor; try assumption.
  - apply single_set_lay; try reflexivity. exact h1.
  - destruct h3 as [k1 k2 k3]. constructor; assumption.
  - unfold disp. rewrite G. cbn. auto.
  - rewrite G. exact h12.
Qed.
Lemma q_run_lbda w A B Q lam : q_machine w N D L A B X Q lam -> lsfct (lbda (get_lay w 0)) = Some LfqL ->
  exists w' x, run_lbda w 0 = Ok w' /\ disp w' 0 = LS x /\ q_dispersion out w 0 (LS x) w' /\ q_machine w' N D L A B X Q x /\ mats w' = mats w /\ anneal w' = anneal w /\ lsfct (lbda (get_lay w' 0)) = Some LfqL.
Proof.
  intros H ES. pose proof H as [h1 h2 h3 h4 (h5 & h5' & h5g & h5a & h5b) (t1 & t2 & t3) h7 h8 h9 h10 h11 h12]. destruct h3 as [(k0 & k0' & k1) (k2 & k3 & k4) (k5 & k6 & k7)]. pose proof (si_layers _ _ h1) as L1.
  destruct (si_layer _ _ h1) as (EFc & EC & _).
  pose proof (C17_qL_lemma out A B X Q N D L (fst (beta (lbda (get_lay w 0)))) (snd (beta (lbda (get_lay w 0)))) Ho (proj1 k6) (proj1 k7) k5 t3 h5a h5b) as HB. set (x := lbda_update_qL _ _ _ _ _ _) in HB.
  assert (EX : compute_lbda w 0 LfqL = Ok (LS x, ratios (get_lay w 0))).
  { unfold compute_lbda, x. cbv zeta. destruct (beta (lbda (get_lay w 0))) as [a b]. rewrite EFc. cbn [pick nth_error of_option]. rewrite !bindE. unfold read2. rewrite k3, k4. cbn [as2]. rewrite !bindE, EC, k2. cbn [as2]. rewrite bindE, h5. cbn [of_option]. rewrite bindE, t1. reflexivity. }
  assert (EW : run_lbda w 0 = Ok (assign_disp w 0 (LS x))).
  { unfold run_lbda. rewrite ES. cbn [of_option]. rewrite bindE, EX, bindE. unfold assign_disp. destruct (get_lay w 0). reflexivity. }
  exists (assign_disp w 0 (LS x)), x. split; [exact EW|]. pose proof (qm_set_disp w A B Q lam x H) as H'. split; [apply (qm_layer _ _ _ _ _ _ _ _ _ H')|]. split; [|split; [exact H'|split; [reflexivity|split; [reflexivity|]]]].
  - exists N, D, L, A, B, X, Q, lam, x. auto.
  - unfold assign_disp. rewrite get_lay_set, L1. exact ES.
Qed.

(** Choosing the closures: the thresholds get theirs with either factor. *)
Lemma qm_arm w A B Q lam i : q_machine w N D L A B X Q lam -> i = 1%nat \/ i = 2%nat \/ i = 3%nat -> i = 3%nat \/ sfct (get_mat w 3) = Some Fqq ->
  q_machine (set_mat w i (with_sfct (get_mat w i) (Some (q_fct i)))) N D L A B X Q lam.
Proof.
  intros H Hi H3. destruct H as [h1 h2 h3 h4 h5 h6 (g1 & g2 & g3 & g4 & Fq & g5) h8 h9 h10 h11 h12].
  assert (G : forall j, get_mat (set_mat w i (with_sfct (get_mat w i) (Some (q_fct i)))) j = if Nat.eqb j i then with_sfct (get_mat w i) (Some (q_fct i)) else get_mat w j).
  { intros j. rewrite get_mat_set. destruct (Nat.eqb_spec j i) as [->|]; cbn [andb]; [|reflexivity]. rewrite (proj2 (Nat.ltb_lt _ _)) by lia. reflexivity. }
  assert (P1 : sfct (get_mat (set_mat w i (with_sfct (get_mat w i) (Some (q_fct i)))) 1) = None \/ sfct (get_mat (set_mat w i (with_sfct (get_mat w i) (Some (q_fct i)))) 1) = Some (FqZ [0; 1]%nat)) by (rewrite G; destruct Hi as [-> |[-> | ->]]; cbn [Nat.eqb]; auto).
  assert (P2 : sfct (get_mat (set_mat w i (with_sfct (get_mat w i) (Some (q_fct i)))) 2) = None \/ sfct (get_mat (set_mat w i (with_sfct (get_mat w i) (Some (q_fct i)))) 2) = Some (FqU [1; 0]%nat)) by (rewrite G; destruct Hi as [-> |[-> | ->]]; cbn [Nat.eqb]; auto).
  assert (P3 : sfct (get_mat (set_mat w i (with_sfct (get_mat w i) (Some (q_fct i)))) 3) = Some Fqq) by (rewrite G; destruct Hi as [-> |[-> | ->]]; cbn [Nat.eqb]; [destruct H3 as [C|H3]; [discriminate C|exact H3]|destruct H3 as [C|H3]; [discriminate C|exact H3]|reflexivity]).
  constructor; try assumption.
  - apply single_set_sfct. exact h1.
  - cbn. rewrite upd_length. exact h2.
  - destruct h3 as [k1 k2 k3]. constructor; [exact k1| |exact k3]. rewrite !single_value_sfct. exact k2.
  - rewrite single_value_sfct. exact h6.
  - rewrite G. destruct Hi as [-> |[-> | ->]]; cbn [Nat.eqb]; cbn; eauto 10.
  - right. exact P3.
  - intros _. exact P3.
Qed.
Lemma q_assign_mat w A B Q lam i : q_machine w N D L A B X Q lam -> i = 1%nat \/ i = 2%nat \/ (i = 3%nat /\ sfct (get_mat w 3) = Some Fqq) ->
  exists w', assign_mat w i = Ok w' /\ q_machine w' N D L A B X Q lam /\ strip w' = strip w /\ layers w' = layers w /\ anneal w' = anneal w /\ sfct (get_mat w' 3) = Some Fqq /\
    (forall j, j = i \/ sfct (get_mat w j) = Some (q_fct j) -> sfct (get_mat w' j) = Some (q_fct j)).
Proof.
  intros H Hi. pose proof (qm_single _ _ _ _ _ _ _ _ _ H) as h1. pose proof (qm_mats _ _ _ _ _ _ _ _ _ H) as h2.
  assert (EA : exists w0, q_machine w0 N D L A B X Q lam /\ strip w0 = strip w /\ layers w0 = layers w /\ anneal w0 = anneal w /\ List.length (mats w0) = 4%nat /\ sfct (get_mat w0 3) = Some Fqq /\ (forall j, sfct (get_mat w j) = Some (q_fct j) -> sfct (get_mat w0 j) = Some (q_fct j)) /\
    assign_mat w i = Ok (set_mat w0 i (with_sfct (get_mat w0 i) (Some (q_fct i))))).
  { destruct (sfct (get_mat w i)) as [f|] eqn:Ef.
    - exists w. assert (E3 : sfct (get_mat w 3) = Some Fqq) by (destruct Hi as [-> |[-> |(_ & G)]]; [apply (qm_armed _ _ _ _ _ _ _ _ _ H); left; congruence|apply (qm_armed _ _ _ _ _ _ _ _ _ H); right; congruence|exact G]).
      assert (Eq : f = q_fct i).
      { destruct Hi as [-> |[-> |(-> & G)]]; cbn [q_fct]; [destruct (qm_sfct1 _ _ _ _ _ _ _ _ _ H)|destruct (qm_sfct2 _ _ _ _ _ _ _ _ _ H)|]; congruence. }
      split; [exact H|]. split; [reflexivity|]. split; [reflexivity|]. split; [reflexivity|]. split; [exact h2|]. split; [exact E3|]. split; [auto|]. unfold assign_mat, get_sampling_fct. rewrite Ef, bindE, Eq. reflexivity.
    - exists (set_mat w 3 (with_sfct (get_mat w 3) (Some Fqq))). pose proof (qm_arm w A B Q lam 3 H ltac:(auto) ltac:(auto)) as H3. cbn [q_fct] in H3.
      assert (Hi' : i = 1%nat \/ i = 2%nat) by (destruct Hi as [-> |[-> |(-> & G)]]; auto; congruence).
      split; [exact H3|]. split; [apply strip_mat|]. split; [reflexivity|]. split; [reflexivity|]. split; [cbn; rewrite upd_length; exact h2|]. split; [rewrite get_mat_set, h2; reflexivity|].
      split; [intros j Ej; rewrite get_mat_set, h2; destruct (Nat.eqb_spec j 3) as [->|]; cbn [andb Nat.ltb Nat.leb]; [reflexivity|exact Ej]|].
      unfold assign_mat, get_sampling_fct. rewrite Ef, (single_models w _ h1 i Hi'), bindE. cbv zeta. cbn [String.eqb Ascii.eqb Bool.eqb]. rewrite (single_own w _ h1 i Hi'), bindE. destruct (qm_layer _ _ _ _ _ _ _ _ _ H) as (-> & _). cbn [of_option]. rewrite bindE, (single_order w _ h1 i Hi').
      destruct (si_factor _ _ h1 i Hi') as (-> & _). destruct Hi' as [-> | ->]; reflexivity. }
  destruct EA as (w0 & H0 & T0 & L0 & A0 & M0 & S3 & K0 & E). eexists. split; [exact E|].
  assert (Hi2 : i = 1%nat \/ i = 2%nat \/ i = 3%nat) by (destruct Hi as [|[|(G & _)]]; auto).
  assert (G : forall j, get_mat (set_mat w0 i (with_sfct (get_mat w0 i) (Some (q_fct i)))) j = if Nat.eqb j i then with_sfct (get_mat w0 i) (Some (q_fct i)) else get_mat w0 j).
  { intros j. rewrite get_mat_set. destruct (Nat.eqb_spec j i) as [->|]; cbn [andb]; [|reflexivity]. rewrite (proj2 (Nat.ltb_lt _ _)) by lia. reflexivity. }
  split; [apply qm_arm; auto|]. split; [rewrite strip_mat; exact T0|]. split; [exact L0|]. split; [exact A0|]. split.
  - rewrite G. destruct Hi2 as [-> |[-> | ->]]; [exact S3|exact S3|reflexivity].
  - intros j Hj. rewrite G. destruct (Nat.eqb_spec j i) as [->|Ne]; [reflexivity|]. apply K0. destruct Hj as [C|Hj]; [contradiction|exact Hj].
Qed.
Lemma q_assign_mats ms : forall w A B Q lam, q_machine w N D L A B X Q lam -> (forall i, In i ms -> i = 1%nat \/ i = 2%nat \/ i = 3%nat) -> sfct (get_mat w 3) = Some Fqq ->
  exists w', foldM assign_mat ms w = Ok w' /\ q_machine w' N D L A B X Q lam /\ strip w' = strip w /\ layers w' = layers w /\ anneal w' = anneal w /\
    (forall i, sfct (get_mat w i) = Some (q_fct i) \/ In i ms -> sfct (get_mat w' i) = Some (q_fct i)).
Proof.
  induction ms as [|i ms IH]; intros w A B Q lam H Hms E3; cbn [foldM]; [exists w; split; [reflexivity|]; split; [exact H|]; split; [reflexivity|]; split; [reflexivity|]; split; [reflexivity|]; intros i [G|[]]; exact G|].
  destruct (q_assign_mat w A B Q lam i H) as (w1 & E1 & H1 & T1 & L1 & A1 & S1 & K1); [destruct (Hms i (or_introl eq_refl)) as [|[|]]; auto|]. rewrite E1, bindE.
  destruct (IH w1 A B Q lam H1) as (w' & G1 & G2 & G3 & G4 & G5 & G6); [intros j Hj; apply Hms; right; exact Hj|exact S1|].
  exists w'. split; [exact G1|]. split; [exact G2|]. split; [congruence|]. split; [congruence|]. split; [congruence|]. intros j Hj. apply G6. destruct Hj as [Hj|[<-|Hj]]; [left; apply K1; auto|left; apply K1; auto|right; exact Hj].
Qed.
Lemma q_assign_lbdas ls w A B Q lam : q_machine w N D L A B X Q lam -> ls = [] \/ ls = [0%nat] ->
  exists w', foldM assign_lbda ls w = Ok w' /\ q_machine w' N D L A B X Q lam /\ strip w' = strip w /\ mats w' = mats w /\ anneal w' = anneal w /\ (In 0%nat ls -> lsfct (lbda (get_lay w' 0)) = Some LfqL).
Proof.
  intros H [-> | ->]; cbn [foldM]; [exists w; split; [reflexivity|]; split; [exact H|]; split; [reflexivity|]; split; [reflexivity|]; split; [reflexivity|]; intros []|].
  pose proof (si_layers _ _ (qm_single _ _ _ _ _ _ _ _ _ H)) as L1.
  assert (E : assign_lbda w 0 = Ok (set_lay w 0 (with_lbda (get_lay w 0) (with_lsfct (lbda (get_lay w 0)) (Some LfqL))))).
  { unfold assign_lbda, get_update_fct. cbv zeta. destruct (qm_lsfct _ _ _ _ _ _ _ _ _ H) as [-> | ->]; [|reflexivity]. destruct (si_layer _ _ (qm_single _ _ _ _ _ _ _ _ _ H)) as (-> & _ & -> & _). reflexivity. }
  rewrite E, bindE. eexists. split; [reflexivity|]. split; [|split; [apply strip_lay|split; [reflexivity|split; [reflexivity|intros _; rewrite get_lay_set, L1; reflexivity]]]].
  destruct H as [h1 h2 h3 h4 h5 h6 h7 h8 h9 h10 h11 h12]. assert (G : get_lay (set_lay w 0 (with_lbda (get_lay w 0) (with_lsfct (lbda (get_lay w 0)) (Some LfqL)))) 0 = with_lbda (get_lay w 0) (with_lsfct (lbda (get_lay w 0)) (Some LfqL))) by (rewrite get_lay_set, L1; reflexivity).
  constructor; try assumption.
  - apply single_set_lay; try reflexivity. exact h1.
  - destruct h3 as [k1 k2 k3]. constructor; assumption.
  - unfold disp. rewrite G. exact h5.
  - rewrite G. right. reflexivity.
Qed.
(** What is updated. *)
Lemma q_members w A B Q lam : q_machine w N D L A B X Q lam -> let ms := filter (unfixed w) [1; 2; 0; 3]%nat in
  not_fixed w (members w) = Ok ms /\ NoDup ms /\ (forall i, In i ms <-> (i = 1%nat \/ i = 2%nat \/ i = 3%nat) /\ fixed (get_mat w i) = FBool false).
Proof.
  intros H ms. pose proof (qm_single _ _ _ _ _ _ _ _ _ H) as h1. destruct (qm_q _ _ _ _ _ _ _ _ _ H) as (_ & _ & _ & (bq & Eq) & _).
  assert (HB : forall i, i = 1%nat \/ i = 2%nat \/ i = 3%nat -> exists b, fixed (get_mat w i) = FBool b) by (intros i [Hi|[Hi|Hi]]; [destruct (si_factor _ _ h1 i (or_introl Hi)) as (_ & _ & _ & G & _); exact G|destruct (si_factor _ _ h1 i (or_intror Hi)) as (_ & _ & _ & G & _); exact G|subst; eauto]).
  split; [|split; [unfold ms; apply NoDup_filter; repeat constructor; cbn; lia|]].
  - assert (EM : members w = [1; 2; 0; 3]%nat) by (rewrite (single_members w _ h1); cbn [String.eqb Ascii.eqb Bool.eqb]; destruct (qm_layer _ _ _ _ _ _ _ _ _ H) as (-> & _); reflexivity).
    rewrite EM. apply not_fixed_filter. intros i [<-|[<-|[<-|[<-|[]]]]]; [apply HB; auto|apply HB; auto|exists true; apply (si_data _ _ h1)|apply HB; auto].
  - intros i. unfold ms. rewrite filter_In. cbn [In]. unfold unfixed. split.
    + intros (G & E). assert (Gi : i = 1%nat \/ i = 2%nat \/ i = 3%nat) by (destruct G as [<-|[<-|[<-|[<-|[]]]]]; auto; rewrite (si_data _ _ h1) in E; discriminate).
      split; [exact Gi|]. destruct (HB i Gi) as (b & Eb). rewrite Eb in *. destruct b; [discriminate|reflexivity].
    + intros (G & ->). split; [lia|reflexivity].
Qed.
Lemma q_prepare s A B Q lam : q_machine (wd s) N D L A B X Q lam -> q_ready (wd s) ->
  exists ms ls s1, prepare s = Ok (ms, ls, s1) /\ NoDup ms /\ q_machine (wd s1) N D L A B X Q lam /\ strip (wd s1) = strip (wd s) /\ anneal (wd s1) = anneal (wd s) /\
    (forall i, In i ms <-> (i = 1%nat \/ i = 2%nat \/ i = 3%nat) /\ fixed (get_mat (wd s) i) = FBool false) /\ (forall l, In l ls <-> l = 0%nat /\ lfixed (lbda (get_lay (wd s) 0)) = false) /\
    (forall i, In i ms -> sfct (get_mat (wd s1) i) = Some (q_fct i)) /\ (In 0%nat ls -> lsfct (lbda (get_lay (wd s1) 0)) = Some LfqL).
Proof.
  intros H RD. pose proof (qm_single _ _ _ _ _ _ _ _ _ H) as h1. set (w := wd s) in *. destruct (q_members w A B Q lam H) as (EN & ND & Hms). remember (filter (unfixed w) [1; 2; 0; 3]%nat) as ms eqn:Ems.
  assert (FM : exists w', foldM assign_mat ms w = Ok w' /\ q_machine w' N D L A B X Q lam /\ strip w' = strip w /\ layers w' = layers w /\ anneal w' = anneal w /\ (forall i, In i ms -> sfct (get_mat w' i) = Some (q_fct i))).
  { destruct (sfct (get_mat w 3)) as [f|] eqn:E3.
    - assert (f = Fqq) by (destruct (qm_sfct3 _ _ _ _ _ _ _ _ _ H); congruence). subst f. destruct (q_assign_mats ms w A B Q lam H) as (w' & G1 & G2 & G3 & G4 & G5 & G6); [intros i Hi; apply Hms; exact Hi|exact E3|]. exists w'. auto 10.
    - destruct ms as [|i ms']; [exists w; split; [reflexivity|]; split; [exact H|]; split; [reflexivity|]; split; [reflexivity|]; split; [reflexivity|]; intros i []|].
      assert (Hi : i = 1%nat \/ i = 2%nat).
      { assert (G : In i (i :: ms')) by (left; reflexivity). pose proof (proj1 (Hms i) G) as ([Hi|[Hi|Hi]] & Ei); auto. exfalso. subst i. unfold q_ready in RD. rewrite E3 in RD.
        assert (NI : forall j, (j = 1%nat \/ j = 2%nat) -> fixed (get_mat w j) = FBool false -> False).
        { intros j Hj Ej. assert (Gj : In j (3 :: ms')%nat) by (apply Hms; split; [lia|exact Ej]). cbn [filter] in Ems. destruct (unfixed w 1) eqn:U1; [discriminate Ems|]. destruct (unfixed w 2) eqn:U2; [discriminate Ems|]. unfold unfixed in U1, U2. destruct Hj as [-> | ->]; [rewrite Ej in U1; discriminate U1|rewrite Ej in U2; discriminate U2]. }
        destruct RD as [G1|[G1|[G1|G1]]]; [apply (NI 1%nat); auto|apply (NI 2%nat); auto|congruence|apply G1; reflexivity]. }
      destruct (q_assign_mat w A B Q lam i H) as (w1 & E1 & H1 & T1 & L1 & A1 & S1 & K1); [destruct Hi; auto|]. cbn [foldM]. rewrite E1, bindE.
      destruct (q_assign_mats ms' w1 A B Q lam H1) as (w' & G1 & G2 & G3 & G4 & G5 & G6); [intros j Hj; apply Hms; right; exact Hj|exact S1|].
      exists w'. split; [exact G1|]. split; [exact G2|]. split; [congruence|]. split; [congruence|]. split; [congruence|]. intros j Hj. apply G6. destruct Hj as [<-|Hj]; [left; apply K1; auto|right; exact Hj]. }
  destruct FM as (w1 & E1 & M1 & T1 & Ly1 & An1 & F1).
  assert (ELs : free_lbdas w = [] \/ free_lbdas w = [0%nat]) by (rewrite (single_free_lbdas w _ h1); destruct (lfixed _); auto).
  destruct (q_assign_lbdas (free_lbdas w) w1 A B Q lam M1 ELs) as (w2 & E2 & M2 & T2 & Ma2 & An2 & F2).
  unfold prepare. fold w. rewrite EN, bindE. cbv zeta. rewrite E1, bindE, E2, bindE. eexists _, _, _. split; [reflexivity|].
  assert (W : wd (fold_left rewind_l (free_lbdas w) (fold_left (fun s0 i => set_mtr s0 i (mtr s0 i) 0) ms (set_wd s w2))) = w2).
  { rewrite rewind_l_wd. assert (G : forall l s, wd (fold_left (fun s i => set_mtr s i (mtr s i) 0) l s) = wd s) by (induction l as [|a l IH]; intros s0; [reflexivity|]; cbn [fold_left]; rewrite IH; reflexivity). rewrite G. reflexivity. }
  rewrite W. split; [exact ND|]. split; [exact M2|]. split; [rewrite T2; exact T1|]. split; [rewrite An2; exact An1|]. split; [exact Hms|]. split; [|split; [|exact F2]].
  - intros l. rewrite (single_free_lbdas w _ h1). destruct (lfixed _); cbn; [|intuition congruence]. split; [contradiction|]. intros (_ & C). discriminate.
  - intros i Hi. unfold get_mat. rewrite Ma2. apply F1. exact Hi.
Qed.
Definition qJ (ms ls : list nat) (w : world) : Prop := (exists A B Q lam, q_machine w N D L A B X Q lam) /\ (forall i, In i ms -> sfct (get_mat w i) = Some (q_fct i)) /\ (In 0%nat ls -> lsfct (lbda (get_lay w 0)) = Some LfqL) /\ anneal w = false.
Lemma C89_run_lemma cfg n s A B Q lam : usable cfg -> q_machine (wd s) N D L A B X Q lam -> q_ready (wd s) -> anneal (wd s) = false ->
  exists F0, forall fuel, (F0 <= fuel)%nat -> exists s' w1 evs, infer fuel o cfg n s = Some (Ok s') /\
  (exists A' B' Q' lam', q_machine (wd s') N D L A' B' X Q' lam') /\ strip w1 = strip (wd s) /\ log s' = (log s ++ evs)%list /\ does (q_update true out o) (q_dispersion out) evs w1 (wd s') /\
  (forall i, In (EMat i) evs -> (i = 1%nat \/ i = 2%nat \/ i = 3%nat) /\ fixed (get_mat (wd s) i) = FBool false) /\ (forall l v, In (ELbda l v) evs -> l = 0%nat /\ lfixed (lbda (get_lay (wd s) 0)) = false).
Proof.
  intros U H RD Ha. destruct (q_prepare s A B Q lam H RD) as (ms & ls & s1 & EP & NM & M1 & T1 & An1 & Hms & Hls & F1 & F2). exists (enough cfg). intros fuel Hfu.
  assert (J1 : qJ ms ls (wd s1)) by (split; [eauto 6|]; split; [exact F1|]; split; [exact F2|congruence]).
  destruct (engine o cfg n s s1 ms ls (qJ ms ls) (q_update true out o) (q_dispersion out) (proj1 Hr) U EP NM J1) with (fuel := fuel) as (s' & evs & E & (J' & _) & EL & DO & Em & Elb).
  - intros w ((A0 & B0 & Q0 & lam0 & M) & J2 & J3 & J4). split; [|auto]. exists A0, B0, Q0, lam0. destruct M as [h1 h2 h3 h4 h5 h6 h7 h8 h9 h10 h11 h12]. constructor; try assumption; [apply single_tick; exact h1|]. destruct h3 as [k1 k2 k3]. constructor; assumption.
  - intros w i ((A0 & B0 & Q0 & lam0 & M) & J2 & J3 & J4) Hi. destruct (q_run_mat w A0 B0 Q0 lam0 i M (proj1 (proj1 (Hms i) Hi)) (J2 i Hi)) as (w' & E & Up & (A' & B' & Q' & M') & Ma & Ly & An). exists w'. split; [exact E|]. split; [exact Up|]. split; [eauto 6|]. unfold get_mat, get_lay in *. rewrite Ma, Ly, An. auto.
  - exact Hfu.
  - intros w (_ & _ & _ & E). exact E.
  - intros w l ((A0 & B0 & Q0 & lam0 & M) & _) Hl. pose proof (qm_single _ _ _ _ _ _ _ _ _ M) as h1. rewrite (si_layers _ _ h1) in Hl. replace l with 0%nat by lia. split; apply (si_layer _ _ h1).
  - intros w l ((A0 & B0 & Q0 & lam0 & M) & _) Hl. apply Hls in Hl. destruct Hl as (-> & _). destruct (qm_layer _ _ _ _ _ _ _ _ _ M) as (_ & -> & _). cbn. lia.
  - intros w i ((A0 & B0 & Q0 & lam0 & M) & _) Hi. apply Hms in Hi. destruct Hi as (Hi & _). pose proof (qm_single _ _ _ _ _ _ _ _ _ M) as h1.
    assert (EL : layer_of (get_mat w i) = Some 0%nat) by (destruct Hi as [Hi|[Hi|Hi]]; [destruct (si_factor _ _ h1 i (or_introl Hi)) as (_ & G & _); exact G|destruct (si_factor _ _ h1 i (or_intror Hi)) as (_ & G & _); exact G|subst; apply (qm_q _ _ _ _ _ _ _ _ _ M)]).
    rewrite EL. split; [discriminate|]. unfold is_ibp. rewrite EL. destruct (si_layer _ _ h1) as (_ & _ & -> & _). reflexivity.
  - intros w l ((A0 & B0 & Q0 & lam0 & M) & J2 & J3 & J4) Hl. pose proof (proj1 (Hls l) Hl) as (-> & _). destruct (q_run_lbda w A0 B0 Q0 lam0 M (J3 Hl)) as (w' & v & E & Ev & Up & M' & Ma & An & Ls). exists w'. split; [exact E|]. rewrite Ev. split; [exact Up|]. split; [eauto 6|].
    unfold get_mat in *. rewrite Ma, An. auto.
  - exists s', (wd s1), evs. split; [exact E|]. split; [exact J'|]. split; [exact T1|]. split; [exact EL|]. split; [exact DO|]. split; [intros i Hi; apply Hms, Em, Hi|intros l v Hi; apply Hls, (Elb l v), Hi].
Qed.
(** Both factors fixed: the thresholds get the sampling function of a factor, which cannot be called on them. *)
Lemma C89_fixed_lemma cfg n s A B Q lam fuel : usable cfg -> q_machine (wd s) N D L A B X Q lam -> ~ q_ready (wd s) -> burn_in_min cfg <> 0%Z -> (1 <= fuel)%nat -> infer fuel o cfg n s = Some (Err ValueError).
Proof.
  intros (U1 & U2 & U3) H NR Hb Hfu. pose proof (qm_single _ _ _ _ _ _ _ _ _ H) as h1. set (w := wd s) in *. destruct (q_members w A B Q lam H) as (EN & ND & Hms). unfold q_ready in NR.
  assert (E1 : fixed (get_mat w 1) = FBool true) by (destruct (si_factor _ _ h1 1 (or_introl eq_refl)) as (_ & _ & _ & (b & Eb) & _); destruct b; [exact Eb|exfalso; apply NR; left; exact Eb]).
  assert (E2 : fixed (get_mat w 2) = FBool true) by (destruct (si_factor _ _ h1 2 (or_intror eq_refl)) as (_ & _ & _ & (b & Eb) & _); destruct b; [exact Eb|exfalso; apply NR; right; left; exact Eb]).
  destruct (qm_q _ _ _ _ _ _ _ _ _ H) as (q1 & q2 & q3 & (bq & q4) & Fq & q5). assert (E3 : fixed (get_mat w 3) = FBool false) by (destruct bq; [exfalso; apply NR; right; right; left; exact q4|exact q4]).
  assert (ES : sfct (get_mat w 3) = None) by (destruct (sfct (get_mat w 3)); [exfalso; apply NR; right; right; right; discriminate|reflexivity]).
  assert (EM : filter (unfixed w) [1; 2; 0; 3]%nat = [3%nat]) by (cbn [filter]; unfold unfixed; rewrite E1, E2, E3, (si_data _ _ h1); reflexivity). rewrite EM in EN.
  destruct (si_layer _ _ h1) as (EFc & EC & EMo & _). pose proof (qm_mats _ _ _ _ _ _ _ _ _ H) as h2. destruct (qm_layer _ _ _ _ _ _ _ _ _ H) as (EQ & ED & _).
  set (f := FqU [1; 0; 1]%nat). set (w0 := set_mat w 3 (with_sfct (get_mat w 3) (Some Fqq))).
  assert (EA : assign_mat w 3 = Ok (set_mat w0 3 (with_sfct (get_mat w0 3) (Some f)))).
  { unfold assign_mat, get_sampling_fct. rewrite ES. unfold get_relatives_models. rewrite q2, q3, EFc, EMo, bindE. cbv zeta. cbn [String.eqb Ascii.eqb Bool.eqb List.length]. unfold own_layer. rewrite q2, bindE, EQ. cbn [of_option]. rewrite bindE, q1.
    unfold transpose_order, siblings, axis_of. rewrite q1, q2, EFc. cbn [filter Nat.eqb negb map]. destruct (si_factor _ _ h1 1 (or_introl eq_refl)) as (-> & _). destruct (si_factor _ _ h1 2 (or_intror eq_refl)) as (-> & _). rewrite bindE. reflexivity. }
  set (w1 := set_mat w0 3 (with_sfct (get_mat w0 3) (Some f))) in *.
  assert (M3 : get_mat w1 3 = with_sfct (get_mat w 3) (Some f)) by (unfold w1, w0; rewrite !get_mat_set; cbn [mats set_mat set_mats]; rewrite upd_length, h2; reflexivity).
  assert (Mj : forall j, j <> 3%nat -> get_mat w1 j = get_mat w j) by (intros j Hj; unfold w1, w0; rewrite !get_mat_set, (proj2 (Nat.eqb_neq _ _) Hj); reflexivity).
  pose proof (si_layers _ _ h1) as L1.
  assert (FL : exists w2, foldM assign_lbda (free_lbdas w) w1 = Ok w2 /\ arrays w2 = arrays w /\ mats w2 = mats w1 /\ factors (get_lay w2 0) = [1; 2]%nat).
  { rewrite (single_free_lbdas w _ h1). destruct (lfixed _); cbn [foldM]; [exists w1; auto|].
    assert (E : exists g, assign_lbda w1 0 = Ok (set_lay w1 0 (with_lbda (get_lay w1 0) (with_lsfct (lbda (get_lay w1 0)) (Some g))))).
    { unfold assign_lbda, get_update_fct. cbv zeta. change (get_lay w1 0) with (get_lay w 0). destruct (qm_lsfct _ _ _ _ _ _ _ _ _ H) as [-> | ->]; [|exists LfqL; reflexivity]. rewrite EFc, EMo. exists LfqL. reflexivity. }
    destruct E as (g & E). rewrite E, bindE. eexists. split; [reflexivity|]. split; [reflexivity|]. split; [reflexivity|]. rewrite get_lay_set. change (layers w1) with (layers w). rewrite L1. exact EFc. }
  destruct FL as (w2 & EL & AL & ML & FcL). unfold infer, prepare. fold w. rewrite EN, bindE. cbv zeta. cbn [foldM]. rewrite EA, !bindE, EL, bindE.
  set (s1 := fold_left rewind_l _ _). assert (W : wd s1 = w2) by (unfold s1; rewrite rewind_l_wd; reflexivity).
  assert (ER : run_mat o (tick w2) 3 = Err ValueError).
  { assert (G3 : get_mat (tick w2) 3 = with_sfct (get_mat w 3) (Some f)) by (rewrite <- M3; unfold get_mat; cbn [mats tick]; rewrite ML; reflexivity).
    assert (V : forall j, j <> 3%nat -> value (tick w2) j = value w j) by (intros j Hj; unfold value, get_arr; cbn [arrays tick]; rewrite AL; f_equal; rewrite <- (Mj j Hj); unfold get_mat; cbn [mats tick]; rewrite ML; reflexivity).
    assert (V3 : value (tick w2) 3 = A2 Q) by (unfold value, get_arr; cbn [arrays tick]; rewrite AL, G3; cbn [val with_sfct]; apply (proj1 (qm_thresholds _ _ _ _ _ _ _ _ _ H))).
    destruct (ho_values _ _ _ _ _ _ _ (qm_holding _ _ _ _ _ _ _ _ _ H)) as (_ & VA & _).
    unfold run_mat. rewrite G3. cbn [sfct with_sfct of_option]. rewrite bindE. unfold f. unfold compute. cbv zeta. rewrite G3. cbn [fixed_entries with_sfct]. unfold read2. rewrite V3, q5. cbn [as2]. rewrite !bindE. unfold own_layer, siblings. rewrite G3. cbn [layer_of with_sfct]. rewrite q2, bindE. change (get_lay (tick w2) 0) with (get_lay w2 0). rewrite FcL. cbn [filter Nat.eqb negb pick nth_error of_option]. rewrite bindE, V by lia. rewrite VA. cbn [as2]. rewrite bindE. reflexivity. }
  unfold burn_in. destruct fuel as [|fuel]; [lia|]. cbn [while]. assert (Eb : negb (0 =? burn_in_min cfg)%Z = true) by (apply negb_true_iff, Z.eqb_neq; congruence). rewrite Eb.
  unfold pre_body. unfold div_ok. rewrite (proj2 (Nat.eqb_neq _ _) U3) || rewrite (proj2 (Nat.eqb_neq _ _) U2) || idtac. rewrite bindE. unfold sweep. rewrite W.
  assert (EP : o_perm o (clock w2) [3%nat] = [3%nat]) by (apply Permutation_length_1_inv, Permutation_sym, (proj1 Hr)). rewrite EP. cbn [foldM]. unfold call_mat. cbn [wd note set_wd]. rewrite ER. reflexivity.
Qed.
End Q.
