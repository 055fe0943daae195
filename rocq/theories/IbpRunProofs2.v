(** OR-AND-IBP machines: every update succeeds and does what ibp_update says (C90). *)
From Coq Require Import String Lia Lra Sorted Permutation.
From Verif Require PredictProofs PreserveLog.
From Verif Require Import Base BaseLemmas BaseR BaseRLemmas Spec SpecR SpecIbp Canon Sampling SamplingProofs Lambda LambdaProofs Ibp IbpProofs IbpProofs2 IbpProofs3 IbpProofs4 IbpProofs5 Clean Machine Dispatch Inference SpecMachine SpecOrdinary SpecExperiments SpecMaxRun SpecIbpRun MachineProofs InferenceProofs InferenceProofs2 InferenceProofs3 InferenceProofs6 ProgressProofs PlainProofs PreserveProofs OrdinaryProofs6 TraceProofs EngineProofs IbpRunProofs.
Local Open Scope R_scope.

(** Giving a matrix a new array. *)
Section Assign.
Context (w : world) (m : string) (S1 : single w m) (i : nat) (x : arr) (Hi : i = 1%nat \/ i = 2%nat).
Lemma assign_mats_at j : get_mat (assign_val w i x) j = if Nat.eqb j i then with_val (get_mat w i) (List.length (arrays w)) else get_mat w j.
Proof.
  unfold assign_val. rewrite get_mat_set. change (get_mat (set_arrays w (arrays w ++ [x])) j) with (get_mat w j). change (mats (set_arrays w (arrays w ++ [x]))) with (mats w). destruct (Nat.eqb_spec j i) as [->|]; cbn [andb]; [|reflexivity].
  pose proof (si_mats _ _ S1). rewrite (proj2 (Nat.ltb_lt _ _)) by lia. reflexivity.
Qed.
Lemma single_assign : single (assign_val w i x) m.
Proof.
  assert (LM : List.length (mats (assign_val w i x)) = List.length (mats w)) by apply upd_length.
  assert (LA : List.length (arrays (assign_val w i x)) = S (List.length (arrays w))) by (cbn; rewrite app_length; cbn; lia).
  destruct S1 as [a1 a2 a3 a4 a5 a6 a7 a8]. constructor; try assumption.
  - rewrite LM. exact a3.
  - rewrite assign_mats_at. destruct (Nat.eqb_spec 0 i); [lia|exact a5].
  - intros j Hj. rewrite assign_mats_at. destruct (Nat.eqb_spec j i) as [->|]; [exact (a6 i Hj)|exact (a6 j Hj)].
  - intros j Hj. rewrite LM in Hj. rewrite assign_mats_at, LA. destruct (Nat.eqb_spec j i) as [->|]; cbn [val with_val]; [lia|]. specialize (a7 j Hj). lia.
  - intros j k Hj Hk Hjk. rewrite LM in Hj, Hk. rewrite !assign_mats_at. pose proof (a7 j Hj). pose proof (a7 k Hk). destruct (Nat.eqb_spec j i) as [->|], (Nat.eqb_spec k i) as [->|]; cbn [val with_val]; try lia. apply a8; assumption.
Qed.
Lemma assign_value j : (j < List.length (mats w))%nat -> value (assign_val w i x) j = if Nat.eqb j i then x else value w j.
Proof.
  intros Hj. unfold value, get_arr. rewrite assign_mats_at. cbn [arrays assign_val set_mat set_mats set_arrays]. destruct (Nat.eqb_spec j i) as [->|]; cbn [val with_val]; [apply nth_middle|]. apply app_nth1. apply (si_stored _ _ S1). exact Hj.
Qed.
End Assign.

Section Ibp.
Context (out : list vec -> nat -> Z) (Ho : is_output OR AND out) (o : oracle) (Hr : random o) (Hk : forall k n, SpecR.is_draw (dk (o_ibp o k n))) (N D : nat) (X : mat).
Lemma or_and : In (OR, AND) implemented.
Proof. cbn. auto 10. Qed.
Lemma im_tick w L A B lam : ibp_machine w N D L A B X lam -> ibp_machine (tick w) N D L A B X lam.
Proof. intros [h1 h2 h3 h4 h5 h6 h7 h8 h9 h10 h11]. constructor; try assumption. apply single_tick. exact h1. Qed.
Lemma im_put w L A B lam M : ibp_machine w N D L A B X lam -> okmat D L M -> ibp_machine (put w 2 M) N D L A M X lam.
Proof.
  intros [h1 h2 h3 (k2 & k3 & k4) (k5 & k6 & k7) h6 h7 h8 h9 h10 h11] HM.
  assert (HV : forall j, (j < 3)%nat -> value (put w 2 M) j = if Nat.eqb j 2 then A2 M else value w j) by (intros j Hj; apply (single_put_value w "OR-AND-IBP" h1); rewrite h2; lia).
  constructor; try assumption.
  - apply single_put. exact h1.
  - rewrite !HV by lia. auto.
  - auto.
Qed.
Lemma im_assign w L A B lam L' A' B' : ibp_machine w N D L A B X lam -> okmat N L' A' -> okmat D L' B' -> ibp_machine (assign_val (assign_val w 1 (A2 A')) 2 (A2 B')) N D L' A' B' X lam.
Proof.
  intros [h1 h2 h3 (k2 & k3 & k4) (k5 & k6 & k7) h6 h7 h8 h9 h10 h11] HA HB. pose proof (single_assign w _ h1 1 (A2 A') (or_introl eq_refl)) as s1. pose proof (single_assign _ _ s1 2 (A2 B') (or_intror eq_refl)) as s2.
  assert (L1 : List.length (mats (assign_val w 1 (A2 A'))) = 3%nat) by (cbn; rewrite upd_length; exact h2).
  assert (G : forall j, get_mat (assign_val (assign_val w 1 (A2 A')) 2 (A2 B')) j = with_val (get_mat w j) (val (get_mat (assign_val (assign_val w 1 (A2 A')) 2 (A2 B')) j))).
  { intros j. rewrite (assign_mats_at _ _ s1) by auto. rewrite !(assign_mats_at _ _ h1) by auto. destruct (Nat.eqb_spec j 2) as [->|]; [reflexivity|]. destruct (Nat.eqb_spec j 1) as [->|]; [reflexivity|]. destruct (get_mat w j). reflexivity. }
  constructor; try assumption.
  - cbn. rewrite !upd_length. exact h2.
  - rewrite !(assign_value _ _ s1) by (auto; rewrite L1; lia). rewrite !(assign_value _ _ h1) by (auto; rewrite h2; lia). cbn [Nat.eqb]. auto.
  - auto.
  - rewrite G. exact h8.
  - rewrite G. exact h9.
  - rewrite G. exact h10.
Qed.
Definition i_fct (w : world) (i : nat) : fct := if Nat.eqb i 1 then FIbp [0; 1]%nat else FLom "OR-AND" [1; 0]%nat (bprior (get_mat w 2)).
(** What a factor's update leaves alone. *)
Record kept (w w' : world) : Prop := {
  ke_sfct : forall i, sfct (get_mat w' i) = sfct (get_mat w i);
  ke_prior : forall i, bprior (get_mat w' i) = bprior (get_mat w i);
  ke_fixed : forall i, fixed (get_mat w' i) = fixed (get_mat w i);
  ke_layers : layers w' = layers w;
  ke_anneal : anneal w' = anneal w }.
Lemma ref_ok (P : mat -> R) F r L B : okmat D L B -> okmat D L (ref_sweep P F r D L B).
Proof.
  apply PredictProofs.ref_sweep_okmat.
Qed.
Lemma i_run_mat w L A B lam i : ibp_machine w N D L A B X lam -> i = 1%nat \/ i = 2%nat -> sfct (get_mat w i) = Some (i_fct w i) ->
  exists w' L' A' B', run_mat o w i = Ok w' /\ ibp_update true out o w i w' /\ ibp_machine w' N D L' A' B' X lam /\ (L' <= L + 2 * N)%nat /\ (i = 2%nat -> L' = L) /\ kept w w'.
Proof.
  intros H Hi ES. pose proof H as [h1 h2 (k0 & k0') (k2 & k3 & k4) (k5 & k6 & k7) (t1 & t2 & t3) (h5 & h5a & h5b & h5c) h8 h9 h10 h11].
  destruct (si_layer _ _ h1) as (EFc & EC & EMo & _). unfold disp in h5. destruct (si_factor _ _ h1 1 (or_introl eq_refl)) as (_ & _ & _ & _ & F1 & EF1). destruct (si_factor _ _ h1 2 (or_intror eq_refl)) as (_ & _ & _ & _ & F2 & EF2).
  destruct Hi as [-> | ->]; cbn [i_fct Nat.eqb] in ES.
  - pose proof (rows_spec out Ho X N D lam (bprior (get_mat w 2)) (concentration w) (o_ibp o (clock w)) k5 t1 t2 t3 h8 h5c (fun n => Hk _ n) L A B k6 k7 k0) as RS.
    destruct (sample_2d_IBP A B X lam (bprior (get_mat w 2)) (concentration w) (o_ibp o (clock w))) as [A' B'] eqn:ESa. destruct RS as (L' & R1 & R2 & R3 & R4).
    set (w' := assign_val (assign_val w 1 (A2 A')) 2 (A2 B')). pose proof (im_assign w L A B lam L' A' B' H R2 R3) as H'. fold w' in H'.
    exists (tick w'), L', A', B'. split; [|split; [|split; [apply im_tick; exact H'|split; [exact R4|split; [discriminate|]]]]].
    + unfold run_mat. rewrite ES. cbn [of_option]. rewrite bindE. unfold compute. cbv zeta. unfold read2 at 1. rewrite k3, EF1. cbn [as2]. rewrite !bindE, (single_own w _ h1 1 (or_introl eq_refl)), bindE, (single_siblings w _ h1 1 (or_introl eq_refl)). cbn [pick nth_error of_option Nat.sub]. rewrite bindE. unfold read2. rewrite k4. cbn [as2 axis2]. rewrite !bindE, EC, k2. cbn [child2]. rewrite bindE, h5. cbn [scalar]. rewrite bindE. unfold IBP_sampler. fold (concentration w). rewrite ESa. reflexivity.
    + exists N, D, L, A, B, X, lam, F2. split; [exact H|]. split; [exact EF2|]. cbv zeta. left. split; [reflexivity|]. exists L', A', B'. split; [reflexivity|exact R1].
    + pose proof (single_assign w _ h1 1 (A2 A') (or_introl eq_refl)) as s1.
      assert (G : forall j, get_mat w' j = with_val (get_mat w j) (val (get_mat w' j))).
      { intros j. unfold w'. rewrite (assign_mats_at _ _ s1) by auto. rewrite !(assign_mats_at _ _ h1) by auto. destruct (Nat.eqb_spec j 2) as [->|]; [reflexivity|]. destruct (Nat.eqb_spec j 1) as [->|]; [reflexivity|]. destruct (get_mat w j). reflexivity. }
      constructor; try reflexivity; intros j; change (get_mat (tick w') j) with (get_mat w' j); rewrite G; reflexivity.
  - set (M := ref_sweep (fun B' => post2 out lam X N D L (1 / 2) (bprior (get_mat w 2)) A B') F2 (o_cell o (clock w)) D L B).
    exists (tick (put w 2 M)), L, A, M. assert (HM : okmat D L M) by (apply ref_ok; exact k7). split; [|split; [|split; [apply im_tick, (im_put w L A B lam M H HM)|split; [lia|split; [reflexivity|]]]]].
    + unfold run_mat. rewrite ES. cbn [of_option]. rewrite bindE. unfold compute. cbv zeta. unfold read2 at 1. rewrite k4, EF2. cbn [as2]. rewrite !bindE, (single_own w _ h1 2 (or_intror eq_refl)), bindE, (single_siblings w _ h1 2 (or_intror eq_refl)). cbn [pick nth_error of_option Nat.sub]. rewrite bindE. unfold read2. rewrite k3. cbn [as2 axis2]. rewrite !bindE, EC, k2. cbn [child2]. rewrite bindE, h5. cbn [scalar in_order]. rewrite bindE.
      destruct (C10_2_lemma OR AND or_and out Ho N D L A B F2 X lam (1 / 2) (bprior (get_mat w 2)) (o_cell o (clock w)) (proj1 k6) (proj2 k6) (proj1 k7) (proj2 k7) k5 t1 ltac:(lra) h8) as (_ & C2).
      change "OR-AND"%string with (model_name OR AND). rewrite C2; [reflexivity|exact t2|]. intros n l _ _. apply Hr.
    + exists N, D, L, A, B, X, lam, F2. split; [exact H|]. split; [exact EF2|]. cbv zeta. right. split; reflexivity.
    + constructor; reflexivity.
Qed.
Lemma im_set_lay w L A B lam y lam' : ibp_machine w N D L A B X lam -> factors y = factors (get_lay w 0) -> child y = child (get_lay w 0) -> model y = model (get_lay w 0) -> auto_clean y = auto_clean (get_lay w 0) -> auto_reset y = auto_reset (get_lay w 0) ->
  lv (lbda y) = LS lam' -> beta (lbda y) = beta (lbda (get_lay w 0)) -> 0 < match alpha y with Some a => a | None => 3 end -> lsfct (lbda y) = None \/ lsfct (lbda y) = Some (Lf2 "OR-AND-IBP") -> ibp_machine (set_lay w 0 y) N D L A B X lam'.
Proof.
  intros [h1 h2 h3 h4 h5 h6 (h7 & h7a & h7b & h7c) h8 h9 h10 h11] E1 E2 E3 E4 E5 E6 E7 E8 E9. assert (G : get_lay (set_lay w 0 y) 0 = y) by (rewrite get_lay_set, (si_layers _ _ h1); reflexivity).
  constructor; try assumption.
  - apply single_set_lay; assumption.
  - unfold disp, concentration. rewrite G, E7. auto.
  - rewrite G. exact E9.
Qed.
Lemma i_run_lbda w L A B lam : ibp_machine w N D L A B X lam -> lsfct (lbda (get_lay w 0)) = Some (Lf2 "OR-AND-IBP") ->
  exists w' x, run_lbda w 0 = Ok w' /\ disp w' 0 = LS x /\ ibp_dispersion out w 0 (LS x) w' /\ ibp_machine w' N D L A B X x /\ mats w' = mats w /\ anneal w' = anneal w /\ lsfct (lbda (get_lay w' 0)) = Some (Lf2 "OR-AND-IBP").
Proof.
  intros H ES. pose proof H as [h1 h2 (k0 & k0') (k2 & k3 & k4) (k5 & k6 & k7) (t1 & t2 & t3) (h5 & h5a & h5b & h5c) h8 h9 h10 h11]. pose proof (si_layers _ _ h1) as L1.
  destruct (si_layer _ _ h1) as (EFc & EC & _). destruct (C17_2_lemma OR AND or_and out Ho A B X N D L _ _ k6 k7 k5 h5a h5b) as (x & EX & HB).
  assert (EX' : lbda_update_2d "OR-AND-IBP" A B X (fst (beta (lbda (get_lay w 0)))) (snd (beta (lbda (get_lay w 0)))) = Ok x) by (rewrite <- EX; reflexivity).
  assert (EC' : compute_lbda w 0 (Lf2 "OR-AND-IBP") = Ok (LS x, ratios (get_lay w 0))).
  { unfold compute_lbda. cbv zeta. destruct (beta (lbda (get_lay w 0))) as [a b]. cbn [fst snd] in EX'. rewrite EFc. cbn [pick nth_error of_option]. rewrite !bindE. unfold read2. rewrite k3, k4. cbn [as2]. rewrite !bindE, EC, k2. cbn [as2]. rewrite bindE, EX'. reflexivity. }
  assert (EW : run_lbda w 0 = Ok (assign_disp w 0 (LS x))).
  { unfold run_lbda. rewrite ES. cbn [of_option]. rewrite bindE, EC', bindE. unfold assign_disp. destruct (get_lay w 0). reflexivity. }
  assert (H' : ibp_machine (assign_disp w 0 (LS x)) N D L A B X x) by (apply (im_set_lay w L A B lam); try reflexivity; auto).
  exists (assign_disp w 0 (LS x)), x. split; [exact EW|]. split; [apply (im_layer _ _ _ _ _ _ _ _ H')|]. split; [|split; [exact H'|split; [reflexivity|split; [reflexivity|]]]].
  - exists N, D, L, A, B, X, lam, x. auto.
  - unfold assign_disp. rewrite get_lay_set, L1. exact ES.
Qed.
(** ** Choosing the sampling functions *)
Lemma upd_upd {T} (l : list T) : forall k x y, upd (upd l k x) k y = upd l k y.
Proof. induction l as [|a l IH]; intros [|k] x y; try reflexivity. cbn. rewrite IH. reflexivity. Qed.
Lemma set_conc_twice w a b : layers w <> [] -> set_concentration (set_concentration w a) b = set_concentration w b.
Proof.
  intros HL. unfold set_concentration, set_lay, set_layers, get_lay. destruct w as [ar ms [|y ys] fr an ck]; [contradiction|]. cbn. destruct y. reflexivity.
Qed.
Lemma started_refl w : started w w.
Proof. split; reflexivity. Qed.
Lemma started_trans w1 w2 w3 : started w1 w2 -> started w2 w3 -> started w1 w3.
Proof. intros (a & b) (c & d). split; congruence. Qed.
Definition itself (w w' : world) : Prop := started w w' /\ anneal w' = anneal w /\ (forall j, bprior (get_mat w' j) = bprior (get_mat w j)).
Lemma i_assign_mat w L A B lam i : ibp_machine w N D L A B X lam -> i = 1%nat \/ i = 2%nat ->
  exists w', assign_mat w i = Ok w' /\ ibp_machine w' N D L A B X lam /\ itself w w' /\ (forall j, j = i \/ sfct (get_mat w j) = Some (i_fct w j) -> sfct (get_mat w' j) = Some (i_fct w' j)).
Proof.
  intros H Hi. pose proof (im_single _ _ _ _ _ _ _ _ H) as h1. pose proof (im_mats _ _ _ _ _ _ _ _ H) as h2. pose proof (si_layers _ _ h1) as L1.
  assert (EA : exists w0, ibp_machine w0 N D L A B X lam /\ started w w0 /\ mats w0 = mats w /\ anneal w0 = anneal w /\ assign_mat w i = Ok (set_mat w0 i (with_sfct (get_mat w0 i) (Some (i_fct w0 i))))).
  { destruct (sfct (get_mat w i)) as [f|] eqn:Ef.
    - exists w. assert (Eq : f = i_fct w i) by (destruct Hi as [-> | ->]; [destruct (im_sfct1 _ _ _ _ _ _ _ _ H)|destruct (im_sfct2 _ _ _ _ _ _ _ _ H)]; unfold i_fct; cbn [Nat.eqb]; congruence).
      split; [exact H|]. split; [apply started_refl|]. split; [reflexivity|]. split; [reflexivity|]. unfold assign_mat, get_sampling_fct. rewrite Ef, bindE, Eq. reflexivity.
    - assert (EG : forall w0, match alpha (get_lay w 0) with Some _ => w | None => set_lay w 0 (with_alpha (get_lay w 0) (Some 3)) end = w0 -> mats w0 = mats w -> assign_mat w i = Ok (set_mat w0 i (with_sfct (get_mat w0 i) (Some (i_fct w0 i))))).
      { intros w0 E0 E0'. unfold assign_mat, get_sampling_fct. rewrite Ef, (single_models w _ h1 i Hi), bindE. cbv zeta. cbn [String.eqb Ascii.eqb Bool.eqb]. destruct (si_factor _ _ h1 i Hi) as (-> & -> & _). cbn [of_option]. rewrite bindE, (single_order w _ h1 i Hi), E0. unfold i_fct, get_mat. destruct Hi as [-> | ->]; cbn [Nat.sub Nat.eqb]; rewrite bindE, ?E0'; reflexivity. }
      destruct (alpha (get_lay w 0)) as [a|] eqn:Ea.
      + exists w. split; [exact H|]. split; [apply started_refl|]. split; [reflexivity|]. split; [reflexivity|]. apply EG; reflexivity.
      + exists (set_concentration w (Some 3)). split; [|split; [|split; [reflexivity|split; [reflexivity|apply EG; reflexivity]]]].
        * destruct (im_layer _ _ _ _ _ _ _ _ H) as (g1 & _). apply (im_set_lay w L A B lam); try reflexivity; [exact H|exact g1|cbn; lra|exact (im_lsfct _ _ _ _ _ _ _ _ H)].
        * split; [rewrite set_conc_twice; [reflexivity|intros C; rewrite C in L1; discriminate]|]. unfold concentration, set_concentration. rewrite get_lay_set, L1, Ea. reflexivity. }
  destruct EA as (w0 & H0 & T0 & M0 & A0 & E). eexists. split; [exact E|].
  assert (G : forall j, get_mat (set_mat w0 i (with_sfct (get_mat w0 i) (Some (i_fct w0 i)))) j = if Nat.eqb j i then with_sfct (get_mat w0 i) (Some (i_fct w0 i)) else get_mat w0 j).
  { intros j. rewrite get_mat_set. destruct (Nat.eqb_spec j i) as [->|]; cbn [andb]; [|reflexivity]. rewrite (proj2 (Nat.ltb_lt _ _)) by (rewrite (im_mats _ _ _ _ _ _ _ _ H0); lia). reflexivity. }
  assert (BP : forall j, bprior (get_mat (set_mat w0 i (with_sfct (get_mat w0 i) (Some (i_fct w0 i)))) j) = bprior (get_mat w j)).
  { intros j. rewrite G. unfold get_mat. rewrite M0. destruct (Nat.eqb_spec j i) as [->|]; reflexivity. }
  split; [|split; [split; [|split; [exact A0|exact BP]]|]].
  - pose proof H0 as [k1 k2 k3 k4 k5 k6 k7 k8 k9 k10 k11]. constructor; try assumption.
    + apply single_set_sfct. exact k1.
    + cbn. rewrite upd_length. exact k2.
    + rewrite !single_value_sfct. exact k4.
    + rewrite BP. unfold get_mat in k8 |- *. rewrite <- M0. exact k8.
    + rewrite G. destruct Hi as [-> | ->]; cbn [Nat.eqb]; auto.
    + rewrite !G. destruct Hi as [-> | ->]; cbn [Nat.eqb]; auto.
  - eapply started_trans; [exact T0|]. split; [|reflexivity].
    change (set_concentration (set_mat w0 i (with_sfct (get_mat w0 i) (Some (i_fct w0 i)))) None) with (set_mat (set_concentration w0 None) i (with_sfct (get_mat (set_concentration w0 None) i) (Some (i_fct w0 i)))). apply strip_mat.
  - intros j Hj. assert (EI : i_fct (set_mat w0 i (with_sfct (get_mat w0 i) (Some (i_fct w0 i)))) j = i_fct w j) by (unfold i_fct; rewrite BP; reflexivity). rewrite EI, G. destruct (Nat.eqb_spec j i) as [->|Ne]; [cbn [sfct with_sfct]; unfold i_fct, get_mat; rewrite M0; reflexivity|].
    destruct Hj as [C|Hj]; [contradiction|]. unfold get_mat. rewrite M0. exact Hj.
Qed.
Lemma itself_refl w : itself w w.
Proof. split; [apply started_refl|auto]. Qed.
Lemma itself_trans w1 w2 w3 : itself w1 w2 -> itself w2 w3 -> itself w1 w3.
Proof. intros (a & b & c) (d & e & f). split; [eapply started_trans; eassumption|]. split; [congruence|]. intros j. rewrite f. apply c. Qed.
Lemma i_assign_mats ms : forall w L A B lam, ibp_machine w N D L A B X lam -> (forall i, In i ms -> i = 1%nat \/ i = 2%nat) ->
  exists w', foldM assign_mat ms w = Ok w' /\ ibp_machine w' N D L A B X lam /\ itself w w' /\ (forall i, In i ms \/ sfct (get_mat w i) = Some (i_fct w i) -> sfct (get_mat w' i) = Some (i_fct w' i)).
Proof.
  induction ms as [|i ms IH]; intros w L A B lam H Hms; cbn [foldM]; [exists w; split; [reflexivity|]; split; [exact H|]; split; [apply itself_refl|]; intros i [[]|G]; exact G|].
  destruct (i_assign_mat w L A B lam i H) as (w1 & E1 & H1 & T1 & K1); [apply Hms; left; reflexivity|]. rewrite E1, bindE.
  destruct (IH w1 L A B lam H1) as (w' & G1 & G2 & G3 & G4); [intros j Hj; apply Hms; right; exact Hj|].
  exists w'. split; [exact G1|]. split; [exact G2|]. split; [eapply itself_trans; eassumption|]. intros j Hj. apply G4. destruct Hj as [[<-|Hj]|Hj]; [right; apply K1; auto|left; exact Hj|right; apply K1; auto].
Qed.
Lemma i_assign_lbdas ls w L A B lam : ibp_machine w N D L A B X lam -> ls = [] \/ ls = [0%nat] ->
  exists w', foldM assign_lbda ls w = Ok w' /\ ibp_machine w' N D L A B X lam /\ started w w' /\ mats w' = mats w /\ anneal w' = anneal w /\ (In 0%nat ls -> lsfct (lbda (get_lay w' 0)) = Some (Lf2 "OR-AND-IBP")).
Proof.
  intros H [-> | ->]; cbn [foldM]; [exists w; split; [reflexivity|]; split; [exact H|]; split; [apply started_refl|]; split; [reflexivity|]; split; [reflexivity|]; intros []|].
  pose proof (im_single _ _ _ _ _ _ _ _ H) as h1. pose proof (si_layers _ _ h1) as L1.
  assert (E : assign_lbda w 0 = Ok (set_lay w 0 (with_lbda (get_lay w 0) (with_lsfct (lbda (get_lay w 0)) (Some (Lf2 "OR-AND-IBP")))))).
  { unfold assign_lbda, get_update_fct. cbv zeta. destruct (im_lsfct _ _ _ _ _ _ _ _ H) as [-> | ->]; [|reflexivity]. destruct (si_layer _ _ h1) as (-> & _ & -> & _). reflexivity. }
  rewrite E, bindE. eexists. split; [reflexivity|]. destruct (im_layer _ _ _ _ _ _ _ _ H) as (g1 & g2 & g3 & g4). split; [|split; [|split; [reflexivity|split; [reflexivity|intros _; rewrite get_lay_set, L1; reflexivity]]]].
  - apply (im_set_lay w L A B lam); try reflexivity; [exact H|exact g1|exact g4|right; reflexivity].
  - split; [|unfold concentration; rewrite get_lay_set, L1; reflexivity]. clear -L1. unfold set_concentration, set_lay, set_layers, get_lay, strip. destruct w as [ar ms [|y [|]] fr an ck]; try discriminate L1. cbn. destruct y. reflexivity.
Qed.
Lemma i_members w L A B lam : ibp_machine w N D L A B X lam -> let ms := filter (unfixed w) [1; 2; 0]%nat in
  not_fixed w (members w) = Ok ms /\ NoDup ms /\ (forall i, In i ms <-> (i = 1%nat \/ i = 2%nat) /\ fixed (get_mat w i) = FBool false).
Proof.
  intros H ms. pose proof (im_single _ _ _ _ _ _ _ _ H) as h1.
  assert (HB : forall i, i = 1%nat \/ i = 2%nat -> exists b, fixed (get_mat w i) = FBool b) by (intros i Hi; destruct (si_factor _ _ h1 i Hi) as (_ & _ & _ & G & _); exact G).
  split; [|split; [unfold ms; apply NoDup_filter; repeat constructor; cbn; lia|]].
  - assert (EM : members w = [1; 2; 0]%nat) by (rewrite (single_members w _ h1); reflexivity).
    rewrite EM. apply not_fixed_filter. intros i [<-|[<-|[<-|[]]]]; [apply HB; auto|apply HB; auto|exists true; apply (si_data _ _ h1)].
  - intros i. unfold ms. rewrite filter_In. cbn [In]. unfold unfixed. split.
    + intros (G & E). assert (Gi : i = 1%nat \/ i = 2%nat) by (destruct G as [<-|[<-|[<-|[]]]]; auto; rewrite (si_data _ _ h1) in E; discriminate).
      split; [exact Gi|]. destruct (HB i Gi) as (b & Eb). rewrite Eb in *. destruct b; [discriminate|reflexivity].
    + intros (G & ->). split; [lia|reflexivity].
Qed.
Lemma i_prepare s L A B lam : ibp_machine (wd s) N D L A B X lam ->
  exists ms ls s1, prepare s = Ok (ms, ls, s1) /\ NoDup ms /\ ibp_machine (wd s1) N D L A B X lam /\ started (wd s) (wd s1) /\ anneal (wd s1) = anneal (wd s) /\
    (forall i, In i ms <-> (i = 1%nat \/ i = 2%nat) /\ fixed (get_mat (wd s) i) = FBool false) /\ (forall l, In l ls <-> l = 0%nat /\ lfixed (lbda (get_lay (wd s) 0)) = false) /\
    (forall i, In i ms -> sfct (get_mat (wd s1) i) = Some (i_fct (wd s1) i)) /\ (In 0%nat ls -> lsfct (lbda (get_lay (wd s1) 0)) = Some (Lf2 "OR-AND-IBP")).
Proof.
  intros H. pose proof (im_single _ _ _ _ _ _ _ _ H) as h1. set (w := wd s) in *. destruct (i_members w L A B lam H) as (EN & ND & Hms). remember (filter (unfixed w) [1; 2; 0]%nat) as ms eqn:Ems.
  destruct (i_assign_mats ms w L A B lam H) as (w1 & E1 & M1 & T1 & F1); [intros i Hi; apply Hms; exact Hi|].
  assert (ELs : free_lbdas w = [] \/ free_lbdas w = [0%nat]) by (rewrite (single_free_lbdas w _ h1); destruct (lfixed _); auto).
  destruct (i_assign_lbdas (free_lbdas w) w1 L A B lam M1 ELs) as (w2 & E2 & M2 & T2 & Ma2 & An2 & F2).
  unfold prepare. fold w. rewrite EN, bindE. cbv zeta. rewrite E1, bindE, E2, bindE. eexists _, _, _. split; [reflexivity|].
  assert (W : wd (fold_left rewind_l (free_lbdas w) (fold_left (fun s0 i => set_mtr s0 i (mtr s0 i) 0) ms (set_wd s w2))) = w2).
  { rewrite rewind_l_wd. assert (G : forall l s, wd (fold_left (fun s i => set_mtr s i (mtr s i) 0) l s) = wd s) by (induction l as [|a l IH]; intros s0; [reflexivity|]; cbn [fold_left]; rewrite IH; reflexivity). rewrite G. reflexivity. }
  rewrite W. split; [exact ND|]. split; [exact M2|]. split; [eapply started_trans; [apply T1|exact T2]|]. split; [rewrite An2; apply T1|]. split; [exact Hms|]. split; [|split; [|exact F2]].
  - intros l. rewrite (single_free_lbdas w _ h1). destruct (lfixed _); cbn; [|intuition congruence]. split; [contradiction|]. intros (_ & C). discriminate.
  - intros i Hi. unfold i_fct, get_mat. rewrite Ma2. apply F1. left. exact Hi.
Qed.
(** ** The run *)
Section Run.
Context (cfg : settings) (ms ls : list nat) (U : usable cfg) (NM : NoDup ms) (NL : NoDup ls) (Hms : forall i, In i ms -> i = 1%nat \/ i = 2%nat) (Hls : forall l, In l ls -> l = 0%nat).
Definition iJ (L : nat) (w : world) : Prop := (exists A B lam, ibp_machine w N D L A B X lam) /\ (forall i, In i ms -> sfct (get_mat w i) = Some (i_fct w i)) /\ (In 0%nat ls -> lsfct (lbda (get_lay w 0)) = Some (Lf2 "OR-AND-IBP")) /\ anneal w = false.
Lemma iJ_tick L w : iJ L w -> iJ L (tick w).
Proof. intros ((A & B & lam & M) & J2 & J3 & J4). split; [|auto]. exists A, B, lam. apply im_tick. exact M. Qed.
Lemma iJ_mat L w i : iJ L w -> In i ms -> exists w' L', run_mat o w i = Ok w' /\ ibp_update true out o w i w' /\ iJ L' w' /\ (L' <= L + (if Nat.eqb i 1 then 2 * N else 0))%nat.
Proof.
  intros ((A & B & lam & M) & J2 & J3 & J4) Hi. destruct (i_run_mat w L A B lam i M (Hms i Hi) (J2 i Hi)) as (w' & L' & A' & B' & E & Up & M' & G1 & G2 & [k1 k2 k3 k4 k5]). exists w', L'. split; [exact E|]. split; [exact Up|]. split.
  - split; [eauto|]. split; [intros j Hj; rewrite k1, (J2 j Hj); unfold i_fct; rewrite k2; reflexivity|]. unfold get_lay in *. rewrite k4, k5. auto.
  - destruct (Hms i Hi) as [-> | ->]; cbn [Nat.eqb]; [exact G1|]. rewrite G2 by reflexivity. lia.
Qed.
Lemma iJ_lbda L w l : iJ L w -> In l ls -> exists w', run_lbda w l = Ok w' /\ ibp_dispersion out w l (disp w' l) w' /\ iJ L w'.
Proof.
  intros ((A & B & lam & M) & J2 & J3 & J4) Hl. pose proof (Hls l Hl) as ->. destruct (i_run_lbda w L A B lam M (J3 Hl)) as (w' & x & E & Ev & Up & M' & Ma & An & Ls). exists w'. split; [exact E|]. rewrite Ev. split; [exact Up|]. split; [eauto|].
  unfold i_fct, get_mat in *. rewrite Ma, An. auto.
Qed.
Definition grow : nat := if existsb (Nat.eqb 1) ms then (2 * N)%nat else 0%nat.
Lemma calls_grow t : forall L s, NoDup t -> (forall i, In i t -> In i ms) -> iJ L (wd s) -> exists s' L', foldM (call_mat o) t s = Ok s' /\ iJ L' (wd s') /\ (L' <= L + (if existsb (Nat.eqb 1) t then 2 * N else 0))%nat /\ same_traces s s'.
Proof.
  induction t as [|i t IH]; intros L s ND Ht HJ; cbn [foldM]; [exists s, L; split; [reflexivity|]; split; [exact HJ|]; split; [lia|apply same_traces_refl]|]. inversion ND as [|? ? Hn ND']; subst.
  unfold call_mat at 1. destruct (iJ_mat L (wd s) i HJ) as (w' & L1 & E & _ & J1 & G1); [apply Ht; left; reflexivity|]. rewrite E, bindE. 
  destruct (IH L1 (note (set_wd s w') (EMat i)) ND') as (s' & L' & E' & J' & G' & T'); [intros j Hj; apply Ht; right; exact Hj|exact J1|]. exists s', L'. split; [exact E'|]. split; [exact J'|]. split.
  - cbn [existsb]. rewrite (Nat.eqb_sym 1 i). destruct (Nat.eqb_spec i 1) as [->|]; cbn [orb]; [|lia]. assert (E1 : existsb (Nat.eqb 1) t = false) by (apply not_true_is_false; intros C; apply existsb_exists in C; destruct C as (j & Hj & Ej); apply Nat.eqb_eq in Ej; subst j; contradiction). rewrite E1 in G'. lia.
  - eapply same_traces_trans; [|exact T']. repeat split.
Qed.
Lemma sweep_grow L s : iJ L (wd s) -> exists s' L', sweep o ms s = Ok s' /\ iJ L' (wd s') /\ (L' <= L + grow)%nat /\ same_traces s s'.
Proof.
  intros HJ. unfold sweep. pose proof (proj1 Hr (clock (wd s)) ms) as HP. destruct (calls_grow (o_perm o (clock (wd s)) ms) L (note (set_wd s (tick (wd s))) ESweep)) as (s' & L' & E & J' & G & T).
  - eapply Permutation_NoDup; [apply Permutation_sym; exact HP|exact NM].
  - intros i Hi. eapply Permutation_in; [exact HP|exact Hi].
  - apply iJ_tick. exact HJ.
  - exists s', L'. split; [exact E|]. split; [exact J'|]. split; [|eapply same_traces_trans; [|exact T]; repeat split].
    unfold grow. assert (EX : existsb (Nat.eqb 1) (o_perm o (clock (wd s)) ms) = existsb (Nat.eqb 1) ms).
    { apply eq_true_iff_eq. rewrite !existsb_exists. split; intros (x & Hx & Ex); exists x; (split; [|exact Ex]); [eapply Permutation_in; [exact HP|exact Hx]|eapply Permutation_in; [apply Permutation_sym; exact HP|exact Hx]]. }
    rewrite EX in G. exact G.
Qed.
(** Traces: slots of width W. *)
Definition mslots (n t W : nat) (s : state) : Prop := forall i, In i ms -> mti s i = t /\ exists tr, mtr s i = Some tr /\ List.length (mcells tr) = n /\ mwidth tr = Some W /\ forall k, (t <= k < n)%nat -> exists m, nth k (mcells tr) None = Some (A2 m).
Lemma iJ_read L w i : iJ L w -> In i ms -> exists m, read2 w i = Ok m /\ ncols m = L.
Proof.
  intros ((A & B & lam & M) & _) Hi. destruct (im_values _ _ _ _ _ _ _ _ M) as (_ & V1 & V2). destruct (im_shapes _ _ _ _ _ _ _ _ M) as (_ & (S1 & _) & (S2 & _)). destruct (im_sizes _ _ _ _ _ _ _ _ M) as (P1 & P2).
  unfold read2. destruct (Hms i Hi) as [-> | ->]; [rewrite V1; exists A|rewrite V2; exists B]; (split; [reflexivity|]); eapply shape2_ncols; eassumption.
Qed.
Lemma traces_decide n t W L s : (t < n)%nat -> mslots n t W s -> iJ L (wd s) -> ((L <= W)%nat -> exists s', foldM update_trace_m ms s = Ok s') /\ ((W < L)%nat -> ms <> [] -> foldM update_trace_m ms s = Err ValueError).
Proof.
  intros Ht Hs HJ. assert (RD : forall i, In i ms -> exists m, read2 (wd s) i = Ok m /\ ncols m = L) by (intros i Hi; apply iJ_read; assumption). split.
  - intros HL. clear HJ. unfold mslots in Hs. clear Hms. revert NM s Hs RD. induction ms as [|i l IH]; intros ND s Hs RD; cbn [foldM]; [eauto|]. inversion ND as [|? ? Hn ND']; subst.
    destruct (Hs i (or_introl eq_refl)) as (E0 & tr & E & Ln & W0 & Hc). unfold update_trace_m at 1. rewrite E, E0, (proj2 (Nat.ltb_lt _ _)) by lia. destruct (Hc t) as (m0 & Em0); [lia|]. rewrite Em0, W0. destruct (RD i (or_introl eq_refl)) as (m & Em & Lm). rewrite Em, bindE, Lm, (proj2 (Nat.leb_le _ _) HL), !bindE.
    apply IH; [exact ND'| |intros j Hj; apply RD; right; exact Hj].
    intros j Hj. cbn [mtr mti set_mtr]. unfold fset. destruct (Nat.eqb_spec j i) as [->|]; [contradiction|]. apply Hs. right. exact Hj.
  - intros HL Hne. clear HJ. unfold mslots in Hs. destruct ms as [|i l]; [contradiction|]. cbn [foldM]. destruct (Hs i (or_introl eq_refl)) as (E0 & tr & E & Ln & W0 & Hc). unfold update_trace_m at 1. rewrite E, E0, (proj2 (Nat.ltb_lt _ _)) by lia. destruct (Hc t) as (m0 & Em0); [lia|]. rewrite Em0, W0. destruct (RD i (or_introl eq_refl)) as (m & Em & Lm). rewrite Em, bindE, Lm, (proj2 (Nat.leb_gt _ _) HL). reflexivity.
Qed.
Lemma i_lbdas L s : iJ L (wd s) -> exists s', update_lbdas ls s = Ok s' /\ iJ L (wd s') /\ same_traces s s'.
Proof.
  unfold update_lbdas. assert (G : forall t s, (forall l, In l t -> In l ls) -> iJ L (wd s) -> exists s', foldM call_lbda t s = Ok s' /\ iJ L (wd s') /\ same_traces s s').
  { induction t as [|l t IH]; intros s0 Ht HI; cbn [foldM]; [exists s0; split; [reflexivity|]; split; [exact HI|apply same_traces_refl]|].
    unfold call_lbda at 1. destruct (iJ_lbda L (wd s0) l HI) as (w' & E & _ & I2); [apply Ht; left; reflexivity|]. rewrite E, bindE.
    destruct (IH (note (set_wd s0 w') (ELbda l (disp w' l)))) as (s' & E' & I' & T'); [intros j Hj; apply Ht; right; exact Hj|exact I2|]. exists s'. split; [exact E'|]. split; [exact I'|]. eapply same_traces_trans; [|exact T']. repeat split. }
  apply G. auto.
Qed.
Lemma i_samples n W : forall k t L s, (t + k = n)%nat -> iJ L (wd s) -> mslots n t W s -> lroom ls n t s ->
  (exists s' L', samples k o cfg ms ls s = Ok s' /\ iJ L' (wd s')) \/ (samples k o cfg ms ls s = Err ValueError /\ (W < L + k * grow)%nat /\ ms <> []).
Proof.
  destruct U as (U1 & U2 & U3). induction k as [|k IH]; intros t L s Hk2 HI RM RL; cbn [samples]; [left; eauto|]. unfold sample_body.
  destruct (sweep_grow L s HI) as (s1 & L1 & E1 & I1 & G1 & (a1 & a2 & a3 & a4 & a5)). rewrite E1, bindE.
  assert (RM1 : mslots n t W s1) by (intros i Hi; rewrite a1, a2; apply RM; exact Hi).
  destruct (traces_decide n t W L1 s1) as (TD1 & TD2); [lia|exact RM1|exact I1|].
  assert (DEC : (exists s2, foldM update_trace_m ms s1 = Ok s2) \/ (foldM update_trace_m ms s1 = Err ValueError /\ (W < L1)%nat /\ ms <> [])).
  { destruct (list_eq_dec Nat.eq_dec ms []) as [->|Hne]; [left; cbn; eauto|]. destruct (Nat.le_gt_cases L1 W) as [HW|HW]; [left; apply TD1; exact HW|right; auto]. }
  destruct DEC as [(s2 & E2)|(E2 & HW & Hne)]; rewrite E2; [|right; split; [reflexivity|]; split; [nia|exact Hne]]. rewrite bindE. apply update_trace_m_spec in E2; [|exact NM]. destruct E2 as ((B1 & B2 & B3 & B4 & B5) & _ & B6).
  destruct (i_lbdas L1 s2) as (s3 & E3 & I3 & (c1 & c2 & c3 & c4 & c5)); [rewrite B1; exact I1|]. rewrite E3, bindE.
  assert (RL3 : lroom ls n t s3) by (intros l Hl; rewrite c3, c4, B2, B3, a3, a4; apply RL; exact Hl).
  destruct (traces_l_ok ls NL s3) as (s4 & E4). { intros l Hl. destruct (RL3 l Hl) as (X1 & tr & X2 & X3). exists tr. split; [exact X2|]. lia. }
  rewrite E4, bindE. unfold div_ok. rewrite (proj2 (Nat.eqb_neq _ _) U3), !bindE. apply update_trace_l_spec in E4; [|exact NL]. destruct E4 as ((D1 & D2 & D3 & D4 & D5) & _ & D6).
  destruct (IH (S t) L1 s4) as [G|(G & G2 & G3)]; [lia|rewrite D1; exact I3| | |left; exact G|right; split; [exact G|]; split; [nia|exact G3]].
  - intros i Hi. destruct (B6 i Hi) as (tr & x & X1 & _ & _ & X4 & X5). destruct (RM1 i Hi) as (Y1 & tr' & Y2 & Y3 & Y4 & Y5). rewrite X1 in Y2. injection Y2 as <-. rewrite D2, D3, c1, c2, X5, X4, Y1. split; [reflexivity|].
    eexists. split; [reflexivity|]. cbn [mcells mwidth]. rewrite upd_length. split; [exact Y3|]. split; [exact Y4|]. intros j Hj. rewrite nth_upd_other by lia. apply Y5. lia.
  - intros l Hl. destruct (D6 l Hl) as (tr & X1 & _ & X3 & X4). destruct (RL3 l Hl) as (Y1 & tr' & Y2 & Y3). rewrite X1 in Y2. injection Y2 as <-. rewrite X4, X3, Y1. split; [reflexivity|].
    eexists. split; [reflexivity|]. cbn [lcells]. rewrite upd_length. exact Y3.
Qed.
Lemma iJ_own L w i : iJ L w -> In i ms -> layer_of (get_mat w i) = Some 0%nat /\ is_ibp w i = true.
Proof.
  intros ((A & B & lam & M) & _) Hi. pose proof (im_single _ _ _ _ _ _ _ _ M) as h1. destruct (si_factor _ _ h1 i (Hms i Hi)) as (_ & EL & _). split; [exact EL|]. unfold is_ibp. rewrite EL. destruct (si_layer _ _ h1) as (_ & _ & -> & _). reflexivity.
Qed.
Lemma i_allocate n L s : iJ L (wd s) -> exists s', foldM (allocate_m n) ms s = Ok s'.
Proof.
  intros HJ. assert (H1 : forall i, In i ms -> layer_of (get_mat (wd s) i) = Some 0%nat /\ is_ibp (wd s) i = true) by (intros i Hi; eapply iJ_own; eassumption).
  assert (H2 : forall i, In i ms -> exists m, read2 (wd s) i = Ok m /\ ncols m = L) by (intros i Hi; apply iJ_read; assumption). clear HJ Hms NM. revert s H1 H2. induction ms as [|i l IH]; intros s H1 H2; cbn [foldM]; [eauto|].
  unfold allocate_m at 1. unfold own_layer. destruct (H1 i (or_introl eq_refl)) as (-> & ->). rewrite bindE. destruct (H2 i (or_introl eq_refl)) as (m & -> & _). rewrite !bindE. apply IH; intros j Hj; [apply H1|apply H2]; right; exact Hj.
Qed.
Lemma i_sampling n L s : iJ L (wd s) -> (forall i, In i ms -> mti s i = 0%nat) -> (forall l, In l ls -> lti s l = 0%nat) ->
  (exists s' L', bind (foldM (allocate_m n) ms s) (fun s3 => samples n o cfg ms ls (fold_left (allocate_l n) ls s3)) = Ok s' /\ iJ L' (wd s')) \/
  (bind (foldM (allocate_m n) ms s) (fun s3 => samples n o cfg ms ls (fold_left (allocate_l n) ls s3)) = Err ValueError /\ (10 < n * grow)%nat).
Proof.
  intros HJ Hm0 Hl0. destruct (i_allocate n L s HJ) as (s3 & E3). rewrite E3, bindE. apply allocate_m_spec in E3. destruct E3 as ((A1 & A2 & A3 & A4 & A5) & A6 & A7).
  destruct (allocate_spec n ls s3) as ((D1 & D2 & D3 & D4 & D5) & D6 & D7). cbv zeta in *.
  destruct (i_samples n (L + 10) n 0 L (fold_left (allocate_l n) ls s3)) as [G|(G & G2 & _)]; [lia|rewrite D1, A1; exact HJ| | |left; exact G|right; split; [exact G|lia]].
  - intros i Hi. rewrite D3, A6, D2. split; [apply Hm0; exact Hi|]. destruct (A7 i Hi) as (_ & G). rewrite (proj2 (iJ_own L _ i HJ Hi)) in G. destruct G as (m & Em & G). destruct (iJ_read L _ i HJ Hi) as (m' & Em' & Lm). unfold read2 in Em'. rewrite Em in Em'. injection Em' as <-. eexists. split; [exact G|]. cbn. rewrite Lm. split; [apply repeat_length|]. split; [reflexivity|].
    intros k Hk0. eexists. apply nth_repeat_in. lia.
  - intros l Hl. rewrite D6, A3, D7, (proj2 (existsb_in l ls) Hl). split; [apply Hl0; exact Hl|]. eexists. split; [reflexivity|]. apply repeat_length.
Qed.
End Run.
Lemma C90_run_lemma cfg n s L A B lam : usable cfg -> ibp_machine (wd s) N D L A B X lam -> anneal (wd s) = false -> exists F0, forall fuel, (F0 <= fuel)%nat ->
  (infer fuel o cfg n s = Some (Err ValueError) /\ fixed (get_mat (wd s) 1) = FBool false /\ (10 < n * (2 * N))%nat) \/
  exists s' w1 evs, infer fuel o cfg n s = Some (Ok s') /\
  (exists L' A' B' lam', ibp_machine (wd s') N D L' A' B' X lam') /\ started (wd s) w1 /\ log s' = (log s ++ evs)%list /\ does (ibp_update true out o) (ibp_dispersion out) evs w1 (wd s') /\
  (forall i, In (EMat i) evs -> (i = 1%nat \/ i = 2%nat) /\ fixed (get_mat (wd s) i) = FBool false) /\ (forall l v, In (ELbda l v) evs -> l = 0%nat /\ lfixed (lbda (get_lay (wd s) 0)) = false).
Proof.
  intros U H Ha. destruct (i_prepare s L A B lam H) as (ms & ls & s1 & EP & NM & M1 & T1 & An1 & Hms & Hls & F1 & F2). exists (enough cfg). intros fuel Hfu.
  pose proof EP as EP0. apply prepare_spec in EP0. destruct EP0 as (_ & El & _ & _ & _ & _ & M0 & _ & L0). assert (NL : NoDup ls) by (rewrite El; apply free_lbdas_spec). destruct U as (U1 & U2 & U3) eqn:EU. clear EU.
  assert (Hms' : forall i, In i ms -> i = 1%nat \/ i = 2%nat) by (intros i Hi; apply Hms; exact Hi). assert (Hls' : forall l, In l ls -> l = 0%nat) by (intros l Hl; apply Hls; exact Hl).
  pose (J := fun w => exists L, iJ ms ls L w). assert (J1 : J (wd s1)) by (exists L; split; [eauto|]; split; [exact F1|]; split; [exact F2|congruence]).
  assert (HF : forall w l, J w -> (l < List.length (layers w))%nat -> auto_clean (get_lay w l) = false /\ auto_reset (get_lay w l) = false).
  { intros w l (L2 & (A0 & B0 & lam0 & M) & _) Hl. pose proof (im_single _ _ _ _ _ _ _ _ M) as h1. rewrite (si_layers _ _ h1) in Hl. replace l with 0%nat by lia. split; apply (si_layer _ _ h1). }
  assert (HA : forall w, J w -> anneal w = false) by (intros w (L2 & _ & _ & _ & E); exact E).
  assert (HT : forall w, J w -> J (tick w)) by (intros w (L2 & Jw); exists L2; apply iJ_tick; exact Jw).
  assert (HMr : forall w i, J w -> In i ms -> exists w', run_mat o w i = Ok w' /\ ibp_update true out o w i w' /\ J w') by (intros w i (L2 & Jw) Hi; destruct (iJ_mat ms ls Hms' L2 w i Jw Hi) as (w' & L' & E & Up & J' & _); exists w'; split; [exact E|]; split; [exact Up|exists L'; exact J']).
  assert (HLr : forall w l, J w -> In l ls -> exists w', run_lbda w l = Ok w' /\ ibp_dispersion out w l (disp w' l) w' /\ J w') by (intros w l (L2 & Jw) Hl; destruct (iJ_lbda ms ls Hls' L2 w l Jw Hl) as (w' & E & Up & J'); exists w'; split; [exact E|]; split; [exact Up|exists L2; exact J']).
  assert (HC : forall w, J w -> exists w' b, clean_all w (all_layers w) = Some (Ok (w', b)) /\ J w') by (intros w Jw; exists w, false; split; [apply PlainProofs.clean_all_none; intros l; apply HF; exact Jw|exact Jw]).
  assert (HFc : forall w, J w -> exists w', final_clean w (all_layers w) = Some (Ok w') /\ J w') by (intros w Jw; exists w; split; [apply PlainProofs.clean_all_none; intros l; apply HF; exact Jw|exact Jw]).
  destruct (burn_in_ok o cfg ms ls J (proj1 Hr) NL U3 U2 U1 HT) with (fuel := fuel) (s := s1) as (s2 & EB & (L2 & RB)); [intros w l x Jw _ C; rewrite (HA w Jw) in C; discriminate|intros w i Jw Hi; destruct (HMr w i Jw Hi) as (w' & G1 & _ & G2); eauto|intros w l Jw Hl; destruct (HLr w l Jw Hl) as (w' & G1 & _ & G2); eauto|exact HC|exact HFc|exact Hfu|exact J1|intros C; rewrite (HA _ J1) in C; discriminate|].
  assert (HW : forall l, In l ls -> (1 <= width (disp (wd s1) l))%nat) by (intros l Hl; rewrite (Hls' l Hl); destruct (im_layer _ _ _ _ _ _ _ _ M1) as (-> & _); cbn; lia).
  destruct (burn_in_course _ _ _ _ _ _ _ (proj1 Hr) NL U1 HW EB) as (_ & _ & _ & B4 & B5 & _ & _).
  destruct (i_sampling cfg ms ls (conj U1 (conj U2 U3)) NM NL Hms' Hls' n L2 s2 RB) as [(s' & L' & ES & RS)|(ES & EG)]; [intros i Hi; rewrite B4; apply M0; exact Hi|exact B5| |].
  - right. assert (E : infer fuel o cfg n s = Some (Ok s')) by (unfold infer; rewrite EP, EB, ES; reflexivity). exists s', (wd s1).
    pose (K := fun (e : list event) (w : world) => J w /\ does (ibp_update true out o) (ibp_dispersion out) e (wd s1) w /\ (forall i, In (EMat i) e -> In i ms) /\ (forall l v, In (ELbda l v) e -> In l ls)).
    destruct (PreserveLog.infer_log fuel o cfg n s s' ms ls s1 K (proj1 Hr) E EP) as (evs & E1 & (K1 & K2 & K3 & K4)).
    + intros e w (K1 & K2 & K3 & K4). split; [apply HT; exact K1|]. split; [apply do_sweep; exact K2|]. split; [intros i Hi|intros l v Hi]; apply in_app_or in Hi; destruct Hi as [Hi|[Hi|[]]]; try discriminate; eauto.
    + intros e w i w' (K1 & K2 & K3 & K4) Hi Er. destruct (HMr w i K1 Hi) as (w2 & E2 & S2 & J2). rewrite Er in E2. injection E2 as <-. split; [exact J2|]. split; [eapply do_matrix; eassumption|].
      split; [intros j Hj|intros l v Hj]; apply in_app_or in Hj; destruct Hj as [Hj|[Hj|[]]]; try discriminate; eauto. injection Hj as <-. exact Hi.
    + intros e w l w' (K1 & K2 & K3 & K4) Hi Er. destruct (HLr w l K1 Hi) as (w2 & E2 & S2 & J2). rewrite Er in E2. injection E2 as <-. split; [exact J2|]. split; [eapply do_dispersion; eassumption|].
      split; [intros j Hj|intros k v Hj]; apply in_app_or in Hj; destruct Hj as [Hj|[Hj|[]]]; try discriminate; eauto. injection Hj as <- _. exact Hi.
    + intros e w l win (K1 & K2 & K3 & K4). split; [exact K1|]. split; [apply do_check; exact K2|]. split; [intros j Hj|intros k v Hj]; apply in_app_or in Hj; destruct Hj as [Hj|[Hj|[]]]; try discriminate; eauto.
    + intros e w l x (K1 & _) _ C. rewrite (HA w K1) in C. discriminate.
    + intros e w l (K1 & _). apply HF. exact K1.
    + split; [exact J1|]. split; [constructor|]. split; [intros i []|intros l v []].
    + exists evs. split; [exact E|]. split; [destruct RS as ((A' & B' & lam' & M') & _); eauto|]. split; [exact T1|]. split; [exact E1|]. split; [exact K2|]. split; [intros i Hi; apply Hms, K3, Hi|intros l v Hi; apply Hls, (K4 l v), Hi].
  - left. split; [unfold infer; rewrite EP, EB, ES; reflexivity|]. unfold grow in EG. destruct (existsb (Nat.eqb 1) ms) eqn:EX; [|lia]. split; [|exact EG]. apply existsb_exists in EX. destruct EX as (j & Hj & Ej). apply Nat.eqb_eq in Ej. subst j. apply Hms. exact Hj.
Qed.
End Ibp.
