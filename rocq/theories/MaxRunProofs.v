(** MAX-AND machines: every update succeeds and does what it should (C88). *)
From Coq Require Import String Lia Lra Permutation.
From Verif Require Import Base BaseLemmas BaseR BaseRLemmas Spec SpecR SpecMax Canon Sampling SamplingProofs Parallel ParallelProofs Fuzzy MaxMachine MaxMachineProofs Machine Dispatch Inference SpecMachine SpecOrdinary SpecMaxRun MachineProofs InferenceProofs InferenceProofs2 InferenceProofs6 ProgressProofs PlainProofs PreserveProofs OrdinaryProofs6 MaxOrderProofs EngineProofs.
Local Open Scope R_scope.

Lemma transpose_columns (X : mat) N D d : has_shape2 X N D -> (0 < N)%nat -> (d < D)%nat -> row (transpose X) d = data_columns X N d.
Proof.
  intros HX HN Hd. unfold transpose, row, data_columns. rewrite (shape2_ncols _ _ _ HX HN), (shape2_nrows _ _ _ HX).
  rewrite (nth_indep _ [] (map (fun i => at2 X i 0) (seq 0 N))) by (rewrite map_length, seq_length; exact Hd).
  rewrite (map_nth (fun j => map (fun i => at2 X i j) (seq 0 N))), seq_nth by exact Hd. reflexivity.
Qed.
Lemma max_draw argsort lam L A U (x : nat -> vec) Xt N D F r rt : (forall v, is_argsort v (argsort v)) -> List.length lam = S L -> Forall (fun p => 0 < p < 1) lam -> tables L lam rt -> okmat N L A -> okmat D L U -> (0 < D)%nat ->
  (forall n l, is_draw (r n l)) -> (forall n, (n < N)%nat -> x n = row Xt n) ->
  okmat N L (draw_MAX_AND_2D A F U Xt (argsort (map Ropp (butlast lam))) rt r) /\ max_resampled lam U x F r N D L A (draw_MAX_AND_2D A F U Xt (argsort (map Ropp (butlast lam))) rt r).
Proof.
  intros HS HL HF HT HA HU HD Hr Hx. set (ord := argsort (map Ropp (butlast lam))). pose proof (argsort_order lam L ord HL (HS _)) as HO.
  assert (loc : row_local (logit_MAX_AND U Xt ord rt)) by (intros Z1 Z2 n l E; unfold logit_MAX_AND; rewrite E; reflexivity).
  unfold draw_MAX_AND_2D. set (A' := sample_loop _ A F r). split; [apply sample_loop_ok; exact HA|].
  exists ord, (fun n l => logit_MAX_AND U Xt ord rt (only_row n (row_at A A' n l)) n l). split; [exact HO|]. split; [apply (loop_swept _ F r loc N L A HA); intros; apply Hr|].
  intros n l Hn Hl. unfold logit_MAX_AND. rewrite row_only. eexists. split; [apply trunc_spec|]. cbv zeta. rewrite Hx by exact Hn. apply (any_order lam L ord HO).
  - intros k Hk. apply (Forall_nth' (fun p => 0 < p < 1)); [exact HF|lia].
  - exact HT.
  - unfold row_at. rewrite app_length, firstn_length, skipn_length. assert (E1 : List.length (row A n) = L) by (apply (shape2_row _ _ _ _ (proj1 HA) Hn)). assert (E2 : List.length (row A' n) = L) by (apply (shape2_row _ N _ _); [apply sample_loop_ok; exact HA|exact Hn]). unfold vec in *. rewrite E1, E2. lia.
  - apply HU.
  - exact HD.
  - exact Hl.
Qed.

Section Max.
Context (o : oracle) (Hr : random o) (HS : forall v, is_argsort v (o_argsort o v)) (N D L : nat) (X : mat).
Lemma mm_holding_put w A B lam i M : max_machine w N D L A B X lam -> (i = 1%nat /\ okmat N L M) \/ (i = 2%nat /\ okmat D L M) ->
  max_machine (tick (put w i M)) N D L (if Nat.eqb i 1 then M else A) (if Nat.eqb i 2 then M else B) X lam.
Proof.
  intros H Hi. destruct H as [h1 h2 h3 h4 h5 h6 h7]. destruct h3 as [k1 (k2 & k3 & k4) (k5 & k6 & k7)].
  assert (HV : forall j, (j < 3)%nat -> value (tick (put w i M)) j = if Nat.eqb j i then A2 M else value w j).
  { intros j Hj. change (value (tick (put w i M)) j) with (value (put w i M) j). apply (single_put_value w "MAX-AND" h1); [|apply (single_lt w _ h1); exact Hj]. apply (single_lt w _ h1). destruct Hi as [(-> & _)|(-> & _)]; lia. }
  constructor.
  - apply single_tick, single_put. exact h1.
  - exact h2.
  - constructor; [exact k1| |].
    + rewrite !HV by lia. destruct Hi as [(-> & _)|(-> & _)]; cbn [Nat.eqb]; auto.
    + destruct Hi as [(-> & Hi)|(-> & Hi)]; cbn [Nat.eqb]; auto.
  - exact h4.
  - exact h5.
  - exact h6.
  - exact h7.
Qed.
Lemma max_run_mat w A B lam i : max_machine w N D L A B X lam -> i = 1%nat \/ i = 2%nat -> sfct (get_mat w i) = Some (FMax [i - 1; 2 - i]%nat) ->
  exists w', run_mat o w i = Ok w' /\ max_update max_resampled o w i w' /\ (exists A' B', max_machine w' N D L A' B' X lam) /\ mats w' = mats w /\ layers w' = layers w /\ anneal w' = anneal w.
Proof.
  intros H Hi ES. pose proof H as [h1 h2 h3 (h4 & h4' & h4'') (rt & h5 & h5') h6 h7]. destruct h3 as [(k0 & k0' & k1) (k2 & k3 & k4) (k5 & k6 & k7)].
  destruct (si_factor _ _ h1 i Hi) as (_ & _ & _ & _ & F & EF). destruct (si_layer _ _ h1) as (_ & EC & _).
  assert (EM : exists Zm U, value w i = A2 Zm /\ value w (3 - i) = A2 U /\ ((i = 1%nat /\ Zm = A /\ U = B) \/ (i = 2%nat /\ Zm = B /\ U = A))).
  { destruct Hi as [-> | ->]; [exists A, B|exists B, A]; cbn [Nat.sub]; auto 10. }
  destruct EM as (Zm & U & E1 & E2 & Hc).
  assert (EX : compute o w i (FMax [i - 1; 2 - i]%nat) = Ok (InPlace (draw_MAX_AND_2D Zm F U (if Nat.eqb (i - 1) 0 then X else transpose X) (o_argsort o (map Ropp (butlast lam))) rt (o_cell o (clock w))))).
  { unfold compute. cbv zeta. unfold read2. rewrite E1, EF. cbn [as2]. rewrite !bindE, (single_own w _ h1 i Hi), bindE. unfold disp in h4. rewrite h4. cbn [vector]. rewrite bindE, (single_siblings w _ h1 i Hi). cbn [pick nth_error of_option]. rewrite !bindE, E2. cbn [as2]. rewrite bindE.
    assert (EA : axis2 [i - 1; 2 - i]%nat = Ok (i - 1)%nat) by (destruct Hi as [-> | ->]; reflexivity). rewrite EA, bindE, EC, k2. cbn [child2]. rewrite bindE, h5. reflexivity. }
  set (M := draw_MAX_AND_2D _ _ _ _ _ _ _) in EX. exists (tick (put w i M)). split; [unfold run_mat; rewrite ES; cbn [of_option]; rewrite bindE, EX, bindE; reflexivity|].
  assert (HM : ((i = 1%nat /\ okmat N L M) \/ (i = 2%nat /\ okmat D L M)) /\ max_update max_resampled o w i (tick (put w i M))).
  { destruct Hc as [(-> & -> & ->)|(-> & -> & ->)].
    - destruct (max_draw (o_argsort o) lam L A B (data_rows X) X N D F (o_cell o (clock w)) rt) as (G1 & G2); try assumption; [apply Hr|reflexivity|]. split; [left; auto|]. exists N, D, L, A, B, X, lam, F, M. split; [exact H|]. split; [exact EF|]. split; [reflexivity|]. left. split; [reflexivity|exact G2].
    - destruct (max_draw (o_argsort o) lam L B A (data_columns X N) (transpose X) D N F (o_cell o (clock w)) rt) as (G1 & G2); try assumption; [apply Hr|intros d Hd; symmetry; apply (transpose_columns X N D); assumption|]. split; [right; auto|]. exists N, D, L, A, B, X, lam, F, M. split; [exact H|]. split; [exact EF|]. split; [reflexivity|]. right. split; [reflexivity|exact G2]. }
  destruct HM as (HM & HU). split; [exact HU|]. split; [|auto]. eexists _, _. apply (mm_holding_put w A B lam i M H HM).
Qed.
Lemma tables_of lam : List.length lam = S L -> Forall (fun p => 0 < p < 1) lam -> tables L lam (compute_lbda_ratios L lam).
Proof.
  intros HL HF i j Hi Hj. apply ratio_tables; [|exact Hi|exact Hj]. intros l Hl. apply (Forall_nth' (fun p => 0 < p < 1)); [exact HF|lia].
Qed.
Lemma mm_set_disp w A B lam v rt : max_machine w N D L A B X lam -> List.length v = S L -> Forall (fun p => 0 < p < 1) v -> tables L v rt ->
  max_machine (set_lay w 0 (with_ratios (get_lay (assign_disp w 0 (LV v)) 0) (Some rt))) N D L A B X v.
Proof.
  intros H E1 E2 E3. destruct H as [h1 h2 h3 h4 h5 h6 h7]. pose proof (si_layers _ _ h1) as L1.
  assert (EL : get_lay (assign_disp w 0 (LV v)) 0 = with_lbda (get_lay w 0) (with_lv (lbda (get_lay w 0)) (LV v))) by (unfold assign_disp; rewrite get_lay_set, L1; reflexivity). rewrite EL.
  assert (G : get_lay (set_lay w 0 (with_ratios (with_lbda (get_lay w 0) (with_lv (lbda (get_lay w 0)) (LV v))) (Some rt))) 0 = with_ratios (with_lbda (get_lay w 0) (with_lv (lbda (get_lay w 0)) (LV v))) (Some rt)) by (rewrite get_lay_set, L1; reflexivity).
  constructor.
  - apply single_set_lay; try reflexivity. exact h1.
  - exact h2.
  - destruct h3 as [k1 k2 k3]. constructor; assumption.
  - unfold disp. rewrite G. auto.
  - rewrite G. exists rt. auto.
  - exact h6.
  - rewrite G. exact h7.
Qed.
Lemma max_run_lbda w A B lam : max_machine w N D L A B X lam -> lsfct (lbda (get_lay w 0)) = Some LfMax ->
  exists w' v, run_lbda w 0 = Ok w' /\ disp w' 0 = LV v /\ max_dispersions w 0 (LV v) w' /\ max_machine w' N D L A B X v /\ mats w' = mats w /\ anneal w' = anneal w /\ lsfct (lbda (get_lay w' 0)) = Some LfMax.
Proof.
  intros H ES. pose proof H as [h1 h2 h3 (h4 & h4' & h4'') (rt & h5 & h5') h6 h7]. destruct h3 as [(k0 & k0' & k1) (k2 & k3 & k4) (k5 & k6 & k7)]. pose proof (si_layers _ _ h1) as L1.
  destruct (si_layer _ _ h1) as (EFc & EC & _).
  destruct (C40_lemma A B X lam N D L (proj1 k6) (proj1 k7) k5 k0 h4') as (new & pi & EN & P1 & P2 & P3 & P4 & P5 & P6). unfold lbda_MAX_AND_K in EN. cbn [Nat.eqb] in EN. injection EN as EN.
  pose proof (tables_of new P1 P2) as HT.
  assert (EX : compute_lbda w 0 LfMax = Ok (LV new, Some (compute_lbda_ratios L new))).
  { unfold compute_lbda. cbv zeta. destruct (beta (lbda (get_lay w 0))) as [a b]. rewrite EFc. cbn [pick nth_error of_option]. rewrite !bindE. unfold read2. rewrite k3, k4. cbn [as2]. rewrite !bindE, EC, k2. cbn [as2]. rewrite bindE. unfold disp in h4. rewrite h4. cbn [vector]. rewrite bindE, EN. rewrite (shape2_ncols _ _ _ (proj1 k6) k0). reflexivity. }
  pose proof (mm_set_disp w A B lam new _ H P1 P2 HT) as HM.
  assert (EW : run_lbda w 0 = Ok (set_lay w 0 (with_ratios (get_lay (assign_disp w 0 (LV new)) 0) (Some (compute_lbda_ratios L new))))).
  { unfold run_lbda. rewrite ES. cbn [of_option]. rewrite bindE, EX, bindE. unfold assign_disp. rewrite get_lay_set, L1. reflexivity. }
  eexists _, new. split; [exact EW|]. split; [apply HM|]. split; [|split; [exact HM|split; [reflexivity|split; [reflexivity|]]]].
  - exists N, D, L, A, B, X, lam, new, (compute_lbda_ratios L new). split; [exact H|]. split; [reflexivity|]. split; [reflexivity|]. split; [|split; [exact HT|reflexivity]]. split; [exact P1|]. exists pi. auto.
  - rewrite get_lay_set, L1. cbn [Nat.eqb Nat.ltb Nat.leb andb]. unfold assign_disp. rewrite get_lay_set, L1. exact ES.
Qed.

(** Choosing the closures. *)
Lemma mm_set_sfct w A B lam i : max_machine w N D L A B X lam -> i = 1%nat \/ i = 2%nat -> max_machine (set_mat w i (with_sfct (get_mat w i) (Some (FMax [i - 1; 2 - i]%nat)))) N D L A B X lam.
Proof.
  intros H Hi. destruct H as [h1 h2 h3 h4 h5 h6 h7]. constructor; try assumption.
  - apply single_set_sfct. exact h1.
  - cbn. rewrite upd_length. exact h2.
  - destruct h3 as [k1 k2 k3]. constructor; [exact k1| |exact k3]. rewrite !single_value_sfct. exact k2.
  - intros j Hj. rewrite get_mat_set. destruct (Nat.eqb_spec j i) as [->|]; cbn [andb]; [|apply h6; exact Hj]. destruct (Nat.ltb _ _); [right; reflexivity|apply h6; exact Hj].
Qed.
Lemma max_assign_mats ms : forall w A B lam, max_machine w N D L A B X lam -> (forall i, In i ms -> i = 1%nat \/ i = 2%nat) ->
  exists w', foldM assign_mat ms w = Ok w' /\ max_machine w' N D L A B X lam /\ strip w' = strip w /\ layers w' = layers w /\ anneal w' = anneal w /\
    (forall i, sfct (get_mat w i) = Some (FMax [i - 1; 2 - i]%nat) \/ In i ms -> sfct (get_mat w' i) = Some (FMax [i - 1; 2 - i]%nat)).
Proof.
  induction ms as [|i ms IH]; intros w A B lam H Hms; cbn [foldM]; [exists w; split; [reflexivity|]; split; [exact H|]; split; [reflexivity|]; split; [reflexivity|]; split; [reflexivity|]; intros i [G|[]]; exact G|].
  assert (Hi : i = 1%nat \/ i = 2%nat) by (apply Hms; left; reflexivity).
  assert (E : assign_mat w i = Ok (set_mat w i (with_sfct (get_mat w i) (Some (FMax [i - 1; 2 - i]%nat))))).
  { unfold assign_mat, get_sampling_fct. cbv zeta. destruct (mm_sfct _ _ _ _ _ _ _ _ H i Hi) as [-> | ->]; [|rewrite bindE; reflexivity]. rewrite (single_models w _ (mm_single _ _ _ _ _ _ _ _ H) i Hi), !bindE. cbn [String.eqb Ascii.eqb Bool.eqb].
    rewrite (single_order w _ (mm_single _ _ _ _ _ _ _ _ H) i Hi). reflexivity. }
  rewrite E, bindE. pose proof (mm_set_sfct w A B lam i H Hi) as H1. destruct (IH _ A B lam H1) as (w' & G1 & G2 & G3 & G4 & G5 & G6); [intros j Hj; apply Hms; right; exact Hj|].
  exists w'. split; [exact G1|]. split; [exact G2|]. split; [rewrite G3; apply strip_mat|]. split; [exact G4|]. split; [exact G5|]. intros j Hj. apply G6. destruct (Nat.eq_dec j i) as [->|Ne].
  - left. rewrite get_mat_set, Nat.eqb_refl. rewrite (mm_mats _ _ _ _ _ _ _ _ H). destruct Hi as [-> | ->]; reflexivity.
  - destruct Hj as [Hj|[Hj|Hj]]; [left|congruence|right; exact Hj]. rewrite get_mat_set, (proj2 (Nat.eqb_neq _ _) Ne). exact Hj.
Qed.
Lemma max_assign_lbdas ls w A B lam : max_machine w N D L A B X lam -> ls = [] \/ ls = [0%nat] ->
  exists w', foldM assign_lbda ls w = Ok w' /\ max_machine w' N D L A B X lam /\ strip w' = strip w /\ mats w' = mats w /\ anneal w' = anneal w /\ (In 0%nat ls -> lsfct (lbda (get_lay w' 0)) = Some LfMax).
Proof.
  intros H [-> | ->]; cbn [foldM]; [exists w; split; [reflexivity|]; split; [exact H|]; split; [reflexivity|]; split; [reflexivity|]; split; [reflexivity|]; intros []|].
  pose proof (si_layers _ _ (mm_single _ _ _ _ _ _ _ _ H)) as L1.
  assert (E : assign_lbda w 0 = Ok (set_lay w 0 (with_lbda (get_lay w 0) (with_lsfct (lbda (get_lay w 0)) (Some LfMax))))).
  { unfold assign_lbda, get_update_fct. cbv zeta. destruct (mm_lsfct _ _ _ _ _ _ _ _ H) as [-> | ->]; [|reflexivity]. destruct (si_layer _ _ (mm_single _ _ _ _ _ _ _ _ H)) as (-> & _ & -> & _). reflexivity. }
  rewrite E, bindE. eexists. split; [reflexivity|]. split; [|split; [apply strip_lay|split; [reflexivity|split; [reflexivity|intros _; rewrite get_lay_set, L1; reflexivity]]]].
  destruct H as [h1 h2 h3 h4 h5 h6 h7]. assert (G : get_lay (set_lay w 0 (with_lbda (get_lay w 0) (with_lsfct (lbda (get_lay w 0)) (Some LfMax)))) 0 = with_lbda (get_lay w 0) (with_lsfct (lbda (get_lay w 0)) (Some LfMax))) by (rewrite get_lay_set, L1; reflexivity).
  constructor; try assumption.
  - apply single_set_lay; try reflexivity. exact h1.
  - destruct h3 as [k1 k2 k3]. constructor; assumption.
  - unfold disp. rewrite G. exact h4.
  - rewrite G. exact h5.
  - rewrite G. right. reflexivity.
Qed.
Lemma max_prepare s A B lam : max_machine (wd s) N D L A B X lam ->
  exists ms ls s1, prepare s = Ok (ms, ls, s1) /\ NoDup ms /\ max_machine (wd s1) N D L A B X lam /\ strip (wd s1) = strip (wd s) /\ anneal (wd s1) = anneal (wd s) /\
    (forall i, In i ms <-> (i = 1%nat \/ i = 2%nat) /\ fixed (get_mat (wd s) i) = FBool false) /\ (forall l, In l ls <-> l = 0%nat /\ lfixed (lbda (get_lay (wd s) 0)) = false) /\
    (forall i, In i ms -> sfct (get_mat (wd s1) i) = Some (FMax [i - 1; 2 - i]%nat)) /\ (In 0%nat ls -> lsfct (lbda (get_lay (wd s1) 0)) = Some LfMax).
Proof.
  intros H. pose proof (mm_single _ _ _ _ _ _ _ _ H) as h1. set (w := wd s) in *.
  assert (EM : members w = [1; 2; 0]%nat) by (rewrite (single_members w _ h1); reflexivity).
  assert (EN : not_fixed w (members w) = Ok (filter (unfixed w) [1; 2; 0]%nat)).
  { rewrite EM. apply not_fixed_filter. intros i [<-|[<-|[<-|[]]]]; [apply (si_factor _ _ h1 1 (or_introl eq_refl))|apply (si_factor _ _ h1 2 (or_intror eq_refl))|exists true; apply (si_data _ _ h1)]. }
  set (ms := filter (unfixed w) [1; 2; 0]%nat) in *.
  assert (Hms : forall i, In i ms <-> (i = 1%nat \/ i = 2%nat) /\ fixed (get_mat w i) = FBool false).
  { intros i. unfold ms. rewrite filter_In. cbn [In]. unfold unfixed. split.
    - intros (G & E). assert (Gi : i = 1%nat \/ i = 2%nat) by (destruct G as [<-|[<-|[<-|[]]]]; auto; rewrite (si_data _ _ h1) in E; discriminate).
      split; [exact Gi|]. destruct (si_factor _ _ h1 i Gi) as (_ & _ & _ & (b & Eb) & _). rewrite Eb in *. destruct b; [discriminate|reflexivity].
    - intros (G & ->). split; [lia|reflexivity]. }
  destruct (max_assign_mats ms w A B lam H) as (w1 & E1 & M1 & T1 & Ly1 & An1 & F1); [intros i Hi; apply Hms; exact Hi|].
  assert (ELs : free_lbdas w = [] \/ free_lbdas w = [0%nat]) by (rewrite (single_free_lbdas w _ h1); destruct (lfixed _); auto).
  destruct (max_assign_lbdas (free_lbdas w) w1 A B lam M1 ELs) as (w2 & E2 & M2 & T2 & Ma2 & An2 & F2).
  unfold prepare. fold w. rewrite EN, bindE. cbv zeta. rewrite E1, bindE, E2, bindE. eexists _, _, _. split; [reflexivity|].
  assert (W : wd (fold_left rewind_l (free_lbdas w) (fold_left (fun s0 i => set_mtr s0 i (mtr s0 i) 0) ms (set_wd s w2))) = w2).
  { rewrite rewind_l_wd. assert (G : forall l s, wd (fold_left (fun s i => set_mtr s i (mtr s i) 0) l s) = wd s) by (induction l as [|a l IH]; intros s0; [reflexivity|]; cbn [fold_left]; rewrite IH; reflexivity). rewrite G. reflexivity. }
  rewrite W. split; [unfold ms; apply NoDup_filter; repeat constructor; cbn; lia|]. split; [exact M2|]. split; [rewrite T2; exact T1|]. split; [rewrite An2; exact An1|]. split; [exact Hms|]. split; [|split; [|exact F2]].
  - intros l. rewrite (single_free_lbdas w _ h1). destruct (lfixed _); cbn; [|intuition congruence]. split; [contradiction|]. intros (_ & C). discriminate.
  - intros i Hi. unfold get_mat. rewrite Ma2. apply F1. right. exact Hi.
Qed.
End Max.

Section Run.
Context (o : oracle) (Hr : random o) (HS : forall v, is_argsort v (o_argsort o v)) (N D L : nat) (X : mat) (cfg : settings) (U : usable cfg) (n : nat) (s : state) (A B : mat) (lam : list R).
Context (H : max_machine (wd s) N D L A B X lam).
Definition maxJ (ms ls : list nat) (an : bool) (w : world) : Prop := (exists A B lam, max_machine w N D L A B X lam) /\ (forall i, In i ms -> sfct (get_mat w i) = Some (FMax [i - 1; 2 - i]%nat)) /\
  (In 0%nat ls -> lsfct (lbda (get_lay w 0)) = Some LfMax) /\ anneal w = an.
Lemma maxJ_mat ms ls an w i : (forall i, In i ms -> i = 1%nat \/ i = 2%nat) -> maxJ ms ls an w -> In i ms -> exists w', run_mat o w i = Ok w' /\ max_update max_resampled o w i w' /\ maxJ ms ls an w'.
Proof.
  intros Hms ((A0 & B0 & lam0 & M) & J2 & J3 & J4) Hi. destruct (max_run_mat o Hr HS N D L X w A0 B0 lam0 i M (Hms i Hi) (J2 i Hi)) as (w' & E & Up & (A' & B' & M') & Ma & Ly & An). exists w'. split; [exact E|]. split; [exact Up|].
  split; [eauto|]. unfold get_mat, get_lay in *. rewrite Ma, Ly, An. auto.
Qed.
Lemma C88_run_lemma : anneal (wd s) = false -> exists F0, forall fuel, (F0 <= fuel)%nat -> exists s' w1 evs, infer fuel o cfg n s = Some (Ok s') /\
  (exists A' B' lam', max_machine (wd s') N D L A' B' X lam') /\ strip w1 = strip (wd s) /\ log s' = (log s ++ evs)%list /\ does (max_update max_resampled o) max_dispersions evs w1 (wd s') /\
  (forall i, In (EMat i) evs -> (i = 1%nat \/ i = 2%nat) /\ fixed (get_mat (wd s) i) = FBool false) /\ (forall l v, In (ELbda l v) evs -> l = 0%nat /\ lfixed (lbda (get_lay (wd s) 0)) = false).
Proof.
  intros Ha. destruct (max_prepare N D L X s A B lam H) as (ms & ls & s1 & EP & NM & M1 & T1 & An1 & Hms & Hls & F1 & F2). exists (enough cfg). intros fuel Hf.
  assert (J1 : maxJ ms ls false (wd s1)) by (split; [eauto|]; split; [exact F1|]; split; [exact F2|congruence]).
  destruct (engine o cfg n s s1 ms ls (maxJ ms ls false) (max_update max_resampled o) max_dispersions (proj1 Hr) U EP NM J1) with (fuel := fuel) as (s' & evs & E & (J' & _) & EL & DO & Em & Elb).
  - intros w ((A0 & B0 & lam0 & M) & J2 & J3 & J4). split; [|auto]. exists A0, B0, lam0. destruct M as [h1 h2 h3 h4 h5 h6 h7]. constructor; try assumption; [apply single_tick; exact h1|]. destruct h3 as [k1 k2 k3]. constructor; assumption.
  - intros w i Jw Hi. apply maxJ_mat; [intros j Hj; apply Hms; exact Hj|exact Jw|exact Hi].
  - exact Hf.
  - intros w (_ & _ & _ & E). exact E.
  - intros w l ((A0 & B0 & lam0 & M) & _) Hl. pose proof (mm_single _ _ _ _ _ _ _ _ M) as h1. rewrite (si_layers _ _ h1) in Hl. replace l with 0%nat by lia. split; apply (si_layer _ _ h1).
  - intros w l ((A0 & B0 & lam0 & M) & _) Hl. apply Hls in Hl. destruct Hl as (-> & _). destruct (mm_disp _ _ _ _ _ _ _ _ M) as (-> & G & _). cbn. lia.
  - intros w i ((A0 & B0 & lam0 & M) & _) Hi. apply Hms in Hi. destruct Hi as (Hi & _). pose proof (mm_single _ _ _ _ _ _ _ _ M) as h1. destruct (si_factor _ _ h1 i Hi) as (_ & EL & _). rewrite EL. split; [discriminate|]. unfold is_ibp. rewrite EL. destruct (si_layer _ _ h1) as (_ & _ & -> & _). reflexivity.
  - intros w l ((A0 & B0 & lam0 & M) & J2 & J3 & J4) Hl. pose proof (proj1 (Hls l) Hl) as (-> & _). destruct (max_run_lbda N D L X w A0 B0 lam0 M (J3 Hl)) as (w' & v & E & Ev & Up & M' & Ma & An & Ls). exists w'. split; [exact E|]. rewrite Ev. split; [exact Up|]. split; [eauto|].
    unfold get_mat in *. rewrite Ma, An. auto.
  - exists s', (wd s1), evs. split; [exact E|]. split; [exact J'|]. split; [exact T1|]. split; [exact EL|]. split; [exact DO|]. split; [intros i Hi; apply Hms, Em, Hi|intros l v Hi; apply Hls, (Elb l v), Hi].
Qed.
Lemma C88_anneal_lemma : anneal (wd s) = true -> lfixed (lbda (get_lay (wd s) 0)) = false -> (Z.max 0 (fix_lbda_iters cfg) < burn_in_min cfg)%Z -> exists F0, forall fuel, (F0 <= fuel)%nat -> exists e, infer fuel o cfg n s = Some (Err e).
Proof.
  intros Ha Hx Hlt. destruct (max_prepare N D L X s A B lam H) as (ms & ls & s1 & EP & NM & M1 & T1 & An1 & Hms & Hls & F1 & F2). exists (enough cfg). intros fuel Hf.
  assert (J1 : maxJ ms ls true (wd s1)) by (split; [eauto|]; split; [exact F1|]; split; [exact F2|congruence]).
  apply (engine_anneal_fails o cfg n s s1 ms ls (maxJ ms ls true) (max_update max_resampled o) (proj1 Hr) U EP J1).
  - intros w ((A0 & B0 & lam0 & M) & J2 & J3 & J4). split; [|auto]. exists A0, B0, lam0. destruct M as [h1 h2 h3 h4 h5 h6 h7]. constructor; try assumption; [apply single_tick; exact h1|]. destruct h3 as [k1 k2 k3]. constructor; assumption.
  - intros w i Jw Hi. apply maxJ_mat; [intros j Hj; apply Hms; exact Hj|exact Jw|exact Hi].
  - exact Hf.
  - congruence.
  - exact Hlt.
  - right. exists 0%nat. split; [apply Hls; auto|]. right. exists lam. apply (mm_disp _ _ _ _ _ _ _ _ M1).
Qed.
End Run.
