(** Proof of C83: what the output of a layer is after a run of inference. *)
From Coq Require Import String Lia Lra Permutation.
From Verif Require Import Base BaseLemmas BaseR BaseRLemmas Spec SpecR Fuzzy Invariance InvarianceProofs HierProofs Machine Dispatch Inference SpecMachine SpecOrdinary SpecPass MachineProofs MachineProofs2 BuiltProofs InferenceProofs InferenceProofs6 InferenceProofs7 TraceProofs PlainProofs PreserveProofs UntouchedProofs SamplingProofs.
From Verif Require Import OrdinaryProofs OrdinaryProofs2 OrdinaryProofs3 OrdinaryProofs4 OrdinaryProofs5 OrdinaryProofs6 OrdinaryProofs7 PassProofs LayerOutput SpecOut LayerOutputProofs LayerOutputProofs2 Predict SpecPredict SpecF.
Local Open Scope R_scope.

Lemma okmat_keep N L N' L' A A' : okmat N L A -> okmat N' L' A -> okmat N' L' A' -> okmat N L A'.
Proof.
  intros ((H1 & H2) & H3) ((G1 & G2) & G3) ((K1 & K2) & K3). split; [|exact K3]. split; [transitivity N'; [exact K1|rewrite <- G1; exact H1]|].
  destruct A as [|r A]; [cbn in G1; subst N'; apply length_zero_iff_nil in K1; subst A'; constructor|]. apply Forall_inv in H2. apply Forall_inv in G2. rewrite <- H2. rewrite <- G2 in K2. exact K2.
Qed.
Lemma ref_sweep_okmat w F r N L A : okmat N L A -> okmat N L (ref_sweep w F r N L A).
Proof.
  unfold ref_sweep. assert (HI : forall q, In q (cells N L) -> (fst q < N)%nat /\ (snd q < L)%nat) by (intros [n l] H; apply in_cells in H; exact H).
  revert A. induction (cells N L) as [|[n l] cs IH]; intros A HA; [exact HA|]. cbn [fold_left]. destruct (HI (n, l) (or_introl eq_refl)) as (Hn & Hl). cbn [fst snd] in *.
  apply IH; [intros q Hq; apply HI; right; exact Hq|]. destruct (at2 F n l =? 1)%Z; [exact HA|]. apply okmat_set; [exact HA|]. apply mg_flip_pm. apply (okmat_pm N L); assumption.
Qed.

(** ** The course of a run on an ordinary machine *)
Section Course.
Context (o : oracle) (Hr : random o) (w0 : world) (l0 K : nat) (ms ls : list nat) (Hl0 : (l0 < List.length (layers w0))%nat).
Definition framed (w : world) : Prop :=
  List.length (layers w) = List.length (layers w0) /\ factors (get_lay w l0) = factors (get_lay w0 l0) /\ model (get_lay w l0) = model (get_lay w0 l0) /\ child (get_lay w l0) = child (get_lay w0 l0) /\
  forall k, (k < List.length (factors (get_lay w0 l0)))%nat -> binary_matrix (nth k (shape_of (value w0 (child (get_lay w0 l0)))) 0%nat) K (value w (nth k (factors (get_lay w0 l0)) 0%nat)).
Definition running (w : world) : Prop := sound w /\ (forall i, In i ms -> armed w i) /\ (forall l, In l ls -> larmed w l) /\ framed w.
Lemma running_tick w : running w -> running (tick w).
Proof.
  intros (K1 & K2 & K3 & K4). split; [apply sound_tick; exact K1|]. split; [intros i Hi; apply (armed_same w); auto|]. split; [intros l Hl; apply (larmed_same w); auto|]. exact K4.
Qed.
Lemma running_mat w i w' : running w -> In i ms -> run_mat o w i = Ok w' -> running w'.
Proof.
  intros (K1 & K2 & K3 & F1 & F2 & F3 & F4 & F5) Hi Er. destruct (K2 i Hi) as (l & Hl & Hf & Es). destruct (gibbs_step the_outputs the_outputs_ok o (proj2 Hr) w K1 l i w' Hl Hf Es Er) as (G1 & G2 & G3 & G4).
  split; [exact G2|]. split; [intros j Hj; apply (armed_same w); auto|]. split; [intros k Hk; apply (larmed_same w); auto|].
  assert (GL : forall k, get_lay w' k = get_lay w k) by (intros k; unfold get_lay; rewrite G4; reflexivity). unfold framed. rewrite GL, G4. repeat (split; [assumption|]).
  intros k Hk. destruct (F5 k Hk) as (A & EA & HA). set (i' := nth k _ 0%nat) in *.
  assert (Hin : In i' (factors (get_lay w l0))) by (rewrite F2; apply nth_In, Hk).
  destruct (wf_placed _ (so_wf _ K1) l0 i' ltac:(lia) Hin) as (Hm & _). destruct (wf_placed _ (so_wf _ K1) l i Hl Hf) as (Hm2 & _).
  assert (Hv : (val (get_mat w i) < List.length (arrays w))%nat) by (apply stored_val; [apply (so_wf _ K1)|exact Hm2]).
  destruct G1 as (A0 & Fx & N & L & EV & HA0 & EF & Ew).
  assert (EW : forall j, value w' j = if Nat.eqb (val (get_mat w j)) (val (get_mat w i)) then A2 (ref_sweep (fun A' => joint the_outputs (put w i A')) Fx (o_cell o (clock w)) N L A0) else value w j).
  { intros j. rewrite Ew. unfold put. change (value (tick ?u) j) with (value u j). unfold value at 1. change (get_mat (write w ?a ?x) j) with (get_mat w j). rewrite get_arr_write by exact Hv. reflexivity. }
  rewrite EW. destruct (Nat.eqb_spec (val (get_mat w i')) (val (get_mat w i))) as [Ei|Ni].
  - assert (E' : value w i' = value w i) by (unfold value; rewrite Ei; reflexivity). rewrite E', EV in EA. injection EA as <-. eexists. split; [reflexivity|]. eapply okmat_keep; [exact HA|exact HA0|]. apply ref_sweep_okmat, HA0.
  - exists A. auto.
Qed.
Lemma running_assign w l x : running w -> In l ls -> running (assign_disp w l (LS x)).
Proof.
  intros (K1 & K2 & K3 & F1 & F2 & F3 & F4 & F5) Hi. destruct (K3 l Hi) as (Hl & f & Ef & Df). set (w' := assign_disp w l (LS x)).
  assert (HC : changed w w') by (apply changed_lbda; [exact K1|exact Hl|exists x; reflexivity|reflexivity|right; exists f; auto]).
  assert (G4 : forall k, lsfct (lbda (get_lay w' k)) = lsfct (lbda (get_lay w k))) by (intros k; unfold w', assign_disp; rewrite get_lay_set; destruct (Nat.eqb_spec k l) as [->|]; cbn [andb]; [destruct (Nat.ltb _ _)|]; reflexivity).
  pose proof (ch_edited _ _ HC) as ED. assert (EF : forall k, factors (get_lay w' k) = factors (get_lay w k)) by (intros k; apply ED). assert (EM : forall k, model (get_lay w' k) = model (get_lay w k)) by (intros k; apply ED). assert (LL : List.length (layers w') = List.length (layers w)) by apply ED.
  assert (EC : forall k, child (get_lay w' k) = child (get_lay w k)) by (intros k; apply ED).
  assert (OC : forall j l', own_closure w' j l' = own_closure w j l') by (intros j l'; apply edited_closure; [exact ED|reflexivity]).
  split; [apply (sound_changed _ _ K1 HC)|]. split; [|split].
  + intros j Hj. destruct (K2 j Hj) as (k & Hk & Hf & Es). exists k. rewrite LL, EF, OC. auto.
  + intros k Hk. destruct (K3 k Hk) as (H1 & g & H2 & H3). split; [rewrite LL; exact H1|]. exists g. rewrite G4. split; [exact H2|]. unfold disp_closure in *. rewrite EF, EM. exact H3.
  + unfold framed. rewrite LL, EF, EM, EC. repeat (split; [assumption|]). intros k Hk. apply (F5 k Hk).
Qed.
Lemma running_lbda w l w' : running w -> In l ls -> run_lbda w l = Ok w' -> running w'.
Proof.
  intros (K1 & K2 & K3 & F1 & F2 & F3 & F4 & F5) Hi Er. destruct (K3 l Hi) as (Hl & f & Ef & Df). destruct (dispersion_step the_outputs w l f w' the_outputs_ok K1 Hl Ef Df Er) as (G1 & G2 & G3 & G4).
  assert (HC : changed w w') by (destruct G1 as (x & Ev & Ew & _); rewrite Ev in Ew; rewrite Ew; apply changed_lbda; [exact K1|exact Hl|exists x; reflexivity|reflexivity|right; exists f; auto]).
  assert (EA : arrays w' = arrays w) by (destruct G1 as (x & _ & Ew & _); rewrite Ew; reflexivity).
  pose proof (ch_edited _ _ HC) as ED. assert (EF : forall k, factors (get_lay w' k) = factors (get_lay w k)) by (intros k; apply ED). assert (EM : forall k, model (get_lay w' k) = model (get_lay w k)) by (intros k; apply ED). assert (LL : List.length (layers w') = List.length (layers w)) by apply ED.
  assert (EC : forall k, child (get_lay w' k) = child (get_lay w k)) by (intros k; apply ED).
  assert (OC : forall j l', own_closure w' j l' = own_closure w j l') by (intros j l'; apply edited_closure; [exact ED|unfold get_mat; rewrite G3; reflexivity]).
  split; [exact G2|]. split; [|split].
  + intros j Hj. destruct (K2 j Hj) as (k & Hk & Hf & Es). exists k. rewrite LL, EF, OC. unfold get_mat in *. rewrite G3. auto.
  + intros k Hk. destruct (K3 k Hk) as (H1 & g & H2 & H3). split; [rewrite LL; exact H1|]. exists g. rewrite G4. split; [exact H2|]. unfold disp_closure in *. rewrite EF, EM. exact H3.
  + unfold framed. rewrite LL, EF, EM, EC. repeat (split; [assumption|]). intros k Hk. unfold value, get_arr, get_mat in *. rewrite EA, G3. apply F5, Hk.
Qed.
Lemma running_iteration w w' : running w -> iteration o ms ls w w' -> running w'.
Proof.
  intros H (p & w1 & Hp & E1 & E2). apply running_tick in H.
  apply (foldM_keeps running (run_mat o) p) in E1; [|intros s a s' Js Ha Ea; eapply running_mat; [exact Js| |exact Ea]; eapply Permutation_in; eassumption|exact H].
  apply (foldM_keeps running run_lbda ls) in E2; [exact E2| |exact E1]. intros s a s' Js Ha Ea. eapply running_lbda; eassumption.
Qed.
End Course.
Lemma get_lay_out w l : (List.length (layers w) <= l)%nat -> get_lay w l = no_layer.
Proof. intros H. apply nth_overflow, H. Qed.
Lemma unassigned_frame w w' : unassigned w w' -> List.length (layers w') = List.length (layers w) /\ forall l, factors (get_lay w' l) = factors (get_lay w l) /\ model (get_lay w' l) = model (get_lay w l) /\ child (get_lay w' l) = child (get_lay w l).
Proof.
  intros (_ & _ & _ & _ & _ & H6 & _ & H8). split; [exact H6|]. intros l. specialize (H8 l). split; [exact (f_equal factors H8)|]. split; [exact (f_equal model H8)|exact (f_equal child H8)].
Qed.
(** All machines passed through by the sampling phase. *)
Lemma run_course fuel o cfg n s s' l : random o -> sound (wd s) -> (0 <= burn_in_min cfg)%Z -> infer fuel o cfg n s = Some (Ok s') -> (l < List.length (layers (wd s)))%nat ->
  exists ms ls s1 W K, prepare s = Ok (ms, ls, s1) /\ (forall j, (j <= n)%nat -> running (wd s) l K ms ls (W j)) /\ W n = wd s' /\ (forall j, (j < n)%nat -> iteration o ms ls (W j) (W (S j))) /\
    (forall i, In i ms -> exists tr, mtr s' i = Some tr /\ mtraces (W 0%nat) W n n i tr) /\
    (forall k, In k ls -> exists tr, ltr s' k = Some tr /\ ltraces (fun j => disp (W j) k) n tr) /\ framed (wd s) l K (wd s).
Proof.
  intros Hr S Hm E Hl. destruct (infer_course fuel o cfg n s s' (so_wf _ S) (proj1 Hr) Hm E) as (ms & ls & s1 & s2 & W & smp & EP & EB & W0 & Wn & HI & _ & _ & _ & HM & HL).
  destruct (prepare_sound _ _ _ _ S EP) as (S1 & T1 & A1 & L1 & _ & _ & _). destruct (so_layer _ S l Hl) as (_ & _ & _ & (K & HK) & _). cbv zeta in HK. apply prepare_spec in EP as PS. destruct PS as (_ & _ & PU & _).
  assert (R1 : running (wd s) l K ms ls (wd s1)).
  { split; [exact S1|]. split; [exact A1|]. split; [exact L1|]. destruct (unassigned_frame _ _ PU) as (U1 & U2). split; [apply U1|]. split; [apply U2|]. split; [apply U2|]. split; [apply U2|]. intros k Hk. rewrite (unassigned_value _ _ _ PU). apply HK, Hk. }
  assert (HI' : forall j, (j < n)%nat -> iteration o ms ls (W j) (W (Datatypes.S j))).
  { clear - HI. induction n as [|n IH]; intros j Hj; [lia|]. destruct HI as (H1 & H2). destruct (Nat.eq_dec j n) as [->|Hn]; [exact H2|apply IH; [exact H1|lia]]. }
  exists ms, ls, s1, W, K. split; [exact EP|]. split; [|split; [exact Wn|split; [|split; [|split]]]].
  - assert (R2 : running (wd s) l K ms ls (wd s2)).
    { eapply (burn_in_keeps o cfg ms ls (running (wd s) l K ms ls) (proj1 Hr)); [| | | | |exact EB|exact R1].
      - intros w. apply running_tick.
      - intros w i w'. apply running_mat; assumption.
      - intros w k w'. apply running_lbda; assumption.
      - intros w k x G Hk _. apply running_assign; assumption.
      - intros w k r c w' b (G & _) Ha. destruct (Nat.lt_ge_cases k (List.length (layers w))) as [Hk|Hk]; [destruct (plain_flags _ (so_plain _ G) k Hk) as (-> & ->) in Ha|rewrite (get_lay_out w k Hk) in Ha]; discriminate. }
    induction j as [|j IH]; intros Hj; [rewrite W0; exact R2|]. eapply running_iteration; [exact Hr|exact Hl|apply IH; lia|apply HI'; lia].
  - exact HI'.
  - intros i Hi. apply (HM i Hi).
  - intros k Hk. apply (HL k Hk).
  - unfold framed. auto.
Qed.

(** ** The view of a layer afterwards *)
Lemma standard_not_ibp m : In m standard_models -> String.eqb m "OR-AND-IBP" = false.
Proof. intros H. cbn in H. repeat (destruct H as [<-|H]; [reflexivity|]). contradiction. Qed.
Lemma map_cells {A B} (f : A -> B) (l : list A) (g : nat -> A) n : List.length l = n -> (forall j, (j < n)%nat -> nth_error l j = Some (g j)) -> map f l = map (fun j => f (g j)) (seq 0 n).
Proof.
  intros Hn H. transitivity (map f (map g (seq 0 n))); [|rewrite map_map; reflexivity]. f_equal. apply nth_ext with (d := g 0%nat) (d' := g 0%nat); [rewrite map_length, seq_length; exact Hn|].
  intros j Hj. rewrite map_nth, seq_nth by lia. cbn. specialize (H j ltac:(lia)). apply nth_error_nth with (d := g 0%nat) in H. exact H.
Qed.
Lemma view_sampled fuel o cfg n s s' l : random o -> sound (wd s) -> (0 <= burn_in_min cfg)%Z -> infer fuel o cfg n s = Some (Ok s') -> (l < List.length (layers (wd s)))%nat -> (1 <= n)%nat ->
  (forall i, In i (factors (get_lay (wd s) l)) -> fixed (get_mat (wd s) i) = FBool false) -> lfixed (lbda (get_lay (wd s) l)) = false ->
  exists ms ls W K, updated_mats (wd s) ms /\ updated_disps (wd s) ls /\ W n = wd s' /\ (forall j, (j < n)%nat -> iteration o ms ls (W j) (W (S j))) /\
    sampled (layer_view s' l) K n /\ l_model (layer_view s' l) = model (get_lay (wd s) l) /\
    sizes (layer_view s' l) = shape_of (value (wd s) (child (get_lay (wd s) l))) /\
    (forall i, In i (factors (get_lay (wd s) l)) -> f_trace (factor_view s' i) = Some (map (fun j => matrix_of (W (S j)) i) (seq 0 n))) /\
    l_factors (layer_view s' l) = map (factor_view s') (factors (get_lay (wd s) l)) /\
    (forall k j, (k < List.length (factors (get_lay (wd s) l)))%nat -> (j <= n)%nat -> okmat (nth k (shape_of (value (wd s) (child (get_lay (wd s) l)))) 0%nat) K (matrix_of (W j) (nth k (factors (get_lay (wd s) l)) 0%nat))).
Proof.
  intros Hr S Hm E Hl Hn Hfx Hlf. destruct (run_course _ _ _ _ _ _ l Hr S Hm E Hl) as (ms & ls & s1 & W & K & EP & HW & Wn & HI & HM & HL & _).
  destruct (prepare_updated s ms ls s1 (so_wf _ S) EP) as (UM & UL & _). destruct (prepare_sound _ _ _ _ S EP) as (_ & _ & _ & _ & _ & _ & HIn).
  exists ms, ls, W, K. split; [exact UM|]. split; [exact UL|]. split; [exact Wn|]. split; [exact HI|].
  destruct (HW n (le_n n)) as (Sn & _ & _ & Fn). rewrite Wn in Sn, Fn. destruct Fn as (Fn1 & Fn2 & Fn3 & Fn4 & Fn5).
  assert (TR : forall i, In i (factors (get_lay (wd s) l)) -> f_trace (factor_view s' i) = Some (map (fun j => matrix_of (W (Datatypes.S j)) i) (seq 0 n))).
  { intros i Hi. destruct (HM i (HIn i (ex_intro _ l (conj Hl Hi)) (Hfx i Hi))) as (tr & E1 & E2 & E3). cbn [factor_view f_trace]. rewrite E1. cbn [option_map]. f_equal.
    assert (EI : is_ibp (W 0%nat) i = false).
    { destruct (HW 0%nat ltac:(lia)) as (S0 & _ & _ & F0 & F1 & F2 & _). unfold is_ibp. destruct (wf_placed _ (so_wf _ S0) l i) as (_ & -> & _); [lia|rewrite F1; exact Hi|]. apply standard_not_ibp, (plain_model _ (so_plain _ S0)). lia. }
    rewrite EI in E3. destruct E3 as (_ & E3). rewrite (map_cells matrix_in _ (fun j => Some (value (W (Datatypes.S j)) i)) n E2 E3). apply map_ext. intros j. reflexivity. }
  assert (EF : l_factors (layer_view s' l) = map (factor_view s') (factors (get_lay (wd s) l))) by (cbn [layer_view l_factors]; rewrite Fn2; reflexivity).
  assert (OK : forall k j, (k < List.length (factors (get_lay (wd s) l)))%nat -> (j <= n)%nat -> okmat (nth k (shape_of (value (wd s) (child (get_lay (wd s) l)))) 0%nat) K (matrix_of (W j) (nth k (factors (get_lay (wd s) l)) 0%nat))).
  { intros k j Hk Hj. destruct (HW j Hj) as (_ & _ & _ & _ & _ & _ & _ & F5). destruct (F5 k Hk) as (A & EA & HA). unfold matrix_of. rewrite EA. exact HA. }
  assert (VAL : forall i, f_val (factor_view s' i) = matrix_of (W n) i) by (intros i; rewrite Wn; reflexivity).
  split; [|split; [exact Fn3|split; [|split; [exact TR|split; [exact EF|exact OK]]]]].
  - split; [|split; [|split; [exact Hn|]]].
    + rewrite EF. pose proof (plain_child _ (so_plain _ S) l Hl) as HC. destruct (factors (get_lay (wd s) l)); [cbn in HC; lia|discriminate].
    + rewrite EF. apply Forall_forall. intros f Hf. apply in_map_iff in Hf. destruct Hf as (i & <- & Hi). destruct (In_nth _ _ 0%nat Hi) as (k & Hk & Ek).
      assert (OK' : forall j, (j <= n)%nat -> okmat (nth k (shape_of (value (wd s) (child (get_lay (wd s) l)))) 0%nat) K (matrix_of (W j) i)) by (intros j Hj; rewrite <- Ek; apply OK; assumption).
      destruct (OK' n (le_n n)) as ((O1 & O2) & O3). unfold factor_ok. rewrite VAL. split; [exact O2|]. split; [exact O3|]. eexists. split; [apply TR, Hi|]. split; [rewrite map_length, seq_length; reflexivity|].
      apply Forall_forall. intros m Hmm. apply in_map_iff in Hmm. destruct Hmm as (j & <- & Hj). apply in_seq in Hj. destruct (OK' (Datatypes.S j) ltac:(lia)) as ((P1 & P2) & P3). split; [unfold mat, vec in *; congruence|]. split; assumption.
    + assert (Hls : In l ls) by (apply UL; auto). destruct (HL l Hls) as (tr & E1 & E2 & _). cbn [layer_view l_lbda_trace]. rewrite E1. eexists. split; [reflexivity|]. rewrite map_length. exact E2.
  - unfold sizes. rewrite EF, map_map. apply nth_ext with (d := 0%nat) (d' := 0%nat).
    + rewrite map_length. destruct (plain_child _ (so_plain _ S) l Hl) as [(-> & m & ->)|(-> & t & ->)]; reflexivity.
    + intros k Hk. rewrite map_length in Hk. rewrite (nth_indep _ _ (List.length (f_val (factor_view s' 0%nat)))) by (rewrite map_length; exact Hk). rewrite (map_nth (fun x => List.length (f_val (factor_view s' x)))). rewrite VAL. apply (OK k n Hk (le_n n)).
Qed.

(** ** C83 *)
Lemma filter_map_length {A B} (f : A -> B) p l : List.length (filter p (map f l)) = List.length (filter (fun a => p (f a)) l).
Proof. induction l as [|a l IH]; [reflexivity|]. cbn. destruct (p (f a)); cbn; rewrite IH; reflexivity. Qed.
Lemma C83_lemma argsort fuel o cfg n s s' l oo ii : random o -> ordinary o (wd s) -> (0 <= burn_in_min cfg)%Z -> infer fuel o cfg n s = Some (Ok s') -> (1 <= n)%nat ->
  (l < List.length (layers (wd s)))%nat -> model (get_lay (wd s) l) = model_name oo ii -> In (oo, ii) implemented ->
  let fs := factors (get_lay (wd s) l) in let shape := shape_of (value (wd s) (child (get_lay (wd s) l))) in
  (forall i, In i fs -> fixed (get_mat (wd s) i) = FBool false) -> lfixed (lbda (get_lay (wd s) l)) = false ->
  exists ms ls W K,
    (NoDup ms /\ forall i, In i ms <-> is_member (wd s) i /\ ~ declared_fixed (fixed (get_mat (wd s) i))) /\
    (NoDup ls /\ forall k, In k ls <-> (k < List.length (layers (wd s)))%nat /\ lfixed (lbda (get_lay (wd s) k)) = false) /\
    (forall j, (j < n)%nat -> iteration o ms ls (W j) (W (S j))) /\ W n = wd s' /\
    (forall k j, (k < List.length fs)%nat -> (j <= n)%nat -> okmat (nth k shape 0%nat) K (matrix_of (W j) (nth k fs 0%nat))) /\
    (exists out, layer_output argsort "mc" s' l = Ok out /\
       all_entries out shape (fun idx x => exists p, (forall j, (j < n)%nat -> p j = true <-> lom_true oo ii (selected (map (matrix_of (W (S j))) fs) idx) K) /\ x = share p n)) /\
    (exists out, layer_output argsort "point_estimate" s' l = Ok out /\
       all_entries out shape (fun idx x => (lom_true oo ii (selected (map (matrix_of (wd s')) fs) idx) K -> x = 1) /\ (~ lom_true oo ii (selected (map (matrix_of (wd s')) fs) idx) K -> x = 0))) /\
    (exists out votes, layer_output argsort "factor_map" s' l = Ok out /\
       Forall2 (fun i m => List.length m = List.length (matrix_of (wd s') i) /\ has_cols m K /\ forall r c, (r < List.length m)%nat -> (c < K)%nat -> at2 m r c = vote (fun j => matrix_of (W (S j)) i) n r c) fs votes /\
       all_entries out shape (fun idx x => (lom_true oo ii (selected votes idx) K -> x = 1) /\ (~ lom_true oo ii (selected votes idx) K -> x = 0))) /\
    (List.length fs = 2%nat \/ (oo, ii) = (OR, AND) -> exists out, layer_output argsort "factor_mean" s' l = Ok out /\
       all_entries out shape (fun idx x => is_prob oo ii (List.length fs) K (fun k c => share (fun j => at2 (matrix_of (W (S j)) (nth k fs 0%nat)) (nth k idx 0%nat) c =? 1)%Z n) x)).
Proof.
  intros Hr HO Hm E Hn Hl Emod Himp fs shape Hfx Hlf. pose proof (ordinary_sound _ _ Hr HO) as S.
  destruct (view_sampled fuel o cfg n s s' l Hr S Hm E Hl Hn Hfx Hlf) as (ms & ls & W & K & UM & UL & Wn & HI & SA & EM & ES & TR & EF & OK). fold fs in TR, EF, OK. fold shape in ES, OK.
  exists ms, ls, W, K. split; [exact UM|]. split; [exact UL|]. split; [exact HI|]. split; [exact Wn|]. split; [exact OK|].
  assert (IM : is_model (layer_view s' l) oo ii) by (left; rewrite EM; exact Emod).
  assert (VAL : map f_val (l_factors (layer_view s' l)) = map (matrix_of (wd s')) fs) by (rewrite EF, map_map; apply map_ext; intros i; reflexivity).
  assert (SM : forall j, (j < n)%nat -> sample (layer_view s' l) j = map (matrix_of (W (Datatypes.S j))) fs).
  { intros j Hj. unfold sample. rewrite EF, map_map. apply map_ext_in. intros i Hi. rewrite (TR i Hi). rewrite (nth_indep _ [] (matrix_of (W 1%nat) i)) by (rewrite map_length, seq_length; exact Hj).
    rewrite (map_nth (fun j => matrix_of (W (Datatypes.S j)) i) (seq 0 n) 0%nat), seq_nth by exact Hj. reflexivity. }
  destruct (C23_lemma argsort _ oo ii K n SA IM) as ((out & E1 & H1) & (out2 & E2 & H2) & (out3 & votes & E3 & HV & H3) & _). rewrite ES in *. split; [|split; [|split]].
  - exists out. split; [exact E1|]. destruct H1 as (H1 & H1'). split; [exact H1|]. intros idx Hidx. destruct (H1' idx Hidx) as (x & G1 & p & G2 & G3). exists x. split; [exact G1|]. exists p. split; [|exact G3]. intros j Hj. rewrite <- SM by exact Hj. apply G2.
  - exists out2. split; [exact E2|]. rewrite <- VAL. exact H2.
  - exists out3, votes. split; [exact E3|]. split; [|exact H3]. rewrite EF in HV. clear - HV TR. fold fs in TR. revert TR. generalize dependent votes. induction fs as [|i t IH]; intros votes HV TR; inversion HV as [|? m ? votes' (V1 & V2 & V3) HV']; subst; constructor; [|apply IH; [exact HV'|intros k Hk; apply TR; right; exact Hk]].
    split; [exact V1|]. split; [exact V2|]. intros r c Hr' Hc. rewrite V3; [|rewrite <- V1; exact Hr'|exact Hc]. rewrite (TR i (or_introl eq_refl)). unfold majority, vote. rewrite map_length, seq_length, filter_map_length. reflexivity.
  - intros HX. assert (FS : fuzzy_supported (layer_view s' l) oo ii).
    { unfold fuzzy_supported. rewrite EF, map_length. destruct HX as [HX|HX]; [left; auto|]. destruct (plain_child _ (so_plain _ S) l Hl) as [(E' & _)|(E' & _)]; [left; auto|right; auto]. }
    destruct (C22_mean_lemma argsort _ oo ii K n SA IM FS) as (out4 & E4 & H4). exists out4. split; [exact E4|]. rewrite ES in H4. destruct H4 as (H4 & H4'). split; [exact H4|]. intros idx Hidx. destruct (H4' idx Hidx) as (x & G1 & G2). exists x. split; [exact G1|].
    rewrite EF, map_length in G2. unfold is_prob in *. eapply is_expect_ext; [|exact G2]. intros k c Hk Hc. cbn beta.
    rewrite (nth_indep _ _ (factor_view s' 0%nat)) by (rewrite map_length; exact Hk). rewrite map_nth. unfold frequency. rewrite (TR _ (nth_In fs 0%nat Hk)). rewrite map_length, seq_length, filter_map_length. reflexivity.
Qed.
Lemma first_fixed w fs : (forall i, In i fs -> exists b, fixed (get_mat w i) = FBool b) -> (exists i, In i fs /\ fixed (get_mat w i) = FBool true) ->
  exists pre i post, fs = pre ++ i :: post /\ fixed (get_mat w i) = FBool true /\ forall j, In j pre -> fixed (get_mat w j) = FBool false.
Proof.
  induction fs as [|a fs IH]; intros HB (i & Hi & Ei); [contradiction|]. destruct (HB a (or_introl eq_refl)) as ([] & Ea).
  - exists [], a, fs. split; [reflexivity|]. split; [exact Ea|]. intros j [].
  - destruct IH as (pre & k & post & E1 & E2 & E3); [intros j Hj; apply HB; right; exact Hj|destruct Hi as [->|Hi]; [congruence|exists i; auto]|].
    exists (a :: pre), k, post. split; [rewrite E1; reflexivity|]. split; [exact E2|]. intros j [<-|Hj]; auto.
Qed.
Lemma C83_fixed_lemma argsort o cfg n w l : random o -> ordinary o w -> usable cfg -> annealable cfg w -> (1 <= n)%nat -> (l < List.length (layers w))%nat ->
  lfixed (lbda (get_lay w l)) = true \/ (exists i, In i (factors (get_lay w l)) /\ fixed (get_mat w i) = FBool true) ->
  exists F, forall fuel, (F <= fuel)%nat -> exists s', infer fuel o cfg n (fresh_state w) = Some (Ok s') /\ layer_output argsort "mc" s' l = Err AttributeError.
Proof.
  intros Hr HO U AN Hn Hl HF. pose proof (ordinary_sound _ _ Hr HO) as S. destruct (C72_lemma o cfg n (fresh_state w) Hr HO U AN) as (F & HC). exists F. intros fuel Hf. destruct (HC fuel Hf) as (s' & E & _). exists s'. split; [exact E|].
  destruct (run_course fuel o cfg n (fresh_state w) s' l Hr S (proj1 U) E Hl) as (ms & ls & s1 & W & K & EP & HW & Wn & HI & HM & HL & _). pose proof (infer_untouched _ _ _ _ _ _ _ _ _ E EP) as (UT & UT').
  destruct (prepare_updated (fresh_state w) ms ls s1 (so_wf _ S) EP) as (UM & UL & _). destruct (prepare_sound (fresh_state w) _ _ _ S EP) as (_ & _ & _ & _ & PM & _ & HIn).
  destruct (HW n (le_n n)) as (Sn & _ & _ & Fn). rewrite Wn in Sn, Fn. destruct Fn as (Fn1 & Fn2 & Fn3 & Fn4 & Fn5). cbn [fresh_state wd] in *.
  assert (NQ : l_model (layer_view s' l) <> "qL-AND"%string).
  { cbn [layer_view l_model]. pose proof (plain_model _ (so_plain _ Sn) l ltac:(lia)) as G. intros EQ. rewrite EQ in G. cbn in G. repeat (destruct G as [G|G]; [discriminate|]). exact G. }
  destruct (C23_mc_lemma argsort false (layer_view s' l) NQ) as (_ & M1 & M2). unfold layer_output. destruct (lfixed (lbda (get_lay w l))) eqn:EL.
  - apply M1. cbn [layer_view l_lbda_trace]. rewrite UT'; [reflexivity|]. intros G. apply UL in G. cbn [fresh_state wd] in G. destruct G as (_ & G). congruence.
  - destruct HF as [HF|HF]; [discriminate|]. destruct (first_fixed w (factors (get_lay w l))) as (pre & i & post & E1 & E2 & E3); [intros j Hj; apply (plain_factor _ (so_plain _ S) l j Hl Hj)|exact HF|].
    assert (Hls : In l ls) by (apply UL; auto). destruct (HL l Hls) as (tr & T1 & T2 & _).
    eapply (M2 _ (map (factor_view s') pre) (factor_view s' i) (map (factor_view s') post)).
    + cbn [layer_view l_lbda_trace]. rewrite T1. reflexivity.
    + destruct (lcells tr); [cbn in T2; lia|discriminate].
    + cbn [layer_view l_factors]. rewrite Fn2, E1, map_app. reflexivity.
    + apply Forall_forall. intros f Hfi. apply in_map_iff in Hfi. destruct Hfi as (j & <- & Hj). assert (Hj' : In j (factors (get_lay w l))) by (rewrite E1; apply in_or_app; left; exact Hj).
      destruct (HM j (HIn j (ex_intro _ l (conj Hl Hj')) (E3 j Hj))) as (t & G1 & G2 & _). cbn [factor_view f_trace]. rewrite G1. eexists. split; [reflexivity|]. destruct (mcells t); [cbn in G2; lia|discriminate].
    + cbn [factor_view f_trace]. rewrite UT; [reflexivity|]. intros G. apply PM in G. destruct G as (_ & G). cbn [fresh_state wd] in G. congruence.
Qed.
