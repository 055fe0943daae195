(** Proof of C80. *)
From Coq Require Import String Lia Lra Permutation.
From Verif Require Import Base BaseLemmas BaseR BaseRLemmas Spec SpecR Invariance InvarianceProofs HierProofs Canon Machine Dispatch Inference SpecMachine SpecOrdinary SpecPass MachineProofs MachineProofs2 InferenceProofs BuiltProofs InferenceProofs2 PlainProofs DispatchProofs SamplingProofs.
From Verif Require Import OrdinaryProofs OrdinaryProofs2 OrdinaryProofs3 OrdinaryProofs4 OrdinaryProofs5 OrdinaryProofs6 OrdinaryProofs7.
Local Open Scope R_scope.

(** Sums over choices *)
Lemma in_choices {A} (ls : list (list A)) : forall c, In c (choices ls) <-> List.length c = List.length ls /\ forall k, (k < List.length ls)%nat -> forall d d', In (nth k c d) (nth k ls d').
Proof.
  induction ls as [|l ls IH]; intros c; cbn [choices].
  - split; [intros [<-|[]]; split; [reflexivity|cbn; lia]|]. intros (H & _). destruct c; [left; reflexivity|discriminate].
  - rewrite in_flat_map. split.
    + intros (a & Ha & H). apply in_map_iff in H. destruct H as (c' & <- & H). apply IH in H. destruct H as (H1 & H2). split; [cbn; lia|]. intros [|k] Hk d d'; cbn; [exact Ha|]. apply H2. cbn in Hk. lia.
    + intros (H1 & H2). destruct c as [|a c]; [discriminate|]. exists a. split; [apply (H2 0%nat ltac:(cbn; lia) a [])|]. apply in_map. apply IH. split; [cbn in H1; lia|]. intros k Hk d d'. apply (H2 (S k) ltac:(cbn; lia) d d').
Qed.
Lemma choices_sum {A} (ls : list (list A)) : forall k (f g : list A -> R), (k < List.length ls)%nat ->
  (forall c, In c (choices ls) -> Rsum (fun a => f (upd c k a)) (nth k ls []) = Rsum (fun a => g (upd c k a)) (nth k ls [])) ->
  Rsum f (choices ls) = Rsum g (choices ls).
Proof.
  induction ls as [|l ls IH]; intros k f g Hk H; [cbn in Hk; lia|]. cbn [choices]. rewrite !Rsum_flat_map. destruct k as [|k].
  - assert (E : forall f : list A -> R, Rsum (fun a => Rsum f (map (cons a) (choices ls))) l = Rsum (fun c => Rsum (fun a => f (a :: c)) l) (choices ls)).
    { intros f0. rewrite (Rsum_swap (fun c a => f0 (a :: c))). apply Rsum_ext. intros a _. rewrite Rsum_map. reflexivity. }
    rewrite !E. apply Rsum_ext. intros c Hc. destruct l as [|a0 l0] eqn:El; [reflexivity|]. rewrite <- El in *.
    assert (Hin : In (a0 :: c) (choices (l :: ls))) by (cbn [choices]; apply in_flat_map; exists a0; split; [rewrite El; left; reflexivity|apply in_map; exact Hc]). exact (H _ Hin).
  - apply Rsum_ext. intros a Ha. rewrite !Rsum_map. apply (IH k); [cbn in Hk; lia|]. intros c Hc.
    assert (Hin : In (a :: c) (choices (l :: ls))) by (cbn [choices]; apply in_flat_map; exists a; split; [exact Ha|apply in_map; exact Hc]). exact (H _ Hin).
Qed.

(** Writing several matrices *)
Lemma upd_comm {A} (l : list A) : forall i j x y, i <> j -> upd (upd l i x) j y = upd (upd l j y) i x.
Proof. induction l as [|a l IH]; intros [|i] [|j] x y H; cbn; try reflexivity; [lia|]. f_equal. apply IH. lia. Qed.
Lemma put_comm w i j A B : val (get_mat w i) <> val (get_mat w j) -> put (put w i A) j B = put (put w j B) i A.
Proof. intros H. unfold put, write, set_arrays. cbn [arrays mats layers free anneal clock]. change (get_mat {| arrays := ?a; mats := mats w; layers := ?b; free := ?c; anneal := ?d; clock := ?e |} ?k) with (get_mat w k). f_equal. apply upd_comm. exact H. Qed.
Lemma puts_mats w : forall fs c, mats (puts w fs c) = mats w /\ layers (puts w fs c) = layers w /\ clock (puts w fs c) = clock w.
Proof. intros fs c. unfold puts. generalize (combine fs c). intros l. revert w. induction l as [|p l IH]; intros w; cbn; [auto|]. apply (IH (put w (fst p) (snd p))). Qed.
Lemma puts_anneal w : forall fs c, anneal (puts w fs c) = anneal w.
Proof. intros fs c. unfold puts. generalize (combine fs c). intros l. revert w. induction l as [|p l IH]; intros w; cbn; [auto|]. apply (IH (put w (fst p) (snd p))). Qed.
Lemma puts_put_out w : forall fs c i A, (forall j, In j fs -> val (get_mat w j) <> val (get_mat w i)) -> put (puts w fs c) i A = puts (put w i A) fs c.
Proof.
  intros fs. revert w. induction fs as [|f fs IH]; intros w c i A H; [reflexivity|]. destruct c as [|B c]; [reflexivity|]. unfold puts. cbn [combine fold_left fst snd]. fold (puts (put w f B) fs c). fold (puts (put (put w i A) f B) fs c).
  rewrite put_comm by (intros E; apply (H f (or_introl eq_refl)); symmetry; exact E). apply IH. intros j Hj. apply (H j (or_intror Hj)).
Qed.
Lemma puts_upd w : forall fs c k A, NoDup fs -> (forall i j, In i fs -> In j fs -> i <> j -> val (get_mat w i) <> val (get_mat w j)) -> (k < List.length fs)%nat -> List.length c = List.length fs ->
  put (puts w fs c) (nth k fs 0%nat) A = puts w fs (upd c k A).
Proof.
  intros fs. revert w. induction fs as [|f fs IH]; intros w c k A Hd Hv Hk Hc; [cbn in Hk; lia|]. destruct c as [|B c]; [discriminate|]. inversion Hd as [|? ? Hn Hd']; subst. unfold puts. destruct k as [|k]; cbn [nth upd combine fold_left fst snd].
  - fold (puts (put w f B) fs c). fold (puts (put w f A) fs c). rewrite puts_put_out, put_put; [reflexivity|]. intros j Hj. apply (Hv j f); [right; exact Hj|left; reflexivity|intros ->; contradiction].
  - fold (puts (put w f B) fs c). fold (puts (put w f B) fs (upd c k A)). apply IH; [exact Hd'| | |]; [intros i j Hi Hj; apply (Hv i j); right; assumption|cbn in Hk; lia|cbn in Hc; lia].
Qed.

(** One update of a sound machine *)
Lemma okmat_dims N L A : okmat N L A -> okmat (nrows A) (ncols A) A /\ N = nrows A /\ (N = 0%nat \/ L = ncols A).
Proof.
  intros H. destruct (okmat_cols N L A H) as (H1 & H2). split; [|split; [congruence|destruct H2; [left|right]; congruence]]. subst N. destruct H2 as [H2|H2]; [|subst L; exact H].
  destruct A; [|discriminate]. split; [split; [reflexivity|constructor]|constructor].
Qed.
Lemma ref_sweep_dims w F r N L A : okmat N L A -> ref_sweep w F r N L A = ref_sweep w F r (nrows A) (ncols A) A.
Proof. intros H. destruct (okmat_dims N L A H) as (_ & -> & [E|E]); [rewrite E; reflexivity|rewrite E; reflexivity]. Qed.
Lemma sound_value w l i : sound w -> (l < List.length (layers w))%nat -> In i (factors (get_lay w l)) -> value w i = A2 (matrix_of w i) /\ okmat (nrows (matrix_of w i)) (ncols (matrix_of w i)) (matrix_of w i) /\ fixed_entries (get_mat w i) = A2 (fixed_of w i).
Proof.
  intros S Hl Hi. destruct (so_layer _ S l Hl) as (_ & _ & _ & (K & HB) & _). destruct (In_nth _ _ 0%nat Hi) as (k & Hk & E). specialize (HB k Hk). rewrite E in HB. destruct HB as (A & EA & HA). unfold matrix_of, fixed_of.
  destruct (plain_factor _ (so_plain _ S) l i Hl Hi) as (_ & (F & EF) & _). rewrite EA, EF. split; [reflexivity|]. split; [eapply okmat_dims; exact HA|reflexivity].
Qed.
Lemma sound_put w l i A : sound w -> (l < List.length (layers w))%nat -> In i (factors (get_lay w l)) -> okmat (nrows (matrix_of w i)) (ncols (matrix_of w i)) A -> sound (put w i A).
Proof.
  intros S Hl Hi HA. destruct (sound_value w l i S Hl Hi) as (EV & H0 & _).
  assert (Hv : (val (get_mat w i) < List.length (arrays w))%nat) by (apply stored_val; [apply (so_wf _ S)|apply (wf_placed _ (so_wf _ S) l i Hl Hi)]).
  apply (sound_changed w); [exact S|]. apply write_changed; [exact S|exact Hv| | |].
  + change (get_arr w (val (get_mat w i))) with (value w i). rewrite EV. destruct (nrows (matrix_of w i)) as [|N0] eqn:EN.
    * destruct (matrix_of w i); [|discriminate]. destruct A; [|discriminate (proj1 (proj1 HA))]. reflexivity.
    * rewrite !(shape_okmat (Datatypes.S N0) (ncols (matrix_of w i))) by (assumption || lia); reflexivity.
  + intros _. apply binary_data. eexists _, _, _. split; [reflexivity|exact HA].
  + intros _. eexists _, _, _. split; [reflexivity|exact HA].
Qed.
Lemma run_step outs (Houts : outputs outs) o (Hr : forall k n l, is_draw (o_cell o k n l)) w (S : sound w) i : armed w i ->
  run_mat o w i = Ok (tick (put w i (ref_sweep (fun A' => joint outs (put w i A')) (fixed_of w i) (o_cell o (clock w)) (nrows (matrix_of w i)) (ncols (matrix_of w i)) (matrix_of w i)))).
Proof.
  intros (l & Hl & Hi & ES). destruct (step_value outs Houts o Hr w S l i Hl Hi ES) as (w' & _ & _ & _ & _ & E & _). destruct (gibbs_step outs Houts o Hr w S l i w' Hl Hi ES E) as ((A & F & N & L & G1 & G2 & G3 & G4) & _).
  rewrite E. rewrite G4. unfold matrix_of, fixed_of. rewrite G1, G3. rewrite (ref_sweep_dims _ _ _ N L A G2). reflexivity.
Qed.

(** The joint space of the factors [fs] *)
Definition same_shape (A B : mat) : Prop := okmat (nrows A) (ncols A) B.
Lemma puts_sound : forall fs w c, sound w -> NoDup fs -> (forall i, In i fs -> is_factor w i) -> List.length c = List.length fs ->
  (forall k, (k < List.length fs)%nat -> same_shape (matrix_of w (nth k fs 0%nat)) (nth k c [])) ->
  sound (puts w fs c) /\ (forall k, (k < List.length fs)%nat -> value (puts w fs c) (nth k fs 0%nat) = A2 (nth k c [])) /\
  (forall j, (j < List.length (mats w))%nat -> ~ In j fs -> value (puts w fs c) j = value w j).
Proof.
  induction fs as [|f fs IH]; intros w c S Hd Hf Hc Hs; [split; [exact S|]; split; [cbn; lia|reflexivity]|].
  destruct c as [|B c]; [discriminate|]. inversion Hd as [|? ? Hn Hd']; subst. unfold puts. cbn [combine fold_left fst snd]. fold (puts (put w f B) fs c).
  destruct (Hf f (or_introl eq_refl)) as (l & Hl & Hi). assert (SP : sound (put w f B)) by (apply (sound_put w l); [exact S|exact Hl|exact Hi|apply (Hs 0%nat); cbn; lia]).
  assert (LT : forall j, In j (f :: fs) -> (j < List.length (mats w))%nat) by (intros j Hj; destruct (Hf j Hj) as (l' & Hl' & Hi'); apply (wf_placed _ (so_wf _ S) l' j Hl' Hi')).
  assert (PV : forall j, (j < List.length (mats w))%nat -> value (put w f B) j = if Nat.eqb j f then A2 B else value w j) by (intros j Hj; apply (put_value w S l f Hl Hi); exact Hj).
  destruct (IH (put w f B) c SP Hd') as (I1 & I2 & I3).
  - intros i H. apply (Hf i (or_intror H)).
  - cbn in Hc. lia.
  - intros k Hk. specialize (Hs (Datatypes.S k) ltac:(cbn; lia)). cbn [nth] in Hs. unfold matrix_of in *. rewrite PV by (apply LT; right; apply nth_In; exact Hk). rewrite (proj2 (Nat.eqb_neq _ _)); [exact Hs|]. intros E. apply Hn. rewrite <- E. apply nth_In. exact Hk.
  - split; [exact I1|]. split.
    + intros [|k] Hk; cbn [nth].
      * rewrite I3 by (solve [apply LT; left; reflexivity|exact Hn]). rewrite PV by (apply LT; left; reflexivity). rewrite Nat.eqb_refl. reflexivity.
      * apply I2. cbn in Hk. lia.
    + intros j Hj Hnj. rewrite I3; [|exact Hj|intros H; apply Hnj; right; exact H]. rewrite PV by exact Hj. rewrite (proj2 (Nat.eqb_neq _ _)); [reflexivity|]. intros ->. apply Hnj. left. reflexivity.
Qed.
Lemma place_ok i fs : In i fs -> (place i fs < List.length fs)%nat /\ nth (place i fs) fs 0%nat = i.
Proof. induction fs as [|f fs IH]; intros H; [contradiction|]. cbn [place]. destruct (Nat.eqb_spec i f) as [->|Hn]; [cbn; split; [lia|reflexivity]|]. destruct H as [->|H]; [congruence|]. destruct (IH H). cbn. split; [lia|assumption]. Qed.
Lemma upd_upd {A} (l : list A) : forall k x y, upd (upd l k x) k y = upd l k y.
Proof. induction l as [|a l IH]; intros [|k] x y; cbn; [reflexivity..|]. f_equal. apply IH. Qed.
Lemma upd_own {A} (l : list A) : forall k d, upd l k (nth k l d) = l.
Proof. induction l as [|a l IH]; intros [|k] d; cbn; [reflexivity..|]. f_equal. apply IH. Qed.

(** The sum over one matrix *)
Lemma sweep_sum w fixed A0 N L (h : mat -> R) : (forall m, okmat N L m -> 0 < w m) ->
  Rsum (fun m => w m * Edraws (N * L) (fun rs => h (ref_sweep w fixed (draws_of L rs) N L m))) (filter (agrees fixed A0 N L) (all_mats N L)) =
  Rsum (fun m => w m * h m) (filter (agrees fixed A0 N L) (all_mats N L)).
Proof.
  intros Hw. rewrite !Rsum_filter. pose (h' := fun m => if agrees fixed A0 N L m then h m else 0).
  transitivity (Rsum (fun m => w m * h' m) (all_mats N L)).
  - rewrite <- (ref_sweep_invariant w N L fixed h' Hw). apply Rsum_ext. intros m Hm. destruct (agrees fixed A0 N L m) eqn:E.
    + f_equal. apply Edraws_ext. intros rs Hl HF. unfold h'. rewrite agrees_ref, E. reflexivity.
    + rewrite (Edraws_ext (N * L) _ (fun _ => 0)); [rewrite Edraws_const; ring|]. intros rs Hl HF. unfold h'. rewrite agrees_ref, E. reflexivity.
  - apply Rsum_ext. intros m _. unfold h'. destruct (agrees fixed A0 N L m); ring.
Qed.

Section Pass.
Context (outs : string -> list vec -> nat -> Z) (Houts : outputs outs) (w : world) (S : sound w) (fs : list nat) (Hd : NoDup fs) (Hf : forall i, In i fs -> armed w i).
Let J (c : list mat) : R := joint outs (puts w fs c).
Let states := choices (map (values_of w) fs).
Let N i := nrows (matrix_of w i).
Let L i := ncols (matrix_of w i).
Let factor i : In i fs -> is_factor w i. Proof. intros H. destruct (Hf i H) as (l & Hl & Hi & _). exists l. auto. Qed.
Let vals i j : In i fs -> In j fs -> i <> j -> val (get_mat w i) <> val (get_mat w j).
Proof. intros Hi Hj Hn. destruct (factor i Hi) as (l & Hl & Hi'). apply (so_own _ S j (factor j Hj)); [apply (wf_placed _ (so_wf _ S) l i Hl Hi')|exact Hn]. Qed.
Lemma states_ok c : In c states <-> List.length c = List.length fs /\ forall k, (k < List.length fs)%nat -> let i := nth k fs 0%nat in okmat (N i) (L i) (nth k c []) /\ agrees (fixed_of w i) (matrix_of w i) (N i) (L i) (nth k c []) = true.
Proof.
  unfold states. rewrite in_choices, map_length. split; intros (H1 & H2); (split; [exact H1|]).
  - intros k Hk. cbn zeta. set (i := nth k fs 0%nat). specialize (H2 k Hk [] []). rewrite (nth_indep (map (values_of w) fs) [] (values_of w 0%nat)) in H2 by (rewrite map_length; exact Hk). rewrite map_nth in H2. fold i in H2. unfold values_of in H2. apply filter_In in H2. destruct H2 as (H2 & H3). split; [apply in_all_mats; exact H2|exact H3].
  - intros k Hk d d'. destruct (H2 k Hk) as (G1 & G2). rewrite (nth_indep c d []) by lia. rewrite (nth_indep (map (values_of w) fs) d' (values_of w 0%nat)) by (rewrite map_length; exact Hk). rewrite map_nth. unfold values_of. apply filter_In. split; [apply in_all_mats; exact G1|exact G2].
Qed.
Lemma states_puts c : List.length c = List.length fs -> (forall k, (k < List.length fs)%nat -> okmat (N (nth k fs 0%nat)) (L (nth k fs 0%nat)) (nth k c [])) ->
  sound (puts w fs c) /\ (forall k, (k < List.length fs)%nat -> matrix_of (puts w fs c) (nth k fs 0%nat) = nth k c []) /\ 0 < J c.
Proof.
  intros H1 H2. destruct (puts_sound fs w c S Hd factor H1 H2) as (G1 & G2 & _). split; [exact G1|]. split; [intros k Hk; unfold matrix_of; rewrite G2 by exact Hk; reflexivity|].
  unfold J, joint. apply Rmult_lt_0_compat; apply Rprod_pos; [intros; apply layer_lik_pos|]. intros i Hi. apply in_flat_map in Hi. destruct Hi as (y & Hy & Hi). destruct (In_nth _ _ no_layer Hy) as (l & Hl & E). apply factor_prior_pos. apply (so_factor _ G1 l i Hl). unfold get_lay. rewrite E. exact Hi.
Qed.
Definition pass_step (c : list mat) (i : nat) (rs : list R) : list mat :=
  let k := place i fs in upd c k (ref_sweep (fun A' => J (upd c k A')) (fixed_of w i) (draws_of (L i) rs) (N i) (L i) (nth k c [])).
Lemma upd_shapes c k A : List.length c = List.length fs -> (forall k, (k < List.length fs)%nat -> okmat (N (nth k fs 0%nat)) (L (nth k fs 0%nat)) (nth k c [])) -> okmat (N (nth k fs 0%nat)) (L (nth k fs 0%nat)) A ->
  List.length (upd c k A) = List.length fs /\ forall k', (k' < List.length fs)%nat -> okmat (N (nth k' fs 0%nat)) (L (nth k' fs 0%nat)) (nth k' (upd c k A) []).
Proof.
  intros H1 H2 HA. split; [rewrite upd_length; exact H1|]. intros k' Hk. destruct (Nat.eq_dec k' k) as [->|Hn]; [rewrite nth_upd_same by lia; exact HA|rewrite nth_upd_other by exact Hn; apply H2; exact Hk].
Qed.
Lemma states_shapes c : In c states -> List.length c = List.length fs /\ (forall k, (k < List.length fs)%nat -> okmat (N (nth k fs 0%nat)) (L (nth k fs 0%nat)) (nth k c [])).
Proof. intros H. apply states_ok in H. destruct H as (H1 & H2). split; [exact H1|]. intros k Hk. apply (H2 k Hk). Qed.
Lemma weight_pos c i A : In c states -> In i fs -> okmat (N i) (L i) A -> 0 < J (upd c (place i fs) A).
Proof.
  intros Hc Hi HA. destruct (states_shapes c Hc) as (H1 & H2). destruct (place_ok i fs Hi) as (P1 & P2). destruct (upd_shapes c (place i fs) A H1 H2) as (G1 & G2); [rewrite P2; exact HA|]. apply (states_puts _ G1 G2).
Qed.
Lemma step_states c i rs : In c states -> In i fs -> In (pass_step c i rs) states.
Proof.
  intros Hc Hi. destruct (place_ok i fs Hi) as (P1 & P2). pose proof Hc as Hc'. apply states_ok in Hc'. destruct Hc' as (H1 & H2). apply states_ok. unfold pass_step. cbn zeta. split; [rewrite upd_length; exact H1|]. intros k Hk. cbn zeta. destruct (Nat.eq_dec k (place i fs)) as [->|Hn].
  - rewrite nth_upd_same by lia. specialize (H2 (place i fs) P1). cbn zeta in H2. rewrite P2 in *. destruct H2 as (H2 & H3). split.
    + apply (sweep_prop (fun A' => J (upd c (place i fs) A')) (fun A' => J (upd c (place i fs) A')) 1); [lra|intros m Hm; apply weight_pos; assumption|intros; ring|exact H2].
    + rewrite agrees_ref. exact H3.
  - rewrite nth_upd_other by exact Hn. apply H2. exact Hk.
Qed.
Lemma step_sum i (h : list mat -> R) : In i fs -> Rsum (fun c => J c * Edraws (N i * L i) (fun rs => h (pass_step c i rs))) states = Rsum (fun c => J c * h c) states.
Proof.
  intros Hi. destruct (place_ok i fs Hi) as (P1 & P2). apply (choices_sum _ (place i fs)); [rewrite map_length; exact P1|]. intros c Hc. destruct (states_shapes c Hc) as (H1 & _).
  rewrite (nth_indep (map (values_of w) fs) [] (values_of w 0%nat)) by (rewrite map_length; exact P1). rewrite map_nth, P2. unfold values_of. cbn zeta. fold (N i) (L i).
  rewrite <- (sweep_sum (fun A' => J (upd c (place i fs) A')) (fixed_of w i) (matrix_of w i) (N i) (L i) (fun A => h (upd c (place i fs) A))) by (intros m Hm; apply weight_pos; assumption).
  apply Rsum_ext. intros A _. f_equal. apply Edraws_ext. intros rs _ _. unfold pass_step. cbn zeta. rewrite nth_upd_same by lia. rewrite upd_upd. f_equal. f_equal.
  assert (E : (fun A' => J (upd (upd c (place i fs) A) (place i fs) A')) = (fun A' => J (upd c (place i fs) A'))); [|rewrite E; reflexivity].
  apply FunctionalExtensionality.functional_extensionality. intros A'. rewrite upd_upd. reflexivity.
Qed.
(** The values after a pass *)
Fixpoint pass (order : list nat) (c : list mat) (rss : list (list R)) : list mat :=
  match order with [] => c | i :: order' => pass order' (pass_step c i (hd [] rss)) (tl rss) end.
Lemma is_EE_const ks : forall v, is_EE ks (fun _ => v) v.
Proof. induction ks as [|k ks IH]; intros v; cbn [is_EE]; [reflexivity|]. exists (fun _ => v). split; [intros; apply IH|apply is_E_const]. Qed.
Lemma pass_preserves order rest : (forall i, In i order -> In i fs) -> preserves (fun c rss h => h (pass order c rss)) (map (draws_needed w) (order ++ rest)) J states.
Proof.
  induction order as [|i order IH]; intros Ho h.
  - exists h. split; [intros c _; exact (is_EE_const _ (h c))|reflexivity].
  - destruct (IH (fun j Hj => Ho j (or_intror Hj)) h) as (E & HE & EQ). exists (fun c => Edraws (N i * L i) (fun rs => E (pass_step c i rs))). split; [|rewrite step_sum by (apply Ho; left; reflexivity); exact EQ].
    intros c Hc. cbn [map is_EE app]. exists (fun rs => E (pass_step c i rs)). split; [|].
    + intros rs _ _. cbn [pass hd tl]. apply (HE (pass_step c i rs)). apply step_states; [exact Hc|apply Ho; left; reflexivity].
    + unfold draws_needed. fold (N i) (L i). unfold pass_step. cbn zeta. apply (ref_sweep_is_E (fun A' => J (upd c (place i fs) A')) (fixed_of w i) (N i) (L i) (fun A => E (upd c (place i fs) A))).
Qed.
(** The pass the code makes *)
Definition at_clock (w : world) (t : nat) : world := World (arrays w) (mats w) (layers w) (free w) (anneal w) t.
Lemma sound_clock w' t : sound w' -> sound (at_clock w' t).
Proof. intros H. eapply sound_changed; [exact H|]. apply sound_arrays; auto. Qed.
Lemma call_step o c i t s rs : (forall k n l, is_draw (o_cell o k n l)) -> In c states -> In i fs -> o_cell o t = draws_of (L i) rs -> wd s = at_clock (puts w fs c) t ->
  exists s', call_mat o s i = Ok s' /\ wd s' = at_clock (puts w fs (pass_step c i rs)) (Datatypes.S t).
Proof.
  intros Hr Hc Hi Et Es. destruct (states_shapes c Hc) as (H1 & H2). destruct (states_puts c H1 H2) as (SP & V & _). destruct (place_ok i fs Hi) as (P1 & P2).
  assert (HM : mats (at_clock (puts w fs c) t) = mats w /\ layers (at_clock (puts w fs c) t) = layers w) by (cbn [at_clock mats layers]; destruct (puts_mats w fs c) as (A & B & _); auto).
  assert (HA : armed (at_clock (puts w fs c) t) i) by (eapply armed_same; [exact (proj1 HM)|exact (proj2 HM)|apply Hf; exact Hi]).
  pose proof (run_step outs Houts o Hr _ (sound_clock _ t SP) i HA) as E. unfold call_mat. rewrite Es, E, bindE. eexists. split; [reflexivity|].
  cbn [note set_wd wd]. change (matrix_of (at_clock (puts w fs c) t) i) with (matrix_of (puts w fs c) i). change (clock (at_clock (puts w fs c) t)) with t. rewrite Et.
  assert (EM : matrix_of (puts w fs c) i = nth (place i fs) c []) by (rewrite <- P2 at 1; apply V; exact P1). rewrite EM.
  assert (EF : fixed_of (at_clock (puts w fs c) t) i = fixed_of w i) by (unfold fixed_of, get_mat; rewrite (proj1 HM); reflexivity). rewrite EF.
  change (fun A' => joint outs (put (at_clock (puts w fs c) t) i A')) with (fun A' => joint outs (put (puts w fs c) i A')).
  assert (EP : forall A, put (puts w fs c) i A = puts w fs (upd c (place i fs) A)).
  { intros A. rewrite <- P2 at 1. apply puts_upd; [exact Hd|exact vals|exact P1|exact H1]. }
  assert (EJ : (fun A' => joint outs (put (puts w fs c) i A')) = (fun A' => J (upd c (place i fs) A'))) by (apply FunctionalExtensionality.functional_extensionality; intros A'; rewrite EP; reflexivity). rewrite EJ.
  assert (HX : okmat (N i) (L i) (nth (place i fs) c [])) by (specialize (H2 _ P1); rewrite P2 in H2; exact H2).
  rewrite <- (ref_sweep_dims _ _ _ (N i) (L i) _ HX).
  change (tick (put (at_clock (puts w fs c) t) i ?B)) with (at_clock (put (puts w fs c) i B) (Datatypes.S t)). rewrite EP. reflexivity.
Qed.
Lemma calls_pass o order : forall c t s rss, (forall k n l, is_draw (o_cell o k n l)) -> (forall i, In i order -> In i fs) -> In c states ->
  (forall j, (j < List.length order)%nat -> o_cell o (t + j)%nat = draws_of (L (nth j order 0%nat)) (nth j rss [])) -> wd s = at_clock (puts w fs c) t ->
  exists s', foldM (call_mat o) order s = Ok s' /\ wd s' = at_clock (puts w fs (pass order c rss)) (t + List.length order) /\ In (pass order c rss) states.
Proof.
  induction order as [|i order IH]; intros c t s rss Hr Ho Hc Et Es; cbn [foldM pass List.length].
  - exists s. rewrite Nat.add_0_r. auto.
  - destruct (call_step o c i t s (hd [] rss) Hr Hc (Ho i (or_introl eq_refl))) as (s1 & E1 & E2); [|exact Es|].
    { specialize (Et 0%nat ltac:(cbn; lia)). rewrite Nat.add_0_r in Et. rewrite Et. cbn [nth]. destruct rss; reflexivity. }
    rewrite E1, bindE. destruct (IH (pass_step c i (hd [] rss)) (Datatypes.S t) s1 (tl rss) Hr (fun j Hj => Ho j (or_intror Hj))) as (s' & G1 & G2 & G3).
    + apply step_states; [exact Hc|apply Ho; left; reflexivity].
    + intros j Hj. specialize (Et (Datatypes.S j) ltac:(cbn; lia)). rewrite Nat.add_succ_r in Et. change (Datatypes.S t + j)%nat with (Datatypes.S (t + j)). rewrite Et. cbn [nth]. destruct rss; [destruct j; reflexivity|reflexivity].
    + exact E2.
    + exists s'. split; [exact G1|]. split; [rewrite G2; f_equal; lia|exact G3].
Qed.
Lemma with_batches_draw o t order rss : Forall (Forall is_draw) rss -> forall k n l, is_draw (o_cell (with_batches o w t order rss) k n l).
Proof.
  intros H k a b. cbn. unfold draws_of. assert (HR : Forall is_draw (nth (k - t) rss [])) by (destruct (Nat.lt_ge_cases (k - t) (List.length rss)) as [G|G]; [apply (Forall_nth' _ rss _ [] H G)|rewrite nth_overflow by exact G; constructor]).
  set (rs := nth (k - t) rss []) in *. set (q := (_ + b)%nat). destruct (Nat.lt_ge_cases q (List.length rs)) as [G|G]; [apply (Forall_nth' _ rs _ 0 HR G)|rewrite nth_overflow by exact G; unfold is_draw; lra].
Qed.
Lemma sweep_pass o s c rss : fair o -> Forall (Forall is_draw) rss -> In c states -> let order := o_perm o (clock w) fs in
  exists s', sweep (with_batches o w (Datatypes.S (clock w)) order rss) fs (set_wd s (puts w fs c)) = Ok s' /\ map (matrix_of (wd s')) fs = pass order c rss.
Proof.
  intros Hp HR Hc order. unfold sweep. cbn [with_batches o_perm set_wd wd]. assert (EC : clock (puts w fs c) = clock w) by apply puts_mats. rewrite EC. fold order.
  destruct (calls_pass (with_batches o w (Datatypes.S (clock w)) order rss) order c (Datatypes.S (clock w)) (note (set_wd (set_wd s (puts w fs c)) (tick (puts w fs c))) ESweep) rss) as (s' & E1 & E2 & E3).
  - apply with_batches_draw. exact HR.
  - intros i Hi. eapply Permutation_in; [apply Hp|exact Hi].
  - exact Hc.
  - intros j _. cbn [with_batches o_cell]. replace (Datatypes.S (clock w) + j - Datatypes.S (clock w))%nat with j by lia. reflexivity.
  - cbn [note set_wd wd]. unfold tick, at_clock. rewrite EC. reflexivity.
  - exists s'. split; [exact E1|]. rewrite E2. change (matrix_of (at_clock ?x ?t)) with (matrix_of x). destruct (states_shapes _ E3) as (H1 & H2). destruct (states_puts _ H1 H2) as (_ & V & _).
    apply (nth_ext _ _ [] []); [rewrite map_length; symmetry; exact H1|]. intros k Hk. rewrite map_length in Hk. rewrite (nth_indep _ [] (matrix_of (puts w fs (pass order c rss)) 0%nat)) by (rewrite map_length; exact Hk). rewrite map_nth. apply V. exact Hk.
Qed.
End Pass.
Lemma is_EE_ext ks : forall f g v, (forall rss, Forall (Forall is_draw) rss -> f rss = g rss) -> is_EE ks g v -> is_EE ks f v.
Proof.
  induction ks as [|k ks IH]; intros f g v H; cbn [is_EE]; [intros <-; apply H; constructor|]. intros (e & H1 & H2). exists e. split; [|exact H2]. intros rs Hl Hr. apply (IH _ (fun rss => g (rs :: rss))); [|apply H1; assumption]. intros rss Hs. apply H. constructor; assumption.
Qed.
Lemma C80_lemma outs o w s fs : outputs outs -> random o -> ordinary o w -> NoDup fs -> (forall i, In i fs -> is_factor w i /\ sfct (get_mat w i) <> None) ->
  let order := o_perm o (clock w) fs in let states := choices (map (values_of w) fs) in let weight := fun c => joint outs (puts w fs c) in
  (forall c, In c states -> 0 < weight c) /\ In (map (matrix_of w) fs) states /\
  preserves (fun c rss h => after fs h (sweep (with_batches o w (S (clock w)) order rss) fs (set_wd s (puts w fs c)))) (map (draws_needed w) order) weight states.
Proof.
  intros Ho Hr H Hd Hf order states weight. pose proof (ordinary_sound _ _ Hr H) as SO.
  assert (HA : forall i, In i fs -> armed w i).
  { intros i Hi. destruct (Hf i Hi) as ((l & Hl & Hil) & Hn). exists l. destruct (so_factor _ SO l i Hl Hil) as (_ & [G|G] & _); [contradiction|auto]. }
  split; [|split].
  - intros c Hc. destruct (states_shapes w fs c Hc) as (H1 & H2). apply (states_puts outs w SO fs Hd HA c H1 H2).
  - apply states_ok. rewrite map_length. split; [reflexivity|]. intros k Hk. cbn zeta. rewrite (nth_indep _ [] (matrix_of w 0%nat)) by (rewrite map_length; exact Hk). rewrite map_nth. destruct (Hf _ (nth_In fs 0%nat Hk)) as ((l & Hl & Hil) & _). split; [apply (sound_value w l _ SO Hl Hil)|].
    unfold agrees. apply forallb_forall. intros [n m] _. rewrite Z.eqb_refl. apply Bool.orb_true_r.
  - intros h. destruct (pass_preserves outs w SO fs Hd HA order [] (fun i Hi => Permutation_in i (proj1 Hr _ _) Hi) h) as (E & H1 & H2). rewrite app_nil_r in H1. exists E. split; [|exact H2].
    intros c Hc. eapply is_EE_ext; [|exact (H1 c Hc)]. intros rss HR. destruct (sweep_pass outs Ho w SO fs Hd HA o s c rss (proj1 Hr) HR Hc) as (s' & E1 & E2). fold order in E1, E2. cbn beta. rewrite E1. unfold after. rewrite E2. reflexivity.
Qed.
