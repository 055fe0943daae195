(** Updates of machines with clean-up flags, and runs of clean-ups. *)
From Coq Require Import String Permutation Lra FunctionalExtensionality.
From Verif Require Import Base BaseR BaseLemmas BaseRLemmas Spec SpecR Canon Fuzzy Clean SpecClean CleanProofs CleanProofs2 Machine Dispatch Inference SpecMachine MachineProofs MachineProofs2 BuiltProofs InferenceProofs InferenceProofs2 InferenceProofs3 PlainProofs SpecOrdinary OrdinaryProofs OrdinaryProofs2 OrdinaryProofs3 OrdinaryProofs4 OrdinaryProofs5 OrdinaryProofs6 PredictProofs SpecTidy TidyProofs TidyProofs2.
Local Open Scope R_scope.

(** ** Machines that differ in flags only *)
Definition same_flags (w w' : world) : Prop := forall l, auto_clean (get_lay w' l) = auto_clean (get_lay w l) /\ auto_reset (get_lay w' l) = auto_reset (get_lay w l).
Lemma unflag_inj x y : unflag x = unflag y -> auto_clean x = auto_clean y -> auto_reset x = auto_reset y -> x = y.
Proof. destruct x, y. unfold unflag. cbn. intros H -> ->. injection H as -> -> -> -> -> -> -> -> -> ->. reflexivity. Qed.
Lemma unflagged_inj w w' : unflagged w' = unflagged w -> same_flags w w' -> w' = w.
Proof.
  intros E H. assert (EL : layers w' = layers w).
  { assert (E1 : map unflag (layers w') = map unflag (layers w)) by exact (f_equal layers E). apply (nth_ext _ _ no_layer no_layer); [apply (f_equal (@List.length _)) in E1; rewrite !map_length in E1; exact E1|].
    intros l _. destruct (H l) as (H1 & H2). apply unflag_inj; [|exact H1|exact H2]. apply (f_equal (fun w => get_lay w l)) in E. rewrite !get_lay_unflagged in E. exact E. }
  destruct w, w'. unfold unflagged in E. cbn in *. injection E as -> -> _ -> -> ->. rewrite EL. reflexivity.
Qed.
Lemma unflagged_same w : (forall l, (l < List.length (layers w))%nat -> auto_clean (get_lay w l) = false /\ auto_reset (get_lay w l) = false) -> unflagged w = w.
Proof.
  intros H. apply unflagged_inj; [unfold unflagged; cbn [arrays mats layers free anneal clock]; rewrite map_map; reflexivity|]. intros l. rewrite get_lay_unflagged. cbn. destruct (Nat.lt_ge_cases l (List.length (layers w))) as [Hl|Hl]; [destruct (H l Hl); auto|].
  unfold get_lay. rewrite nth_overflow by exact Hl. auto.
Qed.
Lemma static_flags w w' : static w w' -> same_flags w w'.
Proof. intros (_ & _ & _ & H & _) l. destruct (H l) as (v & r & ->). auto. Qed.
Lemma joint_unflagged outs w : joint outs (unflagged w) = joint outs w.
Proof.
  unfold joint. rewrite lays_unflagged. f_equal.
  - apply Rprod_ext. intros l _. unfold layer_lik. rewrite get_lay_unflagged, disp_unflagged. reflexivity.
  - unfold unflagged at 2. cbn [layers]. rewrite !flat_map_concat_map, map_map. reflexivity.
Qed.
Lemma layer_score_unflagged outs w l : layer_score outs (unflagged w) l = layer_score outs w l.
Proof. unfold layer_score. rewrite get_lay_unflagged. reflexivity. Qed.
Lemma gibbs_unflagged outs o w i w' : gibbs_update outs o (unflagged w) i (unflagged w') -> same_flags w w' -> gibbs_update outs o w i w'.
Proof.
  intros (A & F & N & L & E1 & E2 & E3 & E4) H. exists A, F, N, L. split; [exact E1|]. split; [exact E2|]. split; [exact E3|]. apply unflagged_inj; [|exact H].
  rewrite E4. replace (fun A' => joint outs (put (unflagged w) i A')) with (fun A' => joint outs (put w i A')); [reflexivity|]. apply functional_extensionality. intros A'. symmetry. exact (joint_unflagged outs (put w i A')).
Qed.
Lemma assign_disp_flags w l v : same_flags w (assign_disp w l v).
Proof. intros k. unfold assign_disp. rewrite get_lay_set. destruct (Nat.eqb_spec k l) as [->|]; cbn [andb]; [destruct (Nat.ltb _ _)|]; auto. Qed.
Lemma dispersion_unflagged outs w l v w' : dispersion_update outs (unflagged w) l v (unflagged w') -> same_flags w w' -> dispersion_update outs w l v w'.
Proof.
  intros (x & E1 & E2 & E3) H. rewrite layer_score_unflagged, get_lay_unflagged in E3. exists x. split; [exact E1|]. split; [|exact E3]. apply unflagged_inj; [rewrite E2; apply assign_disp_unflagged|].
  intros k. destruct (H k) as (-> & ->). destruct (assign_disp_flags w l v k) as (-> & ->). auto.
Qed.

(** ** Layers on top stay on top *)
Lemma on_top_next w w' : static w w' -> (forall l, (l < List.length (layers w))%nat -> shape_of (value w' (child (get_lay w l))) = shape_of (value w (child (get_lay w l)))) -> on_top w -> on_top w'.
Proof.
  intros (_ & SM & LL & SL & _) SH T l Hl Fl. rewrite LL in Hl. destruct (SL l) as (v & r & E). unfold flagged in Fl. rewrite E in *. cbn [with_ratios with_lbda factors child auto_clean auto_reset] in *. rewrite (SH l Hl). destruct (T l Hl Fl) as (G1 & G2). split; [|exact G2].
  intros i Hi. specialize (SM i). unfold same_matrix in SM. apply (f_equal parents) in SM. cbn [with_val parents] in SM. rewrite SM. apply G1, Hi.
Qed.
Lemma okmat_shape N L A B : okmat N L A -> okmat N L B -> shape_of (A2 B) = shape_of (A2 A).
Proof.
  intros HA HB. destruct N as [|N]; [|rewrite !(shape_okmat (Datatypes.S N) L) by (assumption || lia); reflexivity]. destruct HA as ((H1 & _) & _), HB as ((H2 & _) & _). destruct A, B; try discriminate. reflexivity.
Qed.
Lemma gibbs_shapes outs o w i w' j : stored w -> (i < List.length (mats w))%nat -> gibbs_update outs o w i w' -> shape_of (value w' j) = shape_of (value w j).
Proof.
  intros S Hi (A & F & N & L & E1 & E2 & _ & E4). set (Z_ := ref_sweep _ _ _ _ _ _) in E4. assert (HZ : okmat N L Z_) by (apply ref_sweep_okmat; exact E2). subst w'. unfold value in *. cbn [tick put]. change (get_mat (tick (put w i Z_)) j) with (get_mat w j). change (get_arr (tick (put w i Z_))) with (get_arr (put w i Z_)). unfold put.
  rewrite get_arr_write by (apply stored_val; assumption). destruct (Nat.eqb_spec (val (get_mat w j)) (val (get_mat w i))) as [E|_]; [|reflexivity]. rewrite E, E1. eapply okmat_shape; eassumption.
Qed.

(** ** The invariant of a run *)
Definition neat (w : world) : Prop := sound (unflagged w) /\ on_top w.
Definition tuned (ms ls : list nat) (w : world) : Prop := neat w /\ (forall i, In i ms -> armed (unflagged w) i) /\ (forall l, In l ls -> larmed (unflagged w) l).
Lemma tuned_tick ms ls w : tuned ms ls w -> tuned ms ls (tick w).
Proof.
  intros ((S & T) & H1 & H2). split; [split; [exact (sound_tick _ S)|exact T]|]. split; [intros i Hi; exact (armed_same (unflagged w) (unflagged (tick w)) i eq_refl eq_refl (H1 i Hi))|intros l Hl; exact (larmed_same (unflagged w) (unflagged (tick w)) l eq_refl (H2 l Hl))].
Qed.
Lemma tuned_mat outs ms ls o w i w' : outputs outs -> random o -> tuned ms ls w -> In i ms -> run_mat o w i = Ok w' -> tuned ms ls w' /\ gibbs_update outs o w i w' /\ anneal w' = anneal w.
Proof.
  intros Ho Hr ((S & T) & H1 & H2) Hi E. pose proof (run_mat_unflagged o w i) as EU. rewrite E in EU. cbn [lift bind] in EU. destruct (H1 i Hi) as (l & Hl & Hf & Es). destruct (gibbs_step outs Ho o (proj2 Hr) (unflagged w) S l i (unflagged w') Hl Hf Es EU) as (G1 & G2 & G3 & G4).
  pose proof (run_mat_static _ _ _ _ E) as ST. pose proof (gibbs_unflagged _ _ _ _ _ G1 (static_flags _ _ ST)) as G. split; [|split; [exact G|apply ST]]. split; [split; [exact G2|]|split].
  - apply (on_top_next w w' ST); [|exact T]. intros k Hk. eapply gibbs_shapes; [exact (wf_stored _ (so_wf _ S))|exact (proj1 (wf_placed _ (so_wf _ S) l i Hl Hf))|exact G].
  - intros j Hj. apply (armed_same (unflagged w)); auto.
  - intros k Hk. apply (larmed_same (unflagged w)); auto.
Qed.
Lemma armed_changed w w' i : changed w w' -> mats w' = mats w -> armed w i -> armed w' i.
Proof.
  intros HC G3 (k & Hk & Hf & Es). pose proof (ch_edited _ _ HC) as ED. assert (EF : forall k, factors (get_lay w' k) = factors (get_lay w k)) by (intros j; apply ED). assert (LL : List.length (layers w') = List.length (layers w)) by apply ED.
  exists k. rewrite LL, EF, (edited_closure w w') by (exact ED || (unfold get_mat; rewrite G3; reflexivity)). unfold get_mat in *. rewrite G3. auto.
Qed.
Lemma larmed_changed w w' l : changed w w' -> (forall k, lsfct (lbda (get_lay w' k)) = lsfct (lbda (get_lay w k))) -> larmed w l -> larmed w' l.
Proof.
  intros HC G4 (H1 & g & H2 & H3). pose proof (ch_edited _ _ HC) as ED. assert (EF : forall k, factors (get_lay w' k) = factors (get_lay w k)) by (intros j; apply ED). assert (EM : forall k, model (get_lay w' k) = model (get_lay w k)) by (intros k; apply ED). assert (LL : List.length (layers w') = List.length (layers w)) by apply ED.
  split; [rewrite LL; exact H1|]. exists g. rewrite G4. split; [exact H2|]. unfold disp_closure in *. rewrite EF, EM. exact H3.
Qed.
Lemma static_disp w l v : static w (assign_disp w l v).
Proof.
  unfold static. split; [reflexivity|]. split; [intros i; reflexivity|]. split; [unfold assign_disp, set_lay, set_layers; cbn [layers]; apply upd_length|]. split; [|auto]. intros k. unfold assign_disp. rewrite get_lay_set. destruct (Nat.eqb_spec k l) as [->|]; cbn [andb]; [destruct (Nat.ltb _ _)|]; [|apply same_layer_refl..].
  exists v, (ratios (get_lay w l)). destruct (get_lay w l). reflexivity.
Qed.
Lemma tuned_disp ms ls w l x : tuned ms ls w -> In l ls -> tuned ms ls (assign_disp w l (LS x)).
Proof.
  intros ((S & T) & H1 & H2) Hi. destruct (H2 l Hi) as (Hl & f & Ef & Df).
  assert (HC : changed (unflagged w) (assign_disp (unflagged w) l (LS x))) by (apply changed_lbda; [exact S|exact Hl|exists x; reflexivity|reflexivity|right; exists f; auto]).
  assert (G4 : forall k, lsfct (lbda (get_lay (assign_disp (unflagged w) l (LS x)) k)) = lsfct (lbda (get_lay (unflagged w) k))) by (intros k; unfold assign_disp; rewrite get_lay_set; destruct (Nat.eqb_spec k l) as [->|]; cbn [andb]; [destruct (Nat.ltb _ _)|]; reflexivity).
  unfold tuned, neat. rewrite <- assign_disp_unflagged. split; [split; [exact (sound_changed _ _ S HC)|]|split].
  - apply (on_top_next w _ (static_disp w l (LS x))); [|exact T]. reflexivity.
  - intros i Hj. apply (armed_changed _ _ _ HC); [reflexivity|apply H1, Hj].
  - intros k Hk. apply (larmed_changed _ _ _ HC G4), H2, Hk.
Qed.
Lemma tuned_lbda outs ms ls w l w' : outputs outs -> tuned ms ls w -> In l ls -> run_lbda w l = Ok w' -> tuned ms ls w' /\ dispersion_update outs w l (disp w' l) w' /\ anneal w' = anneal w.
Proof.
  intros Ho TU Hi E. pose proof TU as ((S & T) & H1 & H2). pose proof (run_lbda_unflagged w l) as EU. rewrite E in EU. cbn [lift bind] in EU. destruct (H2 l Hi) as (Hl & f & Ef & Df).
  destruct (dispersion_step outs (unflagged w) l f (unflagged w') Ho S Hl Ef Df EU) as (G1 & _). rewrite disp_unflagged in G1. pose proof (run_lbda_static _ _ _ E) as ST. pose proof (dispersion_unflagged _ _ _ _ _ G1 (static_flags _ _ ST)) as G. split; [|split; [exact G|apply ST]].
  destruct G as (x & Ev & -> & _). rewrite Ev. apply tuned_disp; assumption.
Qed.
Lemma tuned_revalued ms ls w w' l : tuned ms ls w -> revalued (unflagged w) (unflagged w') l -> neat w' -> tuned ms ls w'.
Proof.
  intros ((S & T) & H1 & H2) R N'. pose proof (revalued_edited _ _ _ S R) as ED. destruct (rv_world _ _ _ R) as (EL & _). split; [exact N'|]. split.
  - intros i Hi. destruct (H1 i Hi) as (k & Hk & Hf & Es). exists k. rewrite (edited_closure _ _ i k ED) by (rewrite (rv_mat _ _ _ R i); reflexivity). unfold get_lay in *. rewrite EL. rewrite (rv_mat _ _ _ R i). auto.
  - intros k Hk. apply (larmed_same (unflagged w)); [exact EL|apply H2, Hk].
Qed.

(** ** Runs of clean-ups *)
Inductive tidied_steps (w : world) : world -> Prop :=
| ts_none : tidied_steps w w
| ts_more w1 l w2 : tidied_steps w w1 -> neat w1 -> tidied w1 l w2 -> neat w2 -> revalued (unflagged w1) (unflagged w2) l -> tidied_steps w w2.
Lemma steps_trans a b c : tidied_steps a b -> tidied_steps b c -> tidied_steps a c.
Proof. intros H1 H2. induction H2; [exact H1|]. econstructor; eassumption. Qed.
Lemma steps_layers a b : tidied_steps a b -> layers b = layers a.
Proof. induction 1 as [|w1 l w2 _ IH _ T _ _]; [reflexivity|]. destruct (td_rest _ _ _ T) as (-> & _). exact IH. Qed.
Lemma clean_steps w l reset clean : neat w -> (l < List.length (layers w))%nat -> flagged w l -> (reset || clean)%bool = true -> (reset = true -> auto_reset (get_lay w l) = true) ->
  exists w' b, clean_layer w l reset clean = Some (Ok (w', b)) /\ tidied_steps w w' /\ neat w'.
Proof.
  intros N Hl Fl H1 H2. destruct (clean_step w l reset clean (proj1 N) (proj2 N) Hl Fl H1 H2) as (w' & b & E & [(_ & ->)|(_ & G1 & G2 & G3 & G4)]).
  - exists w, b. split; [exact E|]. split; [constructor|exact N].
  - exists w', b. split; [exact E|]. split; [|split; assumption]. eapply ts_more; [constructor|exact N|exact G1|split; assumption|exact G4].
Qed.
Lemma clean_all_steps ls : forall w, neat w -> (forall l, In l ls -> (l < List.length (layers w))%nat) -> exists w' b, clean_all w ls = Some (Ok (w', b)) /\ tidied_steps w w' /\ neat w'.
Proof.
  induction ls as [|l ls IH]; intros w N H; cbn [clean_all]; [exists w, false; split; [reflexivity|]; split; [constructor|exact N]|]. cbv zeta. destruct (auto_clean (get_lay w l) || auto_reset (get_lay w l))%bool eqn:EF; [|apply IH; [exact N|intros k Hk; apply H; right; exact Hk]].
  destruct (clean_steps w l (auto_reset (get_lay w l)) (auto_clean (get_lay w l)) N) as (w1 & b1 & E1 & S1 & N1); [apply H; left; reflexivity|apply orb_true_iff; exact EF|rewrite orb_comm; exact EF|auto|].
  rewrite E1. destruct (IH w1 N1) as (w2 & b2 & E2 & S2 & N2); [intros k Hk; rewrite (steps_layers _ _ S1); apply H; right; exact Hk|]. rewrite E2. eexists _, _. split; [reflexivity|]. split; [eapply steps_trans; eassumption|exact N2].
Qed.
Lemma final_clean_steps ls : forall w, neat w -> (forall l, In l ls -> (l < List.length (layers w))%nat) -> exists w', final_clean w ls = Some (Ok w') /\ tidied_steps w w' /\ neat w'.
Proof.
  induction ls as [|l ls IH]; intros w N H; cbn [final_clean]; [exists w; split; [reflexivity|]; split; [constructor|exact N]|]. destruct (auto_reset (get_lay w l)) eqn:EF; [|apply IH; [exact N|intros k Hk; apply H; right; exact Hk]].
  destruct (clean_steps w l false true N) as (w1 & b1 & E1 & S1 & N1); [apply H; left; reflexivity|right; exact EF|reflexivity|discriminate|].
  rewrite E1. destruct (IH w1 N1) as (w2 & E2 & S2 & N2); [intros k Hk; rewrite (steps_layers _ _ S1); apply H; right; exact Hk|]. rewrite E2. eexists. split; [reflexivity|]. split; [eapply steps_trans; eassumption|exact N2].
Qed.
Lemma tuned_steps ms ls w w' : tidied_steps w w' -> tuned ms ls w -> tuned ms ls w' /\ anneal w' = anneal w.
Proof. induction 1 as [|w1 l w2 _ IH N1 TD N2 R]; intros H; [auto|]. destruct (IH H) as (G1 & G2). split; [eapply tuned_revalued; eassumption|]. destruct (td_rest _ _ _ TD) as (_ & _ & -> & _). exact G2. Qed.
Lemma tidily_steps outs o e w0 w w' : tidied_steps w w' -> tidily outs o e w0 w -> tidily outs o e w0 w'.
Proof. induction 1 as [|w1 l w2 _ IH N1 TD N2 R]; intros H; [exact H|]. eapply ty_clean; [apply IH, H|exact TD]. Qed.
