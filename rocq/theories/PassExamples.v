(** The stacked machine of OrdinaryExamples.v with the update functions of all four factors chosen. *)
From Coq Require Import String Lia Lra Permutation.
From Verif Require Import Base BaseR Spec SpecR Canon Machine Dispatch Inference SpecMachine MachineExamples BaseLemmas InferenceProofs MachineProofs BuiltProofs PlainProofs SpecOrdinary SpecPass OrdinaryProofs OrdinaryProofs3 OrdinaryProofs7 OrdinaryExamples.
Local Open Scope R_scope.

Lemma stack_factor i : In i [1; 2; 3; 4]%nat -> is_factor stack i /\ fixed (get_mat stack i) = FBool false.
Proof.
  intros H. destruct H as [<-|[<-|[<-|[<-|[]]]]]; (split; [|reflexivity]).
  - exists 0%nat. cbn. auto.
  - exists 0%nat. cbn. auto.
  - exists 1%nat. cbn. auto.
  - exists 1%nat. cbn. auto.
Qed.
Lemma same_factors w1 w i : strip w1 = strip w -> is_factor w i -> is_factor w1 i.
Proof.
  intros T (l & Hl & Hi). apply (f_equal layers) in T. cbn [strip layers] in T. exists l. split; [apply (f_equal (@List.length _)) in T; rewrite !map_length in T; rewrite T; exact Hl|].
  apply (f_equal (map factors)) in T. rewrite !map_map in T. change (map factors (layers w1) = map factors (layers w)) in T. unfold get_lay.
  replace (factors (nth l (layers w1) no_layer)) with (nth l (map factors (layers w1)) (factors no_layer)) by apply map_nth. rewrite T. rewrite map_nth. exact Hi.
Qed.
Lemma stack_ready : exists w, ordinary demo w /\ NoDup [1; 2; 3; 4]%nat /\ forall i, In i [1; 2; 3; 4]%nat -> is_factor w i /\ sfct (get_mat w i) <> None.
Proof.
  destruct (C72_lemma demo demo_settings 5 (fresh_state stack) demo_random stack_ordinary) as (F & H); [unfold usable; cbn; lia|intros G; discriminate G|]. destruct (H F (le_n F)) as (s' & E & O). exists (wd s'). split; [exact O|].
  split; [repeat constructor; cbn; lia|]. intros i Hi. destruct (stack_factor i Hi) as (HF & HX).
  destruct (C77_lemma the_outputs F demo demo_settings 5 (fresh_state stack) s' the_outputs_ok demo_random stack_ordinary E) as (w1 & evs & T & _ & X & _ & _ & G). split; [|apply G; [exact HF|exact HX]].
  apply explained_links in X. destruct X as (X1 & X2 & _). destruct (same_factors w1 stack i T HF) as (l & Hl & Hi'). exists l. rewrite X1, X2. auto.
Qed.
(** The same machine with both dispersions held fixed. *)
Definition hold (y : layer) : layer := with_lbda y (Par (lv (lbda y)) true (beta (lbda y)) (lsfct (lbda y))).
Definition held (w : world) : world := set_layers w (map hold (layers w)).
Lemma held_lay w l : get_lay (held w) l = if (l <? List.length (layers w))%nat then hold (get_lay w l) else get_lay w l.
Proof.
  unfold get_lay, held, set_layers. cbn [layers]. destruct (Nat.ltb_spec l (List.length (layers w))) as [H|H]; [|rewrite !nth_overflow by (try rewrite map_length; exact H); reflexivity].
  rewrite (nth_indep _ no_layer (hold no_layer)) by (rewrite map_length; exact H). apply map_nth.
Qed.
Lemma held_adjusted w : sound w -> (forall i, (i < List.length (mats w))%nat -> (exists b, fixed (get_mat w i) = FBool b) /\ 0 < bprior (get_mat w i) < 1) -> adjusted w (held w).
Proof.
  intros S HB. assert (GL : forall l, factors (get_lay (held w) l) = factors (get_lay w l) /\ child (get_lay (held w) l) = child (get_lay w l) /\ model (get_lay (held w) l) = model (get_lay w l) /\ q (get_lay (held w) l) = q (get_lay w l) /\
    lv (lbda (get_lay (held w) l)) = lv (lbda (get_lay w l)) /\ beta (lbda (get_lay (held w) l)) = beta (lbda (get_lay w l)) /\ lsfct (lbda (get_lay (held w) l)) = lsfct (lbda (get_lay w l)) /\ auto_clean (get_lay (held w) l) = auto_clean (get_lay w l) /\ auto_reset (get_lay (held w) l) = auto_reset (get_lay w l)).
  { intros l. rewrite held_lay. destruct (l <? _)%nat; repeat split. }
  assert (LL : List.length (layers (held w)) = List.length (layers w)) by apply map_length.
  split; [|split; [|split; [|split; [|split]]]].
  - split; [reflexivity|]. split; [exact (wf_stored _ (so_wf _ S))|]. split; [intros i; split; [reflexivity|split; reflexivity]|]. split; [exact LL|]. split; [intros l; destruct (GL l) as (? & ? & ? & ? & _); auto|]. split; [|reflexivity].
    intros l Hl. unfold disp. destruct (GL l) as (_ & _ & _ & _ & E & _). rewrite E. rewrite LL in Hl. apply (wf_width _ (so_wf _ S) l Hl).
  - intros i _. change (value (held w) i) with (value w i). auto.
  - intros i Hi. change (get_mat (held w) i) with (get_mat w i). destruct (HB i Hi). auto.
  - intros i Hi. apply (plain_data _ (so_plain _ S) i Hi).
  - intros i Hi. exact (so_own _ S i Hi).
  - intros l Hl. unfold disp. destruct (GL l) as (_ & _ & _ & _ & E1 & E2 & E3 & E4 & E5). rewrite E1, E2, E3, E4, E5. destruct (plain_flags _ (so_plain _ S) l Hl) as (A1 & A2). destruct (so_layer _ S l Hl) as (_ & _ & _ & _ & _ & B1 & B2). split; [apply (plain_disp _ (so_plain _ S) l Hl)|]. auto.
Qed.
Lemma held_ordinary : ordinary demo (held stack).
Proof.
  eapply ord_adjust; [exact stack_ordinary|]. apply held_adjusted; [exact (ordinary_sound _ _ demo_random stack_ordinary)|]. intros i Hi. destruct (stack_settings i Hi) as (H1 & ->). split; [exact H1|lra].
Qed.
Lemma held_example : ordinary demo (held stack) /\ unfixed (held stack) = [1; 2; 3; 4]%nat /\ (forall l, (l < List.length (layers (held stack)))%nat -> lfixed (lbda (get_lay (held stack) l)) = true) /\ usable demo_settings /\ burn_in_passes demo_settings = 4%nat.
Proof.
  split; [exact held_ordinary|]. split; [reflexivity|]. split; [intros l Hl; rewrite held_lay; destruct (Nat.ltb_spec l (List.length (layers stack))) as [_|G]; [reflexivity|]; unfold held, set_layers in Hl; cbn [layers] in Hl; rewrite map_length in Hl; lia|]. split; [unfold usable; cbn; lia|reflexivity].
Qed.

Lemma held_annealable : annealable demo_settings (held stack).
Proof. intros G. discriminate G. Qed.
