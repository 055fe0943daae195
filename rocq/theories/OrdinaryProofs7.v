(** Proofs of C72, C73, C77, C78. *)
From Coq Require Import String Lia Lra Permutation.
From Verif Require Import Base BaseLemmas BaseR BaseRLemmas Spec SpecR Invariance InvarianceProofs HierProofs Canon Machine Dispatch Inference SpecMachine SpecOrdinary MachineProofs MachineProofs2 InferenceProofs BuiltProofs InferenceProofs6 InferenceProofs2 ProgressProofs PlainProofs PreserveProofs DispatchProofs UpdateProofs LambdaProofs SamplingProofs SamplingExamples PreserveLog.
From Verif Require Import OrdinaryProofs OrdinaryProofs2 OrdinaryProofs3 OrdinaryProofs4 OrdinaryProofs5 OrdinaryProofs6.
Local Open Scope R_scope.

Definition the_outputs (m : string) : list vec -> nat -> Z :=
  match find (fun p => String.eqb (model_name (fst p) (snd p)) m) implemented with Some (o, i) => the_output o i | None => fun _ _ => 1%Z end.
Lemma the_outputs_ok : outputs the_outputs.
Proof. intros o i H. cbn in H. repeat (destruct H as [H|H]; [injection H as <- <-; apply the_output_ok|]). contradiction. Qed.
Lemma ordinary_sound o w : random o -> ordinary o w -> sound w.
Proof.
  intros Hr. induction 1 as [|w a H IH|w sc ax w' H IH Hs E HD|w K c m m' inv invf w' H IH Em Hm Hf E|w K sh m m' inv invf w' H IH Em Hm Hsh Hp E|w w' H IH HA|fuel cfg n s s' H IH E].
  - split.
    + apply (built_wf o). constructor.
    + constructor; cbn; intros; try lia; try contradiction; try reflexivity.
    + intros i (l & Hl & _). cbn in Hl. lia.
    + intros i [].
    + intros l Hl. cbn in Hl. lia.
    + intros l i Hl. cbn in Hl. lia.
  - apply sound_more, IH.
  - eapply sound_add_matrix; eassumption.
  - eapply sound_add_layer; eassumption.
  - eapply sound_add_layer_shape; eassumption.
  - eapply sound_adjusted; eassumption.
  - eapply run_ordinary; try eassumption. Unshelve. 2: exact the_outputs. exact the_outputs_ok.
Qed.

Lemma C72_lemma o cfg n s : random o -> ordinary o (wd s) -> usable cfg -> annealable cfg (wd s) -> exists F, forall fuel, (F <= fuel)%nat -> exists s', infer fuel o cfg n s = Some (Ok s') /\ ordinary o (wd s').
Proof.
  intros Hr H U AN. pose proof (ordinary_sound _ _ Hr H) as S. exists (enough cfg). intros fuel Hf. destruct (infer_ok_lemma fuel o cfg n s (proj1 Hr) U (so_wf _ S) (so_plain _ S) AN Hf) as (s' & E & _). exists s'. split; [exact E|]. eapply ord_infer; eassumption.
Qed.
Lemma C72_annealing_lemma o cfg n s : random o -> ordinary o (wd s) -> usable cfg -> ~ annealable cfg (wd s) -> exists F, forall fuel, (F <= fuel)%nat -> exists e, infer fuel o cfg n s = Some (Err e).
Proof.
  intros Hr H U NA. pose proof (ordinary_sound _ _ Hr H) as S. exists (enough cfg). intros fuel Hf. exact (infer_fails_lemma fuel o cfg n s (proj1 Hr) U (so_wf _ S) (so_plain _ S) NA Hf).
Qed.
Lemma C73_lemma o w : random o -> ordinary o w ->
  (forall l, (l < List.length (layers w))%nat ->
     (exists f g N D L A B X x, layer2 w l f g N D L A B X x /\ (Z.of_nat N <= 32767)%Z /\ (Z.of_nat D <= 32767)%Z) \/
     (exists f g h N D M L A B C X x, layer3 w l f g h N D M L A B C X x /\ data_ok (A3 X))) /\
  (forall i, is_factor w i -> own_array w i /\ forall k, In k (parents (get_mat w i)) <-> (k < List.length (layers w))%nat /\ child (get_lay w k) = i) /\
  (forall i, In i (free w) -> data_ok (value w i)).
Proof.
  intros Hr H. pose proof (ordinary_sound _ _ Hr H) as S. split; [|split].
  - intros l Hl. destruct (plain_child _ (so_plain _ S) l Hl) as [(G & _)|(G & _)]; [left|right].
    + destruct (sound_layer2 w l S Hl G) as (f & g & L & A & B & X & x & H2 & H3 & H4). exists f, g, (nrows X), (ncols X), L, A, B, X, x. auto.
    + destruct (sound_layer3 w l S Hl G) as (f & g & h & N & D & M & L & A & B & C & X & x & H3). exists f, g, h, N, D, M, L, A, B, C, X, x. split; [exact H3|]. destruct (so_layer _ S l Hl) as (_ & G2 & _). cbv zeta in G2. destruct (l3_values _ _ _ _ _ _ _ _ _ _ _ _ _ _ H3) as (_ & _ & _ & E & _). rewrite E in G2. exact G2.
  - intros i Hi. split; [apply S; exact Hi|]. destruct Hi as (l & Hl & Hi). destruct (so_factor _ S l i Hl Hi) as (_ & _ & -> & _). intros k. rewrite filter_In, in_seq, Nat.eqb_eq. lia.
  - intros i Hi. apply S, Hi.
Qed.
Lemma C77_lemma outs fuel o cfg n s s' : outputs outs -> random o -> ordinary o (wd s) -> infer fuel o cfg n s = Some (Ok s') ->
  exists w1 evs, strip w1 = strip (wd s) /\ log s' = log s ++ evs /\ explained outs o evs w1 (wd s') /\
    (forall i, In (EMat i) evs -> is_factor (wd s) i /\ fixed (get_mat (wd s) i) = FBool false) /\ (forall l v, In (ELbda l v) evs -> (l < List.length (layers (wd s)))%nat /\ lfixed (lbda (get_lay (wd s) l)) = false) /\
    (forall l v, In (EAnneal l v) evs -> (l < List.length (layers (wd s)))%nat /\ lfixed (lbda (get_lay (wd s) l)) = false /\ anneal (wd s) = true) /\
    (forall i, is_factor (wd s) i -> fixed (get_mat (wd s) i) = FBool false -> sfct (get_mat (wd s') i) <> None).
Proof. intros Ho Hr H E. eapply run_ordinary; try eassumption. apply (ordinary_sound o); assumption. Qed.
Lemma draws_invariant (S : mat -> (nat -> nat -> R) -> res mat) w fixed A0 N L :
  (forall m, okmat N L m -> 0 < w m) ->
  (forall m rs, okmat N L m -> List.length rs = (N * L)%nat -> Forall is_draw rs -> S m (draws_of L rs) = Ok (ref_sweep w fixed (draws_of L rs) N L m)) ->
  invariant S w (filter (agrees fixed A0 N L) (all_mats N L)) N L.
Proof.
  intros Hw HS h. exists (fun m => Edraws (N * L) (fun rs => on_ok h (S m (draws_of L rs)))).
  assert (HX : forall m, okmat N L m -> forall rs, List.length rs = (N * L)%nat -> Forall is_draw rs ->
     on_ok h (S m (draws_of L rs)) = h (ref_sweep w fixed (draws_of L rs) N L m)).
  { intros m Hm rs Hl HF. rewrite HS by assumption. reflexivity. }
  split.
  - intros m Hm. apply filter_In in Hm. destruct Hm as [Hm _]. apply in_all_mats in Hm.
    rewrite (Edraws_ext _ _ _ (HX m Hm)). eapply is_E_ext; [|apply ref_sweep_is_E].
    intros rs Hl HF. symmetry. apply HX; assumption.
  - rewrite !Rsum_filter.
    pose (h' := fun m => if agrees fixed A0 N L m then h m else 0).
    transitivity (Rsum (fun m => w m * h' m) (all_mats N L)).
    + rewrite <- (ref_sweep_invariant w N L fixed h' Hw). apply Rsum_ext. intros m Hm. apply in_all_mats in Hm.
      destruct (agrees fixed A0 N L m) eqn:E.
      * f_equal. apply Edraws_ext. intros rs Hl HF. rewrite HX by assumption.
        unfold h'. rewrite agrees_ref, E. reflexivity.
      * rewrite (Edraws_ext (N * L) _ (fun _ => 0)).
        -- rewrite Edraws_const. ring.
        -- intros rs Hl HF. unfold h'. rewrite agrees_ref, E. reflexivity.
    + apply Rsum_ext. intros m _. unfold h'. destruct (agrees fixed A0 N L m); ring.
Qed.
Lemma step_value outs (Houts : outputs outs) o (Hr : forall k n l, is_draw (o_cell o k n l)) w (S : sound w) l i : (l < List.length (layers w))%nat -> In i (factors (get_lay w l)) -> sfct (get_mat w i) = Some (own_closure w i l) ->
  exists w' A F N L, run_mat o w i = Ok w' /\ value w i = A2 A /\ okmat N L A /\ fixed_entries (get_mat w i) = A2 F /\ value w' i = A2 (ref_sweep (fun A' => joint outs (put w i A')) F (o_cell o (clock w)) N L A).
Proof.
  intros Hl Hi ES. assert (HR : resampled outs o w l i) by (destruct (plain_child _ (so_plain _ S) l Hl) as [(G & _)|(G & _)]; [apply resampled2|apply resampled3]; assumption).
  assert (E : exists w', run_mat o w i = Ok w') by (destruct HR as (A & F & N & L & _ & _ & _ & EC); unfold run_mat; rewrite ES; cbn [of_option]; rewrite bindE, EC, bindE; eexists; reflexivity).
  destruct E as (w' & E). destruct (gibbs_step outs Houts o Hr w S l i w' Hl Hi ES E) as ((A & F & N & L & G1 & G2 & G3 & G4) & _). exists w', A, F, N, L. split; [exact E|]. split; [exact G1|]. split; [exact G2|]. split; [exact G3|].
  rewrite G4. change (value (tick ?x) i) with (value x i). rewrite (put_value w S l i Hl Hi) by (apply (wf_placed _ (so_wf _ S) l i Hl Hi)). rewrite Nat.eqb_refl. reflexivity.
Qed.
Lemma put_put w i A B : put (put w i A) i B = put w i B.
Proof. unfold put, write, set_arrays. change (get_mat {| arrays := upd (arrays w) (val (get_mat w i)) (A2 A); mats := mats w; layers := layers w; free := free w; anneal := anneal w; clock := clock w |} i) with (get_mat w i). cbn [arrays mats layers free anneal clock]. f_equal. generalize (val (get_mat w i)). generalize (arrays w). induction l as [|a l IH]; intros [|k]; cbn; [reflexivity..|]. f_equal. apply IH. Qed.
Lemma C78_lemma outs o w i A F N L : outputs outs -> random o -> ordinary o w -> is_factor w i -> sfct (get_mat w i) <> None -> value w i = A2 A -> okmat N L A -> fixed_entries (get_mat w i) = A2 F ->
  (forall A', okmat N L A' -> 0 < joint outs (put w i A')) /\
  invariant (move o w i) (fun A' => joint outs (put w i A')) (filter (agrees F A N L) (all_mats N L)) N L.
Proof.
  intros Ho Hr H (l & Hl & Hi) HS EV HA EF. pose proof (ordinary_sound _ _ Hr H) as S. destruct (so_factor _ S l i Hl Hi) as (_ & [G|ES] & _); [contradiction|].
  assert (HJ : forall A', 0 < joint outs (put w i A')).
  { intros A'. destruct (joint_part outs w S l i Hl Hi) as (c & Hc & E). rewrite E. apply Rmult_lt_0_compat; [exact Hc|apply (part_pos outs w S l i Hl Hi)]. }
  split; [intros; apply HJ|]. assert (Hv : (val (get_mat w i) < List.length (arrays w))%nat) by (apply stored_val; [apply (so_wf _ S)|apply (wf_placed _ (so_wf _ S) l i Hl Hi)]).
  apply draws_invariant; [intros; apply HJ|]. intros m rs Hm _ Hd. unfold move.
  assert (SP : sound (put w i m)).
  { apply (sound_changed w); [exact S|]. apply write_changed; [exact S|exact Hv| | |].
    + change (get_arr w (val (get_mat w i))) with (value w i). rewrite EV. destruct N as [|N0]; [|rewrite !(shape_okmat (Datatypes.S N0) L) by (assumption || lia); reflexivity]. destruct A; [|discriminate (proj1 (proj1 HA))]. destruct m; [|discriminate (proj1 (proj1 Hm))]. reflexivity.
    + intros _. apply binary_data. eexists _, _, _. split; [reflexivity|exact Hm].
    + intros _. eexists _, _, _. split; [reflexivity|exact Hm]. }
  set (o' := with_cells o (draws_of L rs)). assert (Hr' : forall k n l, is_draw (o_cell o' k n l)).
  { intros k a b. cbn. unfold draws_of. destruct (Nat.lt_ge_cases (a * L + b) (List.length rs)) as [G|G]; [apply (Forall_nth' _ rs _ 0 Hd G)|rewrite nth_overflow by exact G; unfold is_draw; lra]. }
  destruct (step_value outs Ho o' Hr' (put w i m) SP l i Hl Hi ES) as (w' & A1 & F1 & N1 & L1 & E & V1 & O1 & F2 & V2). rewrite E, bindE, V2.
  rewrite (put_value w S l i Hl Hi), Nat.eqb_refl in V1 by (apply (wf_placed _ (so_wf _ S) l i Hl Hi)). injection V1 as <-. change (get_mat (put w i m) i) with (get_mat w i) in F2. rewrite EF in F2. injection F2 as <-. f_equal. change (o_cell o' (clock (put w i m))) with (draws_of L rs).
  destruct N as [|N0].
  - destruct m; [|discriminate (proj1 (proj1 Hm))]. assert (N1 = 0%nat) by (symmetry; exact (proj1 (proj1 O1))). subst N1. reflexivity.
  - assert (N1 = Datatypes.S N0) by (rewrite <- (proj1 (proj1 O1)); exact (proj1 (proj1 Hm))). subst N1. assert (L1 = L).
    { destruct m as [|v m]; [discriminate (proj1 (proj1 Hm))|]. pose proof (Forall_inv (proj2 (proj1 Hm))) as e1. pose proof (Forall_inv (proj2 (proj1 O1))) as e2. cbn beta in e1, e2. rewrite <- e1, <- e2. reflexivity. }
    subst L1. apply sweep_same with (c := 1); [lra|intros; apply HJ| |exact Hm]. intros A' _. rewrite put_put. ring.
Qed.

