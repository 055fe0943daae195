(** Lemmas for C107. *)
From Coq Require Import String Permutation Lra.
From Verif Require HelpersProofs.
From Verif Require Import Base BaseR BaseLemmas BaseRLemmas Spec SpecR Outputs OutputsProofs Fuzzy Scores ScoresProofs Sampling SamplingProofs Invariance InvarianceProofs HierProofs Lambda LambdaProofs Clean Machine Dispatch Inference SpecMachine MachineProofs MachineProofs2 BuiltProofs InferenceProofs InferenceProofs2 InferenceProofs3 InferenceProofs6 PreserveProofs PlainProofs DispatchProofs UpdateProofs Extended SpecExtended ExtendedProofs SpecImpute.
Local Open Scope R_scope.

(** * A zero entry stays *)
Lemma flip_x_zero lo r : flip_x lo 0 r = 0%Z.
Proof. unfold flip_x. cbn. destruct (xexp_gt _ _); reflexivity. Qed.
Lemma loop_x_zero lo Z_ fixed rand n l : at2 Z_ n l = 0%Z -> at2 (sample_loop_x lo Z_ fixed rand) n l = 0%Z.
Proof.
  intros H0. unfold sample_loop_x. rewrite fold_prod. generalize (list_prod (seq 0 (nrows Z_)) (seq 0 (ncols Z_))). intros cs. revert Z_ H0.
  induction cs as [|[n' l'] cs IH]; intros Z_ H0; [exact H0|]. simpl. apply IH. unfold sample_cell_x.
  destruct (_ =? 1)%Z; [exact H0|].
  destruct (Nat.eq_dec n' n) as [->|Hn]; [destruct (Nat.eq_dec l' l) as [->|Hl]|].
  - rewrite H0, flip_x_zero. rewrite <- H0 at 1. rewrite set2_same. exact H0.
  - rewrite at2_set2_other by congruence. exact H0.
  - rewrite at2_set2_other by congruence. exact H0.
Qed.
Lemma C107_zero_lemma : forall c fixed p rand Z', run_call_x c fixed p rand = Ok Z' ->
  forall n l, at2 (target c) n l = 0%Z -> at2 Z' n l = 0%Z.
Proof.
  intros c fixed p rand Z' E n l H0. unfold run_call_x in E. cbv zeta in E.
  destruct c as [m ax A B X la|m ax A B C X la|m pm ax A B X la a1 a2 lp|pm Z_ a1 a2 lp|pm pm' Z_ a1 a2 lp b1 b2 lq|m pm pm' ax A B X la a1 a2 lp b1 b2 lq];
    repeat match type of E with bind ?x _ = _ => destruct x; [cbn [bind] in E|discriminate E] end;
    injection E as <-; apply loop_x_zero; cbn [target] in H0; try exact H0.
  - destruct ax; exact H0.
  - destruct ax as [|[|ax]]; exact H0.
  - destruct ax; exact H0.
  - destruct ax; exact H0.
Qed.

(** * Logits that do not depend on the matrix *)
Lemma loop_pointwise (lo : nat -> nat -> R) Z_ fixed rand N L : has_shape2 Z_ N L ->
  has_shape2 (sample_loop (fun _ n l => lo n l) Z_ fixed rand) N L /\
  forall n l, (n < N)%nat -> (l < L)%nat -> at2 (sample_loop (fun _ n l => lo n l) Z_ fixed rand) n l =
    if (at2 fixed n l =? 1)%Z then at2 Z_ n l else flip_metropolised_gibbs_numba (lo n l) (at2 Z_ n l) (rand n l).
Proof.
  intros HZ. rewrite (sample_loop_cells _ _ _ _ N L HZ).
  set (step := fun Zc '(n, l) => sample_cell (fun _ n l => lo n l) fixed rand Zc n l).
  assert (ND : NoDup (cells N L)).
  { apply HelpersProofs.cells_nodup. }
  assert (SH : forall cs Zc, has_shape2 Zc N L -> has_shape2 (fold_left step cs Zc) N L).
  { induction cs as [|[n l] cs IH]; intros Zc H; [exact H|]. simpl. apply IH. unfold sample_cell. destruct (_ =? 1)%Z; [exact H|]. apply set2_shape, H. }
  assert (OTH : forall cs Zc n l, ~ In (n, l) cs -> at2 (fold_left step cs Zc) n l = at2 Zc n l).
  { induction cs as [|[n' l'] cs IH]; intros Zc n l H; [reflexivity|]. simpl. rewrite IH by (intros C; apply H; right; exact C).
    unfold sample_cell. destruct (_ =? 1)%Z; [reflexivity|]. apply at2_set2_other. intros C. apply H. left. congruence. }
  split; [apply SH, HZ|]. intros n l Hn Hl.
  assert (G : forall cs Zc, has_shape2 Zc N L -> NoDup cs -> In (n, l) cs -> at2 (fold_left step cs Zc) n l =
    if (at2 fixed n l =? 1)%Z then at2 Zc n l else flip_metropolised_gibbs_numba (lo n l) (at2 Zc n l) (rand n l)).
  { induction cs as [|[n' l'] cs IH]; intros Zc HS Hd Hin; [contradiction|]. inversion Hd as [|? ? Hni Hd']; subst.
    change (fold_left step ((n', l') :: cs) Zc) with (fold_left step cs (step Zc (n', l'))).
    destruct Hin as [E|Hin].
    - injection E as -> ->. rewrite OTH by exact Hni. unfold step, sample_cell. destruct (at2 fixed n l =? 1)%Z; [reflexivity|].
      rewrite (at2_set2_same Zc N L) by assumption. reflexivity.
    - assert (E : at2 (step Zc (n', l')) n l = at2 Zc n l).
      { unfold step, sample_cell. destruct (at2 fixed n' l' =? 1)%Z; [reflexivity|]. apply at2_set2_other. intros C. rewrite C in Hni. contradiction. }
      rewrite IH; [|apply (SH [(n', l')] Zc HS)|exact Hd'|exact Hin]. rewrite E. reflexivity. }
  apply G; [exact HZ|exact ND|]. apply in_cells. auto.
Qed.

Lemma flip_zero lo r : flip_metropolised_gibbs_numba lo 0 r = 0%Z.
Proof. unfold flip_metropolised_gibbs_numba, flip_metropolised_branch. cbn. destruct (Rltb _ _); reflexivity. Qed.

Lemma loop_redrawn lo p ev X fixed rand N D : has_shape2 X N D -> tern2 X -> draws_ok rand N D ->
  (forall n d, (n < N)%nat -> (d < D)%nat -> lo n d = ln (entry_weight p (ev n d) 1 / entry_weight p (ev n d) (-1))) ->
  redrawn p ev fixed rand N D X (sample_loop (fun _ n d => lo n d) X fixed rand).
Proof.
  intros HX TX Hr E. destruct (loop_pointwise lo X fixed rand N D HX) as [G1 G2]. split; [exact G1|].
  intros n d Hn Hd. rewrite (G2 n d Hn Hd). destruct (_ =? 1)%Z; [reflexivity|].
  assert (T : at2 X n d = 0%Z \/ pm1 (at2 X n d)).
  { assert (T : tern (at2 X n d)).
    { destruct HX as [H1 H2]. unfold tern2 in TX. pose proof (proj1 (Forall_forall _ _) TX) as TX'. pose proof (proj1 (Forall_forall _ _) H2) as H2'.
      assert (HI : In (row X n) X) by (unfold row; apply nth_In; unfold nrows, mat, vec in *; lia).
      specialize (TX' _ HI). specialize (H2' _ HI). unfold tern1 in TX'. pose proof (proj1 (Forall_forall _ _) TX') as T1. apply T1.
      unfold at2, at1. apply nth_In. unfold vec in *. lia. }
    unfold tern in T. unfold pm1. destruct T as [T|[T|T]]; auto. }
  destruct T as [T|T].
  - rewrite T. cbn [Z.eqb]. apply flip_zero.
  - destruct (Z.eqb_spec (at2 X n d) 0) as [E0|_]; [destruct T as [T|T]; rewrite T in E0; discriminate E0|].
    rewrite flip_is_mg by (try assumption; apply (Hr n d Hn Hd)). rewrite (E n d Hn Hd). reflexivity.
Qed.

Lemma weight_odds p layers : 0 < p < 1 ->
  ln (entry_weight p layers 1 / entry_weight p layers (-1)) = Rsum (fun '(y, o) => y * IZR o) layers + logit p.
Proof.
  intros Hp. unfold entry_weight. cbn [Z.eqb Pos.eqb].
  assert (P : forall v, 0 < Rprod (fun '(y, o) => sigma (y * IZR v * IZR o)) layers).
  { intros v. induction layers as [|[y o] t IH]; cbn; [lra|]. apply Rmult_lt_0_compat; [apply sigma_pos|exact IH]. }
  assert (E : ln (Rprod (fun '(y, o) => sigma (y * IZR 1 * IZR o)) layers) - ln (Rprod (fun '(y, o) => sigma (y * IZR (-1) * IZR o)) layers) = Rsum (fun '(y, o) => y * IZR o) layers).
  { clear P. assert (P : forall v t, 0 < Rprod (fun '(y, o) => sigma (y * IZR v * IZR o)) t).
    { intros v t. induction t as [|[y o] t IH]; cbn; [lra|]. apply Rmult_lt_0_compat; [apply sigma_pos|exact IH]. }
    induction layers as [|[y o] t IH]; [cbn; lra|].
    change (Rprod (fun '(y, o) => sigma (y * IZR 1 * IZR o)) ((y, o) :: t)) with (sigma (y * IZR 1 * IZR o) * Rprod (fun '(y, o) => sigma (y * IZR 1 * IZR o)) t).
    change (Rprod (fun '(y, o) => sigma (y * IZR (-1) * IZR o)) ((y, o) :: t)) with (sigma (y * IZR (-1) * IZR o) * Rprod (fun '(y, o) => sigma (y * IZR (-1) * IZR o)) t).
    change (Rsum (fun '(y, o) => y * IZR o) ((y, o) :: t)) with (y * IZR o + Rsum (fun '(y, o) => y * IZR o) t).
    rewrite !ln_mult by (apply sigma_pos || apply P).
    assert (S : ln (sigma (y * IZR 1 * IZR o)) - ln (sigma (y * IZR (-1) * IZR o)) = y * IZR o).
    { replace (y * IZR 1 * IZR o) with (y * IZR o) by ring. replace (y * IZR (-1) * IZR o) with (- (y * IZR o)) by ring.
      rewrite <- ln_div by apply sigma_pos. rewrite sigma_opp, sigma_ratio', ln_exp. reflexivity. }
    lra. }
  rewrite ln_div by (apply Rmult_lt_0_compat; [lra|apply P]). rewrite !ln_mult by (lra || apply P).
  unfold logit. rewrite ln_div by lra. lra.
Qed.

Lemma parent_value o i out g a1 a2 P Q K n l : is_output o i out ->
  (forall u z : vec, bin1 u -> bin1 z -> List.length u = List.length z -> lom_output o i [u; z] (List.length u) (g u z)) ->
  okmat P K a1 -> okmat Q K a2 -> (n < P)%nat -> (l < Q)%nat -> g (row a1 n) (row a2 l) = out [row a1 n; row a2 l] K.
Proof.
  intros Ho Hg [H1 b1] [H2 b2] Hn Hl.
  pose proof (Hg (row a1 n) (row a2 l) (bin2_row _ _ b1) (bin2_row _ _ b2)) as H.
  rewrite (shape2_row _ _ _ n H1 Hn), (shape2_row _ _ _ l H2 Hl) in H. specialize (H eq_refl).
  exact (lom_output_unique _ _ _ _ _ _ H (Ho _ K)).
Qed.

(** * The machine *)
Definition data_closure (w : world) (i : nat) (p : R) : option fct :=
  match parents (get_mat w i) with
  | [] => None
  | [a] => Some (F01 (model (get_lay w a)) p)
  | a :: b :: _ => Some (F02 (model (get_lay w a)) (model (get_lay w b)) p)
  end.
Lemma knownp_standard m : In m standard_models -> knownp m = Ok tt.
Proof. intros H. cbn in H. repeat (destruct H as [<-|H]; [reflexivity|]). contradiction. Qed.

Lemma data_set_up w i w' : set_up w i w' -> layer_of (get_mat w' i) = None -> (i < List.length (mats w'))%nat -> parents (get_mat w' i) <> [] ->
  (forall p, In p (firstn 2 (parents (get_mat w' i))) -> List.length (factors (get_lay w' p)) = 2%nat /\ In (model (get_lay w' p)) standard_models) ->
  stored w' /\ sfct (get_mat w' i) = data_closure w' i (bprior (get_mat w i)).
Proof.
  intros (E0 & w1 & E1 & ED & ES) HL Hi HN HP.
  assert (K : kin w w') by (eapply kin_trans; [apply kin_unassigned; eapply assign_mat_unassigned; exact E1|apply kin_edited; exact ED]).
  destruct (kin_mat _ _ K i) as (_ & kl & kp). rewrite kl in HL. rewrite kp in HN, HP.
  assert (KP : forall p, In p (firstn 2 (parents (get_mat w i))) -> List.length (factors (get_lay w p)) = 2%nat /\ knownp (model (get_lay w p)) = Ok tt).
  { intros p Hp. destruct (HP p Hp) as (G1 & G2). destruct (kin_lay _ _ K p) as (k1 & k2). rewrite k1 in G1. rewrite k2 in G2. split; [exact G1|apply knownp_standard, G2]. }
  assert (G : exists f, data_closure w i (bprior (get_mat w i)) = Some f /\ get_sampling_fct w i = Ok (w, f)).
  { unfold get_sampling_fct. cbv zeta. rewrite E0. unfold get_relatives_models. rewrite HL. unfold data_closure.
    destruct (parents (get_mat w i)) as [|a [|b t]]; [contradiction| |].
    - destruct (KP a (or_introl eq_refl)) as (k1 & k2). rewrite k1. cbn [Nat.eqb bind]. rewrite k2. cbn [bind]. eexists. split; reflexivity.
    - destruct (KP a (or_introl eq_refl)) as (k1 & k2). destruct (KP b (or_intror (or_introl eq_refl))) as (k3 & k4).
      rewrite k1, k3. cbn [Nat.eqb bind]. rewrite k2, k4. cbn [bind]. eexists. split; reflexivity. }
  destruct G as (f & Gf & G). unfold assign_mat in E1. rewrite G in E1. cbn [bind] in E1. injection E1 as <-. split; [apply ED|].
  rewrite ES. rewrite get_mat_set, Nat.eqb_refl. cbn [andb]. replace (Nat.ltb i (List.length (mats w))) with true.
  - cbn [sfct with_sfct]. rewrite <- Gf. unfold data_closure. rewrite kp. destruct (parents (get_mat w i)) as [|a [|b t]]; try reflexivity.
    + destruct (kin_lay _ _ K a) as (_ & ->). reflexivity.
    + destruct (kin_lay _ _ K a) as (_ & ->). destruct (kin_lay _ _ K b) as (_ & ->). reflexivity.
  - symmetry. apply Nat.ltb_lt. destruct ED as (Lm & _). rewrite Lm in Hi. unfold set_mat, set_mats in Hi. cbn [mats] in Hi. rewrite upd_length in Hi. exact Hi.
Qed.

Lemma C107_one_lemma : forall orc op ip, In (op, ip) implemented -> forall out, is_output op ip out ->
  forall w0 w i N D X F k a b K A B y,
  set_up w0 i w -> layer_of (get_mat w i) = None -> (i < List.length (mats w))%nat -> value w i = A2 X -> fixed_entries (get_mat w i) = A2 F ->
  0 < bprior (get_mat w0 i) < 1 -> draws_ok (o_cell orc (clock w)) N D ->
  parents (get_mat w i) = [k] -> model (get_lay w k) = model_name op ip -> layer2 w k a b N D K A B X y ->
  exists X', updates_to orc w i X' /\
    redrawn (bprior (get_mat w0 i)) (fun n d => [(y, out [row A n; row B d] K)]) F (o_cell orc (clock w)) N D X X'.
Proof.
  intros orc op ip Hin out Ho w0 w i N D X F k a b K A B y HU HL Hi VX HF Hp Hr HP HM H2.
  pose proof (parent_argsE w i 0 k a b N D K A B X y ltac:(rewrite HP; reflexivity) H2) as EP.
  destruct H2 as [(_ & EF & _) _ _ (kA & kB & HX & TX)].
  destruct (data_set_up w0 i w HU HL Hi) as (ST & ES).
  { rewrite HP. discriminate. }
  { rewrite HP. intros q [<-|[]]. rewrite EF, HM. split; [reflexivity|apply implemented_standard, Hin]. }
  unfold data_closure in ES. rewrite HP, HM in ES. destruct (parent_score op ip Hin) as (g & Eg & Hg).
  eexists. split.
  - eapply run_inplace; [exact ST|exact Hi|exact ES|]. unfold compute. cbv zeta. rewrite (readE _ _ _ VX). cbn [bind]. rewrite HF. cbn [as2 bind]. rewrite EP. cbn [bind].
    unfold LOM_sampler_0c1p_2d, sampling_fct_nochild_oneparent_2d. rewrite Eg. cbn [bind]. reflexivity.
  - apply (loop_redrawn (fun n l => y * IZR (g (row A n) (row B l)) + logit (bprior (get_mat w0 i)))); try assumption.
    intros n d Hn Hd. rewrite weight_odds by exact Hp. cbn. rewrite (parent_value op ip out g A B N D K n d) by assumption. lra.
Qed.

Lemma C107_two_lemma : forall orc op ip, In (op, ip) implemented -> forall out, is_output op ip out ->
  forall w0 w i N D X F k a b K A B y k' a' b' K' A' B' y' rest,
  set_up w0 i w -> layer_of (get_mat w i) = None -> (i < List.length (mats w))%nat -> value w i = A2 X -> fixed_entries (get_mat w i) = A2 F ->
  0 < bprior (get_mat w0 i) < 1 -> draws_ok (o_cell orc (clock w)) N D ->
  parents (get_mat w i) = k :: k' :: rest -> model (get_lay w k) = model_name op ip -> model (get_lay w k') = model_name op ip ->
  layer2 w k a b N D K A B X y -> layer2 w k' a' b' N D K' A' B' X y' ->
  exists X', updates_to orc w i X' /\
    redrawn (bprior (get_mat w0 i)) (fun n d => [(y, out [row A n; row B d] K); (y', out [row A' n; row B' d] K')]) F
      (o_cell orc (clock w)) N D X X'.
Proof.
  intros orc op ip Hin out Ho w0 w i N D X F k a b K A B y k' a' b' K' A' B' y' rest HU HL Hi VX HF Hp Hr HP HM HM' H2 H2'.
  pose proof (parent_argsE w i 0 k a b N D K A B X y ltac:(rewrite HP; reflexivity) H2) as EP.
  pose proof (parent_argsE w i 1 k' a' b' N D K' A' B' X y' ltac:(rewrite HP; reflexivity) H2') as EP'.
  destruct H2 as [(_ & EF & _) _ _ (kA & kB & HX & TX)]. destruct H2' as [(_ & EF' & _) _ _ (kA' & kB' & _ & _)].
  destruct (data_set_up w0 i w HU HL Hi) as (ST & ES).
  { rewrite HP. discriminate. }
  { rewrite HP. intros q [<-|[<-|[]]]; [rewrite EF, HM|rewrite EF', HM']; (split; [reflexivity|apply implemented_standard, Hin]). }
  unfold data_closure in ES. rewrite HP, HM, HM' in ES. destruct (parent_score op ip Hin) as (g & Eg & Hg).
  eexists. split.
  - eapply run_inplace; [exact ST|exact Hi|exact ES|]. unfold compute. cbv zeta. rewrite (readE _ _ _ VX). cbn [bind]. rewrite HF. cbn [as2 bind]. rewrite EP. cbn [bind]. rewrite EP'. cbn [bind].
    unfold LOM_sampler_0c2p_2d, sampling_fct_nochild_twoparents_2d. rewrite Eg. cbn [bind]. reflexivity.
  - apply (loop_redrawn (fun n l => y * IZR (g (row A n) (row B l)) + y' * IZR (g (row A' n) (row B' l)) + logit (bprior (get_mat w0 i)))); try assumption.
    intros n d Hn Hd. rewrite weight_odds by exact Hp. cbn.
    rewrite (parent_value op ip out g A B N D K n d), (parent_value op ip out g A' B' N D K' n d) by assumption. lra.
Qed.
