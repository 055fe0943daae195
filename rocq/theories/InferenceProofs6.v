(** C26, C27, C28, C63: burn-in and inference as a whole. *)
From Coq Require Import String Permutation.
From Verif Require Import Base BaseR BaseLemmas BaseRLemmas SpecR SpecClean Fuzzy Clean Machine Dispatch Inference SpecMachine MachineProofs BuiltProofs InferenceProofs InferenceProofs2 InferenceProofs3 InferenceProofs4 InferenceProofs5.
Local Open Scope R_scope.

Definition wide (w : world) (l : nat) : Prop := (1 <= width (disp w l))%nat.
Lemma anneal_step_wide k ps l : forall s s', foldM (anneal_step k) ps s = Ok s' -> wide (wd s) l -> wide (wd s') l.
Proof.
  induction ps as [|[j steps] ps IH]; intros s s' H HW; cbn [foldM] in H; [injection H as <-; exact HW|].
  apply bind_ok in H. destruct H as (s1 & E & H). unfold anneal_step in E. apply bind_ok in E. destruct E as (x & _ & E). injection E as <-.
  apply (IH _ _ H). cbn [wd note set_wd]. unfold wide, disp, assign_disp. rewrite get_lay_set. destruct (_ && _); [cbn; lia|exact HW].
Qed.
Lemma pre_body_wide o cfg ms ls k sched s k' sched' s' l : NoDup ls -> pre_body o cfg ms ls (k, sched, s) = Ok (k', sched', s') -> wide (wd s) l -> wide (wd s') l.
Proof.
  intros ND H HW. unfold pre_body in H. cbv zeta in H. apply bind_ok in H. destruct H as (_ & _ & H). apply bind_ok in H. destruct H as (s1 & E1 & H).
  assert (W1 : wide (wd s1) l) by (unfold wide; rewrite (disp_layers _ _ l (sweep_layers _ _ _ _ E1)); exact HW).
  destruct (_ <? _)%Z; [|injection H as _ _ <-; exact W1]. destruct (anneal (wd s1)).
  - apply bind_ok in H. destruct H as (_ & _ & H). apply bind_ok in H. destruct H as (sc & _ & H). apply bind_ok in H. destruct H as (s2 & E2 & H). injection H as _ _ <-. eapply anneal_step_wide; eassumption.
  - apply bind_ok in H. destruct H as (s2 & E2 & H). injection H as _ _ <-. apply (update_lbdas_width _ _ _ l ND E2). exact W1.
Qed.

Lemma burn_in_course fuel o cfg ms ls s s' : fair o -> NoDup ls -> (0 <= burn_in_min cfg)%Z -> (forall l, In l ls -> wide (wd s) l) ->
  burn_in fuel o cfg ms ls s = Some (Ok s') ->
  window cfg <> 0%nat /\ static (wd s) (wd s') /\ mtr s' = mtr s /\ mti s' = mti s /\ (forall l, In l ls -> lti s' l = 0%nat) /\
  (forall l, In l ls -> wide (wd s') l) /\
  exists k p evs last, pre_rounds ms ls (fix_lbda_iters cfg) (anneal (wd s)) (Z.to_nat (burn_in_min cfg)) p /\ rounds ms ls (window cfg) k evs /\ checks ls (window cfg) (S k) last /\
    log s' = (log s ++ p ++ evs ++ last)%list /\ checks_ok (window cfg) (evs ++ last) /\
    (k = 0%nat \/ (Z.of_nat k + burn_in_min cfg <= burn_in_max cfg)%Z) /\
    ((iters s' = Some (Z.of_nat (S k) + burn_in_min cfg)%Z /\ Nat.modulo (S k) (window cfg) = 0%nat /\ ended_by_convergence cfg ls (wd s') last) \/
     (iters s' = Some (Z.of_nat (S k)) /\ (burn_in_max cfg < Z.of_nat (S k) + burn_in_min cfg)%Z)).
Proof.
  intros F ND Hm HW H. unfold burn_in in H.
  destruct (while fuel _ _ (0%Z, [], s)) as [[[[pre sched] s1]|e]|] eqn:E1; try discriminate.
  assert (P : pre_inv cfg ms ls s (pre, sched, s1) /\ (forall l, In l ls -> wide (wd s1) l) /\ (0 <= pre)%Z).
  { refine (proj1 (while_inv (fun '(k, _, _) => negb (k =? burn_in_min cfg)%Z) (fun x => Some (pre_body o cfg ms ls x))
      (fun x => pre_inv cfg ms ls s x /\ (let '(k, _, s) := x in (forall l, In l ls -> wide (wd s) l) /\ (0 <= k)%Z)) _ _ _ _ E1 _)).
    - intros [[k sc] sa] [[k' sc'] sb] (I1 & I2 & I3) _ E. injection E as E. destruct (pre_body_inv o cfg ms ls s F ND _ _ I1 E) as [J1 J2]. cbn [fst] in J2.
      split; [exact J1|]. split; [intros l Hl; eapply pre_body_wide; [exact ND|exact E|apply I2; exact Hl]|lia].
    - split; [|split; [exact HW|lia]]. split; [lia|]. split; [apply static_refl|]. split; [apply same_traces_refl|]. split; [lia|]. exists []. rewrite app_nil_r. split; [constructor|reflexivity]. }
  assert (Epre : pre = burn_in_min cfg).
  { destruct (while_inv (fun '(k, _, _) => negb (k =? burn_in_min cfg)%Z) (fun x => Some (pre_body o cfg ms ls x)) (fun _ => True) (fun _ _ _ _ _ => I) _ _ _ E1 I) as [_ C].
    apply negb_false_iff, Z.eqb_eq in C. exact C. }
  destruct P as ((_ & S1 & (T1 & T2 & T3 & T4 & T5) & _ & p & P1 & P2) & W1 & _). subst pre. cbv zeta in H.
  set (s2 := fold_left rewind_l ls (fold_left (allocate_l (window cfg)) ls s1)) in H.
  destruct (allocate_spec (window cfg) ls s1) as ((A1 & A2 & A3 & A4 & A5) & A6 & A7). cbv zeta in *.
  destruct (rewind_spec ls (fold_left (allocate_l (window cfg)) ls s1)) as ((R1 & R2 & R3 & R4 & R5) & R6 & R7). cbv zeta in *. fold s2 in R1, R2, R3, R4, R5, R6, R7.
  destruct (while fuel _ (main_body _ _ _ _ _) _) as [[[[k stop] s3]|e]|] eqn:E2; try discriminate. injection H as <-.
  destruct fuel as [|fuel]; [discriminate|].
  assert (Hw : window cfg <> 0%nat).
  { cbn [while negb] in E2. destruct (main_body o cfg ms ls (burn_in_min cfg) (0%nat, false, s2)) as [[[[k1 b1] s4]|e]|] eqn:E3; try discriminate. apply main_body_inv in E3. apply E3. }
  destruct (while_inv (fun '(_, stop, _) => negb stop) (main_body o cfg ms ls (burn_in_min cfg)) (main_inv cfg ms ls (burn_in_min cfg) s2)
    (fun x x' Hx Hc Hb => match x as y return (main_inv cfg ms ls (burn_in_min cfg) s2 y -> (let '(_, st, _) := y in negb st) = true -> main_body o cfg ms ls (burn_in_min cfg) y = Some (Ok x') -> main_inv cfg ms ls (burn_in_min cfg) s2 x')
      with (ka, ba, sa) => fun Hx Hc Hb => main_body_step o cfg ms ls (burn_in_min cfg) s2 F ND ka ba sa x' Hx (proj1 (negb_true_iff ba) Hc) Hb end Hx Hc Hb) _ _ _ E2) as [I2 C].
  { split; [apply static_refl|]. split; [reflexivity|]. split; [reflexivity|]. split; [intros l Hl; rewrite R1, A1; apply W1; exact Hl|].
    exists []. split; [constructor|]. split; [rewrite app_nil_r; reflexivity|]. split; [intros a l win b Hab; destruct a; discriminate|]. split; [|left; reflexivity].
    intros l Hl. rewrite R6, A7, (proj2 (existsb_in l ls) Hl). eexists. split; [reflexivity|]. cbn [lcells lwidth].
    assert (Ep : pos (window cfg) 0 = 0%nat) by (unfold pos; rewrite (proj2 (Nat.ltb_lt _ _)) by lia; reflexivity). rewrite Ep.
    split; [rewrite R7, (proj2 (existsb_in l ls) Hl); reflexivity|]. split; [apply repeat_length|]. split; [reflexivity|]. split; [reflexivity|].
    split; [intros _; rewrite Nat.sub_0_r; reflexivity|]. rewrite R1, A1. specialize (W1 l Hl). unfold wide in W1. destruct (disp (wd s1) l); cbn [width] in *; lia. }
  apply negb_false_iff in C. subst stop. destruct I2 as (M1 & M2 & M3 & M4 & k' & evs & last & -> & M5 & M6 & M7 & M8 & M9 & M10 & M11).
  split; [exact Hw|]. split; [rewrite R1, A1 in M1; eapply static_trans; eassumption|]. split; [congruence|]. split; [congruence|]. split; [exact M10|]. split; [exact M4|].
  exists k', p, evs, last. split; [exact P1|]. split; [exact M5|]. split; [exact M6|]. split; [rewrite M7, R5, A5, P2, <- !app_assoc; reflexivity|]. auto.
Qed.

(** ** Preparation *)
Lemma not_fixed_spec w l : forall ms, not_fixed w l = Ok ms -> (NoDup l -> NoDup ms) /\ (forall i, In i ms -> In i l) /\ forall i, In i l -> (In i ms <-> ~ declared_fixed (fixed (get_mat w i))) .
Proof.
  induction l as [|a l IH]; intros ms H; cbn [not_fixed] in H; [injection H as <-; repeat split; auto; contradiction|].
  apply bind_ok in H. destruct H as (b & Eb & H). apply bind_ok in H. destruct H as (r & Er & H). destruct (IH r Er) as (H1 & H2 & H3).
  assert (Hb : b = true <-> declared_fixed (fixed (get_mat w a))).
  { unfold declared_fixed. destruct (fixed (get_mat w a)) as [c|m]; cbn [truth] in Eb.
    - injection Eb as <-. split; [intros ->; left; reflexivity|]. intros [E|(? & ? & E & _)]; [injection E as ->; reflexivity|discriminate].
    - destruct (concat m) as [|x [|y t]] eqn:Ec; try discriminate; injection Eb as <-.
      + split; [discriminate|]. intros [E|(m' & x & E & E2 & _)]; [discriminate|]. injection E as <-. congruence.
      + rewrite negb_true_iff, Z.eqb_neq. split; [intros Hx; right; exists m, x; auto|]. intros [E|(m' & x' & E & E2 & E3)]; [discriminate|]. injection E as <-. congruence. }
  split; [|split].
  - intros ND. inversion ND as [|? ? Hn ND']; subst. destruct b; injection H as <-; [auto|]. constructor; [|auto]. intros C. apply Hn, H2, C.
  - intros i Hi. destruct b; injection H as <-; [right; auto|]. destruct Hi as [<-|Hi]; [left; reflexivity|right; auto].
  - intros i Hi. destruct (in_dec Nat.eq_dec i l) as [Hl|Hl].
    + destruct b; injection H as <-; [apply H3; exact Hl|]. rewrite <- (H3 i Hl). split; [intros [<-|C]; [|exact C]|right; assumption].
      apply H3; [exact Hl|]. intros C. apply Hb in C. discriminate.
    + destruct Hi as [->|Hi]; [|contradiction]. destruct b; injection H as <-.
      * split; [intros C; exfalso; apply Hl, H2, C|]. intros C. exfalso. apply C, Hb. reflexivity.
      * split; [|left; reflexivity]. intros _ C. apply Hb in C. discriminate.
Qed.
(** The matrices and layers apart from closures and the IBP parameter. *)
Definition unassigned (w w' : world) : Prop :=
  arrays w' = arrays w /\ free w' = free w /\ anneal w' = anneal w /\ clock w' = clock w /\ List.length (mats w') = List.length (mats w) /\ List.length (layers w') = List.length (layers w) /\
  (forall i, with_sfct (get_mat w' i) None = with_sfct (get_mat w i) None) /\
  (forall l, with_alpha (with_lbda (get_lay w' l) (with_lsfct (lbda (get_lay w' l)) None)) None = with_alpha (with_lbda (get_lay w l) (with_lsfct (lbda (get_lay w l)) None)) None).
Lemma unassigned_refl w : unassigned w w.
Proof. repeat split. Qed.
Lemma unassigned_trans a b c : unassigned a b -> unassigned b c -> unassigned a c.
Proof.
  intros (H1 & H2 & H3 & H4 & H5 & H6 & H7 & H8) (K1 & K2 & K3 & K4 & K5 & K6 & K7 & K8).
  split; [congruence|]. split; [congruence|]. split; [congruence|]. split; [congruence|]. split; [congruence|]. split; [congruence|]. split.
  - intros i. etransitivity; [apply K7|apply H7].
  - intros l. etransitivity; [apply K8|apply H8].
Qed.
Lemma unassigned_mat w i f : unassigned w (set_mat w i (with_sfct (get_mat w i) f)).
Proof.
  unfold unassigned. repeat (split; [reflexivity|]). split; [unfold set_mat, set_mats; cbn [mats]; apply upd_length|]. split; [reflexivity|]. split; [|reflexivity].
  intros j. rewrite get_mat_set. destruct (Nat.eqb_spec j i) as [->|]; cbn [andb]; [destruct (Nat.ltb _ _); reflexivity|reflexivity].
Qed.
Lemma unassigned_lay w l x : with_alpha (with_lbda x (with_lsfct (lbda x) None)) None = with_alpha (with_lbda (get_lay w l) (with_lsfct (lbda (get_lay w l)) None)) None ->
  unassigned w (set_lay w l x).
Proof.
  intros H. unfold unassigned. repeat (split; [reflexivity|]). split; [unfold set_lay, set_layers; cbn [layers]; apply upd_length|]. split; [reflexivity|].
  intros j. rewrite get_lay_set. destruct (Nat.eqb_spec j l) as [->|]; cbn [andb]; [destruct (Nat.ltb _ _); [exact H|reflexivity]|reflexivity].
Qed.
Lemma get_sampling_fct_unassigned w i w' f : get_sampling_fct w i = Ok (w', f) -> unassigned w w'.
Proof.
  unfold get_sampling_fct. cbv zeta. destruct (sfct (get_mat w i)); [intros H; injection H as <- _; apply unassigned_refl|]. intros H.
  apply bind_ok in H. destruct H as ([[md p1] p2] & _ & H).
  destruct (match md with Some (n, 2%nat) => String.eqb n "MAX-AND" | _ => false end).
  { destruct p1; [discriminate|]. injection H as <- _. apply unassigned_refl. }
  destruct (match md with Some (n, 2%nat) => String.eqb n "qL-AND" | _ => false end).
  { apply bind_ok in H. destruct H as (lay & _ & H). apply bind_ok in H. destruct H as (qi & _ & H). 
    destruct (axis (get_mat w i)) as [[|[|n]]|]; try discriminate; injection H as <- _; apply unassigned_mat. }
  destruct (match md with Some (n, 2%nat) => String.eqb n "OR-AND-IBP" | _ => false end).
  { apply bind_ok in H. destruct H as (l & _ & H).
    assert (G : unassigned w (match alpha (get_lay w l) with Some _ => w | None => set_lay w l (with_alpha (get_lay w l) (Some 3)) end)).
    { destruct (alpha (get_lay w l)); [apply unassigned_refl|]. apply unassigned_lay. reflexivity. }
    destruct (axis (get_mat w i)) as [[|[|n]]|]; try discriminate; injection H as <- _; exact G. }
  assert (w' = w); [|subst; apply unassigned_refl].
  destruct md as [[n d]|]; [destruct d as [|[|[|d]]]|]; destruct p1, p2;
    repeat match type of H with
           | bind _ _ = Ok _ => apply bind_ok in H; destruct H as (? & _ & H)
           end; try discriminate; injection H as <- _; reflexivity.
Qed.
Lemma foldM_unassigned {A} (f : world -> A -> res world) l : (forall w a w', f w a = Ok w' -> unassigned w w') -> forall w w', foldM f l w = Ok w' -> unassigned w w'.
Proof.
  intros H. induction l as [|a l IH]; intros w w' E; cbn [foldM] in E; [injection E as <-; apply unassigned_refl|].
  apply bind_ok in E. destruct E as (w1 & E1 & E2). eapply unassigned_trans; [eapply H; exact E1|apply IH; exact E2].
Qed.
Lemma assign_mat_unassigned w i w' : assign_mat w i = Ok w' -> unassigned w w'.
Proof.
  unfold assign_mat. intros H. apply bind_ok in H. destruct H as ([w1 f] & E & H). injection H as <-. eapply unassigned_trans; [eapply get_sampling_fct_unassigned; exact E|apply unassigned_mat].
Qed.
Lemma assign_lbda_unassigned w l w' : assign_lbda w l = Ok w' -> unassigned w w'.
Proof. unfold assign_lbda. intros H. apply bind_ok in H. destruct H as (f & _ & H). injection H as <-. apply unassigned_lay. reflexivity. Qed.
Lemma unassigned_disp w w' l : unassigned w w' -> disp w' l = disp w l.
Proof.
  intros (_ & _ & _ & _ & _ & _ & _ & H). specialize (H l). unfold disp. apply (f_equal lbda) in H. cbn [lbda with_alpha with_lbda] in H. apply (f_equal lv) in H. exact H.
Qed.
Lemma rewind_m_spec ms : forall s, let s' := fold_left (fun s i => set_mtr s i (mtr s i) 0) ms s in
  wd s' = wd s /\ ltr s' = ltr s /\ lti s' = lti s /\ iters s' = iters s /\ log s' = log s /\ (forall i, mtr s' i = mtr s i) /\ forall i, mti s' i = if existsb (Nat.eqb i) ms then 0%nat else mti s i.
Proof.
  induction ms as [|a ms IH]; intros s; cbv zeta; [cbn; repeat split|]. cbn [fold_left]. destruct (IH (set_mtr s a (mtr s a) 0)) as (H1 & H2 & H3 & H4 & H5 & H6 & H7). cbv zeta in *.
  repeat (split; [assumption|]). split.
  - intros i. rewrite H6. cbn. unfold fset. destruct (Nat.eqb_spec i a) as [->|]; reflexivity.
  - intros i. rewrite H7. cbn. unfold fset. destruct (existsb (Nat.eqb i) ms); cbn; [rewrite orb_true_r; reflexivity|]. rewrite orb_false_r. reflexivity.
Qed.
Lemma prepare_spec s ms ls s1 : prepare s = Ok (ms, ls, s1) ->
  not_fixed (wd s) (members (wd s)) = Ok ms /\ ls = free_lbdas (wd s) /\ unassigned (wd s) (wd s1) /\ log s1 = log s /\ iters s1 = iters s /\
  (forall i, mtr s1 i = mtr s i) /\ (forall i, In i ms -> mti s1 i = 0%nat) /\ (forall l, ltr s1 l = ltr s l) /\ (forall l, In l ls -> lti s1 l = 0%nat).
Proof.
  unfold prepare. intros H. apply bind_ok in H. destruct H as (ms0 & E0 & H). cbv zeta in H. apply bind_ok in H. destruct H as (w1 & E1 & H). apply bind_ok in H. destruct H as (w2 & E2 & H). injection H as <- <- <-.
  destruct (rewind_m_spec ms0 (set_wd s w2)) as (M1 & M2 & M3 & M4 & M5 & M6 & M7). cbv zeta in *. set (sm := fold_left _ ms0 (set_wd s w2)) in *.
  destruct (rewind_spec (free_lbdas (wd s)) sm) as ((R1 & R2 & R3 & R4 & R5) & R6 & R7). cbv zeta in *. cbn [wd set_wd ltr lti iters log mtr mti] in *.
  split; [exact E0|]. split; [reflexivity|]. split.
  { rewrite R1, M1. eapply unassigned_trans; [eapply foldM_unassigned; [|exact E1]; apply assign_mat_unassigned|eapply foldM_unassigned; [|exact E2]; apply assign_lbda_unassigned]. }
  split; [congruence|]. split; [congruence|]. split; [intros i; rewrite R2; apply M6|]. split; [intros i Hi; rewrite R3, M7, (proj2 (existsb_in i ms0) Hi); reflexivity|].
  split; [intros l; rewrite R6, M2; reflexivity|]. intros l Hl. rewrite R7, (proj2 (existsb_in l _) Hl). reflexivity.
Qed.
Lemma free_lbdas_spec w : NoDup (free_lbdas w) /\ forall l, In l (free_lbdas w) <-> (l < List.length (layers w))%nat /\ lfixed (lbda (get_lay w l)) = false.
Proof.
  unfold free_lbdas, all_layers. split; [apply NoDup_filter, seq_NoDup|]. intros l. rewrite filter_In, in_seq, negb_true_iff. lia.
Qed.
Lemma members_spec w i : In i (members w) <-> is_member w i.
Proof.
  unfold members, is_member. rewrite !in_app_iff, !in_flat_map.
  assert (G : forall (P : layer -> Prop), (exists x, In x (layers w) /\ P x) <-> exists l, (l < List.length (layers w))%nat /\ P (get_lay w l)).
  { intros P. split.
    - intros (x & Hx & HP). apply (In_nth _ _ no_layer) in Hx. destruct Hx as (l & Hl & <-). exists l. auto.
    - intros (l & Hl & HP). exists (get_lay w l). split; [apply nth_In; exact Hl|exact HP]. }
  rewrite G. rewrite (G (fun x => In i _)).
  assert (E : forall x, In i (if String.eqb (model x) "qL-AND" then match q x with Some i => [i] | None => [] end else []) <-> model x = "qL-AND"%string /\ q x = Some i).
  { intros x. destruct (String.eqb_spec (model x) "qL-AND") as [->|]; [|split; [contradiction|intros [? _]; contradiction]].
    destruct (q x) as [j|]; [|split; [contradiction|intros [_ ?]; discriminate]]. split; [intros [<-|[]]; auto|]. intros [_ Ej]. injection Ej as <-. left. reflexivity. }
  setoid_rewrite E. tauto.
Qed.
