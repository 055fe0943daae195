(** C25 - C28, C63: whole runs of inference. *)
From Coq Require Import String Permutation.
From Verif Require Import Base BaseR BaseLemmas SpecR SpecClean Clean Machine Dispatch Inference SpecMachine MachineProofs BuiltProofs InferenceProofs InferenceProofs2 InferenceProofs3 InferenceProofs4 InferenceProofs5 InferenceProofs6 TraceProofs.
Local Open Scope R_scope.

(** A whole run in one statement; [updated] matrices and dispersions. *)
Definition updated_mats (w : world) (ms : list nat) : Prop := NoDup ms /\ forall i, In i ms <-> is_member w i /\ ~ declared_fixed (fixed (get_mat w i)).
Definition updated_disps (w : world) (ls : list nat) : Prop := NoDup ls /\ forall l, In l ls <-> (l < List.length (layers w))%nat /\ lfixed (lbda (get_lay w l)) = false.
Lemma unassigned_value w w' i : unassigned w w' -> value w' i = value w i.
Proof. intros (H1 & _ & _ & _ & _ & _ & H7 & _). unfold value, get_arr. rewrite H1. specialize (H7 i). apply (f_equal val) in H7. cbn in H7. rewrite H7. reflexivity. Qed.
Lemma prepare_updated s ms ls s1 : wf (wd s) -> prepare s = Ok (ms, ls, s1) -> updated_mats (wd s) ms /\ updated_disps (wd s) ls /\ (forall l, In l ls -> wide (wd s1) l).
Proof.
  intros HB H. apply prepare_spec in H. destruct H as (H1 & -> & H3 & _). destruct (not_fixed_spec _ _ _ H1) as (N1 & N2 & N3). split; [|split].
  - split; [apply N1, wf_nodup, HB|]. intros i. split.
    + intros Hi. split; [apply members_spec, N2, Hi|]. apply N3; [apply N2, Hi|exact Hi].
    + intros [Hi Hf]. apply members_spec in Hi. apply N3; assumption.
  - apply free_lbdas_spec.
  - intros l Hl. unfold wide. rewrite (unassigned_disp _ _ _ H3). apply free_lbdas_spec in Hl. apply (wf_width _ HB), Hl.
Qed.

Lemma infer_course fuel o cfg n s s' : wf (wd s) -> fair o -> (0 <= burn_in_min cfg)%Z -> infer fuel o cfg n s = Some (Ok s') ->
  exists ms ls s1 s2 W smp, prepare s = Ok (ms, ls, s1) /\ burn_in fuel o cfg ms ls s1 = Some (Ok s2) /\
    W 0%nat = wd s2 /\ W n = wd s' /\ iterations o ms ls W n /\ full_sweeps ms ls n smp /\ log s' = (log s2 ++ smp)%list /\ iters s' = iters s2 /\
    (forall i, In i ms -> layer_of (get_mat (wd s2) i) <> None /\ mti s' i = n /\ exists tr, mtr s' i = Some tr /\ mtraces (W 0%nat) W n n i tr) /\
    (forall l, In l ls -> lti s' l = n /\ exists tr, ltr s' l = Some tr /\ ltraces (fun j => disp (W j) l) n tr).
Proof.
  intros HB F Hm H. unfold infer in H. destruct (prepare s) as [[[ms ls] s1]|] eqn:EP; [|discriminate]. destruct (burn_in fuel o cfg ms ls s1) as [[s2|]|] eqn:EB; try discriminate.
  injection H as H. apply bind_ok in H. destruct H as (s3 & EA & H).
  destruct (prepare_updated s ms ls s1 HB EP) as ((NM & _) & (NL & _) & HW). apply prepare_spec in EP as HP. destruct HP as (_ & _ & _ & _ & _ & _ & P7 & _ & _).
  destruct (burn_in_course _ _ _ _ _ _ _ F NL Hm HW EB) as (_ & _ & _ & B4 & B5 & _ & _).
  destruct (allocate_m_spec _ _ _ _ EA) as ((A1 & A2 & A3 & A4 & A5) & A6 & A7).
  destruct (allocate_spec n ls s3) as ((D1 & D2 & D3 & D4 & D5) & D6 & D7). cbv zeta in *. set (s4 := fold_left (allocate_l n) ls s3) in *.
  destruct (samples_course o cfg ms ls n F NM NL n (fun _ => wd s2) 0%nat s4 s') as (W' & smp & Z1 & Z2 & Z3 & Z4 & Z5 & Z6 & Z7 & Z8); [lia|exact H|exact I|congruence| | |].
  - intros i Hi. split; [rewrite D3, A6, B4; apply P7; exact Hi|]. rewrite D2. destruct (A7 i Hi) as (_ & G). unfold mtraces. destruct (is_ibp (wd s2) i).
    + destruct G as (m & G1 & G2). eexists. split; [exact G2|]. cbn [mcells mwidth]. split; [apply repeat_length|]. exists m. split; [exact G1|]. cbv zeta. split; [reflexivity|]. split; [intros; lia|].
      intros j Hj. rewrite (nth_error_nth' _ None) by (rewrite repeat_length; lia). rewrite nth_repeat_in by lia. reflexivity.
    + eexists. split; [exact G|]. cbn [mcells mwidth]. split; [apply repeat_length|]. split; [reflexivity|]. intros; lia.
  - intros l Hl. rewrite D6, A3, D7, (proj2 (existsb_in l ls) Hl). split; [apply B5; exact Hl|]. eexists. split; [reflexivity|]. cbn [lcells]. split; [apply repeat_length|]. intros; lia.
  - exists ms, ls, s1, s2, W', smp. split; [reflexivity|]. split; [exact EB|]. split; [exact Z1|]. split; [exact Z3|]. split; [exact Z2|]. split; [exact Z4|]. split; [rewrite Z5, D5, A5; reflexivity|].
    split; [congruence|]. split.
    + intros i Hi. split; [apply A7; exact Hi|]. apply Z7. exact Hi.
    + exact Z8.
Qed.

(** ** C63 *)
Lemma C63_lemma fuel o cfg n s s' : built o (wd s) -> fair o -> (0 <= burn_in_min cfg)%Z -> infer fuel o cfg n s = Some (Ok s') ->
  exists ms ls, (NoDup ms /\ forall i, In i ms <-> is_member (wd s) i /\ ~ declared_fixed (fixed (get_mat (wd s) i))) /\
    (NoDup ls /\ forall l, In l ls <-> (l < List.length (layers (wd s)))%nat /\ lfixed (lbda (get_lay (wd s) l)) = false) /\
  exists k p evs last smp, pre_rounds ms ls (fix_lbda_iters cfg) (anneal (wd s)) (Z.to_nat (burn_in_min cfg)) p /\ rounds ms ls (window cfg) k evs /\
    checks ls (window cfg) (S k) last /\ full_sweeps ms ls n smp /\ log s' = (log s ++ p ++ evs ++ last ++ smp)%list.
Proof.
  intros HB F Hm H. apply built_wf in HB. destruct (infer_course _ _ _ _ _ _ HB F Hm H) as (ms & ls & s1 & s2 & W & smp & EP & EB & _ & _ & _ & HS & HL & _).
  destruct (prepare_updated s ms ls s1 HB EP) as (UM & UL & HW). apply prepare_spec in EP. destruct EP as (_ & _ & PU & P4 & _).
  destruct (burn_in_course _ _ _ _ _ _ _ F (proj1 UL) Hm HW EB) as (_ & _ & _ & _ & _ & _ & k & p & evs & last & C1 & C2 & C3 & C4 & _).
  exists ms, ls. split; [exact UM|]. split; [exact UL|]. exists k, p, evs, last, smp.
  assert (EA : anneal (wd s1) = anneal (wd s)) by (destruct PU as (_ & _ & E & _); exact E). rewrite EA in C1.
  split; [exact C1|]. split; [exact C2|]. split; [exact C3|]. split; [exact HS|]. rewrite HL, C4, P4, <- !app_assoc. reflexivity.
Qed.

(** ** C25 *)
Lemma iterations_static o ms ls W n : iterations o ms ls W n -> static (W 0%nat) (W n).
Proof.
  induction n as [|n IH]; intros H; [apply static_refl|]. destruct H as [H1 (p & w1 & _ & E1 & E2)]. eapply static_trans; [apply IH, H1|].
  eapply static_trans; [apply static_tick|]. eapply static_trans; [eapply foldM_static; [|exact E1]; intros; eapply run_mat_static; eassumption|].
  eapply foldM_static; [|exact E2]. intros; eapply run_lbda_static; eassumption.
Qed.
Lemma static_ibp w w' i : static w w' -> is_ibp w' i = is_ibp w i.
Proof.
  intros (_ & HM & _ & HL & _). unfold is_ibp. specialize (HM i). apply (f_equal layer_of) in HM. cbn in HM. rewrite HM. destruct (layer_of (get_mat w i)) as [l|]; [|reflexivity].
  destruct (HL l) as (v & r & ->). reflexivity.
Qed.
Lemma unassigned_ibp w w' i : unassigned w w' -> is_ibp w' i = is_ibp w i.
Proof.
  intros (_ & _ & _ & _ & _ & _ & HM & HL). unfold is_ibp. specialize (HM i). apply (f_equal layer_of) in HM. cbn in HM. rewrite HM. destruct (layer_of (get_mat w i)) as [l|]; [|reflexivity].
  specialize (HL l). apply (f_equal model) in HL. cbn in HL. rewrite HL. reflexivity.
Qed.
Lemma C25_lemma fuel o cfg n s s' : built o (wd s) -> fair o -> (0 <= burn_in_min cfg)%Z -> infer fuel o cfg n s = Some (Ok s') ->
  exists ms ls W, (NoDup ms /\ forall i, In i ms <-> is_member (wd s) i /\ ~ declared_fixed (fixed (get_mat (wd s) i))) /\
    (NoDup ls /\ forall l, In l ls <-> (l < List.length (layers (wd s)))%nat /\ lfixed (lbda (get_lay (wd s) l)) = false) /\
    (forall j, (j < n)%nat -> iteration o ms ls (W j) (W (S j))) /\ wd s' = W n /\
    (forall i, In i ms -> mti s' i = n /\ exists tr, mtr s' i = Some tr /\
       if is_ibp (wd s) i then exists m0, value (W 0%nat) i = A2 m0 /\ traces_padded (List.length m0) (ncols m0 + 10) (fun j => value (W j) i) n tr
       else traces (fun j => value (W j) i) n tr) /\
    (forall l, In l ls -> lti s' l = n /\ exists tr, ltr s' l = Some tr /\ ltraces (fun j => disp (W j) l) n tr).
Proof.
  intros HB F Hm H. apply built_wf in HB. destruct (infer_course _ _ _ _ _ _ HB F Hm H) as (ms & ls & s1 & s2 & W & smp & EP & EB & W0 & Wn & HI & _ & _ & _ & HM & HL).
  destruct (prepare_updated s ms ls s1 HB EP) as (UM & UL & HW). apply prepare_spec in EP. destruct EP as (_ & _ & PU & _).
  destruct (burn_in_course _ _ _ _ _ _ _ F (proj1 UL) Hm HW EB) as (_ & ST & _).
  exists ms, ls, W. split; [exact UM|]. split; [exact UL|]. split; [|split; [symmetry; exact Wn|split; [|exact HL]]].
  - clear - HI. induction n as [|n IH]; intros j Hj; [lia|]. destruct HI as [H1 H2]. destruct (Nat.eq_dec j n) as [->|]; [exact H2|apply IH; [exact H1|lia]].
  - intros i Hi. destruct (HM i Hi) as (_ & G1 & tr & G2 & G3 & G4). split; [exact G1|]. exists tr. split; [exact G2|].
    assert (EI : is_ibp (W 0%nat) i = is_ibp (wd s) i) by (rewrite W0, (static_ibp _ _ _ ST); apply unassigned_ibp; exact PU). rewrite EI in G4. destruct (is_ibp (wd s) i).
    + destruct G4 as (m0 & K1 & K2 & K3 & _). exists m0. split; [exact K1|]. split; [exact G3|]. exact K3.
    + destruct G4 as (_ & K). split; [exact G3|exact K].
Qed.
(** The last slice is the current value. *)
Lemma C25_last_lemma fuel o cfg n s s' i : built o (wd s) -> fair o -> (0 <= burn_in_min cfg)%Z -> infer fuel o cfg n s = Some (Ok s') -> (0 < n)%nat ->
  is_member (wd s) i -> ~ declared_fixed (fixed (get_mat (wd s) i)) -> is_ibp (wd s) i = false ->
  exists tr, mtr s' i = Some tr /\ last (mcells tr) None = Some (value (wd s') i).
Proof.
  intros HB F Hm H Hn Hi Hf HI. destruct (C25_lemma _ _ _ _ _ _ HB F Hm H) as (ms & ls & W & (_ & UM) & _ & _ & -> & HM & _).
  destruct (HM i (proj2 (UM i) (conj Hi Hf))) as (_ & tr & G1 & G2). rewrite HI in G2. destruct G2 as [G2 G3]. exists tr. split; [exact G1|].
  destruct n as [|n]; [lia|]. specialize (G3 n ltac:(lia)). assert (L : forall (l : list (option arr)) k, List.length l = S k -> last l None = nth k l None).
  { clear. induction l as [|a l IH]; intros k Hk; [discriminate|]. destruct l as [|b l]; [destruct k; [reflexivity|discriminate]|]. destruct k as [|k]; [discriminate|]. cbn [last nth]. apply IH. cbn in Hk |- *. lia. }
  rewrite (L _ n G2). apply nth_error_nth. exact G3.
Qed.

(** ** C26 *)
Lemma C26_lemma fuel o cfg ms ls s s' : fair o -> NoDup ls -> (0 <= burn_in_min cfg)%Z -> (forall l, In l ls -> (1 <= width (disp (wd s) l))%nat) ->
  burn_in fuel o cfg ms ls s = Some (Ok s') ->
  exists p evs last, log s' = (log s ++ p ++ evs ++ last)%list /\ no_check p /\ sweeps p = Z.to_nat (burn_in_min cfg) /\ sweeps last = 0%nat /\
    (Z.of_nat (sweeps (p ++ evs)) <= Z.max (burn_in_min cfg) (burn_in_max cfg))%Z /\
    ((Z.of_nat (sweeps (p ++ evs)) < burn_in_max cfg)%Z -> ended_by_convergence cfg ls (wd s') last).
Proof.
  intros F ND Hm HW H. destruct (burn_in_course _ _ _ _ _ _ _ F ND Hm HW H) as (_ & _ & _ & _ & _ & _ & k & p & evs & last & C1 & C2 & C3 & C4 & _ & C6 & C7).
  exists p, evs, last. split; [exact C4|]. apply pre_rounds_facts in C1. destruct C1 as (S1 & N1). apply rounds_sweeps in C2. apply checks_facts in C3. destruct C3 as (S3 & _).
  rewrite !sweeps_app, S1, C2. split; [exact N1|]. split; [reflexivity|]. split; [exact S3|]. split; [lia|]. intros Hlt. destruct C7 as [(_ & _ & C7)|(_ & C7)]; [exact C7|lia].
Qed.
Lemma C26_infer_lemma fuel o cfg n s : (0 <= burn_in_min cfg)%Z -> (enough cfg <= fuel)%nat -> infer fuel o cfg n s <> None.
Proof.
  intros Hm Hf. unfold infer. destruct (prepare s) as [[[ms ls] s1]|]; [|discriminate]. destruct (burn_in fuel o cfg ms ls s1) as [[s2|]|] eqn:E; try discriminate.
  exfalso. exact (C26_terminates_lemma o cfg ms ls s1 fuel Hm Hf E).
Qed.
(** A negative minimum is never reached. *)
Lemma C26_negative_lemma fuel o cfg ms ls s s' : (burn_in_min cfg < 0)%Z -> burn_in fuel o cfg ms ls s <> Some (Ok s').
Proof.
  intros Hm H. unfold burn_in in H. destruct (while fuel _ _ (0%Z, [], s)) as [[[[pre sched] s1]|]|] eqn:E; try discriminate.
  pose proof (while_inv (fun '(k, _, _) => negb (k =? burn_in_min cfg)%Z) (fun x => Some (pre_body o cfg ms ls x)) (fun x => let '(k, _, _) := x in (0 <= k)%Z) 
    ltac:(intros [[k sc] s0] y Hk Ec Eb; injection Eb as Eb; destruct y as [[k' sc'] s0']; assert (k' = k + 1)%Z; [|lia]; 
          unfold pre_body in Eb; cbv zeta in Eb; apply bind_ok in Eb; destruct Eb as (_ & _ & Eb); apply bind_ok in Eb; destruct Eb as (s2 & _ & Eb);
          destruct (_ <? _)%Z; [destruct (anneal (wd s2)); [apply bind_ok in Eb; destruct Eb as (_ & _ & Eb); apply bind_ok in Eb; destruct Eb as (? & _ & Eb)|]; apply bind_ok in Eb; destruct Eb as (? & _ & Eb)|]; injection Eb as <- _ _; reflexivity)
    _ _ _ E ltac:(cbn; lia)) as (P1 & P2).
  cbn in P1, P2. apply negb_false_iff, Z.eqb_eq in P2. lia.
Qed.
