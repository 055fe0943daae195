(** Machines with a single data point: with an observed one and informative priors there are no ties, with a missing one
    and flat priors there is nothing but ties. *)
From Coq Require Import String Lia Lra Permutation.
From Verif Require Import Base BaseR BaseRLemmas Spec SpecR Canon Machine Dispatch Inference SpecMachine MachineExamples BaseLemmas InferenceProofs MachineProofs BuiltProofs PlainProofs SpecOrdinary SpecPass SpecPredict SpecErgodic OrdinaryProofs OrdinaryProofs3 OrdinaryProofs7 OrdinaryExamples PassExamples ErgodicProofs4.
Local Open Scope R_scope.

Definition one_data (x : Z) : world := set_free (new_matrix (set_arrays new_machine [A2 [[x]]%Z]) 0 None (FBool true)) [0%nat].
Definition one_cell (x : Z) : world := fst (add_layer demo (one_data x) 1 (Some 0%nat) None "OR-AND").
Lemma one_data_ordinary x : tern x -> ordinary demo (one_data x).
Proof.
  intros Hx. pose proof (ord_array demo _ (A2 [[x]]%Z) (ord_new demo)) as H. eapply ord_data with (s := Given 0) (ax := None); [exact H| |reflexivity|].
  - intros a Ea. injection Ea as <-. split; [cbn; lia|]. intros i (l & Hl & _). cbn in Hl. lia.
  - split; cbn; [split; [reflexivity|repeat constructor]|unfold tern2, tern1; repeat (apply Forall_cons || apply Forall_nil); exact Hx].
Qed.
Lemma one_cell_ordinary x : tern x -> ordinary demo (one_cell x).
Proof.
  intros Hx. eapply ord_layer with (K := 1%nat) (c := 0%nat) (m := "OR-AND"%string); [exact (one_data_ordinary x Hx)|reflexivity|left; reflexivity| |reflexivity].
  split; [cbn; lia|]. split; [|left; cbn; auto]. intros _ n Hn. cbn in Hn. lia.
Qed.
(** The prior of every matrix set to p. *)
Definition with_bprior (p : R) (m : matrix) : matrix := Mat (val m) (axis m) (fixed m) (fixed_entries m) p (layer_of m) (parents m) (sfct m).
Definition primed (p : R) (w : world) : world := World (arrays w) (map (with_bprior p) (mats w)) (layers w) (free w) (anneal w) (clock w).
Lemma primed_mat p w i : get_mat (primed p w) i = if (i <? List.length (mats w))%nat then with_bprior p (get_mat w i) else get_mat w i.
Proof.
  unfold get_mat, primed. cbn [mats]. destruct (Nat.ltb_spec i (List.length (mats w))) as [H|H]; [|rewrite !nth_overflow by (try rewrite map_length; exact H); reflexivity].
  rewrite (nth_indep _ no_matrix (with_bprior p no_matrix)) by (rewrite map_length; exact H). apply map_nth.
Qed.
Lemma primed_adjusted p w : 0 < p < 1 -> sound w -> (forall i, (i < List.length (mats w))%nat -> (exists b, fixed (get_mat w i) = FBool b) /\ sfct (get_mat w i) = None) -> adjusted w (primed p w).
Proof.
  intros Hp S HB. assert (GM : forall i, val (get_mat (primed p w) i) = val (get_mat w i) /\ axis (get_mat (primed p w) i) = axis (get_mat w i) /\ fixed (get_mat (primed p w) i) = fixed (get_mat w i) /\ fixed_entries (get_mat (primed p w) i) = fixed_entries (get_mat w i) /\
    layer_of (get_mat (primed p w) i) = layer_of (get_mat w i) /\ parents (get_mat (primed p w) i) = parents (get_mat w i) /\ sfct (get_mat (primed p w) i) = sfct (get_mat w i)) by (intros i; rewrite primed_mat; destruct (i <? _)%nat; repeat split).
  assert (LM : List.length (mats (primed p w)) = List.length (mats w)) by apply map_length. assert (EV : forall i, value (primed p w) i = value w i) by (intros i; unfold value; rewrite (proj1 (GM i)); reflexivity).
  split; [|split; [|split; [|split; [|split]]]].
  - split; [exact LM|]. split; [|split; [intros i; destruct (GM i) as (_ & G1 & _ & _ & G2 & G3 & _); auto|split; [reflexivity|split; [intros l; repeat split|split; [intros l Hl; apply (wf_width _ (so_wf _ S) l Hl)|reflexivity]]]]].
    pose proof (wf_stored _ (so_wf _ S)) as G. unfold stored in *. cbn [primed mats arrays] in *. apply Forall_map. exact G.
  - intros i _. rewrite EV. auto.
  - intros i Hi. destruct (HB i Hi) as (B1 & B2). destruct (GM i) as (_ & _ & G1 & G2 & _ & _ & G3). rewrite G1, G2, G3. split; [auto|]. split; [exact B1|]. split; [rewrite primed_mat, (proj2 (Nat.ltb_lt _ _) Hi); exact Hp|]. split; [reflexivity|]. intros C. congruence.
  - intros i Hi. destruct (GM i) as (_ & _ & G1 & _). rewrite G1. apply (plain_data _ (so_plain _ S) i Hi).
  - intros i Hi j Hj Hne. rewrite (proj1 (GM i)), (proj1 (GM j)). rewrite LM in Hj. apply (so_own _ S i Hi j Hj Hne).
  - intros l Hl. destruct (plain_flags _ (so_plain _ S) l Hl) as (A1 & A2). destruct (so_layer _ S l Hl) as (_ & _ & _ & _ & _ & B1 & B2). split; [apply (plain_disp _ (so_plain _ S) l Hl)|]. auto.
Qed.

Lemma held_primed o w p : random o -> ordinary o w -> (forall i, (i < List.length (mats w))%nat -> (exists b, fixed (get_mat w i) = FBool b) /\ sfct (get_mat w i) = None) -> 0 < p < 1 -> ordinary o (held (primed p w)).
Proof.
  intros Hr O HB Hp. pose proof (primed_adjusted p w Hp (ordinary_sound _ _ Hr O) HB) as A1. assert (O1 : ordinary o (primed p w)) by (eapply ord_adjust; [exact O|exact A1]).
  eapply ord_adjust; [exact O1|]. apply held_adjusted; [exact (ordinary_sound _ _ Hr O1)|]. intros i Hi. unfold primed in Hi; cbn [mats] in Hi; rewrite map_length in Hi.
  rewrite primed_mat, (proj2 (Nat.ltb_lt _ _) Hi). destruct (HB i Hi) as (B & _). split; [exact B|exact Hp].
Qed.
Lemma one_cell_settings x i : (i < List.length (mats (one_cell x)))%nat -> (exists b, fixed (get_mat (one_cell x) i) = FBool b) /\ sfct (get_mat (one_cell x) i) = None.
Proof.
  assert (LM : List.length (mats (one_cell x)) = 3%nat) by reflexivity. rewrite LM. intros Hi. destruct i as [|[|[|i]]]; [| | |lia].
  - split; [exists true; reflexivity|reflexivity].
  - split; [exists false; reflexivity|reflexivity].
  - split; [exists false; reflexivity|reflexivity].
Qed.
Definition one_machine (p : R) (x : Z) : state := fresh_state (held (primed p (one_cell x))).
Lemma one_machine_ordinary p x : 0 < p < 1 -> tern x -> ordinary demo (wd (one_machine p x)).
Proof.
  intros Hp Hx. assert (E : wd (one_machine p x) = held (primed p (one_cell x))) by (unfold one_machine, fresh_state; reflexivity). rewrite E. clear E.
  apply held_primed; [exact demo_random|exact (one_cell_ordinary x Hx)|exact (one_cell_settings x)|exact Hp].
Qed.
Lemma one_machine_held p x : forall l, (l < List.length (layers (wd (one_machine p x))))%nat -> lfixed (lbda (get_lay (wd (one_machine p x)) l)) = true.
Proof. intros [|l] Hl; [reflexivity|]. cbn in Hl. lia. Qed.
Lemma one_machine_unfixed p x : unfixed (wd (one_machine p x)) = [1; 2]%nat.
Proof. reflexivity. Qed.
Lemma one_machine_states p x : configurations (one_machine p x) = [[[[1]]; [[1]]]; [[[1]]; [[-1]]]; [[[-1]]; [[1]]]; [[[-1]]; [[-1]]]]%Z.
Proof. reflexivity. Qed.
Lemma one_machine_weight p x u v : posterior the_outputs (one_machine p x) [[[u]]; [[v]]] =
  sigma (5 / 100 * IZR x * IZR (the_outputs "OR-AND" [[u]; [v]] 1)) * ((if (u =? 1)%Z then p else 1 - p) * (if (v =? 1)%Z then p else 1 - p)).
Proof.
  transitivity (sigma (5 / 100 * IZR x * IZR (the_outputs "OR-AND" [[u]; [v]] 1)) * 1 * 1 * 1 * ((if (u =? 1)%Z then p else 1 - p) * 1 * 1 * ((if (v =? 1)%Z then p else 1 - p) * 1 * 1 * 1))); [reflexivity|ring].
Qed.
Lemma one_machine_output u v : (u = 1 \/ u = -1)%Z -> (v = 1 \/ v = -1)%Z -> the_outputs "OR-AND" [[u]; [v]] 1 = if ((u =? 1) && (v =? 1))%bool%Z then 1%Z else (-1)%Z.
Proof. intros [-> | ->] [-> | ->]; reflexivity. Qed.
Lemma one_machine_in p x c : In c (configurations (one_machine p x)) -> exists u v, (u = 1 \/ u = -1)%Z /\ (v = 1 \/ v = -1)%Z /\ c = [[[u]]; [[v]]].
Proof.
  rewrite one_machine_states. intros [<-|[<-|[<-|[<-|[]]]]]; (do 2 eexists; split; [|split; [|reflexivity]]; auto).
Qed.
(** An observed one and a prior above one half: every entry is more probably 1 than -1. *)
Lemma one_machine_no_ties p : 1 / 2 < p < 1 -> no_ties (posterior the_outputs (one_machine p 1)) (configurations (one_machine p 1)).
Proof.
  intros Hp c c' Hc Hc' (k & n & l & H1 & H2 & H3 & E). apply one_machine_in in Hc, Hc'. destruct Hc as (u & v & Hu & Hv & ->), Hc' as (u' & v' & Hu' & Hv' & E').
  assert (G : (u' = - u)%Z /\ v' = v \/ u' = u /\ (v' = - v)%Z).
  { rewrite E' in E. clear E'. destruct k as [|[|k]]; cbn in H1, H2, H3; [| |lia]; (destruct n as [|n]; [|cbn in H2; lia]); (destruct l as [|l]; [|cbn in H3; lia]); cbn in E; [left|right]; inversion E; split; reflexivity. }
  rewrite E'. rewrite !one_machine_weight, !one_machine_output by assumption. pose proof (SamplingProofs.sigma_pos (5 / 100 * 1 * 1)) as P1. pose proof (SamplingProofs.sigma_pos (5 / 100 * 1 * -1)) as P2. pose proof (LambdaProofs.sigma_incr (5 / 100 * 1 * -1) (5 / 100 * 1 * 1) ltac:(lra)) as P3.
  set (a := sigma (5 / 100 * 1 * 1)) in *. set (b := sigma (5 / 100 * 1 * -1)) in *.
  assert (Q0 : p * (1 - p) < p * p) by nra. assert (Q1 : b * (p * (1 - p)) < a * (p * p)) by (apply Rmult_gt_0_lt_compat; nra). assert (Q2 : b * ((1 - p) * (1 - p)) < b * (p * (1 - p))) by (apply Rmult_lt_compat_l; nra).
  destruct G as [(-> & ->)|(-> & ->)]; destruct Hu as [-> | ->]; destruct Hv as [-> | ->]; cbn [Z.opp Z.eqb Pos.eqb andb]; fold a b; rewrite ?(Rmult_comm (1 - p) p); lra.
Qed.
(** A missing data point and flat priors: all configurations are equally probable. *)
Lemma one_machine_flat c c' : In c (configurations (one_machine (1 / 2) 0)) -> In c' (configurations (one_machine (1 / 2) 0)) -> posterior the_outputs (one_machine (1 / 2) 0) c = posterior the_outputs (one_machine (1 / 2) 0) c'.
Proof.
  intros Hc Hc'. apply one_machine_in in Hc, Hc'. destruct Hc as (u & v & _ & _ & ->), Hc' as (u' & v' & _ & _ & ->). rewrite !one_machine_weight. rewrite !Rmult_0_r, !Rmult_0_l. destruct (u =? 1)%Z, (v =? 1)%Z, (u' =? 1)%Z, (v' =? 1)%Z; lra.
Qed.
Lemma one_machine_average h : average_over (posterior the_outputs (one_machine (1 / 2) 0)) (configurations (one_machine (1 / 2) 0)) h =
  (h [[[1]]; [[1]]]%Z + h [[[1]]; [[-1]]]%Z + h [[[-1]]; [[1]]]%Z + h [[[-1]]; [[-1]]]%Z) / 4.
Proof.
  unfold average_over. rewrite one_machine_states. cbn [Rsum fold_right map]. rewrite !one_machine_weight, !Rmult_0_r, !Rmult_0_l, LambdaProofs.sigma_0. cbn [Z.eqb Pos.eqb]. field.
Qed.
Lemma one_machine_negates : only_negates (one_machine (1 / 2) 0).
Proof.
  apply (ties_lemma the_outputs demo); [exact the_outputs_ok|exact demo_random|apply one_machine_ordinary; [lra|right; right; reflexivity]|apply one_machine_held|exact one_machine_flat].
Qed.
Lemma one_machine_forgetful : ~ forgets the_outputs (one_machine (1 / 2) 0).
Proof.
  intros HF. destruct (HF 1 (1 / 2) ltac:(lra)) as (T & HT). assert (HU : usable demo_settings) by (unfold usable; cbn; lia). assert (HA : annealable demo_settings (wd (one_machine (1 / 2) 0))) by (intros G; discriminate G).
  destruct (HT demo demo_settings (Datatypes.S T) demo_random HU HA) as (F1 & H1). destruct (one_machine_negates demo demo_settings (Datatypes.S T) demo_random HU HA) as (F2 & H2).
  set (h := fun c : list mat => IZR (at2 (nth 0 c []) 0 0)). set (c0 := [[[1]]; [[1]]]%Z). assert (Hc0 : In c0 (configurations (one_machine (1 / 2) 0))) by (rewrite one_machine_states; left; reflexivity).
  destruct (H1 (F1 + F2)%nat T ltac:(lia) ltac:(lia) ltac:(lia) h c0) as (E & HE & HB); [|exact Hc0|].
  - intros c Hc. apply one_machine_in in Hc. destruct Hc as (u & v & Hu & _ & ->). unfold h. cbn. destruct Hu as [-> | ->]; unfold Rabs; destruct (Rcase_abs _); lra.
  - rewrite one_machine_average in HB. unfold h in HB at 1 2 3 4. cbn in HB.
    set (e := Nat.even (burn_in_passes demo_settings + Datatypes.S T)) in *.
    assert (EE : E = if e then 1 else -1).
    { eapply is_EE_only; [|exact HE]. intros rss HR. destruct (H2 (F1 + F2)%nat c0 rss ltac:(lia) Hc0 HR) as (s' & -> & G). specialize (G T 0%nat 0%nat 0%nat ltac:(lia) ltac:(rewrite one_machine_unfixed; cbn; lia) ltac:(rewrite one_machine_unfixed; cbn; lia) ltac:(rewrite one_machine_unfixed; cbn; lia)).
      unfold after_run, h. cbn zeta in G. etransitivity; [apply f_equal; exact G|]. fold e. rewrite one_machine_unfixed. cbn [nth]. change (at2 (fixed_of (wd (one_machine (1 / 2) 0)) 1) 0 0 =? 1)%Z with false. cbn [orb]. destruct e; reflexivity. }
    rewrite EE in HB. destruct e; unfold Rabs in HB; destruct (Rcase_abs _) in HB; lra.
Qed.
Lemma one_machine_inconsistent : ~ consistent the_outputs (one_machine (1 / 2) 0).
Proof.
  intros HF. destruct (HF 1 (1 / 2) ltac:(lra)) as (T & HT). assert (HU : usable demo_settings) by (unfold usable; cbn; lia). assert (HA : annealable demo_settings (wd (one_machine (1 / 2) 0))) by (intros G; discriminate G).
  destruct (HT demo demo_settings (Datatypes.S T) ltac:(lia) demo_random HU HA) as (F1 & H1). destruct (one_machine_negates demo demo_settings (Datatypes.S T) demo_random HU HA) as (F2 & H2).
  set (h := fun c : list mat => IZR (at2 (nth 0 c []) 0 0 * at2 (nth 1 c []) 0 0)). set (c0 := [[[1]]; [[1]]]%Z). assert (Hc0 : In c0 (configurations (one_machine (1 / 2) 0))) by (rewrite one_machine_states; left; reflexivity).
  destruct (H1 (F1 + F2)%nat ltac:(lia) h c0) as (E & HE & HB); [|exact Hc0|].
  - intros c Hc. apply one_machine_in in Hc. destruct Hc as (u & v & Hu & Hv & ->). unfold h. cbn -[Z.mul]. rewrite <- abs_IZR. apply IZR_le. clear - Hu Hv. destruct Hu as [-> | ->], Hv as [-> | ->]; cbn; lia.
  - assert (EA : average_over (posterior the_outputs (one_machine (1 / 2) 0)) (configurations (one_machine (1 / 2) 0)) h = 0) by (rewrite one_machine_average; unfold h; cbn; lra). rewrite EA in HE.
    assert (EE : E = 1); [|lra]. eapply is_EE_only; [|exact HE]. intros rss HR. destruct (H2 (F1 + F2)%nat c0 rss ltac:(lia) Hc0 HR) as (s' & -> & G). unfold run_mean.
    assert (ER : Rsum (fun j => h (recorded (unfixed (wd (one_machine (1 / 2) 0))) j s')) (seq 0 (Datatypes.S T)) = Rsum (fun _ => 1) (seq 0 (Datatypes.S T))).
    { apply Rsum_ext. intros j Hj. apply in_seq in Hj. pose proof (G j 0%nat 0%nat 0%nat ltac:(lia) ltac:(rewrite one_machine_unfixed; cbn; lia) ltac:(rewrite one_machine_unfixed; cbn; lia) ltac:(rewrite one_machine_unfixed; cbn; lia)) as G0. pose proof (G j 1%nat 0%nat 0%nat ltac:(lia) ltac:(rewrite one_machine_unfixed; cbn; lia) ltac:(rewrite one_machine_unfixed; cbn; lia) ltac:(rewrite one_machine_unfixed; cbn; lia)) as G1.
      cbn zeta in G0, G1. set (e := Nat.even (burn_in_passes demo_settings + Datatypes.S j)) in *. unfold h. etransitivity; [apply f_equal, f_equal2; [exact G0|exact G1]|]. rewrite one_machine_unfixed. cbn [nth]. change (at2 (fixed_of (wd (one_machine (1 / 2) 0)) 1) 0 0 =? 1)%Z with false. change (at2 (fixed_of (wd (one_machine (1 / 2) 0)) 2) 0 0 =? 1)%Z with false. cbn [orb]. destruct e; reflexivity. }
    rewrite ER. rewrite Rsum_const, seq_length. pose proof (lt_0_INR (Datatypes.S T) ltac:(lia)). field. lra.
Qed.
