(** C27, C28, C29. *)
From Coq Require Import String Permutation Lra.
From Verif Require Import Base BaseR BaseLemmas SpecR SpecClean Fuzzy Clean Machine Dispatch Inference SpecMachine MachineProofs BuiltProofs InferenceProofs InferenceProofs2 InferenceProofs3 InferenceProofs4 InferenceProofs5 InferenceProofs6.
Local Open Scope R_scope.

(** ** C27 *)
Lemma rounds_values ms ls w k evs l : NoDup ls -> In l ls -> rounds ms ls w k evs -> List.length (values_of l evs) = k.
Proof.
  intros ND Hl. induction 1 as [|k evs c b _ IH Hc Hb]; [reflexivity|]. rewrite !values_of_app, (proj2 (checks_facts _ _ _ _ Hc) l).
  destruct Hb as (a & d & -> & Ha & v & ->). destruct (pass_facts _ _ Ha) as (Va & _). rewrite values_of_app, Va, dispersions_values by assumption.
  rewrite app_length, IH. cbn. lia.
Qed.
Lemma rounds_prefix ms ls w k evs j : rounds ms ls w k evs -> (j < k)%nat -> exists e c e', evs = (e ++ c ++ e')%list /\ rounds ms ls w j e /\ checks ls w (S j) c.
Proof.
  induction 1 as [|k evs c b HR IH Hc Hb]; intros Hj; [lia|]. destruct (Nat.eq_dec j k) as [->|].
  - exists evs, c, b. auto.
  - destruct IH as (e & c' & e' & -> & H1 & H2); [lia|]. exists e, c', (e' ++ c ++ b)%list. rewrite <- !app_assoc. auto.
Qed.
Lemma C27_lemma fuel o cfg ms ls s s' : fair o -> NoDup ls -> (0 <= burn_in_min cfg)%Z -> (forall l, In l ls -> (1 <= width (disp (wd s) l))%nat) ->
  burn_in fuel o cfg ms ls s = Some (Ok s') ->
  exists p run, log s' = (log s ++ p ++ run)%list /\ no_check p /\
    forall a l win b, run = (a ++ ECheck l win :: b)%list -> recorded (window cfg) (values_of l a) win \/ one_missing (window cfg) (values_of l a) win.
Proof.
  intros F ND Hm HW H. destruct (burn_in_course _ _ _ _ _ _ _ F ND Hm HW H) as (_ & _ & _ & _ & _ & _ & k & p & evs & last & C1 & _ & _ & C4 & C5 & _).
  exists p, (evs ++ last)%list. split; [exact C4|]. split; [apply (pre_rounds_facts _ _ _ _ _ _ C1)|exact C5].
Qed.
(** The first check always has an entry that was never written. *)
Lemma C27_refuted_lemma fuel o cfg ms ls s s' l : fair o -> NoDup ls -> (0 <= burn_in_min cfg)%Z -> (forall l, In l ls -> (1 <= width (disp (wd s) l))%nat) ->
  burn_in fuel o cfg ms ls s = Some (Ok s') -> In l ls -> (Z.of_nat (window cfg) - 1 + burn_in_min cfg <= burn_in_max cfg)%Z ->
  exists p a win b, log s' = (log s ++ p ++ a ++ ECheck l win :: b)%list /\ no_check p /\ one_missing (window cfg) (values_of l a) win.
Proof.
  intros F ND Hm HW H Hl Hr. destruct (burn_in_course _ _ _ _ _ _ _ F ND Hm HW H) as (Hw & _ & _ & _ & _ & _ & k & p & evs & last & C1 & C2 & C3 & C4 & C5 & _ & C7).
  assert (Hk : (window cfg <= S k)%nat).
  { destruct C7 as [(_ & E & _)|(_ & E)]; [|lia]. destruct (Nat.le_gt_cases (window cfg) (S k)); [assumption|]. rewrite Nat.mod_small in E by lia. discriminate. }
  remember (window cfg) as w0 eqn:Ew. clear Ew. destruct w0 as [|w]; [contradiction|].
  assert (G : exists e c e', (evs ++ last)%list = (e ++ c ++ e')%list /\ rounds ms ls (S w) w e /\ checks ls (S w) (S w) c).
  { destruct (Nat.eq_dec w k) as [->|].
    - exists evs, last, []. rewrite app_nil_r. auto.
    - destruct (rounds_prefix _ _ _ _ _ w C2) as (e & c & e' & -> & G1 & G2); [lia|]. exists e, c, (e' ++ last)%list. rewrite <- !app_assoc. auto. }
  destruct G as (e & c & e' & Ee & G1 & G2). unfold checks in G2. rewrite Nat.mod_same in G2 by lia. cbn [Nat.eqb] in G2. destruct G2 as (win & ->).
  apply in_split in Hl as Hs. destruct Hs as (l1 & l2 & Els). 
  set (a := (e ++ map (fun l => ECheck l (win l)) l1)%list). set (b := (map (fun l => ECheck l (win l)) l2 ++ e')%list).
  assert (Er : (evs ++ last)%list = (a ++ ECheck l (win l) :: b)%list).
  { rewrite Ee. unfold a, b. rewrite Els at 1. rewrite map_app. cbn [map]. rewrite <- !app_assoc. reflexivity. }
  exists p, a, (win l), b. split; [rewrite C4, Er; reflexivity|]. split; [apply (pre_rounds_facts _ _ _ _ _ _ C1)|].
  assert (Va : List.length (values_of l a) = w).
  { unfold a. rewrite values_of_app. assert (E0 : forall t, values_of l (map (fun l => ECheck l (win l)) t) = []) by (induction t; [reflexivity|assumption]). rewrite E0, app_nil_r. eapply rounds_values; eassumption. }
  destruct (C5 _ _ _ _ Er) as [[R _]|R]; [lia|exact R].
Qed.

(** ** C28 *)
Lemma C28_lemma fuel o cfg ms ls s s' : fair o -> NoDup ls -> (0 <= burn_in_min cfg)%Z -> (forall l, In l ls -> (1 <= width (disp (wd s) l))%nat) ->
  burn_in fuel o cfg ms ls s = Some (Ok s') ->
  exists evs, log s' = (log s ++ evs)%list /\ let N := Z.of_nat (sweeps evs) in
    (iters s' = Some (N + 1)%Z /\ ended_by_convergence cfg ls (wd s') evs) \/
    (iters s' = Some (N + 1 - burn_in_min cfg)%Z /\ (burn_in_max cfg <= N)%Z).
Proof.
  intros F ND Hm HW H. destruct (burn_in_course _ _ _ _ _ _ _ F ND Hm HW H) as (_ & _ & _ & _ & _ & _ & k & p & evs & last & C1 & C2 & C3 & C4 & _ & _ & C7).
  exists (p ++ evs ++ last)%list. split; [exact C4|]. cbv zeta. rewrite !sweeps_app, (proj1 (pre_rounds_facts _ _ _ _ _ _ C1)), (rounds_sweeps _ _ _ _ _ C2), (proj1 (checks_facts _ _ _ _ C3)).
  destruct C7 as [(E & _ & C7)|(E & C7)]; [left|right]; rewrite E.
  - split; [f_equal; lia|]. destruct C7 as [C7 C8]. split; [|exact C8]. intros l Hl. destruct (C7 l Hl) as (win & G1 & G2). exists win. split; [|exact G2]. rewrite !in_app_iff. auto.
  - split; [f_equal; lia|lia].
Qed.
Lemma C28_refuted_lemma fuel o cfg ms ls s s' : fair o -> NoDup ls -> (0 <= burn_in_min cfg)%Z -> (forall l, In l ls -> (1 <= width (disp (wd s) l))%nat) ->
  burn_in fuel o cfg ms ls s = Some (Ok s') -> burn_in_min cfg <> 1%Z ->
  exists evs, log s' = (log s ++ evs)%list /\ iters s' <> Some (Z.of_nat (sweeps evs)).
Proof.
  intros F ND Hm HW H Hn. destruct (C28_lemma _ _ _ _ _ _ _ F ND Hm HW H) as (evs & E & G). exists evs. split; [exact E|]. cbv zeta in G.
  destruct G as [[-> _]|[-> _]]; intros C; injection C; lia.
Qed.

(** ** C29 *)
Lemma arange_spec x b : x <> 0 -> (1 <= b)%Z ->
  arange (x / IZR b) (x + 2 * x / IZR b) (x / IZR b) = Ok (map (fun k => x * (INR k + 1) / IZR b) (seq 0 (S (Z.to_nat b)))).
Proof.
  intros Hx Hb. assert (B : 1 <= IZR b) by (apply (IZR_le 1); exact Hb). unfold arange. destruct (Req_EM_T (x / IZR b) 0) as [E|_].
  { exfalso. apply Rmult_integral in E. destruct E as [E|E]; [contradiction|]. revert E. apply Rinv_neq_0_compat. lra. }
  f_equal. replace ((x + 2 * x / IZR b - x / IZR b) / (x / IZR b)) with (IZR (b + 1)) by (rewrite plus_IZR; field; lra).
  assert (C : ceil (IZR (b + 1)) = (b + 1)%Z).
  { unfold ceil. rewrite <- opp_IZR. unfold Int_part. rewrite <- (tech_up (IZR (- (b + 1))) (- (b + 1) + 1)); [lia| |]; rewrite plus_IZR; lra. }
  rewrite C. replace (Z.to_nat (b + 1)) with (S (Z.to_nat b)) by lia. apply map_ext. intros k. field. lra.
Qed.
Lemma nth_error_map_seq {A} (f : nat -> A) n k : (k < n)%nat -> nth_error (map f (seq 0 n)) k = Some (f k).
Proof. intros H. rewrite nth_error_map, (nth_error_nth' _ 0%nat) by (rewrite seq_length; exact H). rewrite seq_nth by exact H. reflexivity. Qed.

(** Values assigned to the dispersion of layer l by annealing. *)
Lemma anneal_of_app l a b : anneal_values l (a ++ b) = (anneal_values l a ++ anneal_values l b)%list.
Proof. induction a as [|e a IH]; [reflexivity|]. destruct e; cbn [app anneal_values]; try exact IH. destruct (Nat.eqb _ _); cbn [app]; rewrite IH; reflexivity. Qed.
Lemma anneal_of_none l a : (forall j v, ~ In (EAnneal j v) a) -> anneal_values l a = [].
Proof.
  induction a as [|e a IH]; intros H; [reflexivity|]. assert (IH' : anneal_values l a = []) by (apply IH; intros j v C; apply (H j v); right; exact C).
  destruct e; cbn [anneal_values]; try exact IH'. exfalso. eapply H. left. reflexivity.
Qed.

Section Anneal.
Context (o : oracle) (cfg : settings) (ms ls : list nat) (s0 : state) (x : nat -> R).
Context (F : fair o) (ND : NoDup ls) (Hfix : fix_lbda_iters cfg = 0%Z) (Hb : (1 <= burn_in_min cfg)%Z) (Hann : anneal (wd s0) = true).
Context (Hlen : forall l, In l ls -> (l < List.length (layers (wd s0)))%nat) (Hx : forall l, In l ls -> disp (wd s0) l = LS (x l) /\ x l <> 0).
Let b := burn_in_min cfg.
Let step l k := x l * (INR k + 1) / IZR b.
Let steps l := map (step l) (seq 0 (S (Z.to_nat b))).

Lemma schedule_spec w : (forall l, In l ls -> disp w l = LS (x l)) -> mapM (annealing_steps w b) ls = Ok (map steps ls).
Proof.
  intros H. assert (G : forall l, In l ls -> annealing_steps w b l = Ok (steps l)).
  { intros l Hl. unfold annealing_steps. rewrite (H l Hl). cbn [bind]. apply arange_spec; [apply Hx; exact Hl|exact Hb]. }
  revert G. generalize ls. clear. induction ls as [|l t IH]; intros G; [reflexivity|]. cbn [mapM map]. rewrite (G l) by (left; reflexivity). cbn [bind]. rewrite IH by (intros j Hj; apply G; right; exact Hj). reflexivity.
Qed.
Lemma anneal_all k t : forall s, (0 <= k <= b)%Z -> exists s', foldM (anneal_step k) (combine t (map steps t)) s = Ok s' /\
  log s' = (log s ++ map (fun l => EAnneal l (LS (step l (Z.to_nat k)))) t)%list /\ List.length (layers (wd s')) = List.length (layers (wd s)) /\
  (forall j, In j t -> (j < List.length (layers (wd s)))%nat -> disp (wd s') j = LS (step j (Z.to_nat k))) /\ (forall j, ~ In j t -> disp (wd s') j = disp (wd s) j).
Proof.
  induction t as [|l t IH]; intros s Hk.
  - exists s. cbn. rewrite app_nil_r. repeat split; auto. contradiction.
  - cbn [map combine foldM anneal_step]. destruct (Z.ltb_spec k 0); [lia|]. unfold steps at 1. rewrite nth_error_map_seq by lia. cbn [of_option bind].
    set (s1 := note _ _). destruct (IH s1 Hk) as (s' & E & H1 & H2 & H3 & H4). exists s'. split; [exact E|].
    assert (L1 : List.length (layers (wd s1)) = List.length (layers (wd s))) by (unfold s1; cbn [wd note set_wd assign_disp set_lay set_layers layers]; apply upd_length).
    assert (D1 : forall j, disp (wd s1) j = if Nat.eqb j l && Nat.ltb l (List.length (layers (wd s))) then LS (step l (Z.to_nat k)) else disp (wd s) j).
    { intros j. unfold s1, disp. cbn [wd note set_wd]. unfold assign_disp. rewrite get_lay_set. destruct (_ && _); reflexivity. }
    split; [rewrite H1; unfold s1; cbn [log note set_wd map]; rewrite <- app_assoc; reflexivity|]. split; [congruence|]. split.
    + intros j Hj Hlj. destruct (in_dec Nat.eq_dec j t) as [Ht|Ht]; [apply H3; [exact Ht|rewrite L1; exact Hlj]|]. destruct Hj as [<-|Hj]; [|contradiction].
      rewrite (H4 l Ht), D1, Nat.eqb_refl, (proj2 (Nat.ltb_lt _ _) Hlj). reflexivity.
    + intros j Hj. rewrite H4 by (intros C; apply Hj; right; exact C). rewrite D1. destruct (Nat.eqb_spec j l) as [->|]; [exfalso; apply Hj; left; reflexivity|reflexivity].
Qed.
Definition anneal_inv (y : Z * list rvec * state) : Prop :=
  let '(k, sched, s) := y in (0 <= k <= b)%Z /\ anneal (wd s) = true /\ List.length (layers (wd s)) = List.length (layers (wd s0)) /\
  ((0 < k)%Z -> sched = map steps ls) /\
  (forall l, In l ls -> disp (wd s) l = if (k =? 0)%Z then LS (x l) else LS (step l (Z.to_nat k))) /\
  exists evs, log s = (log s0 ++ evs)%list /\ forall l, In l ls -> anneal_values l evs = map (fun k => LS (step l k)) (seq 1 (Z.to_nat k)).
Lemma anneal_inv_step y y' : anneal_inv y -> negb (fst (fst y) =? b)%Z = true -> pre_body o cfg ms ls y = Ok y' -> anneal_inv y'.
Proof.
  destruct y as [[k sched] s]. intros (Hk & HA & HLn & HS & HD & evs & HL & HV) Hc H. cbn [fst] in Hc. apply negb_true_iff, Z.eqb_neq in Hc.
  unfold pre_body in H. cbv zeta in H. apply bind_ok in H. destruct H as (_ & _ & H). apply bind_ok in H. destruct H as (s1 & E1 & H).
  pose proof (sweep_static _ _ _ _ E1) as (_ & _ & SL & _ & _ & SA). pose proof (sweep_layers _ _ _ _ E1) as SLa. destruct (sweep_pass _ _ _ _ F E1) as (a & Pa & La & _).
  rewrite Hfix in H. destruct (Z.ltb_spec 0 (k + 1)); [|lia]. rewrite SA, HA in H. cbn [Z.eqb bind] in H. apply bind_ok in H. destruct H as (sched' & Es & H).
  assert (Esched : sched' = map steps ls).
  { destruct (Z.eqb_spec (k + 1) (0 + 1)) as [E0|].
    - assert (k = 0)%Z by lia. subst k. fold b in Es. rewrite schedule_spec in Es; [injection Es as <-; reflexivity|]. intros l Hl. rewrite (disp_layers _ _ _ SLa), (HD l Hl). reflexivity.
    - injection Es as <-. apply HS. lia. }
  subst sched'. destruct (anneal_all (k + 1)%Z ls s1) as (s2 & E2 & L2 & N2 & D2 & D3); [lia|]. apply bind_ok in H. destruct H as (s2' & E2' & H). assert (Ess : Ok s2' = Ok s2) by (etransitivity; [symmetry; exact E2'|exact E2]). injection Ess as ->. injection H as <-.
  cbn [anneal_inv]. assert (AS : static (wd s1) (wd s2)) by (destruct (anneal_steps_spec _ _ _ _ E2) as (AS & _); exact AS).
  split; [lia|]. split; [destruct AS as (_ & _ & _ & _ & _ & ->); congruence|]. split; [congruence|]. split; [reflexivity|]. split.
  { intros l Hl. destruct (Z.eqb_spec (k + 1) 0); [lia|]. apply D2; [exact Hl|]. rewrite SL, HLn. apply Hlen, Hl. }
  eexists. split; [rewrite L2, La, HL, <- !app_assoc; reflexivity|]. intros l Hl. rewrite !anneal_of_app, (HV l Hl).
  assert (Va : anneal_values l a = []).
  { destruct Pa as (p & _ & ->). apply anneal_of_none. intros j v [C|C]; [discriminate|]. apply in_map_iff in C. destruct C as (? & C & _). discriminate. }
  rewrite Va. cbn [app]. replace (Z.to_nat (k + 1)) with (S (Z.to_nat k)) by lia. rewrite seq_S, map_app. cbn [map app]. f_equal.
  replace (1 + Z.to_nat k)%nat with (S (Z.to_nat k)) by lia. clear - ND Hl. induction ls as [|j t IH]; [contradiction|]. inversion ND as [|? ? Hn ND']; subst. cbn [map anneal_values].
  destruct (Nat.eqb_spec j l) as [->|Hj].
  - f_equal. clear - Hn. induction t as [|j t IH]; [reflexivity|]. cbn [map anneal_values]. destruct (Nat.eqb_spec j l) as [->|]; [exfalso; apply Hn; left; reflexivity|]. apply IH. intros C. apply Hn. right. exact C.
  - destruct Hl as [->|Hl]; [contradiction|]. apply IH; assumption.
Qed.
Lemma C29_pre fuel k sched s : while fuel (fun '(k, _, _) => negb (k =? burn_in_min cfg)%Z) (fun x => Some (pre_body o cfg ms ls x)) (0%Z, [], s0) = Some (Ok (k, sched, s)) ->
  exists evs, log s = (log s0 ++ evs)%list /\ forall l, In l ls -> disp (wd s) l = LS (step l (Z.to_nat b)) /\ anneal_values l evs = map (fun k => LS (step l k)) (seq 1 (Z.to_nat b)).
Proof.
  intros E.
  assert (I0 : anneal_inv (0%Z, [], s0)).
  { cbn [anneal_inv]. split; [unfold b; lia|]. split; [exact Hann|]. split; [reflexivity|]. split; [lia|]. split; [intros l Hl; apply Hx; exact Hl|].
    exists []. rewrite app_nil_r. split; [reflexivity|]. intros l _. reflexivity. }
  assert (IS : forall y y', anneal_inv y -> (let '(k, _, _) := y in negb (k =? burn_in_min cfg)%Z) = true -> Some (pre_body o cfg ms ls y) = Some (Ok y') -> anneal_inv y').
  { intros [[k1 sc1] s1] y I C G. injection G as G. eapply anneal_inv_step; [exact I|exact C|exact G]. }
  destruct (while_inv _ _ anneal_inv IS _ _ _ E I0) as (I & C).
  cbn in C. apply negb_false_iff, Z.eqb_eq in C. subst k. destruct I as (_ & _ & _ & _ & HD & evs & HL & HV). exists evs. split; [exact HL|]. intros l Hl. split; [|apply HV; exact Hl].
    rewrite (HD l Hl). destruct (Z.eqb_spec (burn_in_min cfg) 0); [lia|reflexivity].
Qed.
End Anneal.

Lemma main_no_anneal o cfg ms ls pre : fair o -> NoDup ls -> forall y y', main_body o cfg ms ls pre y = Some (Ok y') ->
  exists e, log (snd y') = (log (snd y) ++ e)%list /\ forall l, anneal_values l e = [].
Proof.
  intros F ND [[k0 b] s] [[k' stop] s'] H. cbn [snd]. apply main_body_inv in H. destruct H as (_ & _ & _ & H).
  assert (CK : forall s1 b, check_all o ls (eps cfg) (fold_left rewind_l ls s) = Ok (s1, b) -> exists e, log s1 = (log s ++ e)%list /\ forall l, anneal_values l e = []).
  { intros s1 b1 E. apply check_all_spec in E. destruct E as (_ & _ & _ & L & _). destruct (rewind_spec ls s) as ((_ & _ & _ & _ & R) & _). cbv zeta in R. rewrite R in L. eexists. split; [exact L|].
    intros l. apply anneal_of_none. intros j v C. apply in_map_iff in C. destruct C as (? & C & _). discriminate. }
  assert (MD : forall sA, mid o cfg ls (S k0) s sA -> exists e, log sA = (log s ++ e)%list /\ forall l, anneal_values l e = []).
  { intros sA M. destruct M as [_|s1 _ E|s1 w _ E _]; [exists []; rewrite app_nil_r; split; reflexivity|apply (CK _ _ E)|].
    match goal with |- context [fold_left rewind_l ls ?x] => destruct (rewind_spec ls x) as ((_ & _ & _ & _ & R) & _) end. cbv zeta in R. rewrite R.
    match goal with |- context [fold_left (allocate_l ?n) ls ?x] => destruct (allocate_spec n ls x) as ((_ & _ & _ & _ & A) & _) end. cbv zeta in A. rewrite A. cbn [log set_wd]. apply (CK _ _ E). }
  destruct H as [sA s1 s2 s3 M _ E1 E2 E3|sA w M _ E|s1 w _ E _].
  - destruct (MD _ M) as (e & L & N). destruct (sweep_pass _ _ _ _ F E1) as (a & (p & _ & ->) & La & _). apply update_lbdas_spec in E2; [|exact ND]. destruct E2 as (_ & Lb & _). apply update_trace_l_spec in E3; [|exact ND]. destruct E3 as ((_ & _ & _ & _ & Lc) & _).
    eexists. split; [rewrite Lc, Lb, La, L, <- !app_assoc; reflexivity|]. intros l. rewrite !anneal_of_app, N. cbn [app]. rewrite !anneal_of_none; [reflexivity| |].
    + intros j v C. apply in_map_iff in C. destruct C as (? & C & _). discriminate.
    + intros j v [C|C]; [discriminate|]. apply in_map_iff in C. destruct C as (? & C & _). discriminate.
  - cbn [log set_iters]. match goal with |- context [fold_left rewind_l ls ?x] => destruct (rewind_spec ls x) as ((_ & _ & _ & _ & R) & _) end. cbv zeta in R. rewrite R. apply (MD _ M).
  - apply (CK _ _ E).
Qed.
Lemma C29_lemma fuel o cfg ms ls s s' x : fair o -> NoDup ls -> fix_lbda_iters cfg = 0%Z -> (1 <= burn_in_min cfg)%Z -> anneal (wd s) = true ->
  (forall l, In l ls -> (l < List.length (layers (wd s)))%nat /\ disp (wd s) l = LS (x l) /\ x l <> 0) ->
  burn_in fuel o cfg ms ls s = Some (Ok s') ->
  exists evs, log s' = (log s ++ evs)%list /\ forall l, In l ls ->
    anneal_values l evs = map (fun k => LS (x l * (INR k + 1) / IZR (burn_in_min cfg))) (seq 1 (Z.to_nat (burn_in_min cfg))).
Proof.
  intros F ND Hf Hb HA Hx H. unfold burn_in in H. destruct (while fuel _ _ (0%Z, [], s)) as [[[[k sched] s1]|]|] eqn:E1; try discriminate.
  destruct (C29_pre o cfg ms ls s x F ND Hf Hb HA (fun l Hl => proj1 (Hx l Hl)) (fun l Hl => proj2 (Hx l Hl)) fuel k sched s1 E1) as (p & L1 & P1).
  set (s2 := fold_left rewind_l ls (fold_left (allocate_l (window cfg)) ls s1)) in *.
  destruct (while fuel _ _ (0%nat, false, s2)) as [[[[k2 st2] s3]|]|] eqn:E2; try discriminate. injection H as <-.
  assert (L2 : log s2 = log s1).
  { unfold s2. match goal with |- context [fold_left rewind_l ls ?x] => destruct (rewind_spec ls x) as ((_ & _ & _ & _ & R) & _) end. cbv zeta in R. rewrite R.
    destruct (allocate_spec (window cfg) ls s1) as ((_ & _ & _ & _ & A) & _). exact A. }
  assert (IS : forall y y', (exists e, log (snd y) = (log s2 ++ e)%list /\ forall l, anneal_values l e = []) -> (let '(_, stop, _) := y in negb stop) = true -> main_body o cfg ms ls k y = Some (Ok y') ->
    exists e, log (snd y') = (log s2 ++ e)%list /\ forall l, anneal_values l e = []).
  { intros y y' (e & L & N) _ B. destruct (main_no_anneal _ _ _ _ _ F ND _ _ B) as (e' & L' & N'). exists (e ++ e')%list. rewrite L', L, <- app_assoc. split; [reflexivity|]. intros l. rewrite anneal_of_app, N, N'. reflexivity. }
  destruct (while_inv _ _ (fun y => exists e, log (snd y) = (log s2 ++ e)%list /\ forall l, anneal_values l e = []) IS _ _ _ E2) as ((e & L3 & N3) & _).
  { exists []. rewrite app_nil_r. split; reflexivity. }
  cbn [snd] in L3. exists (p ++ e)%list. split; [rewrite L3, L2, L1, <- app_assoc; reflexivity|]. intros l Hl. rewrite anneal_of_app, N3, app_nil_r. apply P1. exact Hl.
Qed.
(** The last one misses the target. *)
Lemma C29_refuted_lemma fuel o cfg ms ls s s' x l : fair o -> NoDup ls -> fix_lbda_iters cfg = 0%Z -> (1 <= burn_in_min cfg)%Z -> anneal (wd s) = true ->
  (forall l, In l ls -> (l < List.length (layers (wd s)))%nat /\ disp (wd s) l = LS (x l) /\ x l <> 0) ->
  burn_in fuel o cfg ms ls s = Some (Ok s') -> In l ls ->
  exists evs, log s' = (log s ++ evs)%list /\ last (anneal_values l evs) (LS 0) = LS (x l + x l / IZR (burn_in_min cfg)) /\ last (anneal_values l evs) (LS 0) <> LS (x l).
Proof.
  intros F ND Hf Hb HA Hx H Hl. destruct (C29_lemma _ _ _ _ _ _ _ x F ND Hf Hb HA Hx H) as (evs & L & V). exists evs. split; [exact L|]. rewrite (V l Hl).
  assert (B : 1 <= IZR (burn_in_min cfg)) by (apply (IZR_le 1); exact Hb).
  assert (G : forall y, y = x l * (INR (Z.to_nat (burn_in_min cfg)) + 1) / IZR (burn_in_min cfg) -> y = x l + x l / IZR (burn_in_min cfg)).
  { intros y ->. rewrite INR_IZR_INZ, Z2Nat.id by lia. field. lra. }
  assert (EL : last (map (fun k => LS (x l * (INR k + 1) / IZR (burn_in_min cfg))) (seq 1 (Z.to_nat (burn_in_min cfg)))) (LS 0) = LS (x l + x l / IZR (burn_in_min cfg))).
  { destruct (Z.to_nat (burn_in_min cfg)) as [|n] eqn:En; [lia|]. rewrite seq_S, map_app. cbn [map]. rewrite last_last. f_equal. apply G. try rewrite En. reflexivity. }
  rewrite EL. split; [reflexivity|]. intros C. injection C as C. destruct (Hx l Hl) as (_ & _ & Hne).
  assert (Z0 : x l / IZR (burn_in_min cfg) = 0) by lra. apply Rmult_integral in Z0. destruct Z0 as [Z0|Z0]; [contradiction|]. revert Z0. apply Rinv_neq_0_compat. lra.
Qed.
(** The schedule always has an entry for the iteration. *)
Lemma C29_range_lemma w l b x : (1 <= b)%Z -> disp w l = LS x -> x <> 0 ->
  exists steps, annealing_steps w b l = Ok steps /\ forall k, (1 <= k <= b)%Z -> nth_error steps (Z.to_nat k) = Some (x * (IZR k + 1) / IZR b).
Proof.
  intros Hb Hd Hx. unfold annealing_steps. rewrite Hd. cbn [bind]. rewrite arange_spec by assumption. eexists. split; [reflexivity|]. intros k Hk.
  rewrite nth_error_map_seq by lia. rewrite INR_IZR_INZ, Z2Nat.id by lia. reflexivity.
Qed.
