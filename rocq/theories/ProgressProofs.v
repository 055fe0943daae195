(** Runs do not fail as long as the single updates do not: no write to a trace is out of bounds. *)
From Coq Require Import String Permutation.
From Verif Require Import Base BaseR BaseLemmas SpecR Fuzzy Clean Machine Dispatch Inference SpecMachine MachineProofs BuiltProofs InferenceProofs InferenceProofs2 InferenceProofs3 InferenceProofs4 InferenceProofs5 InferenceProofs6 InferenceProofs8 TraceProofs.
Local Open Scope R_scope.

Lemma while_ok {S : Type} (cond : S -> bool) body (J : S -> Prop) :
  (forall s, J s -> cond s = true -> exists s', body s = Some (Ok s') /\ J s') ->
  forall fuel s, J s -> while fuel cond body s <> None -> exists s', while fuel cond body s = Some (Ok s') /\ J s'.
Proof.
  intros H. induction fuel as [|fuel IH]; intros s HJ HN; cbn [while] in *; [contradiction|]. destruct (cond s) eqn:C.
  - destruct (H s HJ C) as (s1 & E & J1). rewrite E in *. apply IH; assumption.
  - exists s. auto.
Qed.

Section Progress.
Context (o : oracle) (cfg : settings) (ms ls : list nat) (I : world -> Prop).
Context (F : fair o) (NM : NoDup ms) (NL : NoDup ls) (Hp : print_step cfg <> 0%nat) (Hw : window cfg <> 0%nat) (Hmin : (0 <= burn_in_min cfg)%Z).
Context (HT : forall w, I w -> I (tick w)) (HA : forall w l x, I w -> In l ls -> anneal w = true -> I (assign_disp w l (LS x))).
Context (HM : forall w i, I w -> In i ms -> exists w', run_mat o w i = Ok w' /\ I w').
Context (HL : forall w l, I w -> In l ls -> exists w', run_lbda w l = Ok w' /\ I w').
Context (HC : forall w, I w -> exists w' b, clean_all w (all_layers w) = Some (Ok (w', b)) /\ I w').
Context (HF : forall w, I w -> exists w', final_clean w (all_layers w) = Some (Ok w') /\ I w').

Lemma sweep_ok s : I (wd s) -> exists s', sweep o ms s = Ok s' /\ I (wd s') /\ same_traces s s'.
Proof.
  intros HI. unfold sweep. set (s1 := note _ _). assert (I1 : I (wd s1)) by (apply HT; exact HI). assert (T1 : same_traces s s1) by (repeat split). clearbody s1. 
  assert (HP : forall i, In i (o_perm o (clock (wd s)) ms) -> In i ms) by (intros i Hi; eapply Permutation_in; [apply F|exact Hi]). clear HI. 
  revert s1 I1 T1 HP. generalize (o_perm o (clock (wd s)) ms). induction l as [|i l IH]; intros s1 I1 T1 HP; cbn [foldM]; [exists s1; auto|].
  unfold call_mat at 1. destruct (HM (wd s1) i I1) as (w' & E & I2); [apply HP; left; reflexivity|]. rewrite E. cbn [bind]. apply IH; [exact I2| |intros j Hj; apply HP; right; exact Hj].
  eapply same_traces_trans; [exact T1|]. repeat split.
Qed.
Lemma lbdas_ok s : I (wd s) -> exists s', update_lbdas ls s = Ok s' /\ I (wd s') /\ same_traces s s'.
Proof.
  unfold update_lbdas. clear NL. assert (G : forall t s, (forall l, In l t -> In l ls) -> I (wd s) -> exists s', foldM call_lbda t s = Ok s' /\ I (wd s') /\ same_traces s s').
  { induction t as [|l t IH]; intros s0 Ht HI; cbn [foldM]; [exists s0; split; [reflexivity|]; split; [exact HI|apply same_traces_refl]|].
    unfold call_lbda at 1. destruct (HL (wd s0) l HI) as (w' & E & I2); [apply Ht; left; reflexivity|]. rewrite E. cbn [bind].
    destruct (IH (note (set_wd s0 w') (ELbda l (disp w' l)))) as (s' & E' & I' & T'); [intros j Hj; apply Ht; right; exact Hj|exact I2|]. exists s'. split; [exact E'|]. split; [exact I'|].
    eapply same_traces_trans; [|exact T']. repeat split. }
  apply G. auto.
Qed.
Lemma traces_l_ok s : (forall l, In l ls -> exists t, ltr s l = Some t /\ (lti s l < List.length (lcells t))%nat) -> exists s', foldM update_trace_l ls s = Ok s'.
Proof.
  revert s. clear HL HA. revert NL. induction ls as [|l t IH]; intros ND s H; cbn [foldM]; [eauto|]. inversion ND as [|? ? Hn ND']; subst.
  destruct (H l) as (tr & E & Hlt); [left; reflexivity|]. unfold update_trace_l at 1. rewrite E, (proj2 (Nat.ltb_lt _ _) Hlt). cbn [bind]. apply IH; [exact ND'|].
  intros j Hj. destruct (H j) as (tr' & E' & Hlt'); [right; exact Hj|]. cbn [ltr lti set_ltr]. unfold fset. destruct (Nat.eqb_spec j l) as [->|]; [contradiction|]. eauto.
Qed.
Lemma anneal_I k ps : forall s s', (forall p, In p ps -> In (fst p) ls) -> foldM (anneal_step k) ps s = Ok s' -> anneal (wd s) = true -> I (wd s) -> I (wd s').
Proof.
  induction ps as [|[l st] ps IH]; intros s s' Hs E Ha HI; cbn [foldM] in E; [injection E as <-; exact HI|]. apply bind_ok in E. destruct E as (s1 & E1 & E). unfold anneal_step in E1. apply bind_ok in E1. destruct E1 as (y & _ & E1). injection E1 as <-.
  eapply IH; [intros q Hq; apply Hs; right; exact Hq|exact E|exact Ha|]. cbn [wd note set_wd]. apply HA; [exact HI|apply (Hs (l, st)); left; reflexivity|exact Ha].
Qed.
Definition sched_of (x : nat -> R) : list rvec := map (fun l => map (fun k => x l * (INR k + 1) / IZR (burn_in_min cfg)) (seq 0 (S (Z.to_nat (burn_in_min cfg))))) ls.
(** What annealing still needs after k rounds. *)
Definition can_anneal (x : nat -> R) (y : Z * list rvec * state) : Prop :=
  let '(k, sched, s) := y in (0 <= k <= burn_in_min cfg)%Z /\ (anneal (wd s) = true -> (Z.max 0 (fix_lbda_iters cfg) < burn_in_min cfg)%Z ->
    fix_lbda_iters cfg = 0%Z /\ if (k =? 0)%Z then forall l, In l ls -> disp (wd s) l = LS (x l) /\ x l <> 0 else sched = sched_of x).
Lemma pre_ok x y : I (wd (snd y)) -> can_anneal x y -> (let '(k, _, _) := y in negb (k =? burn_in_min cfg)%Z) = true -> exists y', pre_body o cfg ms ls y = Ok y' /\ I (wd (snd y')) /\ can_anneal x y'.
Proof.
  destruct y as [[k sched] s]. cbn [snd]. intros HI (Hk & CA) Hc. apply negb_true_iff, Z.eqb_neq in Hc. unfold pre_body. cbv zeta. unfold div_ok. rewrite (proj2 (Nat.eqb_neq _ _) Hp). cbn [bind].
  destruct (sweep_ok s HI) as (s1 & E1 & I1 & _). pose proof (sweep_static _ _ _ _ E1) as (_ & _ & _ & _ & _ & SA). pose proof (sweep_layers _ _ _ _ E1) as SL. rewrite E1. cbn [bind]. destruct (Z.ltb_spec (fix_lbda_iters cfg) (k + 1)) as [Hf|Hf].
  - destruct (anneal (wd s1)) eqn:Ea.
    + destruct CA as (C1 & C2); [congruence|lia|]. rewrite C1. cbn [Z.eqb bind].
      assert (Es : (if (k + 1 =? 0 + 1)%Z then mapM (annealing_steps (wd s1) (burn_in_min cfg)) ls else Ok sched) = Ok (sched_of x)).
      { destruct (Z.eqb_spec k 0) as [->|Hk0]; [|destruct (Z.eqb_spec (k + 1) (0 + 1)); [lia|rewrite C2; reflexivity]].
        change (0 + 1 =? 0 + 1)%Z with true. cbv iota. apply (schedule_spec cfg ls s x); [lia|exact C2|]. intros l Hl. unfold disp, get_lay in *. rewrite SL. apply C2. exact Hl. }
      rewrite Es. cbn [bind]. destruct (anneal_all cfg s1 x ltac:(lia) Ea (k + 1)%Z ls s1 ltac:(lia)) as (s2 & E2 & _). match type of E2 with ?L = _ => match goal with |- context [foldM (anneal_step (k + 1)) ?p s1] => change (foldM (anneal_step (k + 1)) p s1) with L end end. rewrite E2. cbn [bind]. eexists. split; [reflexivity|]. cbn [snd]. split.
      * eapply anneal_I; [|exact E2|exact Ea|exact I1]. intros [l st] Hq. apply in_combine_l in Hq. exact Hq.
      * split; [lia|]. intros _ _. split; [exact C1|]. destruct (Z.eqb_spec (k + 1) 0); [lia|reflexivity].
    + destruct (lbdas_ok s1 I1) as (s2 & E2 & I2 & _). pose proof (update_lbdas_static _ _ _ NL E2) as (_ & _ & _ & _ & _ & SA2). rewrite E2. cbn [bind]. eexists. split; [reflexivity|]. split; [exact I2|]. split; [lia|]. congruence.
  - eexists. split; [reflexivity|]. split; [exact I1|]. split; [lia|]. rewrite SA. intros G1 G2. destruct (CA G1 G2) as (G3 & _). lia.
Qed.
(** Rounds without updates of dispersions come first; then annealing fails if its settings are not right. *)
Lemma pre_fails : forall j fuel k sched s, (j < fuel)%nat -> I (wd s) -> anneal (wd s) = true -> (0 <= k)%Z -> (Z.max 0 (fix_lbda_iters cfg) < burn_in_min cfg)%Z -> (j = Z.to_nat (fix_lbda_iters cfg - k))%nat -> (k <= Z.max 0 (fix_lbda_iters cfg))%Z ->
  (fix_lbda_iters cfg <> 0 \/ exists l, In l ls /\ (disp (wd s) l = LS 0 \/ exists v, disp (wd s) l = LV v))%Z ->
  exists e, while fuel (fun '(k, _, _) => negb (k =? burn_in_min cfg)%Z) (fun x => Some (pre_body o cfg ms ls x)) (k, sched, s) = Some (Err e).
Proof.
  induction j as [|j IH]; intros fuel k sched s Hfu HI Ha Hk Hlt Hj Hm Bad; (destruct fuel as [|fuel]; [lia|]); cbn [while].
  all: assert (Ec : (k =? burn_in_min cfg)%Z = false) by (apply Z.eqb_neq; lia); rewrite Ec; cbn [negb]; unfold pre_body at 1; cbv zeta; unfold div_ok; rewrite (proj2 (Nat.eqb_neq _ _) Hp); cbn [bind].
  all: destruct (sweep_ok s HI) as (s1 & E1 & I1 & _); pose proof (sweep_static _ _ _ _ E1) as (_ & _ & _ & _ & _ & SA); pose proof (sweep_layers _ _ _ _ E1) as SL; rewrite E1; cbn [bind].
  - assert (Ef : (fix_lbda_iters cfg <? k + 1)%Z = true) by (apply Z.ltb_lt; lia). rewrite Ef, SA, Ha. destruct (Z.eqb_spec (fix_lbda_iters cfg) 0) as [E0|E0]; [|cbn [bind]; eauto]. cbn [bind].
    destruct Bad as [Bad|(l & Hl & Hx)]; [contradiction|]. assert (k = 0)%Z by lia. subst k. rewrite E0. change (0 + 1 =? 0 + 1)%Z with true. cbv iota.
    assert (G : exists e, mapM (annealing_steps (wd s1) (burn_in_min cfg)) ls = Err e).
    { assert (GL : exists e, annealing_steps (wd s1) (burn_in_min cfg) l = Err e).
      { unfold annealing_steps, disp, get_lay in *. rewrite SL. destruct Hx as [Hx|(v & Hx)]; rewrite Hx; cbn [bind]; [|eauto]. unfold arange. destruct (Req_EM_T _ 0) as [_|N]; [eauto|]. exfalso. apply N. unfold Rdiv. ring. }
      destruct GL as (e0 & GL). revert Hl GL. generalize ls. clear. induction ls as [|a t IH]; intros Hl GL; [contradiction|]. cbn [mapM]. destruct Hl as [->|Hl]; [rewrite GL; cbn [bind]; eauto|]. destruct (annealing_steps _ _ a); cbn [bind]; [|eauto]. destruct (IH Hl GL) as (e & ->). cbn [bind]. eauto. }
    destruct G as (e & G). rewrite G. cbn [bind]. eauto.
  - assert (Ef : (fix_lbda_iters cfg <? k + 1)%Z = false) by (apply Z.ltb_ge; lia). rewrite Ef. apply IH; [lia|exact I1|congruence|lia|exact Hlt|lia|lia|]. destruct Bad as [Bad|(l & Hl & Hx)]; [left; exact Bad|right]. exists l. split; [exact Hl|]. unfold disp, get_lay in *. rewrite SL. exact Hx.
Qed.
Lemma burn_in_fails fuel s : (enough cfg <= fuel)%nat -> I (wd s) -> anneal (wd s) = true -> (Z.max 0 (fix_lbda_iters cfg) < burn_in_min cfg)%Z ->
  (fix_lbda_iters cfg <> 0 \/ exists l, In l ls /\ (disp (wd s) l = LS 0 \/ exists v, disp (wd s) l = LV v))%Z -> exists e, burn_in fuel o cfg ms ls s = Some (Err e).
Proof.
  intros Hf HI Ha Hlt Bad. unfold enough in Hf. unfold burn_in. destruct (pre_fails (Z.to_nat (fix_lbda_iters cfg)) fuel 0 [] s) as (e & E); [lia|exact HI|exact Ha|lia|exact Hlt|f_equal; lia|lia|exact Bad|]. rewrite E. eauto.
Qed.
Let w := window cfg.
Definition room (k : nat) (s : state) : Prop := forall l, In l ls -> exists t, ltr s l = Some t /\ List.length (lcells t) = w /\ (lti s l <= k)%nat.
Lemma check_all_ok s : (forall l, In l ls -> exists t, ltr s l = Some t) -> exists s1 b, check_all o ls (eps cfg) s = Ok (s1, b).
Proof.
  clear HL HA NL. revert s. induction ls as [|l t IH]; intros s H; cbn [check_all]; [eauto|]. destruct (H l) as (tr & E); [left; reflexivity|]. rewrite E.
  destruct (IH (note s (ECheck l (lcells tr)))) as (s1 & b & E1); [intros j Hj; apply H; right; exact Hj|]. rewrite E1. cbn [bind]. eauto.
Qed.
Lemma main_ok pre x : (let '(k, stop, s) := x in I (wd s) /\ (stop = false -> room (pos w k) s)) -> (let '(_, stop, _) := x in negb stop) = true ->
  exists x', main_body o cfg ms ls pre x = Some (Ok x') /\ (let '(k, stop, s) := x' in I (wd s) /\ (stop = false -> room (pos w k) s)).
Proof.
  destruct x as [[k stop] s]. intros [HI HR] Hs. apply negb_true_iff in Hs. specialize (HR Hs). subst stop. unfold main_body. cbv zeta. unfold div_ok. rewrite (proj2 (Nat.eqb_neq _ _) Hp), (proj2 (Nat.eqb_neq _ _) Hw).
  assert (GO : forall sA, I (wd sA) -> room (if Nat.eqb (Nat.modulo (S k) w) 0 then 0 else pos w k) sA ->
    exists x', (if (burn_in_max cfg <? Z.of_nat (S k) + pre)%Z then
      match final_clean (wd sA) (all_layers (wd sA)) with
      | None => None
      | Some (Err e) => Some (Err e)
      | Some (Ok w) => Some (Ok (S k, true, set_iters (fold_left rewind_l ls (set_wd sA w)) (Z.of_nat (S k))))
      end
    else Some (bind (sweep o ms sA) (fun s1 => bind (update_lbdas ls s1) (fun s2 =>
               bind (foldM update_trace_l ls s2) (fun s3 => Ok (S k, false, s3)))))) = Some (Ok x') /\ (let '(k, stop, s) := x' in I (wd s) /\ (stop = false -> room (pos w k) s))).
  { intros sA IA RA. destruct (_ <? _)%Z.
    - destruct (HF _ IA) as (w' & E & I'). rewrite E. eexists. split; [reflexivity|]. split; [|discriminate]. cbn [wd set_iters]. destruct (rewind_spec ls (set_wd sA w')) as ((R1 & _) & _). cbv zeta in R1. rewrite R1. exact I'.
    - destruct (sweep_ok sA IA) as (s1 & E1 & I1 & (a1 & a2 & a3 & a4 & a5)). rewrite E1. cbn [bind]. destruct (lbdas_ok s1 I1) as (s2 & E2 & I2 & (b1 & b2 & b3 & b4 & b5)). rewrite E2. cbn [bind].
      assert (Hw0 : (0 < w)%nat) by (unfold w; lia).
      assert (Hpos : ((if Nat.eqb (Nat.modulo (S k) w) 0 then 0 else pos w k) < w)%nat /\ pos w (S k) = S (if Nat.eqb (Nat.modulo (S k) w) 0 then 0 else pos w k)).
      { destruct (Nat.eqb_spec (Nat.modulo (S k) w) 0) as [Em|Em]; [split; [exact Hw0|apply (pos_check w k Hw0 Em)]|apply pos_next; assumption]. }
      destruct (traces_l_ok s2) as (s3 & E3).
      { intros l Hl. destruct (RA l Hl) as (t & t1 & t2 & t3). exists t. rewrite b3, a3, b4, a4. split; [exact t1|]. lia. }
      rewrite E3. cbn [bind]. eexists. split; [reflexivity|]. apply update_trace_l_spec in E3; [|exact NL]. destruct E3 as ((D1 & _) & _ & D7). split; [rewrite D1; exact I2|]. intros _ l Hl.
      destruct (RA l Hl) as (t & t1 & t2 & t3). destruct (D7 l Hl) as (t' & d1 & d2 & d3 & d4). rewrite b3, a3, t1 in d1. injection d1 as <-. eexists. split; [exact d3|]. cbn [lcells]. rewrite upd_length.
      split; [exact t2|]. rewrite d4, b4, a4. destruct Hpos as [_ ->]. lia. }
  fold w. destruct (Nat.eqb (Nat.modulo (S k) w) 0).
  - destruct (rewind_spec ls s) as ((R1 & R2 & R3 & R4 & R5) & R6 & R7). cbv zeta in *.
    destruct (check_all_ok (fold_left rewind_l ls s)) as (s1 & conv & E1).
    { intros l Hl. destruct (HR l Hl) as (t & t1 & _). exists t. rewrite R6. exact t1. }
    rewrite E1. apply check_all_spec in E1. destruct E1 as (G1 & (G2 & G3 & G4 & G5 & G6) & _).
    assert (I1 : I (wd s1)) by (rewrite G1, R1; exact HI).
    destruct conv.
    + destruct (HC _ I1) as (w' & b & E & I'). rewrite E. destruct b.
      * match goal with |- context [fold_left rewind_l ls ?x] => set (sa := x); destruct (rewind_spec ls sa) as ((Q1 & Q2 & Q3 & Q4 & Q5) & Q6 & Q7) end. cbv zeta in *.
        destruct (allocate_spec w ls (set_wd s1 w')) as ((A1 & _) & A6 & A7). cbv zeta in *. fold w in sa. fold sa in A1, A6, A7.
        apply GO; [rewrite Q1, A1; exact I'|]. intros l Hl. rewrite Q6, A7, (proj2 (existsb_in l ls) Hl), Q7, (proj2 (existsb_in l ls) Hl). eexists. split; [reflexivity|]. cbn [lcells]. rewrite repeat_length. split; [reflexivity|lia].
      * eexists. split; [reflexivity|]. split; [exact I'|discriminate].
    + apply GO; [exact I1|]. intros l Hl. destruct (HR l Hl) as (t & t1 & t2 & _). exists t. rewrite G4, R6, G5, R7, (proj2 (existsb_in l ls) Hl). split; [exact t1|]. split; [exact t2|lia].
  - apply GO; [exact HI|exact HR].
Qed.

Lemma burn_in_ok fuel s : (enough cfg <= fuel)%nat -> I (wd s) ->
  (anneal (wd s) = true -> (Z.max 0 (fix_lbda_iters cfg) < burn_in_min cfg)%Z -> fix_lbda_iters cfg = 0%Z /\ forall l, In l ls -> exists x, disp (wd s) l = LS x /\ x <> 0) ->
  exists s', burn_in fuel o cfg ms ls s = Some (Ok s') /\ I (wd s').
Proof.
  intros Hf HI HN0. set (x := fun l => match disp (wd s) l with LS x => x | LV _ => 0 end). pose proof (C26_terminates_lemma o cfg ms ls s fuel Hmin Hf) as HN. unfold burn_in in *.
  destruct (while_ok (fun '(k, _, _) => negb (k =? burn_in_min cfg)%Z) (fun x => Some (pre_body o cfg ms ls x)) (fun y => I (wd (snd y)) /\ can_anneal x y)) with (fuel := fuel) (s := (0%Z, @nil rvec, s)) as ([[pre sched] s1] & E1 & I1 & _).
  - intros y (Hy & Cy) Hc. destruct (pre_ok x y Hy Cy Hc) as (y' & E & I'). rewrite E. eauto.
  - split; [exact HI|]. split; [lia|]. intros G1 G2. destruct (HN0 G1 G2) as (G3 & G4). split; [exact G3|]. cbn [Z.eqb]. intros l Hl. destruct (G4 l Hl) as (y & G5 & G6). unfold x. rewrite G5. auto.
  - intros C. rewrite C in HN. contradiction.
  - rewrite E1 in *. cbn [snd] in I1. match goal with |- context [while fuel _ _ (0%nat, false, ?s0)] => set (s2 := s0) in * end.
    destruct (rewind_spec ls (fold_left (allocate_l (window cfg)) ls s1)) as ((Q1 & _) & Q6 & Q7). destruct (allocate_spec w ls s1) as ((A1 & _) & A6 & A7). cbv zeta in *. fold w in Q1, Q6, Q7.
    destruct (while_ok (fun '(_, stop, _) => negb stop) (main_body o cfg ms ls pre) (fun '(k, stop, s) => I (wd s) /\ (stop = false -> room (pos w k) s))) with (fuel := fuel) (s := (0%nat, false, s2)) as ([[k2 st] s3] & E3 & I3).
    + intros y Hy Hc. apply main_ok; assumption.
    + unfold s2. fold w. split; [rewrite Q1, A1; exact I1|]. intros _ l Hl. rewrite Q6, A7, (proj2 (existsb_in l ls) Hl), Q7, (proj2 (existsb_in l ls) Hl). eexists. split; [reflexivity|]. cbn [lcells]. rewrite repeat_length. split; [reflexivity|lia].
    + intros C. rewrite C in HN. contradiction.
    + rewrite E3. eexists. split; [reflexivity|]. apply I3.
Qed.

(** ** Sampling *)
Context (HO : forall w i, I w -> In i ms -> layer_of (get_mat w i) <> None /\ is_ibp w i = false).
Definition mroom (n t : nat) (s : state) : Prop := forall i, In i ms -> mti s i = t /\ exists tr, mtr s i = Some tr /\ List.length (mcells tr) = n /\ mwidth tr = None.
Definition lroom (n t : nat) (s : state) : Prop := forall l, In l ls -> lti s l = t /\ exists tr, ltr s l = Some tr /\ List.length (lcells tr) = n.
Lemma traces_m_ok n t s : (t < n)%nat -> mroom n t s -> exists s', foldM update_trace_m ms s = Ok s'.
Proof.
  intros Ht. unfold mroom. clear HM HO. revert s. revert NM. induction ms as [|i l IH]; intros ND s H; cbn [foldM]; [eauto|]. inversion ND as [|? ? Hn ND']; subst.
  destruct (H i) as (E0 & tr & E & L & W); [left; reflexivity|]. unfold update_trace_m at 1. rewrite E, E0, (proj2 (Nat.ltb_lt _ _)) by lia. rewrite W.
  assert (Em : exists v, match nth t (mcells tr) None with Some (A2 _) | _ => Ok (value (wd s) i) end = Ok v) by (destruct (nth t (mcells tr) None) as [[?|?]|]; eauto).
  destruct Em as (v & Em). rewrite Em. cbn [bind]. apply IH; [exact ND'|].
  intros j Hj. cbn [mtr mti set_mtr]. unfold fset. destruct (Nat.eqb_spec j i) as [->|]; [contradiction|]. apply H. right. exact Hj.
Qed.
Lemma samples_ok n : forall k t s, (t + k = n)%nat -> I (wd s) -> mroom n t s -> lroom n t s -> exists s', samples k o cfg ms ls s = Ok s' /\ I (wd s').
Proof.
  induction k as [|k IH]; intros t s Hk HI RM RL; cbn [samples]; [eauto|]. unfold sample_body.
  destruct (sweep_ok s HI) as (s1 & E1 & I1 & (a1 & a2 & a3 & a4 & a5)). rewrite E1. cbn [bind].
  assert (RM1 : mroom n t s1) by (intros i Hi; rewrite a1, a2; apply RM; exact Hi).
  destruct (traces_m_ok n t s1) as (s2 & E2); [lia|exact RM1|]. rewrite E2. cbn [bind]. apply update_trace_m_spec in E2; [|exact NM]. destruct E2 as ((B1 & B2 & B3 & B4 & B5) & _ & B6).
  destruct (lbdas_ok s2) as (s3 & E3 & I3 & (c1 & c2 & c3 & c4 & c5)); [rewrite B1; exact I1|]. rewrite E3. cbn [bind].
  assert (RL3 : lroom n t s3) by (intros l Hl; rewrite c3, c4, B2, B3, a3, a4; apply RL; exact Hl).
  destruct (traces_l_ok s3) as (s4 & E4). { intros l Hl. destruct (RL3 l Hl) as (X1 & tr & X2 & X3). exists tr. split; [exact X2|]. lia. }
  rewrite E4. cbn [bind]. unfold div_ok. rewrite (proj2 (Nat.eqb_neq _ _) Hp). cbn [bind]. apply update_trace_l_spec in E4; [|exact NL]. destruct E4 as ((D1 & D2 & D3 & D4 & D5) & _ & D6).
  apply (IH (S t)); [lia|rewrite D1; exact I3| |].
  - intros i Hi. destruct (B6 i Hi) as (tr & x & X1 & _ & _ & X4 & X5). destruct (RM1 i Hi) as (Y1 & tr' & Y2 & Y3 & Y4). rewrite X1 in Y2. injection Y2 as <-. rewrite D2, D3, c1, c2, X5, X4, Y1. split; [reflexivity|].
    eexists. split; [reflexivity|]. cbn [mcells mwidth]. rewrite upd_length. auto.
  - intros l Hl. destruct (D6 l Hl) as (tr & X1 & _ & X3 & X4). destruct (RL3 l Hl) as (Y1 & tr' & Y2 & Y3). rewrite X1 in Y2. injection Y2 as <-. rewrite X4, X3, Y1. split; [reflexivity|].
    eexists. split; [reflexivity|]. cbn [lcells]. rewrite upd_length. exact Y3.
Qed.
Lemma allocate_ok n s : I (wd s) -> exists s', foldM (allocate_m n) ms s = Ok s'.
Proof.
  clear NM HM. intros HI. revert s HI. induction ms as [|i l IH]; intros s HI; cbn [foldM]; [eauto|]. unfold allocate_m at 1. destruct (HO (wd s) i HI) as (H1 & H2); [left; reflexivity|].
  unfold own_layer. destruct (layer_of (get_mat (wd s) i)); [|contradiction]. cbn [bind]. rewrite H2. cbn [bind]. apply IH; [|exact HI]. intros w0 j Hw0 Hj. apply HO; [exact Hw0|right; exact Hj].
Qed.
Lemma sampling_ok n s : I (wd s) -> (forall i, In i ms -> mti s i = 0%nat) -> (forall l, In l ls -> lti s l = 0%nat) ->
  exists s', bind (foldM (allocate_m n) ms s) (fun s3 => samples n o cfg ms ls (fold_left (allocate_l n) ls s3)) = Ok s' /\ I (wd s').
Proof.
  intros HI Hm0 Hl0. destruct (allocate_ok n s HI) as (s3 & E3). rewrite E3. cbn [bind]. apply allocate_m_spec in E3. destruct E3 as ((A1 & A2 & A3 & A4 & A5) & A6 & A7).
  destruct (allocate_spec n ls s3) as ((D1 & D2 & D3 & D4 & D5) & D6 & D7). cbv zeta in *. apply (samples_ok n n 0); [lia|rewrite D1, A1; exact HI| |].
  - intros i Hi. rewrite D3, A6, D2. split; [apply Hm0; exact Hi|]. destruct (A7 i Hi) as (_ & G). rewrite (proj2 (HO _ i HI Hi)) in G. eexists. split; [exact G|]. cbn. split; [apply repeat_length|reflexivity].
  - intros l Hl. rewrite D6, A3, D7, (proj2 (existsb_in l ls) Hl). split; [apply Hl0; exact Hl|]. eexists. split; [reflexivity|]. apply repeat_length.
Qed.
End Progress.
