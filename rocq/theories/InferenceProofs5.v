(** C26, C27, C28, C63: the invariant of the monitored part of burn-in, and burn-in as a whole. *)
From Coq Require Import String Permutation.
From Verif Require Import Base BaseR BaseLemmas BaseRLemmas SpecR SpecClean Fuzzy Clean Machine Dispatch Inference SpecMachine MachineProofs InferenceProofs InferenceProofs2 InferenceProofs3 InferenceProofs4.
Local Open Scope R_scope.

(** ** Reading logs *)
Lemma values_of_app l a b : values_of l (a ++ b) = (values_of l a ++ values_of l b)%list.
Proof. induction a as [|e a IH]; [reflexivity|]. destruct e; cbn; rewrite ?IH; try reflexivity. destruct (Nat.eqb _ _); reflexivity. Qed.
Lemma sweeps_app a b : sweeps (a ++ b) = (sweeps a + sweeps b)%nat.
Proof. induction a as [|e a IH]; [reflexivity|]. destruct e; cbn; rewrite ?IH; reflexivity. Qed.
Lemma no_check_app a b : no_check (a ++ b) <-> no_check a /\ no_check b.
Proof. unfold no_check. rewrite forallb_app, andb_true_iff. reflexivity. Qed.
Lemma values_of_flat l (f : nat -> event) ls : (forall j v, f j <> ELbda l v) -> values_of l (map f ls) = [].
Proof.
  intros H. induction ls as [|j ls IH]; [reflexivity|]. cbn [map values_of]. destruct (f j) eqn:E; try exact IH.
  destruct (Nat.eqb_spec l0 l) as [->|]; [exfalso; eapply H; exact E|exact IH].
Qed.
Lemma sweeps_map (f : nat -> event) ls : (forall j, f j <> ESweep) -> sweeps (map f ls) = 0%nat.
Proof. intros H. induction ls as [|j ls IH]; [reflexivity|]. cbn [map sweeps]. destruct (f j) eqn:E; try exact IH. exfalso. eapply H. exact E. Qed.
Lemma no_check_map (f : nat -> event) ls : (forall j l w, f j <> ECheck l w) -> no_check (map f ls).
Proof. intros H. unfold no_check. apply forallb_forall. intros e He. apply in_map_iff in He. destruct He as (j & <- & _). destruct (f j) eqn:E; try reflexivity. exfalso. eapply H. exact E. Qed.
Lemma dispersions_values ls v l : NoDup ls -> In l ls -> values_of l (map (fun l => ELbda l (v l)) ls) = [v l].
Proof.
  induction ls as [|j ls IH]; intros ND Hl; [contradiction|]. inversion ND as [|? ? Hn ND']; subst. cbn [map values_of].
  destruct (Nat.eqb_spec j l) as [->|Hj].
  - f_equal. clear IH ND ND' Hl. induction ls as [|i ls IH]; [reflexivity|]. cbn [map values_of]. destruct (Nat.eqb_spec i l) as [->|]; [exfalso; apply Hn; left; reflexivity|].
    apply IH. intros C. apply Hn. right. exact C.
  - destruct Hl as [->|Hl]; [contradiction|]. apply IH; assumption.
Qed.
Lemma pass_facts ms a : pass ms a -> (forall l, values_of l a = []) /\ sweeps a = 1%nat /\ no_check a.
Proof.
  intros (p & _ & ->). split; [intros l; cbn; apply values_of_flat; discriminate|]. split; [cbn; rewrite sweeps_map by discriminate; reflexivity|].
  apply (no_check_app [ESweep] (map EMat p)). split; [reflexivity|]. apply no_check_map. discriminate.
Qed.
Lemma full_sweep_facts ms ls b : full_sweep ms ls b -> sweeps b = 1%nat /\ no_check b.
Proof.
  intros (a & d & -> & Ha & v & ->). destruct (pass_facts _ _ Ha) as (_ & H1 & H2). rewrite sweeps_app, sweeps_map, H1 by discriminate. split; [reflexivity|].
  apply no_check_app. split; [exact H2|]. apply no_check_map. discriminate.
Qed.
Lemma checks_facts ls w k c : checks ls w k c -> sweeps c = 0%nat /\ forall l, values_of l c = [].
Proof.
  unfold checks. destruct (Nat.eqb _ _).
  - intros (win & ->). split; [apply sweeps_map; discriminate|]. intros l. apply values_of_flat. discriminate.
  - intros ->. split; reflexivity.
Qed.
Lemma rounds_sweeps ms ls w k evs : rounds ms ls w k evs -> sweeps evs = k.
Proof.
  induction 1 as [|k evs c b _ IH Hc Hb]; [reflexivity|]. rewrite !sweeps_app, IH, (proj1 (checks_facts _ _ _ _ Hc)), (proj1 (full_sweep_facts _ _ _ Hb)). lia.
Qed.
Lemma pre_rounds_facts ms ls f an k evs : pre_rounds ms ls f an k evs -> sweeps evs = k /\ no_check evs.
Proof.
  induction 1 as [|k evs a b _ [IH1 IH2] Ha Hb]; [split; reflexivity|]. destruct (pass_facts _ _ Ha) as (_ & H1 & H2).
  assert (Hb' : sweeps b = 0%nat /\ no_check b).
  { destruct (_ <? _)%Z; [|subst b; split; reflexivity]. destruct an; destruct Hb as (v & ->); (split; [apply sweeps_map; discriminate|apply no_check_map; discriminate]). }
  rewrite !sweeps_app, IH1, H1, (proj1 Hb'). split; [lia|]. apply no_check_app. split; [exact IH2|]. apply no_check_app. split; [exact H2|exact (proj2 Hb')].
Qed.
Lemma full_sweeps_facts ms ls k evs : full_sweeps ms ls k evs -> sweeps evs = k /\ no_check evs.
Proof.
  induction 1 as [|k evs b _ [IH1 IH2] Hb]; [split; reflexivity|]. destruct (full_sweep_facts _ _ _ Hb) as [H1 H2]. rewrite sweeps_app, IH1, H1. split; [lia|].
  apply no_check_app. auto.
Qed.

(** ** Windows *)
Lemma checks_ok_no_check w evs b : checks_ok w evs -> no_check b -> checks_ok w (evs ++ b).
Proof.
  intros H Hb a l win c E. destruct (app_eq_app _ _ _ _ E) as (z & [[E1 E2]|[E1 E2]]).
  - destruct z as [|e z]; cbn in E2; [|injection E2 as <- E2; apply (H a l win z); exact E1].
    exfalso. unfold no_check in Hb. rewrite <- E2 in Hb. discriminate.
  - exfalso. unfold no_check in Hb. rewrite E2, forallb_app in Hb. cbn in Hb. rewrite andb_false_r in Hb. discriminate.
Qed.
Lemma checks_ok_checks w evs ls win : checks_ok w evs -> (forall l, In l ls -> recorded w (values_of l evs) (win l) \/ one_missing w (values_of l evs) (win l)) ->
  checks_ok w (evs ++ map (fun l => ECheck l (win l)) ls).
Proof.
  intros H HW a l wi c E. destruct (app_eq_app _ _ _ _ E) as (z & [[E1 E2]|[E1 E2]]).
  - destruct z as [|e z]; cbn in E2; [|injection E2 as <- E2; apply (H a l wi z); exact E1].
    rewrite app_nil_r in E1. subst a. destruct ls as [|j ls]; [discriminate|]. cbn in E2. injection E2 as -> -> _. apply HW. left. reflexivity.
  - subst a. rewrite values_of_app. assert (Hz : values_of l z = []).
    { clear - E2. revert ls E2. induction z as [|e z IH]; intros ls E2; [reflexivity|]. destruct ls as [|j ls]; [discriminate|]. cbn in E2. injection E2 as <- E2. cbn. eapply IH. exact E2. }
    rewrite Hz, app_nil_r. assert (Hin : In (ECheck l wi) (map (fun l => ECheck l (win l)) ls)) by (rewrite E2; apply in_or_app; right; left; reflexivity).
    apply in_map_iff in Hin. destruct Hin as (j & Ej & Hj). injection Ej as -> <-. apply HW. exact Hj.
Qed.
Lemma last_n_all {A} n (l : list A) : (List.length l <= n)%nat -> last_n n l = l.
Proof. intros H. unfold last_n. replace (List.length l - n)%nat with 0%nat by lia. reflexivity. Qed.
Lemma last_n_snoc {A} n (l : list A) x : (n <= List.length l)%nat -> last_n (S n) (l ++ [x]) = (last_n n l ++ [x])%list.
Proof.
  intros H. unfold last_n. rewrite app_length. cbn [List.length]. replace (List.length l + 1 - S n)%nat with (List.length l - n)%nat by lia.
  rewrite skipn_app. replace (List.length l - n - List.length l)%nat with 0%nat by lia. reflexivity.
Qed.
Lemma firstn_upd {A} (l : list A) q x : (q < List.length l)%nat -> firstn (S q) (upd l q x) = (firstn q l ++ [x])%list.
Proof.
  revert q. induction l as [|a l IH]; intros q Hq; [cbn in Hq; lia|]. destruct q as [|q]; [reflexivity|]. cbn [upd firstn app]. f_equal. 
  cbn in Hq. apply (IH q). lia.
Qed.
Lemma skipn_upd {A} (l : list A) q x n : (q < n)%nat -> skipn n (upd l q x) = skipn n l.
Proof.
  revert q n. induction l as [|a l IH]; intros q n Hq; [destruct n; reflexivity|]. destruct n as [|n]; [lia|]. destruct q as [|q]; [reflexivity|]. cbn [upd skipn]. apply IH. lia.
Qed.
Lemma skipn_S {A} (l : list A) : forall n, skipn (S n) l = tl (skipn n l).
Proof. induction l as [|a l IH]; intros n; [destruct n; reflexivity|]. destruct n as [|n]; [reflexivity|]. change (skipn (S n) l = tl (skipn n l)). apply IH. Qed.
(** Number of entries written since the last rewind, after k rounds. *)
Definition pos (w k : nat) : nat := if Nat.ltb k w then k else S (Nat.modulo k w).
Lemma pos_next w k : (0 < w)%nat -> Nat.modulo (S k) w <> 0%nat -> (pos w k < w)%nat /\ pos w (S k) = S (pos w k).
Proof.
  intros Hw Hm. pose proof (Nat.div_mod k w ltac:(lia)) as E. pose proof (Nat.mod_upper_bound k w ltac:(lia)) as B.
  assert (G : (Nat.modulo k w + 1 < w)%nat /\ Nat.modulo (S k) w = (Nat.modulo k w + 1)%nat).
  { set (q := Nat.div k w) in *. set (r := Nat.modulo k w) in *. destruct (Nat.eq_dec (r + 1) w) as [e|].
    - exfalso. apply Hm. rewrite E. replace (S (w * q + r))%nat with ((q + 1) * w)%nat by nia. apply Nat.mod_mul. lia.
    - split; [lia|]. symmetry. apply (Nat.mod_unique _ _ q); lia. }
  unfold pos. destruct (Nat.ltb_spec k w); destruct (Nat.ltb_spec (S k) w).
  - lia.
  - exfalso. apply Hm. replace (S k) with w by lia. apply Nat.mod_same. lia.
  - lia.
  - lia.
Qed.
Lemma pos_check w k : (0 < w)%nat -> Nat.modulo (S k) w = 0%nat -> pos w (S k) = 1%nat /\ ((k < w /\ S k = w) \/ (w <= k /\ pos w k = w))%nat.
Proof.
  intros Hw Hm. unfold pos. destruct (Nat.ltb_spec (S k) w).
  - exfalso. rewrite Nat.mod_small in Hm by lia. discriminate.
  - rewrite Hm. split; [reflexivity|]. destruct (Nat.ltb_spec k w); [left; lia|right]. split; [lia|].
    pose proof (Nat.div_mod k w ltac:(lia)) as E. pose proof (Nat.mod_upper_bound k w ltac:(lia)) as B.
    pose proof (Nat.div_mod (S k) w ltac:(lia)) as E'. rewrite Hm in E'.
    set (q := Nat.div k w) in *. set (q' := Nat.div (S k) w) in *. set (r := Nat.modulo k w) in *. clearbody q q' r.
    assert (w * q < w * q')%nat by lia. assert (w * q' <= w * S q)%nat by (rewrite Nat.mul_succ_r; lia).
    assert (q < q')%nat by (apply (Nat.mul_lt_mono_pos_l w); lia). assert (q' <= S q)%nat by (apply (Nat.mul_le_mono_pos_l _ _ w); lia).
    replace q' with (S q) in * by lia. rewrite Nat.mul_succ_r in *. lia.
Qed.
Lemma pos_le w k : (0 < w)%nat -> (pos w k <= w)%nat /\ (pos w k <= k)%nat.
Proof. intros Hw. pose proof (Nat.mod_upper_bound k w ltac:(lia)). unfold pos. destruct (Nat.ltb_spec k w); lia. Qed.

Section Main.
Context (o : oracle) (cfg : settings) (ms ls : list nat) (pre : Z) (s1 : state) (F : fair o) (ND : NoDup ls).
Let w := window cfg.

(** State of the traces when p entries have been written since the last rewind, in k rounds. *)
Definition traces_ok (k p : nat) (evs : list event) (s : state) : Prop :=
  forall l, In l ls -> exists t, ltr s l = Some t /\ lti s l = p /\ List.length (lcells t) = w /\
    List.length (values_of l evs) = k /\ firstn p (lcells t) = map Some (last_n p (values_of l evs)) /\
    ((k < w)%nat -> skipn k (lcells t) = repeat None (w - k)) /\
    (1 <= width (disp (wd s) l) <= match lwidth t with None => 1 | Some n => n end)%nat.
Definition main_inv (x : nat * bool * state) : Prop :=
  let '(k, stop, s) := x in
  static (wd s1) (wd s) /\ mtr s = mtr s1 /\ mti s = mti s1 /\ (forall l, In l ls -> (1 <= width (disp (wd s) l))%nat) /\
  if stop then exists k' evs last, k = S k' /\ rounds ms ls w k' evs /\ checks ls w k last /\ log s = (log s1 ++ evs ++ last)%list /\ checks_ok w (evs ++ last) /\
                 (k' = 0%nat \/ (Z.of_nat k' + pre <= burn_in_max cfg)%Z) /\ (forall l, In l ls -> lti s l = 0%nat) /\
                 ((iters s = Some (Z.of_nat k + pre)%Z /\ Nat.modulo k w = 0%nat /\ ended_by_convergence cfg ls (wd s) last) \/
                  (iters s = Some (Z.of_nat k) /\ (burn_in_max cfg < Z.of_nat k + pre)%Z))
  else exists evs, rounds ms ls w k evs /\ log s = (log s1 ++ evs)%list /\ checks_ok w evs /\ traces_ok k (pos w k) evs s /\
                   (k = 0%nat \/ (Z.of_nat k + pre <= burn_in_max cfg)%Z).

Lemma window_seen k evs s l t : (0 < w)%nat -> Nat.modulo (S k) w = 0%nat -> traces_ok k (pos w k) evs s -> In l ls -> ltr s l = Some t ->
  recorded w (values_of l evs) (lcells t) \/ one_missing w (values_of l evs) (lcells t).
Proof.
  intros Hw Hm HT Hl Et. destruct (HT l Hl) as (t' & E & _ & Hlen & Hk & Hf & Hs & _). rewrite Et in E. injection E as <-.
  destruct (pos_check w k Hw Hm) as [_ [[H1 H2]|[H1 H2]]].
  - right. split; [lia|]. rewrite <- (firstn_skipn k (lcells t)). rewrite Hs by exact H1. replace (w - k)%nat with 1%nat by lia.
    assert (Ep : pos w k = k) by (unfold pos; rewrite (proj2 (Nat.ltb_lt _ _) H1); reflexivity). rewrite Ep in Hf. rewrite Hf, last_n_all by lia. reflexivity.
  - left. split; [lia|]. rewrite H2 in Hf. rewrite <- Hf. rewrite firstn_all2 by lia. reflexivity.
Qed.
Lemma mid_inv k evs s sA : (0 < w)%nat -> main_inv (k, false, s) -> rounds ms ls w k evs -> log s = (log s1 ++ evs)%list -> checks_ok w evs -> traces_ok k (pos w k) evs s ->
  mid o cfg ls (S k) s sA ->
  static (wd s) (wd sA) /\ mtr sA = mtr s /\ mti sA = mti s /\ exists c, checks ls w (S k) c /\ log sA = (log s1 ++ evs ++ c)%list /\ checks_ok w (evs ++ c) /\
    traces_ok k (if Nat.eqb (Nat.modulo (S k) w) 0 then 0 else pos w k) (evs ++ c) sA.
Proof.
  intros Hw (_ & _ & _ & HW & _) HR HL HC HT HM.
  assert (CK : forall sc b, Nat.modulo (S k) w = 0%nat -> check_all o ls (eps cfg) (fold_left rewind_l ls s) = Ok (sc, b) ->
    wd sc = wd s /\ mtr sc = mtr s /\ mti sc = mti s /\ (forall l, ltr sc l = ltr s l) /\ (forall l, In l ls -> lti sc l = 0%nat) /\
    exists c, checks ls w (S k) c /\ log sc = (log s1 ++ evs ++ c)%list /\ checks_ok w (evs ++ c) /\ (forall l, values_of l (evs ++ c) = values_of l evs)).
  { intros sc b Hm E. destruct (rewind_spec ls s) as ((R1 & R2 & R3 & R4 & R5) & R6 & R7). cbv zeta in *. apply check_all_spec in E. destruct E as (E1 & (E2 & E3 & E4 & E5 & E6) & Ex & EL & _).
    split; [congruence|]. split; [congruence|]. split; [congruence|]. split; [intros l; rewrite E4; apply R6|].
    split; [intros l Hl; rewrite E5, R7, (proj2 (existsb_in l ls) Hl); reflexivity|].
    eexists. split; [|split; [|split]].
    - unfold checks. rewrite Hm. cbn [Nat.eqb]. eexists. reflexivity.
    - rewrite EL, R5, HL, <- app_assoc. reflexivity.
    - apply checks_ok_checks; [exact HC|]. intros l Hl. destruct (HT l Hl) as (t & Et & _). rewrite R6, Et. eapply window_seen; eassumption.
    - intros l. rewrite values_of_app, values_of_flat by discriminate. apply app_nil_r. }
  destruct HM as [Hm|sc Hm E|sc w' Hm E Ecl]; fold w in Hm.
  - split; [apply static_refl|]. split; [reflexivity|]. split; [reflexivity|]. exists []. rewrite !app_nil_r. rewrite (proj2 (Nat.eqb_neq _ _) Hm).
    split; [unfold checks; rewrite (proj2 (Nat.eqb_neq _ _) Hm); reflexivity|]. auto.
  - destruct (CK _ _ Hm E) as (E1 & E2 & E3 & E4 & E5 & c & C1 & C2 & C3 & C4). rewrite E1. split; [apply static_refl|]. split; [exact E2|]. split; [exact E3|].
    exists c. split; [exact C1|]. split; [exact C2|]. split; [exact C3|]. rewrite Hm. cbn [Nat.eqb]. intros l Hl. destruct (HT l Hl) as (t & T1 & T2 & T3 & T4 & T5 & T6 & T7).
    exists t. rewrite E4, C4, E1, (E5 l Hl). cbn [firstn]. unfold last_n. rewrite Nat.sub_0_r, skipn_all. repeat split; try assumption; apply T7.
  - destruct (CK _ _ Hm E) as (E1 & E2 & E3 & E4 & E5 & c & C1 & C2 & C3 & C4).
    destruct (allocate_spec (window cfg) ls (set_wd sc w')) as ((A1 & A2 & A3 & A4 & A5) & A6 & A7). cbv zeta in *.
    destruct (rewind_spec ls (fold_left (allocate_l (window cfg)) ls (set_wd sc w'))) as ((R1 & R2 & R3 & R4 & R5) & R6 & R7). cbv zeta in *.
    cbn [wd set_wd mtr mti log] in *. split; [rewrite R1, A1, <- E1; eapply clean_all_static; exact Ecl|]. split; [congruence|]. split; [congruence|].
    exists c. split; [exact C1|]. split; [congruence|]. split; [exact C3|]. rewrite Hm. cbn [Nat.eqb]. intros l Hl. destruct (HT l Hl) as (t & T1 & T2 & T3 & T4 & T5 & T6 & T7).
    rewrite R6, A7, R7, (proj2 (existsb_in l ls) Hl), C4, R1, A1. eexists. split; [reflexivity|]. split; [reflexivity|]. cbn [lcells lwidth]. split; [apply repeat_length|].
    split; [exact T4|]. split; [cbn [firstn]; unfold last_n; rewrite Nat.sub_0_r, skipn_all; reflexivity|]. split.
    + intros Hk. fold w. replace w with (k + (w - k))%nat at 1 by lia. rewrite repeat_app, skipn_app, repeat_length, Nat.sub_diag. rewrite skipn_all2 by (rewrite repeat_length; lia). reflexivity.
    + rewrite (disp_layers _ _ l (clean_all_layers _ _ _ _ Ecl)), E1. specialize (HW l Hl). destruct (disp (wd s) l); cbn [width] in *; lia.
Qed.
Lemma main_body_step k b s x' : main_inv (k, b, s) -> b = false -> main_body o cfg ms ls pre (k, b, s) = Some (Ok x') -> main_inv x'.
Proof.
  intros HI -> E. destruct x' as [[k' stop] s']. apply main_body_inv in E. destruct E as (-> & Hw & _ & HR). fold w in Hw. assert (Hw' : (0 < w)%nat) by lia.
  pose proof HI as HI0. destruct HI0 as (HS & HM1 & HM2 & HW & evs & R & L & C & T & B).
  inversion HR as [sA sB sC sD HM Hmax E1 E2 E3|sA wA HM Hmax E1|sc wc Hm E1 E2]; subst.
  - destruct (mid_inv k evs s sA Hw' HI R L C T HM) as (S1 & M1 & M2 & c & C1 & C2 & C3 & T1).
    pose proof (sweep_static _ _ _ _ E1) as SS. destruct (sweep_pass _ _ _ _ F E1) as (a & Pa & La & Ta). pose proof (update_lbdas_static _ _ _ ND E2) as SU.
    pose proof (fun j => update_lbdas_width _ _ _ j ND E2) as WU. pose proof (sweep_layers _ _ _ _ E1) as EL.
    apply update_lbdas_spec in E2; [|exact ND]. destruct E2 as (_ & Lb & Tb & _). apply update_trace_l_spec in E3; [|exact ND]. destruct E3 as ((D1 & D2 & D3 & D4 & D5) & _ & D7).
    destruct Ta as (a1 & a2 & a3 & a4 & a5). destruct Tb as (b1 & b2 & b3 & b4 & b5). destruct (pass_facts _ _ Pa) as (Va & _).
    assert (HW' : forall l, In l ls -> (1 <= width (disp (wd s') l) <= width (disp (wd sA) l))%nat).
    { intros l Hl. rewrite D1. destruct (T1 l Hl) as (t & _ & _ & _ & _ & _ & _ & T7). pose proof (WU l) as G. rewrite (disp_layers _ _ l EL) in G. lia. }
    cbn [main_inv]. split; [rewrite D1; eapply static_trans; [exact HS|eapply static_trans; [exact S1|eapply static_trans; eassumption]]|].
    split; [congruence|]. split; [congruence|]. split; [intros l Hl; apply HW'; exact Hl|].
    exists (evs ++ c ++ (a ++ map (fun l => ELbda l (disp (wd sC) l)) ls))%list.
    assert (FS : full_sweep ms ls (a ++ map (fun l => ELbda l (disp (wd sC) l)) ls)) by (eexists; eexists; split; [reflexivity|]; split; [exact Pa|eexists; reflexivity]).
    split; [apply rounds_more; assumption|]. split; [rewrite D5, Lb, La, C2, <- !app_assoc; reflexivity|].
    split; [rewrite app_assoc; apply checks_ok_no_check; [exact C3|apply (full_sweep_facts _ _ _ FS)]|]. split; [|right; exact Hmax].
    intros l Hl. destruct (T1 l Hl) as (t & t1 & t2 & t3 & t4 & t5 & t6 & t7). destruct (D7 l Hl) as (t' & d1 & d2 & d3 & d4).
    rewrite b3, a3, t1 in d1. injection d1 as <-. rewrite b4, a4, t2 in d2, d3, d4. rewrite !app_assoc, !values_of_app, (Va l), app_nil_r, dispersions_values by assumption.
    rewrite values_of_app in t4, t5. rewrite <- values_of_app in *. set (vs := values_of l (evs ++ c)) in *. set (p := if Nat.eqb _ _ then 0%nat else _) in *.
    assert (Hp : pos w (S k) = S p /\ (p <= k)%nat).
    { unfold p. destruct (Nat.eqb_spec (Nat.modulo (S k) w) 0) as [e|e]; [destruct (pos_check w k Hw' e) as [-> _]; lia|]. destruct (pos_next w k Hw' e) as [_ ->]. split; [reflexivity|apply pos_le; exact Hw']. }
    exists (LT (upd (lcells t) p (Some (disp (wd sC) l))) (lwidth t)). split; [exact d3|]. split; [rewrite d4; symmetry; apply Hp|]. cbn [lcells lwidth].
    split; [rewrite upd_length; exact t3|]. split; [rewrite app_length, t4; cbn; lia|]. split.
    + rewrite (proj1 Hp), firstn_upd by exact d2. rewrite t5, last_n_snoc by lia. rewrite map_app. reflexivity.
    + split.
      * intros Hk. rewrite skipn_upd by lia. assert (G := t6 ltac:(lia)). rewrite skipn_S, G. replace (w - k)%nat with (S (w - S k)) by lia. reflexivity.
      * specialize (HW' l Hl). lia.
  - destruct (mid_inv k evs s sA Hw' HI R L C T HM) as (S1 & M1 & M2 & c & C1 & C2 & C3 & T1).
    destruct (rewind_spec ls (set_wd sA wA)) as ((R1 & R2 & R3 & R4 & R5) & R6 & R7). cbv zeta in *. cbn [wd set_wd mtr mti log lti] in *.
    assert (EW : forall l, disp wA l = disp (wd sA) l).
    { intros l. apply disp_layers. clear - E1. revert E1. generalize (all_layers (wd sA)) as lay. generalize (wd sA) as w0. intros w0 lay. revert w0. induction lay as [|j lay IH]; intros w0 H; cbn [final_clean] in H; [injection H as <-; reflexivity|].
      destruct (auto_reset _); [|apply IH; exact H]. destruct (clean_layer _ _ _ _) as [[[w2 b2]|e]|] eqn:E2; try discriminate. rewrite (IH _ H). eapply clean_layer_layers; exact E2. }
    cbn [main_inv wd set_iters mtr mti log lti iters]. rewrite R1. split; [eapply static_trans; [exact HS|eapply static_trans; [exact S1|eapply final_clean_static; exact E1]]|].
    split; [congruence|]. split; [congruence|]. split; [intros l Hl; rewrite EW; destruct (T1 l Hl) as (t & _ & _ & _ & _ & _ & _ & T7); apply T7|].
    exists k, evs, c. split; [reflexivity|]. split; [exact R|]. split; [exact C1|]. split; [congruence|]. split; [exact C3|]. split; [exact B|].
    split; [intros l Hl; rewrite R7, (proj2 (existsb_in l ls) Hl); reflexivity|]. right. split; [reflexivity|exact Hmax].
  - fold w in Hm. destruct (rewind_spec ls s) as ((R1 & R2 & R3 & R4 & R5) & R6 & R7). cbv zeta in *.
    apply check_all_spec in E1. destruct E1 as (F1 & (F2 & F3 & F4 & F5 & F6) & Fx & FL & FC). apply clean_all_false in E2 as E3. destruct E3 as [-> E3].
    cbn [main_inv wd set_iters set_wd mtr mti log lti iters]. assert (Ew : wd sc = wd s) by congruence. rewrite Ew in *.
    split; [exact HS|]. split; [congruence|]. split; [congruence|]. split; [exact HW|].
    exists k, evs, (map (fun l => ECheck l (match ltr (fold_left rewind_l ls s) l with Some t => lcells t | None => [] end)) ls).
    split; [reflexivity|]. split; [exact R|]. split; [unfold checks; rewrite Hm; cbn [Nat.eqb]; eexists; reflexivity|]. split; [rewrite FL, R5, L, <- app_assoc; reflexivity|].
    split; [apply checks_ok_checks; [exact C|]; intros l Hl; destruct (T l Hl) as (t & Et & _); rewrite R6, Et; eapply window_seen; eassumption|]. split; [exact B|].
    split; [intros l Hl; rewrite F5, R7, (proj2 (existsb_in l ls) Hl); reflexivity|]. left. split; [reflexivity|]. split; [exact Hm|]. split.
    + intros l Hl. destruct (T l Hl) as (t & Et & _ & _ & _ & _ & _ & T7). eexists. split; [apply in_map_iff; exists l; split; [reflexivity|exact Hl]|].
      rewrite R6, Et. assert (G : check_convergence o (clock (wd (fold_left rewind_l ls s))) t (eps cfg) = true) by (apply (proj1 FC eq_refl l t Hl); rewrite R6; exact Et).
      apply check_convergence_spec in G. destruct G as (vs & G1 & G2). exists vs. split; [exact G1|]. intros c Hc. apply G2. lia.
    + intros l Hl. apply E3. unfold all_layers. apply in_seq. lia.
Qed.
End Main.
