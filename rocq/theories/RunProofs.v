(** Proof of C81. *)
From Coq Require Import String Lia Lra Permutation.
From Verif Require Import Base BaseLemmas BaseR BaseRLemmas Spec SpecR Invariance InvarianceProofs HierProofs Canon Clean Machine Dispatch Inference SpecMachine SpecOrdinary SpecPass MachineProofs MachineProofs2 InferenceProofs BuiltProofs InferenceProofs2 InferenceProofs6 TraceProofs ProgressProofs PlainProofs DispatchProofs SamplingProofs.
From Verif Require Import OrdinaryProofs OrdinaryProofs2 OrdinaryProofs3 OrdinaryProofs4 OrdinaryProofs5 OrdinaryProofs6 OrdinaryProofs7 PassProofs.
Local Open Scope R_scope.

(** The plan *)
Lemma place_app_in k a b : In k a -> place k (a ++ b) = place k a.
Proof. induction a as [|x a IH]; intros H; [contradiction|]. cbn. destruct (Nat.eqb_spec k x) as [->|Hn]; [reflexivity|]. f_equal. apply IH. destruct H as [->|H]; [congruence|exact H]. Qed.
Lemma place_app_out k a b : ~ In k a -> place k (a ++ b) = (List.length a + place k b)%nat.
Proof. induction a as [|x a IH]; intros H; [reflexivity|]. cbn. destruct (Nat.eqb_spec k x) as [->|Hn]; [exfalso; apply H; left; reflexivity|]. f_equal. apply IH. intros G. apply H. right. exact G. Qed.
Lemma place_seq n : forall s j, (j < n)%nat -> place (s + j) (seq s n) = j.
Proof.
  induction n as [|n IH]; intros s j H; [lia|]. cbn [seq place]. destruct j as [|j]; [rewrite Nat.add_0_r, Nat.eqb_refl; reflexivity|]. destruct (Nat.eqb_spec (s + S j) s); [lia|]. f_equal. replace (s + S j)%nat with (S s + j)%nat by lia. apply IH. lia.
Qed.
Lemma nth_skipn' {A} (l : list A) : forall a j d, nth j (skipn a l) d = nth (a + j) l d.
Proof. induction l as [|x l IH]; intros [|a] j d; cbn [skipn]; [reflexivity|destruct j; reflexivity|reflexivity|]. cbn. apply IH. Qed.
Lemma fst_combine {A B} (a : list A) : forall b : list B, List.length a = List.length b -> map fst (combine a b) = a.
Proof. induction a as [|x a IH]; intros [|y b] H; cbn in *; try discriminate; [reflexivity|]. f_equal. apply IH. lia. Qed.
Lemma snd_combine {A B} (a : list A) : forall b : list B, List.length a = List.length b -> map snd (combine a b) = b.
Proof. induction a as [|x a IH]; intros [|y b] H; cbn in *; try discriminate; [reflexivity|]. f_equal. apply IH. lia. Qed.
Section Plan.
Context (o : oracle) (Hp : fair o) (fs : list nat).
Let K := List.length fs.
Let len t : List.length (o_perm o t fs) = K. Proof. apply Permutation_length, Hp. Qed.
Definition tpos (t m : nat) : nat := (t + m * S K)%nat.
Lemma plan_S n t : plan o fs (S n) t = (combine (seq (S t) K) (o_perm o t fs) ++ plan o fs n (S t + K))%list.
Proof. cbn [plan]. rewrite len. reflexivity. Qed.
Lemma plan_length n : forall t, List.length (plan o fs n t) = (n * K)%nat.
Proof. induction n as [|n IH]; intros t; [reflexivity|]. rewrite plan_S, app_length, combine_length, seq_length, len, IH, Nat.min_id. reflexivity. Qed.
Lemma plan_last n : forall t, plan o fs (S n) t = (plan o fs n t ++ combine (seq (S (tpos t n)) K) (o_perm o (tpos t n) fs))%list.
Proof.
  induction n as [|n IH]; intros t.
  - rewrite plan_S. unfold tpos. cbn [plan]. rewrite app_nil_r, Nat.mul_0_l, Nat.add_0_r. reflexivity.
  - rewrite plan_S, IH. rewrite (plan_S n t), <- app_assoc. replace (tpos (S t + K) n) with (tpos t (S n)) by (unfold tpos; cbn [Nat.mul]; lia). reflexivity.
Qed.
Lemma plan_place n : forall t m j, (m < n)%nat -> (j < K)%nat -> place (S (tpos t m) + j) (map fst (plan o fs n t)) = (m * K + j)%nat.
Proof.
  induction n as [|n IH]; intros t m j Hm Hj; [lia|]. rewrite plan_S, map_app, fst_combine by (rewrite seq_length, len; reflexivity). destruct m as [|m].
  - unfold tpos. rewrite Nat.mul_0_l, Nat.add_0_r. rewrite place_app_in by (apply in_seq; lia). rewrite place_seq by exact Hj. reflexivity.
  - rewrite place_app_out by (intros H; apply in_seq in H; unfold tpos in H; cbn [Nat.mul] in H; lia). rewrite seq_length. replace (S (tpos t (S m)) + j)%nat with (S (tpos (S t + K) m) + j)%nat by (unfold tpos; cbn [Nat.mul]; lia). rewrite IH by lia. cbn [Nat.mul]. lia.
Qed.
Lemma plan_nth n : forall t m j, (m < n)%nat -> (j < K)%nat -> snd (nth (m * K + j) (plan o fs n t) (0, 0)%nat) = nth j (o_perm o (tpos t m) fs) 0%nat.
Proof.
  induction n as [|n IH]; intros t m j Hm Hj; [lia|]. rewrite plan_S. assert (LC : List.length (combine (seq (S t) K) (o_perm o t fs)) = K) by (rewrite combine_length, seq_length, len; lia). destruct m as [|m].
  - rewrite Nat.mul_0_l, Nat.add_0_l, app_nth1 by lia. rewrite combine_nth by (rewrite seq_length, len; reflexivity). unfold tpos. rewrite Nat.mul_0_l, Nat.add_0_r. reflexivity.
  - rewrite app_nth2 by (rewrite LC; cbn [Nat.mul]; lia). rewrite LC. replace (S m * K + j - K)%nat with (m * K + j)%nat by (cbn [Nat.mul]; lia). rewrite IH by lia. f_equal. f_equal. unfold tpos. cbn [Nat.mul]. lia.
Qed.
Lemma plan_in n : forall t i, In i (map snd (plan o fs n t)) -> In i fs.
Proof.
  induction n as [|n IH]; intros t i; [contradiction|]. rewrite plan_S, map_app, snd_combine by (rewrite seq_length, len; reflexivity). intros H. apply in_app_iff in H. destruct H as [H|H]; [eapply Permutation_in; [apply Hp|exact H]|eapply IH; exact H].
Qed.
Lemma plan_prefix a b : forall t, exists r, plan o fs (a + b) t = (plan o fs a t ++ r)%list.
Proof. induction a as [|a IH]; intros t; [exists (plan o fs b t); reflexivity|]. cbn [Nat.add]. rewrite !plan_S. destruct (IH (S t + K)%nat) as (r & E). exists r. rewrite E, app_assoc. reflexivity. Qed.
End Plan.

(** The loops of a run in which no dispersion is updated *)
Section Run.
Context (outs : string -> list vec -> nat -> Z) (Houts : outputs outs) (w : world) (SW : sound w) (fs : list nat) (Hd : NoDup fs) (Hf : forall i, In i fs -> armed w i).
Context (o : oracle) (Hp : fair o) (cfg : settings) (U : usable cfg) (AN : anneal w = true -> (Z.max 0 (fix_lbda_iters cfg) < burn_in_min cfg)%Z -> fix_lbda_iters cfg = 0%Z) (M : nat) (rss : list (list R)) (HR : Forall (Forall is_draw) rss) (c : list mat) (Hc : In c (choices (map (values_of w) fs))).
Let K := List.length fs.
Let o' := with_plan o w (plan o fs M (clock w)) rss.
Let T := tpos fs (clock w).
Definition course (m : nat) : list mat := pass outs w fs (map snd (plan o fs m (clock w))) c rss.
Definition at_pass (m : nat) (s : state) : Prop := wd s = at_clock (puts w fs (course m)) (T m).
Lemma pass_app a : forall b c0 r, pass outs w fs (a ++ b) c0 r = pass outs w fs b (pass outs w fs a c0 r) (skipn (List.length a) r).
Proof. induction a as [|i a IH]; intros b c0 r; [reflexivity|]. cbn [app pass List.length]. rewrite IH. destruct r; [rewrite skipn_nil; reflexivity|reflexivity]. Qed.
Lemma course_S m : course (S m) = pass outs w fs (o_perm o (T m) fs) (course m) (skipn (m * K) rss).
Proof.
  unfold course. rewrite (plan_last o Hp), map_app. fold K T. rewrite (snd_combine (seq (S (T m)) K) (o_perm o (T m) fs)) by (rewrite seq_length; symmetry; apply Permutation_length, Hp). rewrite pass_app, map_length, (plan_length o Hp). reflexivity.
Qed.
Lemma o'_draw : forall k n l, is_draw (o_cell o' k n l).
Proof.
  intros k a b. cbn. unfold draws_of. set (m := place _ _). assert (HR' : Forall is_draw (nth m rss [])) by (destruct (Nat.lt_ge_cases m (List.length rss)) as [G|G]; [apply (Forall_nth' _ rss _ [] HR G)|rewrite nth_overflow by exact G; constructor]).
  set (rs := nth m rss []) in *. set (q := (_ + b)%nat). destruct (Nat.lt_ge_cases q (List.length rs)) as [G|G]; [apply (Forall_nth' _ rs _ 0 HR' G)|rewrite nth_overflow by exact G; unfold is_draw; lra].
Qed.
Lemma course_in m : In (course m) (choices (map (values_of w) fs)).
Proof.
  unfold course. assert (G : forall l, (forall i, In i l -> In i fs) -> forall c0 r, In c0 (choices (map (values_of w) fs)) -> In (pass outs w fs l c0 r) (choices (map (values_of w) fs))).
  { induction l as [|i l IH]; intros Hl c0 r H0; [exact H0|]. cbn [pass]. apply IH; [intros j Hj; apply Hl; right; exact Hj|]. apply (step_states outs w SW fs Hd Hf); [exact H0|apply Hl; left; reflexivity]. }
  apply G; [intros i Hi; eapply plan_in; [exact Hp|exact Hi]|exact Hc].
Qed.
Lemma sweep_at m s : (m < M)%nat -> at_pass m s -> exists s', sweep o' fs s = Ok s' /\ at_pass (S m) s' /\ same_traces s s'.
Proof.
  intros Hm Es. unfold sweep. assert (EC : clock (wd s) = T m) by (rewrite Es; reflexivity). cbn [with_plan o' o_perm]. rewrite EC. assert (LP : List.length (o_perm o (T m) fs) = K) by (apply Permutation_length, Hp).
  destruct (calls_pass outs Houts w SW fs Hd Hf o' (o_perm o (T m) fs) (course m) (S (T m)) (note (set_wd s (tick (wd s))) ESweep) (skipn (m * K) rss)) as (s' & E1 & E2 & E3).
  - exact o'_draw.
  - intros i Hi. eapply Permutation_in; [apply Hp|exact Hi].
  - apply course_in.
  - intros j Hj. rewrite LP in Hj. unfold o'. cbn [with_plan o_cell]. unfold T. rewrite (plan_place o Hp fs M (clock w) m j Hm Hj), (plan_nth o Hp fs M (clock w) m j Hm Hj), nth_skipn'. reflexivity.
  - cbn [note set_wd wd]. rewrite Es. reflexivity.
  - exists s'. split; [exact E1|]. split.
    + unfold at_pass. rewrite E2, course_S, LP. f_equal. unfold T, tpos. fold K. lia.
    + assert (SS : sweep o' fs s = Ok s') by (unfold sweep; cbn [with_plan o' o_perm]; rewrite EC; exact E1). apply sweep_spec in SS. apply SS.
Qed.
Lemma quiet m s : at_pass m s -> anneal (wd s) = anneal w /\ clean_all (wd s) (all_layers (wd s)) = Some (Ok (wd s, false)) /\ final_clean (wd s) (all_layers (wd s)) = Some (Ok (wd s)).
Proof.
  intros Es. pose proof (course_in m) as Hin. destruct (states_shapes w fs _ Hin) as (H1 & H2). destruct (states_puts outs w SW fs Hd Hf _ H1 H2) as (SP & _). apply (sound_clock _ (T m)) in SP. rewrite <- Es in SP.
  split; [rewrite Es; apply puts_anneal|]. apply clean_all_none. apply (plain_flags _ (so_plain _ SP)).
Qed.
Lemma pre_loop : forall j fuel k sch s m, (j < fuel)%nat -> (0 <= k)%Z -> (k + Z.of_nat j = burn_in_min cfg)%Z -> (m + j <= M)%nat -> at_pass m s ->
  exists sch' s', while fuel (fun '(k, _, _) => negb (k =? burn_in_min cfg)%Z) (fun x => Some (pre_body o' cfg fs [] x)) (k, sch, s) = Some (Ok (burn_in_min cfg, sch', s')) /\ at_pass (m + j) s' /\ same_traces s s'.
Proof.
  induction j as [|j IH]; intros fuel k sch s m Hfu Hk0 Hk Hm Es; (destruct fuel as [|fuel]; [lia|]); cbn [while].
  - assert (E : (k =? burn_in_min cfg)%Z = true) by (apply Z.eqb_eq; lia). rewrite E. cbn [negb]. exists sch, s. rewrite Nat.add_0_r. split; [repeat f_equal; lia|]. split; [exact Es|apply same_traces_refl].
  - assert (E : (k =? burn_in_min cfg)%Z = false) by (apply Z.eqb_neq; lia). rewrite E. cbn [negb]. unfold pre_body at 1. unfold div_ok. rewrite (proj2 (Nat.eqb_neq _ _) (proj2 (proj2 U))). rewrite bindE.
    destruct (sweep_at m s ltac:(lia) Es) as (s1 & E1 & A1 & T1). rewrite E1, bindE. rewrite (proj1 (quiet (S m) s1 A1)). cbn [update_lbdas foldM mapM combine].
    assert (G : exists sch1, (if (fix_lbda_iters cfg <? k + 1)%Z then if anneal w then bind (if (fix_lbda_iters cfg =? 0)%Z then Ok tt else Err ValueError) (fun _ => bind (if (k + 1 =? fix_lbda_iters cfg + 1)%Z then Ok [] else Ok sch) (fun sched' => bind (Ok s1) (fun s2 => Ok ((k + 1)%Z, sched', s2))))
        else bind (Ok s1) (fun s2 => Ok ((k + 1)%Z, sch, s2)) else Ok ((k + 1)%Z, sch, s1)) = Ok ((k + 1)%Z, sch1, s1)).
    { destruct (Z.ltb_spec (fix_lbda_iters cfg) (k + 1)); [|exists sch; reflexivity]. destruct (anneal w); [|exists sch; rewrite bindE; reflexivity]. rewrite (AN eq_refl) by lia. cbn [Z.eqb bind]. destruct (k + 1 =? 0 + 1)%Z; eexists; reflexivity. }
    destruct G as (sch1 & G). rewrite G.
    destruct (IH fuel (k + 1)%Z sch1 s1 (S m)) as (sch' & s' & E2 & A2 & T2); [lia|lia|lia|lia|exact A1|]. exists sch', s'. split; [exact E2|]. split; [replace (m + S j)%nat with (S m + j)%nat by lia; exact A2|]. eapply same_traces_trans; eassumption.
Qed.
Definition same_m (s s' : state) : Prop := mtr s' = mtr s /\ mti s' = mti s.
Lemma main_loop : forall j fuel k b s m, (j + 1 < fuel)%nat -> (k + j = Nat.min (window cfg - 1) (Z.to_nat (burn_in_max cfg - burn_in_min cfg)))%nat -> (m + j <= M)%nat -> at_pass m s -> b = false ->
  exists k' s', while fuel (fun '(_, stop, _) => negb stop) (main_body o' cfg fs [] (burn_in_min cfg)) (k, b, s) = Some (Ok (k', true, s')) /\ at_pass (m + j) s' /\ same_m s s'.
Proof.
  destruct U as (U1 & U2 & U3).
  induction j as [|j IH]; intros fuel k b s m Hfu Hk Hm Es ->; (destruct fuel as [|fuel]; [lia|]); cbn [while negb]; unfold main_body at 1; unfold div_ok; rewrite (proj2 (Nat.eqb_neq _ _) U2), (proj2 (Nat.eqb_neq _ _) U3); cbn [fold_left check_all andb]; destruct (quiet m s Es) as (Q1 & Q2 & Q3); rewrite Q2, Q3.
  - destruct fuel as [|fuel]; [lia|]. rewrite Nat.add_0_r in *. destruct (Nat.eqb_spec (S k mod window cfg) 0) as [Hz|Hz].
    + cbn [while negb]. eexists _, _. split; [reflexivity|]. split; [exact Es|split; reflexivity].
    + assert (Hb : (burn_in_max cfg <? Z.of_nat (S k) + burn_in_min cfg)%Z = true).
      { apply Z.ltb_lt. destruct (Nat.eq_dec (S k) (window cfg)) as [e|e]; [exfalso; apply Hz; rewrite e; apply Nat.mod_same; exact U2|]. lia. }
      rewrite Hb. cbn [while negb]. eexists _, _. split; [reflexivity|]. split; [exact Es|split; reflexivity].
  - assert (Hz : (S k mod window cfg =? 0)%nat = false) by (apply Nat.eqb_neq; rewrite Nat.mod_small by lia; lia). rewrite Hz.
    assert (Hb : (burn_in_max cfg <? Z.of_nat (S k) + burn_in_min cfg)%Z = false) by (apply Z.ltb_ge; lia). rewrite Hb.
    destruct (sweep_at m s ltac:(lia) Es) as (s1 & E1 & A1 & T1). rewrite E1, bindE. cbn [update_lbdas foldM]. rewrite !bindE.
    destruct (IH fuel (S k) false s1 (S m)) as (k' & s' & E2 & A2 & T2); [lia|lia|lia|exact A1|reflexivity|]. exists k', s'. split; [exact E2|]. split; [replace (m + S j)%nat with (S m + j)%nat by lia; exact A2|].
    destruct T1 as (t1 & t2 & _). destruct T2 as (t3 & t4). split; congruence.
Qed.
Lemma burn_in_run fuel s : (enough cfg <= fuel)%nat -> (burn_in_passes cfg <= M)%nat -> at_pass 0 s -> exists s', burn_in fuel o' cfg fs [] s = Some (Ok s') /\ at_pass (burn_in_passes cfg) s' /\ mti s' = mti s.
Proof.
  intros Hfu HM Es. unfold enough in Hfu. unfold burn_in_passes in *. unfold burn_in.
  destruct (pre_loop (Z.to_nat (burn_in_min cfg)) fuel 0%Z [] s 0%nat) as (sch1 & s1 & E1 & A1 & T1); [lia|lia|destruct U; lia|lia|exact Es|]. rewrite E1. cbn [fold_left].
  destruct (main_loop (Nat.min (window cfg - 1) (Z.to_nat (burn_in_max cfg - burn_in_min cfg))) fuel 0%nat false s1 (Z.to_nat (burn_in_min cfg))) as (k' & s' & E2 & A2 & T2); [destruct U; lia|lia|lia|exact A1|reflexivity|]. rewrite E2.
  exists s'. split; [reflexivity|]. split; [exact A2|]. destruct T1 as (_ & t & _). destruct T2 as (_ & t'). congruence.
Qed.
(** Sampling *)
Definition slots (B n t : nat) (s : state) : Prop := forall k, (k < List.length fs)%nat -> let i := nth k fs 0%nat in mti s i = t /\ exists tr, mtr s i = Some tr /\ List.length (mcells tr) = n /\ mwidth tr = None /\
  forall j, (j < t)%nat -> nth j (mcells tr) None = Some (A2 (nth k (course (B + S j)) [])).
Lemma course_value m s k : at_pass m s -> (k < List.length fs)%nat -> value (wd s) (nth k fs 0%nat) = A2 (nth k (course m) []).
Proof.
  intros Es Hk. rewrite Es. change (value (at_clock ?x ?t)) with (value x). destruct (states_shapes w fs _ (course_in m)) as (H1 & H2).
  apply (puts_sound fs w (course m) SW Hd); [intros i Hi; destruct (Hf i Hi) as (l & Hl & Hil & _); exists l; auto|exact H1|exact H2|exact Hk].
Qed.
Lemma samples_run B n : (B + n <= M)%nat -> forall k t s, (t + k = n)%nat -> at_pass (B + t) s -> slots B n t s -> exists s', samples k o' cfg fs [] s = Ok s' /\ slots B n n s'.
Proof.
  intros HM. induction k as [|k IH]; intros t s Hk Es Hs; cbn [samples]; [exists s; split; [reflexivity|]; replace n with t at 2 by lia; exact Hs|].
  unfold sample_body. destruct (sweep_at (B + t) s ltac:(lia) Es) as (s1 & E1 & A1 & (t1 & t2 & _)). rewrite E1, bindE.
  assert (RM : mroom fs n t s1) by (intros i Hi; destruct (In_nth fs i 0%nat Hi) as (q & Hq & <-); rewrite t1, t2; destruct (Hs q Hq) as (G1 & tr & G2 & G3 & G4 & _); split; [exact G1|]; exists tr; auto).
  destruct (traces_m_ok cfg fs Hd (proj2 (proj2 U)) (proj1 (proj2 U)) n t s1 ltac:(lia) RM) as (s2 & E2). rewrite E2, bindE. cbn [update_lbdas foldM]. rewrite !bindE. unfold div_ok. rewrite (proj2 (Nat.eqb_neq _ _) (proj2 (proj2 U))). rewrite !bindE.
  apply update_trace_m_spec in E2; [|exact Hd]. destruct E2 as ((B1 & _) & _ & B6). apply (IH (S t)); [lia|unfold at_pass; rewrite B1; replace (B + S t)%nat with (S (B + t)) by lia; exact A1|].
  intros q Hq. cbn zeta. destruct (B6 (nth q fs 0%nat) (nth_In fs 0%nat Hq)) as (tr & x & X1 & X2 & X3 & X4 & X5). destruct (Hs q Hq) as (G1 & tr' & G2 & G3 & G4 & G5). rewrite t1, G2 in X1. injection X1 as <-. rewrite t2, G1 in *. split; [exact X5|].
  eexists. split; [exact X4|]. cbn [mcells mwidth]. split; [rewrite upd_length; exact G3|]. split; [exact G4|]. assert (EX : x = A2 (nth q (course (B + S t)) [])).
  { unfold new_slice in X3. rewrite G4 in X3. replace (B + S t)%nat with (S (B + t)) by lia. rewrite <- (course_value (S (B + t)) s1 q A1 Hq). destruct (nth t (mcells tr') None) as [[?|?]|]; exact X3. }
  intros j Hj. destruct (Nat.eq_dec j t) as [->|Hn]; [rewrite nth_upd_same by lia; rewrite EX; reflexivity|rewrite nth_upd_other by exact Hn; apply G5; lia].
Qed.
Lemma at_pass_get m s : at_pass m s -> (forall j, get_mat (wd s) j = get_mat w j) /\ forall j, get_lay (wd s) j = get_lay w j.
Proof. intros Es. destruct (puts_mats w fs (course m)) as (EM & EY & _). rewrite Es. unfold get_mat, get_lay, at_clock. cbn [mats layers]. rewrite EM, EY. auto. Qed.
Lemma run_ibp m s i : at_pass m s -> In i fs -> layer_of (get_mat (wd s) i) <> None /\ is_ibp (wd s) i = false.
Proof.
  intros Es Hi. destruct (at_pass_get m s Es) as (GM & GL). destruct (Hf i Hi) as (l0 & Hl0 & Hi0 & _). destruct (wf_placed _ (so_wf _ SW) l0 i Hl0 Hi0) as (_ & EL & _). unfold is_ibp. rewrite GM, EL, GL. split; [discriminate|].
  apply (standard_known _ (plain_model _ (so_plain _ SW) l0 Hl0)).
Qed.
Lemma allocate_run n : forall s, (forall i, In i fs -> mti s i = 0%nat) -> forall m, at_pass m s -> exists s', foldM (allocate_m n) fs s = Ok s' /\ at_pass m s' /\ slots m n 0 s'.
Proof.
  clear AN. intros s H0 m Es.
  assert (OK : forall l s0, (forall i, In i l -> In i fs) -> wd s0 = wd s -> exists s1, foldM (allocate_m n) l s0 = Ok s1).
  { induction l as [|i l IH]; intros s0 Hl E0; cbn [foldM]; [eauto|]. destruct (run_ibp m s i Es (Hl i (or_introl eq_refl))) as (EL & EI). unfold allocate_m at 1. unfold own_layer. rewrite E0, EI. destruct (layer_of (get_mat (wd s) i)); [|contradiction]. cbn [of_option]. rewrite !bindE.
    apply IH; [intros j Hj; apply Hl; right; exact Hj|exact E0]. }
  destruct (OK fs s (fun i Hi => Hi) eq_refl) as (s1 & E1). exists s1. split; [exact E1|]. pose proof E1 as E2. apply allocate_m_spec in E2. destruct E2 as ((A1 & _) & A6 & A7). split; [unfold at_pass; rewrite A1; exact Es|].
  intros k Hk. cbn zeta. pose proof (nth_In fs 0%nat Hk) as Hi. split; [rewrite A6; apply H0; exact Hi|]. specialize (A7 (nth k fs 0%nat) Hi). destruct A7 as (_ & A7).
  rewrite (proj2 (run_ibp m s _ Es Hi)) in A7. eexists. split; [exact A7|]. cbn [mcells mwidth]. split; [apply repeat_length|]. split; [reflexivity|]. intros j Hj. lia.
Qed.
End Run.

(** Preparation *)
Lemma puts_arrays w : forall fs c, puts w fs c = set_arrays w (arrays (puts w fs c)).
Proof.
  intros fs c. unfold puts. generalize (combine fs c). intros l. revert w. induction l as [|p l IH]; intros w; cbn [fold_left]; [destruct w; reflexivity|]. rewrite IH. reflexivity.
Qed.
Lemma puts_same W w : arrays W = arrays w -> (forall i, val (get_mat W i) = val (get_mat w i)) -> forall fs c, arrays (puts W fs c) = arrays (puts w fs c).
Proof.
  intros Ea Ev fs c. unfold puts. generalize (combine fs c). intros l. revert W w Ea Ev. induction l as [|p l IH]; intros W w Ea Ev; cbn [fold_left]; [exact Ea|]. apply IH; [|exact Ev]. unfold put, write, set_arrays. cbn [arrays]. rewrite Ea, Ev. reflexivity.
Qed.
Lemma assign_arrays ms : forall w w1 a, sound w -> (forall i, In i ms -> is_factor w i) -> sound (set_arrays w a) -> foldM assign_mat ms w = Ok w1 -> foldM assign_mat ms (set_arrays w a) = Ok (set_arrays w1 a).
Proof.
  induction ms as [|i ms IH]; intros w w1 a S H SA E; cbn [foldM] in *; [injection E as <-; reflexivity|].
  destruct (H i (or_introl eq_refl)) as (l & Hl & Hi). unfold assign_mat in E at 1. unfold assign_mat at 1. rewrite (get_sampling_fct_own w l i S Hl Hi), bindE in E. rewrite (get_sampling_fct_own (set_arrays w a) l i SA Hl Hi), bindE. rewrite bindE in *.
  change (own_closure (set_arrays w a) i l) with (own_closure w i l). change (get_mat (set_arrays w a) i) with (get_mat w i).
  change (set_mat (set_arrays w a) i ?m) with (set_arrays (set_mat w i m) a). apply IH; [| | |exact E].
  - eapply sound_changed; [exact S|]. apply changed_sfct; assumption.
  - intros j Hj. destruct (H j (or_intror Hj)) as (l' & Hl' & Hj'). exists l'. auto.
  - change (set_arrays (set_mat w i ?m) a) with (set_mat (set_arrays w a) i m). eapply sound_changed; [exact SA|]. apply (changed_sfct (set_arrays w a)); assumption.
Qed.
Lemma unfixed_ok w : sound w -> not_fixed w (members w) = Ok (unfixed w) /\ NoDup (unfixed w) /\ forall i, In i (unfixed w) -> is_factor w i.
Proof.
  intros S. pose proof (so_plain _ S) as P.
  assert (HB : forall i, In i (members w) -> exists b, fixed (get_mat w i) = FBool b /\ (b = false -> is_factor w i)).
  { intros i Hi. apply members_spec in Hi. destruct Hi as [(l & Hl & Hi)|[Hi|(l & Hl & Em & _)]].
    - destruct (plain_factor _ P l i Hl Hi) as (_ & _ & (b & Eb) & _). exists b. split; [exact Eb|]. intros _. exists l. auto.
    - exists true. split; [apply (plain_data _ P i Hi)|discriminate].
    - exfalso. destruct (standard_known _ (plain_model _ P l Hl)) as (_ & _ & _ & _ & _ & _ & M2 & _). rewrite Em in M2. discriminate. }
  split; [|split].
  - unfold unfixed. induction (members w) as [|i t IH]; [reflexivity|]. cbn [not_fixed filter]. destruct (HB i (or_introl eq_refl)) as (b & Eb & _). rewrite Eb. cbn [truth bind]. rewrite IH by (intros j Hj; apply HB; right; exact Hj). cbn [bind]. destruct b; reflexivity.
  - apply NoDup_filter. apply (wf_nodup _ (so_wf _ S)).
  - intros i Hi. apply filter_In in Hi. destruct Hi as (Hi & E). destruct (HB i Hi) as (b & Eb & Hb). rewrite Eb in E. destruct b; [discriminate|]. apply Hb. reflexivity.
Qed.
Lemma prepared w : sound w -> (forall l, (l < List.length (layers w))%nat -> lfixed (lbda (get_lay w l)) = true) ->
  exists W, sound W /\ (forall i, In i (unfixed w) -> armed W i) /\ strip W = strip w /\ layers W = layers w /\
  forall s c, sound (puts w (unfixed w) c) -> wd s = puts w (unfixed w) c -> exists s1, prepare s = Ok (unfixed w, [], s1) /\ wd s1 = puts W (unfixed w) c /\ forall i, In i (unfixed w) -> mti s1 i = 0%nat.
Proof.
  intros S HL. destruct (unfixed_ok w S) as (E1 & E2 & E3). set (fs := unfixed w) in *.
  assert (EW : exists W, foldM assign_mat fs w = Ok W).
  { clear E1 E2. revert S E3. clear HL. generalize fs. intros l. revert w fs. induction l as [|i l IH]; intros w fs S H; [exists w; reflexivity|]. cbn [foldM]. destruct (H i (or_introl eq_refl)) as (k & Hk & Hi). unfold assign_mat at 1. rewrite (get_sampling_fct_own w k i S Hk Hi), !bindE. apply IH.
    - eapply sound_changed; [exact S|]. apply changed_sfct; assumption.
    - intros j Hj. destruct (H j (or_intror Hj)) as (l' & Hl' & Hj'). exists l'. auto. }
  destruct EW as (W & EW). exists W. destruct (assign_mats_sound fs w W S E3 EW) as (A1 & A2 & A3 & _ & A5). split; [exact A1|]. split; [exact A5|]. split; [exact A2|]. split; [exact A3|].
  intros s c SC Es. unfold prepare. rewrite Es. rewrite (puts_arrays w fs c) in SC |- *. set (a := arrays (puts w fs c)) in *.
  change (members (set_arrays w a)) with (members w). assert (EN : not_fixed (set_arrays w a) (members w) = not_fixed w (members w)) by (clear; induction (members w) as [|i t IH]; [reflexivity|]; cbn [not_fixed]; rewrite IH; reflexivity). rewrite EN, E1, bindE. change (free_lbdas (set_arrays w a)) with (free_lbdas w).
  assert (EF : free_lbdas w = []).
  { unfold free_lbdas, all_layers. assert (G : forall t, (forall l, In l t -> (l < List.length (layers w))%nat) -> filter (fun l => negb (lfixed (lbda (get_lay w l)))) t = []).
    { induction t as [|l t IH]; intros Ht; [reflexivity|]. cbn [filter]. rewrite (HL l) by (apply Ht; left; reflexivity). cbn [negb]. apply IH. intros j Hj. apply Ht. right. exact Hj. }
    apply G. intros l Hl. apply in_seq in Hl. lia. }
  rewrite EF. cbn zeta. rewrite (assign_arrays fs w W a S E3 SC EW), bindE. cbn [foldM fold_left]. rewrite bindE. eexists. split; [reflexivity|]. split.
  - destruct (rewind_m_spec fs (set_wd s (set_arrays W a))) as (R1 & _). cbn zeta in R1. rewrite R1. cbn [set_wd wd]. rewrite (puts_arrays W fs c). f_equal. unfold a. symmetry. apply puts_same; [apply (f_equal arrays) in A2; exact A2|].
    intros i. apply (f_equal mats) in A2. cbn [strip mats] in A2. apply (f_equal (map val)) in A2. rewrite !map_map in A2. unfold get_mat. apply (f_equal (fun l => nth i l (val no_matrix))) in A2. rewrite !map_nth in A2 by exact no_matrix. exact A2.
  - intros i Hi. destruct (rewind_m_spec fs (set_wd s (set_arrays W a))) as (_ & _ & _ & _ & _ & _ & R7). cbn zeta in R7. rewrite R7. rewrite (proj2 (existsb_in i fs) Hi). reflexivity.
Qed.

Lemma joint_same outs W w : layers W = layers w -> arrays W = arrays w -> (forall i, val (get_mat W i) = val (get_mat w i) /\ bprior (get_mat W i) = bprior (get_mat w i)) -> joint outs W = joint outs w.
Proof.
  intros El Ea Em. assert (EV : forall i, value W i = value w i) by (intros i; unfold value, get_arr; rewrite Ea, (proj1 (Em i)); reflexivity). assert (GL : forall l, get_lay W l = get_lay w l) by (intros l; unfold get_lay; rewrite El; reflexivity).
  unfold joint. rewrite El. f_equal; apply Rprod_ext.
  - intros l _. unfold layer_lik, disp. rewrite GL, EV. rewrite (map_ext _ _ EV). reflexivity.
  - intros i _. unfold factor_prior. rewrite EV, (proj2 (Em i)). reflexivity.
Qed.
(** What a call of infer records: the values after the passes of burn-in and one more pass for every sample. *)
Lemma run_slots outs w : outputs outs -> sound w -> (forall l, (l < List.length (layers w))%nat -> lfixed (lbda (get_lay w l)) = true) ->
  let fs := unfixed w in let states := choices (map (values_of w) fs) in
  NoDup fs /\ (forall i, In i fs -> is_factor w i) /\
  exists W, sound W /\ (forall i, In i fs -> armed W i) /\ map (values_of W) fs = map (values_of w) fs /\ (forall c, joint outs (puts W fs c) = joint outs (puts w fs c)) /\ (forall l, map (draws_needed W) l = map (draws_needed w) l) /\ (forall i, fixed_of W i = fixed_of w i /\ matrix_of W i = matrix_of w i) /\
  forall o cfg n s fuel, wd s = w -> random o -> usable cfg -> annealable cfg w -> (enough cfg <= fuel)%nat ->
  let pl := plan o fs (burn_in_passes cfg + n) (clock w) in
  forall c rss, In c states -> Forall (Forall is_draw) rss -> exists s', infer fuel (with_plan o w pl rss) cfg n (set_wd s (puts w fs c)) = Some (Ok s') /\
  forall j, (j < n)%nat -> recorded fs j s' = pass outs W fs (map snd (plan o fs (burn_in_passes cfg + S j) (clock w))) c rss.
Proof.
  intros Ho SO HL fs states. destruct (unfixed_ok w SO) as (_ & Hd & HF). destruct (prepared w SO HL) as (W & SW & HA & ES & EY & HP). fold fs in Hd, HF, HA, HP. split; [exact Hd|]. split; [exact HF|].
  assert (EA : arrays W = arrays w) by (apply (f_equal arrays) in ES; exact ES). assert (ECl : clock W = clock w) by (apply (f_equal clock) in ES; exact ES).
  assert (EM : forall i, with_sfct (get_mat W i) None = with_sfct (get_mat w i) None).
  { intros i. apply (f_equal mats) in ES. cbn [strip mats] in ES. unfold get_mat. apply (f_equal (fun l => nth i l (with_sfct no_matrix None))) in ES. rewrite !(map_nth (fun m => with_sfct m None)) in ES. exact ES. }
  assert (EV : forall i, val (get_mat W i) = val (get_mat w i)) by (intros i; pose proof (f_equal val (EM i)) as G; exact G).
  assert (EB : forall i, bprior (get_mat W i) = bprior (get_mat w i)) by (intros i; pose proof (f_equal bprior (EM i)) as G; exact G).
  assert (EX : forall i, fixed_of W i = fixed_of w i) by (intros i; unfold fixed_of; pose proof (f_equal fixed_entries (EM i)) as G; cbn in G; rewrite G; reflexivity).
  assert (EMx : forall i, matrix_of W i = matrix_of w i) by (intros i; unfold matrix_of, value, get_arr; rewrite EA, EV; reflexivity).
  assert (EVs : map (values_of W) fs = map (values_of w) fs) by (apply map_ext; intros i; unfold values_of; rewrite EMx, EX; reflexivity).
  assert (EJ : forall c, joint outs (puts W fs c) = joint outs (puts w fs c)).
  { intros c. destruct (puts_mats W fs c) as (P1 & P2 & _). destruct (puts_mats w fs c) as (P3 & P4 & _). apply joint_same; [congruence|apply puts_same; assumption|]. intros i. unfold get_mat. rewrite P1, P3. split; [apply EV|apply EB]. }
  assert (Hst : forall c, In c states -> In c (choices (map (values_of W) fs))) by (intros c Hc; rewrite EVs; exact Hc).
  exists W. split; [exact SW|]. split; [exact HA|]. split; [exact EVs|]. split; [exact EJ|]. split; [intros l; apply map_ext; intros i; unfold draws_needed; rewrite EMx; reflexivity|]. split; [auto|].
  intros o cfg n s fuel Ews Hr HU HAn Hfu pl c rss Hc HR. set (B := burn_in_passes cfg).
  assert (AN : anneal W = true -> (Z.max 0 (fix_lbda_iters cfg) < burn_in_min cfg)%Z -> fix_lbda_iters cfg = 0%Z) by (apply (f_equal anneal) in ES; cbn [strip anneal] in ES; rewrite ES; intros G1 G2; apply (HAn G1 G2)).
  assert (SC : sound (puts w fs c)) by (destruct (states_shapes w fs c Hc) as (G1 & G2); apply (puts_sound fs w c SO Hd HF G1 G2)).
  destruct (HP (set_wd s (puts w fs c)) c SC eq_refl) as (s1 & P1 & P2 & P3). unfold infer. rewrite P1.
  assert (EO : with_plan o w pl rss = with_plan o W (plan o fs (B + n) (clock W)) rss).
  { unfold with_plan. rewrite ECl. fold B in pl. fold pl. f_equal. apply FunctionalExtensionality.functional_extensionality. intros k. rewrite EMx. reflexivity. }
  rewrite EO. assert (A0 : at_pass outs W fs o rss c 0 s1) by (unfold at_pass; rewrite P2; unfold course, tpos; cbn [plan map pass Nat.mul]; rewrite Nat.add_0_r; destruct (puts_mats W fs c) as (_ & _ & G); rewrite <- G; destruct (puts W fs c); reflexivity).
  destruct (burn_in_run outs Ho W SW fs Hd HA o (proj1 Hr) cfg HU AN (B + n) rss HR c (Hst c Hc) fuel s1 Hfu ltac:(fold B; lia) A0) as (s2 & E2 & A2 & T2). rewrite E2. fold B in A2.
  destruct (allocate_run outs W SW fs HA o rss c n s2) with (m := B) as (s3 & E3 & A3 & S3); [intros i Hi; rewrite T2; apply P3; exact Hi|exact A2|]. rewrite E3, bindE. cbn [fold_left].
  destruct (samples_run outs Ho W SW fs Hd HA o (proj1 Hr) cfg HU AN (B + n) rss HR c (Hst c Hc) B n (le_n _) n 0%nat s3 eq_refl) as (s4 & E4 & S4); [rewrite Nat.add_0_r; exact A3|exact S3|]. rewrite E4. exists s4. split; [reflexivity|]. intros j Hj.
  rewrite <- ECl. fold (course outs W fs o rss c (B + S j)).
  pose proof (course_in outs W SW fs Hd HA o (proj1 Hr) rss c (Hst c Hc) (B + S j)) as Hin. destruct (states_shapes W fs _ Hin) as (L1 & _).
  apply (nth_ext _ _ [] []); [unfold recorded; rewrite map_length; symmetry; exact L1|]. intros k Hk. unfold recorded in *. rewrite map_length in Hk.
  set (g := fun i => match mtr s4 i with Some t => match nth j (mcells t) None with Some (A2 A) => A | _ => [] end | None => [] end). rewrite (nth_indep _ [] (g 0%nat)) by (rewrite map_length; exact Hk). rewrite map_nth. unfold g. destruct (S4 k Hk) as (_ & tr & G1 & _ & _ & G2). rewrite G1, (G2 j Hj). reflexivity.
Qed.
Lemma C81_lemma outs o cfg n s fuel j : outputs outs -> random o -> ordinary o (wd s) -> usable cfg -> annealable cfg (wd s) -> (forall l, (l < List.length (layers (wd s)))%nat -> lfixed (lbda (get_lay (wd s) l)) = true) -> (enough cfg <= fuel)%nat -> (j < n)%nat ->
  let w := wd s in let fs := unfixed w in let pl := plan o fs (burn_in_passes cfg + n) (clock w) in let states := choices (map (values_of w) fs) in let weight := fun c => joint outs (puts w fs c) in
  (forall c, In c states -> 0 < weight c) /\ In (map (matrix_of w) fs) states /\
  preserves (fun c rss h => after_run fs j h (infer fuel (with_plan o w pl rss) cfg n (set_wd s (puts w fs c)))) (map (draws_needed w) (map snd pl)) weight states.
Proof.
  intros Ho Hr H HU HAn HL Hfu Hj w fs pl states weight. pose proof (ordinary_sound _ _ Hr H) as SO. fold w in SO. destruct (run_slots outs w Ho SO HL) as (Hd & HF & W & SW & HA & EVs & EJ & ED & _ & HS). fold fs in Hd, HF, HA, EVs, EJ, HS. specialize (HS o cfg n s fuel eq_refl Hr HU HAn Hfu). fold pl states in HS.
  assert (Hst : forall c, In c states -> In c (choices (map (values_of W) fs))) by (intros c Hc; rewrite EVs; exact Hc).
  split; [|split].
  - intros c Hc. unfold weight. rewrite <- EJ. destruct (states_shapes W fs c (Hst c Hc)) as (H1 & H2). apply (states_puts outs W SW fs Hd HA c H1 H2).
  - apply states_ok. rewrite map_length. split; [reflexivity|]. intros k Hk. cbn zeta. rewrite (nth_indep _ [] (matrix_of w 0%nat)) by (rewrite map_length; exact Hk). rewrite map_nth. destruct (HF _ (nth_In fs 0%nat Hk)) as (l & Hl & Hil). split; [apply (sound_value w l _ SO Hl Hil)|].
    unfold agrees. apply forallb_forall. intros [a b] _. rewrite Z.eqb_refl. apply Bool.orb_true_r.
  - intros h. set (B := burn_in_passes cfg). destruct (plan_prefix o (proj1 Hr) fs (B + S j) (n - S j) (clock w)) as (r & Er). replace (B + S j + (n - S j))%nat with (B + n)%nat in Er by lia.
    destruct (pass_preserves outs W SW fs Hd HA (map snd (plan o fs (B + S j) (clock w))) (map snd r) (fun i Hi => plan_in o (proj1 Hr) fs _ _ i Hi) h) as (E & H1 & H2).
    exists E. rewrite EVs in H1, H2. split.
    + intros c Hc. specialize (H1 c Hc). rewrite <- map_app, <- Er in H1. fold B pl in H1. rewrite ED in H1.
      eapply is_EE_ext; [|exact H1]. intros rss HR. cbn beta. destruct (HS c rss Hc HR) as (s' & E1 & E2). rewrite E1. unfold after_run. rewrite (E2 j Hj). reflexivity.
    + transitivity (Rsum (fun c => joint outs (puts W fs c) * E c) states); [apply Rsum_ext; intros c _; rewrite EJ; reflexivity|]. unfold states. rewrite H2. apply Rsum_ext. intros c _. rewrite EJ. reflexivity.
Qed.
Lemma C81_all outs o cfg n s : outputs outs -> random o -> ordinary o (wd s) -> usable cfg -> annealable cfg (wd s) -> (forall l, (l < List.length (layers (wd s)))%nat -> lfixed (lbda (get_lay (wd s) l)) = true) ->
  exists F, forall fuel j, (F <= fuel)%nat -> (j < n)%nat ->
  let w := wd s in let fs := unfixed w in let pl := plan o fs (burn_in_passes cfg + n) (clock w) in let states := choices (map (values_of w) fs) in let weight := fun c => joint outs (puts w fs c) in
  (forall c, In c states -> 0 < weight c) /\ In (map (matrix_of w) fs) states /\
  preserves (fun c rss h => after_run fs j h (infer fuel (with_plan o w pl rss) cfg n (set_wd s (puts w fs c)))) (map (draws_needed w) (map snd pl)) weight states.
Proof. intros H1 H2 H3 H4 HA H5. exists (enough cfg). intros fuel j Hf Hj. apply C81_lemma; assumption. Qed.
