(** C25, C63: the sampling phase. *)
From Coq Require Import String Permutation.
From Verif Require Import Base BaseR BaseLemmas SpecR Clean Machine Dispatch Inference SpecMachine MachineProofs BuiltProofs InferenceProofs InferenceProofs2 InferenceProofs3 InferenceProofs4 InferenceProofs5 InferenceProofs6.
Local Open Scope R_scope.

(** ** Writing traces *)
Definition new_slice (w : world) (i : nat) (t : mtrace) (k : nat) (x : arr) : Prop :=
  match nth k (mcells t) None, mwidth t with
  | Some (A2 old), Some n => exists m, value w i = A2 m /\ (ncols m <= n)%nat /\ x = A2 (overlay old m)
  | _, _ => x = value w i
  end.
Definition same_but_mtr (s s' : state) : Prop := wd s' = wd s /\ ltr s' = ltr s /\ lti s' = lti s /\ iters s' = iters s /\ log s' = log s.
Lemma update_trace_m_spec ms : forall s s', NoDup ms -> foldM update_trace_m ms s = Ok s' -> same_but_mtr s s' /\
  (forall i, ~ In i ms -> mtr s' i = mtr s i /\ mti s' i = mti s i) /\
  forall i, In i ms -> exists t x, mtr s i = Some t /\ (mti s i < List.length (mcells t))%nat /\ new_slice (wd s) i t (mti s i) x /\
    mtr s' i = Some (MT (upd (mcells t) (mti s i) (Some x)) (mwidth t)) /\ mti s' i = S (mti s i).
Proof.
  induction ms as [|a ms IH]; intros s s' ND H.
  - cbn in H. injection H as <-. repeat split; auto. contradiction.
  - cbn [foldM] in H. apply bind_ok in H. destruct H as (s1 & E1 & E2). inversion ND as [|? ? Hn ND']; subst.
    unfold update_trace_m in E1. destruct (mtr s a) as [t|] eqn:Et; [|discriminate]. destruct (Nat.ltb_spec (mti s a) (List.length (mcells t))) as [Hlt|]; [|discriminate].
    apply bind_ok in E1. destruct E1 as (x & Ex & E1). injection E1 as <-.
    assert (HX : new_slice (wd s) a t (mti s a) x).
    { unfold new_slice. destruct (nth (mti s a) (mcells t) None) as [[old|old]|]; [destruct (mwidth t) as [n|]| |]; try (injection Ex as <-; reflexivity).
      apply bind_ok in Ex. destruct Ex as (m & Em & Ex). destruct (Nat.leb_spec (ncols m) n); [|discriminate]. injection Ex as <-. exists m. split; [|auto].
      unfold read2 in Em. destruct (value (wd s) a); [injection Em as ->; reflexivity|discriminate]. }
    destruct (IH _ _ ND' E2) as ((H1 & H2 & H3 & H4 & H5) & H6 & H7). split; [repeat split; assumption|]. split.
    + intros l Hl. destruct (H6 l) as [G1 G2]; [intros C; apply Hl; right; exact C|]. rewrite G1, G2. cbn. unfold fset.
      destruct (Nat.eqb_spec l a) as [->|]; [exfalso; apply Hl; left; reflexivity|auto].
    + intros l [<-|Hl].
      * exists t, x. destruct (H6 a Hn) as [G1 G2]. rewrite G1, G2. cbn. unfold fset. rewrite Nat.eqb_refl. auto.
      * destruct (H7 l Hl) as (t' & y & G1 & G2 & G3 & G4 & G5). cbn in G1, G2, G3, G4, G5. unfold fset in *. destruct (Nat.eqb_spec l a) as [->|]; [contradiction|]. exists t', y. auto.
Qed.
Lemma allocate_m_spec n ms : forall s s', foldM (allocate_m n) ms s = Ok s' -> same_but_mtr s s' /\ (forall i, mti s' i = mti s i) /\
  (forall i, In i ms -> layer_of (get_mat (wd s) i) <> None /\
     if is_ibp (wd s) i then exists m, value (wd s) i = A2 m /\ mtr s' i = Some (MT (repeat (Some (A2 (repeat (repeat (-1)%Z (ncols m + 10)) (nrows m)))) n) (Some (ncols m + 10)%nat))
     else mtr s' i = Some (MT (repeat None n) None)).
Proof.
  induction ms as [|a ms IH]; intros s s' H.
  - cbn in H. injection H as <-. repeat split; auto; contradiction.
  - cbn [foldM] in H. apply bind_ok in H. destruct H as (s1 & E1 & E2). unfold allocate_m in E1. apply bind_ok in E1. destruct E1 as (lay & El & E1).
    assert (HL : layer_of (get_mat (wd s) a) <> None) by (unfold own_layer in El; destruct (layer_of (get_mat (wd s) a)); [discriminate|discriminate]).
    assert (G : exists t, s1 = set_mtr s a (Some t) (mti s a) /\ if is_ibp (wd s) a then exists m, value (wd s) a = A2 m /\ t = MT (repeat (Some (A2 (repeat (repeat (-1)%Z (ncols m + 10)) (nrows m)))) n) (Some (ncols m + 10)%nat) else t = MT (repeat None n) None).
    { destruct (is_ibp (wd s) a).
      - apply bind_ok in E1. destruct E1 as (m & Em & E1). cbv zeta in E1. injection E1 as <-. eexists. split; [reflexivity|]. exists m. split; [|reflexivity].
        unfold read2 in Em. destruct (value (wd s) a); [injection Em as ->; reflexivity|discriminate].
      - injection E1 as <-. eexists. split; reflexivity. }
    destruct G as (t & -> & Ht). destruct (IH _ _ E2) as ((H1 & H2 & H3 & H4 & H5) & H6 & H7). cbn [wd set_mtr ltr lti iters log] in *.
    split; [repeat split; assumption|]. split.
    { intros i. rewrite H6. cbn [mti set_mtr]. unfold fset. destruct (Nat.eqb_spec i a) as [->|]; reflexivity. }
    intros i Hi. destruct (in_dec Nat.eq_dec i ms) as [Him|Him]; [apply H7; exact Him|]. destruct Hi as [<-|Hi]; [|contradiction]. split; [exact HL|].
    assert (Hout : forall l s0 s2, foldM (allocate_m n) l s0 = Ok s2 -> ~ In a l -> mtr s2 a = mtr s0 a).
    { clear. induction l as [|b l IH]; intros s0 s2 H Hn; cbn [foldM] in H; [injection H as <-; reflexivity|]. apply bind_ok in H. destruct H as (s1 & E & H). rewrite (IH _ _ H) by (intros C; apply Hn; right; exact C).
      unfold allocate_m in E. apply bind_ok in E. destruct E as (_ & _ & E). assert (Hab : a <> b) by (intros ->; apply Hn; left; reflexivity).
      destruct (is_ibp (wd s0) b); [apply bind_ok in E; destruct E as (m & _ & E); cbv zeta in E|]; injection E as <-; cbn [mtr set_mtr]; unfold fset; rewrite (proj2 (Nat.eqb_neq _ _) Hab); reflexivity. }
    rewrite (Hout _ _ _ E2 Him). cbn [mtr set_mtr]. unfold fset. rewrite Nat.eqb_refl. destruct (is_ibp (wd s) a); [destruct Ht as (m & ? & ->); exists m; auto|subst t; reflexivity].
Qed.

(** ** One sampling iteration *)
Lemma run_lbda_value w l w' i : run_lbda w l = Ok w' -> value w' i = value w i.
Proof. intros H. apply run_lbda_frame in H. destruct H as (H1 & H2 & _). unfold value, get_arr, get_mat. rewrite H1, H2. reflexivity. Qed.
Lemma lbdas_value ls i : forall w w', foldM run_lbda ls w = Ok w' -> value w' i = value w i.
Proof.
  induction ls as [|l ls IH]; intros w w' H; cbn [foldM] in H; [injection H as <-; reflexivity|].
  apply bind_ok in H. destruct H as (w1 & E & H). rewrite (IH _ _ H). eapply run_lbda_value; exact E.
Qed.
Lemma sample_body_spec o cfg ms ls s s' : fair o -> NoDup ms -> NoDup ls -> sample_body o cfg ms ls s = Ok s' ->
  iteration o ms ls (wd s) (wd s') /\ (exists b, full_sweep ms ls b /\ log s' = (log s ++ b)%list) /\ iters s' = iters s /\
  (forall i, In i ms -> exists t x, mtr s i = Some t /\ (mti s i < List.length (mcells t))%nat /\ new_slice (wd s') i t (mti s i) x /\
    mtr s' i = Some (MT (upd (mcells t) (mti s i) (Some x)) (mwidth t)) /\ mti s' i = S (mti s i)) /\
  (forall l, In l ls -> exists t, ltr s l = Some t /\ (lti s l < List.length (lcells t))%nat /\
    ltr s' l = Some (LT (upd (lcells t) (lti s l) (Some (disp (wd s') l))) (lwidth t)) /\ lti s' l = S (lti s l)).
Proof.
  intros F NM NL H. unfold sample_body in H. apply bind_ok in H. destruct H as (s1 & E1 & H). apply bind_ok in H. destruct H as (s2 & E2 & H).
  apply bind_ok in H. destruct H as (s3 & E3 & H). apply bind_ok in H. destruct H as (s4 & E4 & H). apply bind_ok in H. destruct H as (_ & _ & H). injection H as <-.
  apply sweep_spec in E1. cbv zeta in E1. destruct E1 as (A1 & A2 & (a1 & a2 & a3 & a4 & a5)).
  apply update_trace_m_spec in E2; [|exact NM]. destruct E2 as ((B1 & B2 & B3 & B4 & B5) & _ & B6).
  apply update_lbdas_spec in E3; [|exact NL]. destruct E3 as (C1 & C2 & (c1 & c2 & c3 & c4 & c5) & _).
  apply update_trace_l_spec in E4; [|exact NL]. destruct E4 as ((D1 & D2 & D3 & D4 & D5) & _ & D6).
  rewrite B1 in C1. split; [|split; [|split; [|split]]].
  - exists (o_perm o (clock (wd s)) ms), (wd s1). split; [apply F|]. split; [exact A1|]. rewrite D1. exact C1.
  - eexists. split; [|rewrite D5, C2, B5, A2, <- app_assoc; reflexivity]. eexists. eexists. split; [reflexivity|]. split; [eexists; split; [apply F|reflexivity]|eexists; reflexivity].
  - congruence.
  - intros i Hi. destruct (B6 i Hi) as (t & x & X1 & X2 & X3 & X4 & X5). exists t, x. rewrite <- a1, <- a2. split; [exact X1|]. split; [exact X2|]. split.
    + unfold new_slice in *. rewrite D1, (lbdas_value ls i _ _ C1). exact X3.
    + rewrite D2, c1, D3, c2. auto.
  - intros l Hl. destruct (D6 l Hl) as (t & X1 & X2 & X3 & X4). exists t. rewrite <- a3, <- a4, <- B2, <- B3, <- c3, <- c4. rewrite D1. auto.
Qed.

(** ** All of them *)
Fixpoint iterations (o : oracle) (ms ls : list nat) (W : nat -> world) (n : nat) : Prop :=
  match n with O => True | S k => iterations o ms ls W k /\ iteration o ms ls (W k) (W (S k)) end.
Lemma nth_repeat_in {A} (x d : A) n k : (k < n)%nat -> nth k (repeat x n) d = x.
Proof. revert k. induction n as [|n IH]; intros k H; [lia|]. destruct k; [reflexivity|]. cbn. apply IH. lia. Qed.
Lemma overlay_row n0 n m r : (r < Nat.min n0 (List.length m))%nat ->
  row (overlay (repeat (repeat (-1)%Z n) n0) m) r = (row m r ++ skipn (List.length (row m r)) (repeat (-1)%Z n))%list.
Proof.
  intros Hr. unfold row, overlay. set (g := fun p : vec * vec => (snd p ++ skipn (List.length (snd p)) (fst p))%list).
  rewrite (nth_indep _ [] (g ([], []))) by (rewrite map_length, combine_length, repeat_length; lia).
  etransitivity; [exact (map_nth g _ ([], []) r)|]. 
  assert (Ec : nth r (combine (repeat (repeat (-1)%Z n) n0) m) ([], []) = (repeat (-1)%Z n, nth r m [])).
  { revert m r Hr. induction n0 as [|k IH]; intros m r Hr; [cbn in Hr; lia|]. destruct m as [|v m]; [cbn in Hr; lia|]. destruct r as [|r]; [reflexivity|]. cbn [repeat combine nth]. apply IH. cbn in Hr. lia. }
  etransitivity; [exact (f_equal g Ec)|]. reflexivity.
Qed.
Lemma overlay_holds n0 n m : holds n0 n m (overlay (repeat (repeat (-1)%Z n) n0) m).
Proof.
  split; [unfold overlay; rewrite map_length, combine_length, repeat_length; reflexivity|]. intros r c Hr.
  unfold at2. etransitivity; [exact (f_equal (fun v => at1 v c) (overlay_row n0 n m r Hr))|]. unfold at1. destruct (Nat.ltb_spec c (List.length (row m r))) as [Hc|Hc]; [apply app_nth1; exact Hc|].
  rewrite app_nth2 by exact Hc. assert (Es : forall k, skipn k (repeat (-1)%Z n) = repeat (-1)%Z (n - k)).
  { clear. induction n as [|n IH]; intros k; [destruct k; reflexivity|]. destruct k as [|k]; [reflexivity|]. cbn [repeat skipn]. rewrite IH. reflexivity. }
  rewrite Es. destruct (Nat.ltb_spec c n) as [Hn|Hn].
  - apply nth_repeat_in. lia.
  - apply nth_overflow. rewrite repeat_length. lia.
Qed.

(** Traces after t of n iterations. *)
Definition mtraces (w0 : world) (W : nat -> world) (n t : nat) (i : nat) (tr : mtrace) : Prop :=
  List.length (mcells tr) = n /\
  if is_ibp w0 i then exists m0, value w0 i = A2 m0 /\ let k := (ncols m0 + 10)%nat in mwidth tr = Some k /\
    (forall j, (j < t)%nat -> exists m m', value (W (S j)) i = A2 m /\ nth_error (mcells tr) j = Some (Some (A2 m')) /\ (ncols m <= k)%nat /\ holds (nrows m0) k m m') /\
    forall j, (t <= j < n)%nat -> nth_error (mcells tr) j = Some (Some (A2 (repeat (repeat (-1)%Z k) (nrows m0))))
  else mwidth tr = None /\ forall j, (j < t)%nat -> nth_error (mcells tr) j = Some (Some (value (W (S j)) i)).
Lemma nth_error_upd {A} (l : list A) k x j : nth_error (upd l k x) j = if (Nat.eqb j k && Nat.ltb k (List.length l))%bool then Some x else nth_error l j.
Proof.
  revert k j. induction l as [|a l IH]; intros k j.
  - cbn [List.length]. rewrite andb_false_r. destruct k; reflexivity.
  - destruct k as [|k]; destruct j as [|j]; cbn [upd nth_error]; try reflexivity. etransitivity; [apply IH|]. reflexivity.
Qed.
Lemma nth_error_none {A} (l : list (option A)) k x : nth_error l k = Some x -> nth k l None = x.
Proof. intros H. apply nth_error_nth. exact H. Qed.

Lemma samples_course o cfg ms ls n : fair o -> NoDup ms -> NoDup ls -> forall k W t s s', (t + k = n)%nat ->
  samples k o cfg ms ls s = Ok s' -> iterations o ms ls W t -> W t = wd s ->
  (forall i, In i ms -> mti s i = t /\ exists tr, mtr s i = Some tr /\ mtraces (W 0%nat) W n t i tr) ->
  (forall l, In l ls -> lti s l = t /\ exists tr, ltr s l = Some tr /\ List.length (lcells tr) = n /\ forall j, (j < t)%nat -> nth_error (lcells tr) j = Some (Some (disp (W (S j)) l))) ->
  exists W' smp, W' 0%nat = W 0%nat /\ iterations o ms ls W' n /\ W' n = wd s' /\ full_sweeps ms ls k smp /\ log s' = (log s ++ smp)%list /\ iters s' = iters s /\
  (forall i, In i ms -> mti s' i = n /\ exists tr, mtr s' i = Some tr /\ mtraces (W' 0%nat) W' n n i tr) /\
  (forall l, In l ls -> lti s' l = n /\ exists tr, ltr s' l = Some tr /\ List.length (lcells tr) = n /\ forall j, (j < n)%nat -> nth_error (lcells tr) j = Some (Some (disp (W' (S j)) l))).
Proof.
  intros F NM NL. induction k as [|k IH]; intros W t s s' Hk H HI HW HM HL.
  - cbn in H. injection H as <-. assert (t = n) by lia. subst t. exists W, []. rewrite app_nil_r. repeat split; auto; try constructor.
    1,2: apply HM; assumption. 1,2: apply HL; assumption.
  - cbn [samples] in H. apply bind_ok in H. destruct H as (s1 & E & H). apply sample_body_spec in E; auto. destruct E as (I1 & (b & Hb & Hlog) & Hit & M1 & L1).
    set (W1 := fun j => if (j <=? t)%nat then W j else wd s1).
    assert (W1le : forall j, (j <= t)%nat -> W1 j = W j) by (intros j Hj; unfold W1; destruct (Nat.leb_spec j t); [reflexivity|lia]).
    assert (W1S : W1 (S t) = wd s1) by (unfold W1; destruct (Nat.leb_spec (S t) t); [lia|reflexivity]).
    assert (HI1 : iterations o ms ls W1 (S t)).
    { cbn [iterations]. rewrite (W1le t), HW, W1S by lia. split; [|exact I1]. clear - HI W1le.
      assert (G : forall u, (u <= t)%nat -> iterations o ms ls W u -> iterations o ms ls W1 u).
      { induction u as [|u IH]; intros Hu HU; [exact I|]. cbn [iterations] in *. destruct HU as [U1 U2]. split; [apply IH; [lia|exact U1]|]. rewrite !W1le by lia. exact U2. }
      apply G; [lia|exact HI]. }
    destruct (IH W1 (S t) s1 s') as (W' & smp & Z1 & Z2 & Z3 & Z4 & Z5 & Z6 & Z7 & Z8); [lia|exact H|exact HI1|exact W1S| | |].
    + intros i Hi. destruct (M1 i Hi) as (tr & x & X1 & X2 & X3 & X4 & X5). destruct (HM i Hi) as (Y1 & tr' & Y2 & Y3). rewrite X1 in Y2. injection Y2 as <-.
      split; [rewrite X5, Y1; reflexivity|]. eexists. split; [exact X4|]. rewrite Y1 in *. destruct Y3 as (Q1 & Q2). split; [cbn [mcells]; rewrite upd_length; exact Q1|].
      rewrite (W1le 0%nat) by lia. cbn [mcells mwidth]. unfold new_slice in X3. destruct (is_ibp (W 0%nat) i).
      * destruct Q2 as (m0 & Q2 & Q3 & Q4 & Q5). exists m0. cbv zeta in *. split; [exact Q2|]. split; [exact Q3|].
        rewrite (nth_error_none _ _ _ (Q5 t ltac:(lia))), Q3 in X3. destruct X3 as (m & G1 & G2 & G3).
        split.
        -- intros j Hj. rewrite nth_error_upd. destruct (Nat.eqb_spec j t) as [->|Hjt].
           ++ destruct (Nat.ltb_spec t (List.length (mcells tr))) as [_|]; [|lia]. cbn [andb]. rewrite W1S. subst x. eexists. eexists. split; [exact G1|]. split; [reflexivity|]. split; [exact G2|]. apply overlay_holds.
           ++ cbn [andb]. rewrite (W1le (S j)) by lia. apply Q4. lia.
        -- intros j Hj. rewrite nth_error_upd. destruct (Nat.eqb_spec j t) as [->|Hjt]; [lia|]. cbn [andb]. apply Q5. lia.
      * destruct Q2 as (Q2 & Q3). split; [exact Q2|]. rewrite Q2 in X3. assert (Ex : x = value (wd s1) i) by (destruct (nth t (mcells tr) None) as [[?|?]|]; exact X3).
        intros j Hj. rewrite nth_error_upd. destruct (Nat.eqb_spec j t) as [->|Hjt].
        -- destruct (Nat.ltb_spec t (List.length (mcells tr))) as [_|]; [|lia]. cbn [andb]. rewrite W1S, Ex. reflexivity.
        -- cbn [andb]. rewrite (W1le (S j)) by lia. apply Q3. lia.
    + intros l Hl. destruct (L1 l Hl) as (tr & X1 & X2 & X3 & X4). destruct (HL l Hl) as (Y1 & tr' & Y2 & Y3 & Y4). rewrite X1 in Y2. injection Y2 as <-. rewrite Y1 in *.
      split; [exact X4|]. eexists. split; [exact X3|]. cbn [lcells]. split; [rewrite upd_length; exact Y3|]. intros j Hj. rewrite nth_error_upd. destruct (Nat.eqb_spec j t) as [->|Hjt].
      * destruct (Nat.ltb_spec t (List.length (lcells tr))) as [_|]; [|lia]. cbn [andb]. rewrite W1S. reflexivity.
      * cbn [andb]. rewrite (W1le (S j)) by lia. apply Y4. lia.
    + exists W', (b ++ smp)%list. rewrite (W1le 0%nat) in Z1 by lia. split; [exact Z1|]. split; [exact Z2|]. split; [exact Z3|]. split.
      { clear - Z4 Hb. revert smp Z4. induction k as [|k IH]; intros smp HS.
        - inversion HS; subst. rewrite app_nil_r. change b with ([] ++ b)%list. constructor; [constructor|exact Hb].
        - inversion HS as [|? evs b' Hs1 Hs2]; subst. rewrite app_assoc. constructor; [apply IH; exact Hs1|exact Hs2]. }
      split; [rewrite Z5, Hlog, app_assoc; reflexivity|]. split; [congruence|]. split; assumption.
Qed.
