(** Groundwork for the proofs about inference: what each building block does to log, traces and objects. *)
From Coq Require Import String Permutation.
From Verif Require Import Base BaseR BaseLemmas Clean Machine Dispatch Inference.
Local Open Scope R_scope.

Lemma while_inv {S : Type} (cond : S -> bool) body (I : S -> Prop) :
  (forall s s', I s -> cond s = true -> body s = Some (Ok s') -> I s') ->
  forall fuel s s', while fuel cond body s = Some (Ok s') -> I s -> I s' /\ cond s' = false.
Proof.
  intros H. induction fuel as [|fuel IH]; intros s s' E HI; [discriminate|]. cbn [while] in E. destruct (cond s) eqn:C.
  - destruct (body s) as [[s1|e]|] eqn:B; try discriminate. apply (IH s1 s' E). eapply H; eassumption.
  - injection E as <-. auto.
Qed.
Lemma while_total {S : Type} (cond : S -> bool) body (I : S -> Prop) (mu : S -> nat) :
  (forall s, I s -> cond s = true -> body s <> None /\ forall s', body s = Some (Ok s') -> I s' /\ (mu s' < mu s)%nat) ->
  forall fuel s, I s -> (mu s < fuel)%nat -> while fuel cond body s <> None.
Proof.
  intros H. induction fuel as [|fuel IH]; intros s HI Hm; [lia|]. cbn [while]. destruct (cond s) eqn:C; [|discriminate].
  destruct (H s HI C) as [H1 H2]. destruct (body s) as [[s1|e]|]; try congruence.
  destruct (H2 s1 eq_refl) as [H3 H4]. apply IH; [exact H3|lia].
Qed.
Lemma bind_ok {A B} (r : res A) (f : A -> res B) b : bind r f = Ok b -> exists a, r = Ok a /\ f a = Ok b.
Proof. destruct r as [a|e]; cbn; [eauto|discriminate]. Qed.
Lemma foldM_inv {S A} (f : S -> A -> res S) (I : list A -> S -> Prop) :
  (forall done a s s', I done s -> f s a = Ok s' -> I (done ++ [a])%list s') ->
  forall l done s s', foldM f l s = Ok s' -> I done s -> I (done ++ l)%list s'.
Proof.
  intros H. induction l as [|a l IH]; intros done s s' E HI.
  - cbn in E. injection E as <-. rewrite app_nil_r. exact HI.
  - cbn [foldM] in E. apply bind_ok in E. destruct E as (s1 & E1 & E2). replace (done ++ a :: l)%list with ((done ++ [a]) ++ l)%list by (rewrite <- app_assoc; reflexivity).
    eapply IH; [exact E2|]. eapply H; eassumption.
Qed.

(** States that differ only in the objects and the log. *)
Definition same_traces (s s' : state) : Prop := mtr s' = mtr s /\ mti s' = mti s /\ ltr s' = ltr s /\ lti s' = lti s /\ iters s' = iters s.
Lemma same_traces_refl s : same_traces s s.
Proof. repeat split. Qed.
Lemma same_traces_trans a b c : same_traces a b -> same_traces b c -> same_traces a c.
Proof. intros (H1 & H2 & H3 & H4 & H5) (K1 & K2 & K3 & K4 & K5). repeat split; etransitivity; eassumption. Qed.

Lemma call_mat_spec o s i s' : call_mat o s i = Ok s' -> run_mat o (wd s) i = Ok (wd s') /\ log s' = (log s ++ [EMat i])%list /\ same_traces s s'.
Proof. unfold call_mat. intros H. apply bind_ok in H. destruct H as (w & E & H). injection H as <-. cbn. repeat split. exact E. Qed.
Lemma call_lbda_spec s l s' : call_lbda s l = Ok s' -> run_lbda (wd s) l = Ok (wd s') /\ log s' = (log s ++ [ELbda l (disp (wd s') l)])%list /\ same_traces s s'.
Proof. unfold call_lbda. intros H. apply bind_ok in H. destruct H as (w & E & H). injection H as <-. cbn. repeat split. exact E. Qed.

Lemma sweep_spec o ms s s' : sweep o ms s = Ok s' ->
  let p := o_perm o (clock (wd s)) ms in
  foldM (run_mat o) p (tick (wd s)) = Ok (wd s') /\ log s' = (log s ++ ESweep :: map EMat p)%list /\ same_traces s s'.
Proof.
  intros H p. unfold sweep in H. fold p in H.
  assert (G : forall l s0 s1, foldM (call_mat o) l s0 = Ok s1 -> foldM (run_mat o) l (wd s0) = Ok (wd s1) /\ log s1 = (log s0 ++ map EMat l)%list /\ same_traces s0 s1).
  { induction l as [|a l IH]; intros s0 s1 E.
    - cbn in E. injection E as <-. cbn. rewrite app_nil_r. repeat split.
    - cbn [foldM] in E. apply bind_ok in E. destruct E as (s2 & E1 & E2). apply call_mat_spec in E1. destruct E1 as (R & L & T).
      destruct (IH _ _ E2) as (R2 & L2 & T2). cbn [foldM map]. rewrite R. cbn [bind]. split; [exact R2|]. split.
      + rewrite L2, L, <- app_assoc. reflexivity.
      + eapply same_traces_trans; eassumption. }
  destruct (G _ _ _ H) as (R & L & T). split; [exact R|]. split; [|exact T]. rewrite L. cbn [log note set_wd]. rewrite <- app_assoc. reflexivity.
Qed.

Lemma get_lay_set w l j x : get_lay (set_lay w l x) j = if Nat.eqb j l && Nat.ltb l (List.length (layers w)) then x else get_lay w j.
Proof.
  unfold get_lay, set_lay, set_layers. cbn [layers].
  destruct (Nat.eqb_spec j l) as [->|Hj]; cbn [andb]; [|apply nth_upd_other; exact Hj].
  destruct (Nat.ltb_spec l (List.length (layers w))); [apply nth_upd_same; assumption|rewrite upd_oob by lia; reflexivity].
Qed.
(** A dispersion update touches nothing but its own layer's dispersion and ratio tables. *)
Lemma run_lbda_frame w l w' : run_lbda w l = Ok w' ->
  arrays w' = arrays w /\ mats w' = mats w /\ free w' = free w /\ anneal w' = anneal w /\ clock w' = clock w /\
  List.length (layers w') = List.length (layers w) /\ (forall j, j <> l -> get_lay w' j = get_lay w j) /\
  exists v rt, get_lay w' l = if Nat.ltb l (List.length (layers w)) then with_ratios (with_lbda (get_lay w l) (with_lv (lbda (get_lay w l)) v)) rt else get_lay w l.
Proof.
  unfold run_lbda. intros H. apply bind_ok in H. destruct H as (f & _ & H). apply bind_ok in H. destruct H as ([v rt] & _ & H). injection H as <-.
  repeat (split; [reflexivity|]). split; [unfold set_lay, set_layers; cbn [layers]; apply upd_length|]. split.
  - intros j Hj. rewrite get_lay_set, (proj2 (Nat.eqb_neq _ _) Hj). reflexivity.
  - exists v, rt. rewrite get_lay_set, Nat.eqb_refl. reflexivity.
Qed.
Lemma update_lbdas_spec ls s s' : NoDup ls -> update_lbdas ls s = Ok s' ->
  foldM run_lbda ls (wd s) = Ok (wd s') /\ log s' = (log s ++ map (fun l => ELbda l (disp (wd s') l)) ls)%list /\ same_traces s s' /\
  (forall j, ~ In j ls -> get_lay (wd s') j = get_lay (wd s) j).
Proof.
  unfold update_lbdas. revert s. induction ls as [|l ls IH]; intros s ND H.
  - cbn in H. injection H as <-. cbn. rewrite app_nil_r. repeat split.
  - cbn [foldM] in H. apply bind_ok in H. destruct H as (s1 & E1 & E2). apply call_lbda_spec in E1. destruct E1 as (R & L & T).
    inversion ND as [|? ? Hn ND']; subst. destruct (IH s1 ND' E2) as (R2 & L2 & T2 & F2). apply run_lbda_frame in R as RF.
    destruct RF as (_ & _ & _ & _ & _ & _ & RF & _).
    cbn [foldM map]. rewrite R. cbn [bind]. split; [exact R2|]. split.
    + rewrite L2, L, <- app_assoc. cbn [app]. do 3 f_equal. unfold disp. rewrite (F2 l Hn). reflexivity.
    + split; [eapply same_traces_trans; eassumption|]. intros j Hj. rewrite F2 by (intros C; apply Hj; right; exact C). apply RF. intros ->. apply Hj. left. reflexivity.
Qed.

(** Loops over dispersions that only touch traces. *)
Definition same_but_ltr (s s' : state) : Prop := wd s' = wd s /\ mtr s' = mtr s /\ mti s' = mti s /\ iters s' = iters s /\ log s' = log s.
Lemma rewind_spec ls : forall s, let s' := fold_left rewind_l ls s in same_but_ltr s s' /\
  (forall l, ltr s' l = ltr s l) /\ forall l, lti s' l = if existsb (Nat.eqb l) ls then 0%nat else lti s l.
Proof.
  induction ls as [|a ls IH]; intros s; cbv zeta; [cbn; repeat split|].
  cbn [fold_left]. destruct (IH (rewind_l s a)) as ((H1 & H2 & H3 & H4 & H5) & H6 & H7). cbv zeta in *. split; [repeat split; assumption|]. split.
  - intros l. rewrite H6. cbn. unfold fset. destruct (Nat.eqb_spec l a) as [->|]; reflexivity.
  - intros l. rewrite H7. cbn. unfold fset. destruct (existsb (Nat.eqb l) ls); cbn; [rewrite orb_true_r; reflexivity|]. rewrite orb_false_r. reflexivity.
Qed.
Lemma allocate_spec n ls : forall s, let s' := fold_left (allocate_l n) ls s in same_but_ltr s s' /\
  (forall l, lti s' l = lti s l) /\ 
  forall l, ltr s' l = if existsb (Nat.eqb l) ls then Some (LT (repeat None n) (match disp (wd s) l with LV v => Some (List.length v) | LS _ => None end)) else ltr s l.
Proof.
  induction ls as [|a ls IH]; intros s; cbv zeta; [cbn; repeat split|].
  cbn [fold_left]. destruct (IH (allocate_l n s a)) as ((H1 & H2 & H3 & H4 & H5) & H6 & H7). cbv zeta in *. split; [repeat split; assumption|]. split.
  - intros l. rewrite H6. cbn. unfold fset. destruct (Nat.eqb_spec l a) as [->|]; reflexivity.
  - intros l. rewrite H7. cbn. unfold fset. destruct (existsb (Nat.eqb l) ls); cbn; [rewrite orb_true_r; reflexivity|]. rewrite orb_false_r.
    destruct (Nat.eqb_spec l a) as [->|]; reflexivity.
Qed.
Lemma existsb_in l ls : existsb (Nat.eqb l) ls = true <-> In l ls.
Proof.
  rewrite existsb_exists. split.
  - intros (x & H & E). apply Nat.eqb_eq in E. subst. exact H.
  - intros H. exists l. rewrite Nat.eqb_refl. auto.
Qed.
Lemma existsb_nin l ls : ~ In l ls -> existsb (Nat.eqb l) ls = false.
Proof. intros H. destruct (existsb _ _) eqn:E; [|reflexivity]. apply existsb_in in E. contradiction. Qed.
Lemma update_trace_l_spec ls : forall s s', NoDup ls -> foldM update_trace_l ls s = Ok s' -> same_but_ltr s s' /\
  (forall l, ~ In l ls -> ltr s' l = ltr s l /\ lti s' l = lti s l) /\
  forall l, In l ls -> exists t, ltr s l = Some t /\ (lti s l < List.length (lcells t))%nat /\
    ltr s' l = Some (LT (upd (lcells t) (lti s l) (Some (disp (wd s) l))) (lwidth t)) /\ lti s' l = S (lti s l).
Proof.
  induction ls as [|a ls IH]; intros s s' ND H.
  - cbn in H. injection H as <-. repeat split; auto. contradiction.
  - cbn [foldM] in H. apply bind_ok in H. destruct H as (s1 & E1 & E2). inversion ND as [|? ? Hn ND']; subst.
    unfold update_trace_l in E1. destruct (ltr s a) as [t|] eqn:Et; [|discriminate]. destruct (Nat.ltb_spec (lti s a) (List.length (lcells t))) as [Hlt|]; [|discriminate]. injection E1 as <-.
    destruct (IH _ _ ND' E2) as ((H1 & H2 & H3 & H4 & H5) & H6 & H7). split; [repeat split; assumption|]. split.
    + intros l Hl. destruct (H6 l) as [G1 G2]; [intros C; apply Hl; right; exact C|]. rewrite G1, G2. cbn. unfold fset.
      destruct (Nat.eqb_spec l a) as [->|]; [exfalso; apply Hl; left; reflexivity|auto].
    + intros l [<-|Hl].
      * exists t. destruct (H6 a Hn) as [G1 G2]. rewrite G1, G2. cbn. unfold fset. rewrite Nat.eqb_refl. auto.
      * destruct (H7 l Hl) as (t' & G1 & G2 & G3 & G4). cbn in G1, G2, G3, G4. unfold fset in *. destruct (Nat.eqb_spec l a) as [->|]; [contradiction|]. exists t'. auto.
Qed.
Lemma check_all_spec o ls e : forall s s1 b, check_all o ls e s = Ok (s1, b) -> wd s1 = wd s /\ same_traces s s1 /\
  (forall l, In l ls -> exists t, ltr s l = Some t) /\
  log s1 = (log s ++ map (fun l => ECheck l (match ltr s l with Some t => lcells t | None => [] end)) ls)%list /\
  (b = true <-> forall l t, In l ls -> ltr s l = Some t -> check_convergence o (clock (wd s)) t e = true).
Proof.
  induction ls as [|a ls IH]; intros s s1 b H.
  - cbn in H. injection H as <- <-. cbn. rewrite app_nil_r. repeat split; auto; contradiction.
  - cbn [check_all] in H. destruct (ltr s a) as [t|] eqn:Et; [|discriminate]. apply bind_ok in H. destruct H as ([s2 b2] & E & H). injection H as <- <-.
    destruct (IH _ _ _ E) as (H1 & H2 & H3 & H4 & H5). cbn [ltr note wd] in *. split; [exact H1|]. split; [exact H2|]. split; [|split].
    + intros l [<-|Hl]; eauto.
    + rewrite H4. cbn [log note]. rewrite <- app_assoc. cbn [map app]. rewrite Et. reflexivity.
    + rewrite andb_true_iff, H5. split.
      * intros [G1 G2] l t' [<-|Hl] Et'; [rewrite Et in Et'; injection Et' as <-; exact G1|eauto].
      * intros G. split; [apply (G a t); auto; left; reflexivity|]. intros l t' Hl. apply G. right. exact Hl.
Qed.

(** The state in which a round of the monitored burn-in arrives at the test for the maximum. *)
Inductive mid (o : oracle) (cfg : settings) (ls : list nat) (k : nat) (s : state) : state -> Prop :=
| mid_skip : Nat.modulo k (window cfg) <> 0%nat -> mid o cfg ls k s s
| mid_no s1 : Nat.modulo k (window cfg) = 0%nat -> check_all o ls (eps cfg) (fold_left rewind_l ls s) = Ok (s1, false) -> mid o cfg ls k s s1
| mid_clean s1 w : Nat.modulo k (window cfg) = 0%nat -> check_all o ls (eps cfg) (fold_left rewind_l ls s) = Ok (s1, true) ->
    clean_all (wd s1) (all_layers (wd s1)) = Some (Ok (w, true)) ->
    mid o cfg ls k s (fold_left rewind_l ls (fold_left (allocate_l (window cfg)) ls (set_wd s1 w))).
Inductive round (o : oracle) (cfg : settings) (ms ls : list nat) (pre : Z) (k : nat) (s : state) : bool -> state -> Prop :=
| round_go sA s1 s2 s3 : mid o cfg ls k s sA -> (Z.of_nat k + pre <= burn_in_max cfg)%Z -> sweep o ms sA = Ok s1 -> update_lbdas ls s1 = Ok s2 ->
    foldM update_trace_l ls s2 = Ok s3 -> round o cfg ms ls pre k s false s3
| round_max sA w : mid o cfg ls k s sA -> (burn_in_max cfg < Z.of_nat k + pre)%Z -> final_clean (wd sA) (all_layers (wd sA)) = Some (Ok w) ->
    round o cfg ms ls pre k s true (set_iters (fold_left rewind_l ls (set_wd sA w)) (Z.of_nat k))
| round_conv s1 w : Nat.modulo k (window cfg) = 0%nat -> check_all o ls (eps cfg) (fold_left rewind_l ls s) = Ok (s1, true) ->
    clean_all (wd s1) (all_layers (wd s1)) = Some (Ok (w, false)) -> round o cfg ms ls pre k s true (set_iters (set_wd s1 w) (Z.of_nat k + pre)).
Lemma main_body_inv o cfg ms ls pre k0 b s k' stop s' : main_body o cfg ms ls pre (k0, b, s) = Some (Ok (k', stop, s')) ->
  k' = S k0 /\ window cfg <> 0%nat /\ print_step cfg <> 0%nat /\ round o cfg ms ls pre (S k0) s stop s'.
Proof.
  unfold main_body. cbv zeta. unfold div_ok. destruct (Nat.eqb_spec (print_step cfg) 0) as [|Hp]; [discriminate|]. destruct (Nat.eqb_spec (window cfg) 0) as [|Hw]; [discriminate|].
  assert (GO : forall sA, mid o cfg ls (S k0) s sA ->
    (if (burn_in_max cfg <? Z.of_nat (S k0) + pre)%Z then
      match final_clean (wd sA) (all_layers (wd sA)) with
      | None => None
      | Some (Err e) => Some (Err e)
      | Some (Ok w) => Some (Ok (S k0, true, set_iters (fold_left rewind_l ls (set_wd sA w)) (Z.of_nat (S k0))))
      end
    else Some (bind (sweep o ms sA) (fun s1 => bind (update_lbdas ls s1) (fun s2 =>
               bind (foldM update_trace_l ls s2) (fun s3 => Ok (S k0, false, s3)))))) = Some (Ok (k', stop, s')) -> 
    k' = S k0 /\ window cfg <> 0%nat /\ print_step cfg <> 0%nat /\ round o cfg ms ls pre (S k0) s stop s').
  { intros sA HA. destruct (Z.ltb_spec (burn_in_max cfg) (Z.of_nat (S k0) + pre)) as [Hm|Hm].
    - destruct (final_clean _ _) as [[w|e]|] eqn:F; try discriminate. intros H. injection H as <- <- <-. repeat split; auto. eapply round_max; eassumption.
    - intros H. injection H as H. apply bind_ok in H. destruct H as (s1 & E1 & H). apply bind_ok in H. destruct H as (s2 & E2 & H). apply bind_ok in H. destruct H as (s3 & E3 & H).
      injection H as <- <- <-. repeat split; auto. eapply round_go; eauto. }
  destruct (Nat.eqb_spec (Nat.modulo (S k0) (window cfg)) 0) as [Em|Em].
  - destruct (check_all _ _ _ _) as [[s1 conv]|e] eqn:Ec; [|discriminate]. destruct conv.
    + destruct (clean_all _ _) as [[[w red]|e]|] eqn:Ecl; try discriminate. destruct red.
      * apply GO. eapply mid_clean; eassumption.
      * intros H. injection H as <- <- <-. repeat split; auto. eapply round_conv; eassumption.
    + apply GO. apply mid_no; assumption.
  - apply GO. apply mid_skip; assumption.
Qed.
