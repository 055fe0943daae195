(** An observed one and flat priors, the default: all configurations are linked, but not whatever the orders. *)
From Coq Require Import String Lia Lra Permutation Relations.
From Verif Require Import Base BaseR BaseRLemmas Spec SpecR Canon Machine Dispatch Inference SpecMachine MachineExamples BaseLemmas SpecOrdinary SpecPass SpecPredict SpecErgodic OrdinaryProofs7 OrdinaryExamples PassExamples ErgodicExamples.
Local Open Scope R_scope.

Definition cfg2 (u v : Z) : list mat := [[[u]]; [[v]]].
Definition e1 : nat * (nat * nat) := (1, (0, 0))%nat.
Definition e2 : nat * (nat * nat) := (2, (0, 0))%nat.
Section One.
Context (p : R) (x : Z).
Lemma one_updates : update_sequence (one_machine p x) [1; 2]%nat = [e1; e2] /\ update_sequence (one_machine p x) [2; 1]%nat = [e2; e1].
Proof. split; reflexivity. Qed.
Lemma one_negate1 u v : negate_at (one_machine p x) (cfg2 u v) e1 = cfg2 (- u) v.
Proof. reflexivity. Qed.
Lemma one_negate2 u v : negate_at (one_machine p x) (cfg2 u v) e2 = cfg2 u (- v).
Proof. reflexivity. Qed.
Lemma one_updates_app a b : update_sequence (one_machine p x) (a ++ b) = (update_sequence (one_machine p x) a ++ update_sequence (one_machine p x) b)%list.
Proof. unfold update_sequence. rewrite flat_map_app, filter_app. reflexivity. Qed.
Lemma one_orders order : Permutation order (unfixed (wd (one_machine p x))) <-> order = [1; 2]%nat \/ order = [2; 1]%nat.
Proof.
  rewrite one_machine_unfixed. split; [|intros [-> | ->]; [apply Permutation_refl|apply perm_swap]]. intros H. pose proof (Permutation_length H) as L. destruct order as [|a [|b [|c l]]]; cbn in L; try lia. apply Permutation_length_2 in H. destruct H as [(-> & ->)|(-> & ->)]; auto.
Qed.
End One.

(** All orders of the updates of these machines. *)
Lemma one_all_orders p x : all_orders (one_machine p x) [[1; 2]; [2; 1]]%nat.
Proof.
  split; [repeat constructor; cbn; intuition discriminate|]. intros order. rewrite one_orders. cbn. intuition congruence.
Qed.
(** One of the configurations is more probable than the other three. *)
Lemma one_weight u v : (u = 1 \/ u = -1)%Z -> (v = 1 \/ v = -1)%Z -> posterior the_outputs (one_machine (1 / 2) 1) (cfg2 u v) = (if ((u =? 1) && (v =? 1))%bool%Z then sigma (5 / 100) else sigma (- (5 / 100))) / 4.
Proof.
  intros Hu Hv. unfold cfg2. rewrite one_machine_weight, one_machine_output by assumption. destruct Hu as [-> | ->]; destruct Hv as [-> | ->]; cbn [Z.eqb Pos.eqb andb]; (match goal with |- sigma ?a * _ = sigma ?b / 4 => replace a with b by lra end); lra.
Qed.
Lemma one_weights : sigma (- (5 / 100)) / 4 < sigma (5 / 100) / 4.
Proof. pose proof (LambdaProofs.sigma_incr (- (5 / 100)) (5 / 100) ltac:(lra)). lra. Qed.
Lemma one_in u v : (u = 1 \/ u = -1)%Z -> (v = 1 \/ v = -1)%Z -> In (cfg2 u v) (configurations (one_machine (1 / 2) 1)).
Proof. intros Hu Hv. rewrite one_machine_states. unfold cfg2. destruct Hu as [-> | ->]; destruct Hv as [-> | ->]; cbn; auto. Qed.
Ltac neg H := repeat first [rewrite one_negate1 in H|rewrite one_negate2 in H].
Ltac sign := first [left; reflexivity|right; reflexivity].

Lemma one_machine_linked : linked the_outputs (one_machine (1 / 2) 1).
Proof.
  set (s := one_machine (1 / 2) 1). set (T := fun b b' => exists orders, Forall (fun order => Permutation order (unfixed (wd s))) orders /\ told_apart the_outputs s (update_sequence s (concat orders)) b b').
  assert (A : forall k, (k <= 2)%nat -> Forall (fun order => Permutation order (unfixed (wd s))) (repeat [1; 2]%nat k)) by (intros k _; apply Forall_forall; intros o Ho; apply repeat_spec in Ho; subst; apply Permutation_refl).
  assert (U1 : update_sequence s (concat (repeat [1; 2]%nat 1)) = [e1; e2]) by (apply one_updates). assert (U2 : update_sequence s (concat (repeat [1; 2]%nat 2)) = [e1; e2; e1; e2]). { cbn [repeat concat]. unfold s. rewrite !one_updates_app. rewrite (proj1 (one_updates _ _)). reflexivity. }
  assert (T1 : T (cfg2 1 1) (cfg2 1 (-1))). { exists (repeat [1; 2]%nat 1). split; [apply A; lia|]. rewrite U1. exists [e1], e2, [], (cfg2 1 1). split; [reflexivity|]. split; [apply one_in; sign|]. unfold s. rewrite one_negate2. split; [rewrite !one_weight by sign; cbn; pose proof one_weights; lra|]. split; reflexivity. }
  assert (T2 : T (cfg2 1 (-1)) (cfg2 (-1) (-1))). { exists (repeat [1; 2]%nat 1). split; [apply A; lia|]. rewrite U1. exists [], e1, [e2], (cfg2 1 1). split; [reflexivity|]. split; [apply one_in; sign|]. unfold s. rewrite one_negate1. split; [rewrite !one_weight by sign; cbn; pose proof one_weights; lra|]. split; reflexivity. }
  assert (T3 : T (cfg2 (-1) (-1)) (cfg2 (-1) 1)). { exists (repeat [1; 2]%nat 2). split; [apply A; lia|]. rewrite U2. exists [e1], e2, [e1; e2], (cfg2 1 1). split; [reflexivity|]. split; [apply one_in; sign|]. unfold s. rewrite one_negate2. split; [rewrite !one_weight by sign; cbn; pose proof one_weights; lra|]. split; reflexivity. }
  assert (G : forall c, In c (configurations s) -> clos_refl_sym_trans _ T (cfg2 1 1) c).
  { intros c Hc. unfold s in Hc. rewrite one_machine_states in Hc. destruct Hc as [<-|[<-|[<-|[<-|[]]]]].
    - apply rst_refl.
    - apply rst_step, T1.
    - eapply rst_trans; [apply rst_step, T1|]. eapply rst_trans; [apply rst_step, T2|]. apply rst_step, T3.
    - eapply rst_trans; [apply rst_step, T1|]. apply rst_step, T2. }
  intros c c' Hc Hc'. eapply rst_trans; [apply rst_sym, (G c Hc)|apply (G c' Hc')].
Qed.
(** Alternating orders *)
Fixpoint alternating (m : nat) : list (list nat) := match m with O => [] | S m' => (if Nat.even m' then [1; 2]%nat else [2; 1]%nat) :: alternating m' end.
Lemma one_machine_not_mixing : ~ mixing the_outputs (one_machine (1 / 2) 1).
Proof.
  intros (m & HM). set (s := one_machine (1 / 2) 1) in *. assert (L : List.length (alternating m) = m) by (clear; induction m as [|m IH]; [reflexivity|]; cbn [alternating List.length]; lia).
  assert (HO : Forall (fun order => Permutation order (unfixed (wd s))) (alternating m)). { clear. induction m as [|m IH]; [constructor|]. cbn [alternating]. constructor; [|exact IH]. apply one_orders. destruct (Nat.even m); auto. }
  specialize (HM _ L HO (cfg2 1 1) (cfg2 (-1) 1) (one_in 1 1 ltac:(sign) ltac:(sign)) (one_in (-1) 1 ltac:(sign) ltac:(sign))). clear HO L.
  set (es := fun m => update_sequence s (concat (alternating m))) in *. change (update_sequence s (concat (alternating m))) with (es m) in HM.
  assert (ES : forall m, es (S m) = ((if Nat.even m then [e1; e2] else [e2; e1]) ++ es m)%list). { intros k. unfold es. cbn [alternating concat]. unfold s. rewrite one_updates_app. destruct (one_updates (1 / 2) 1) as (U1 & U2). destruct (Nat.even k); [rewrite U1|rewrite U2]; reflexivity. }
  assert (EN : forall m u v, negate s (cfg2 u v) (es m) = if Nat.even m then cfg2 u v else cfg2 (- u) (- v)).
  { induction m0 as [|k IH]; intros u v; [reflexivity|]. rewrite ES, Nat.even_succ, <- Nat.negb_even. unfold negate. rewrite fold_left_app. destruct (Nat.even k) eqn:E; cbn [fold_left]; unfold s; rewrite ?one_negate1, ?one_negate2, ?one_negate1; fold s; fold (negate s (cfg2 (- u) (- v)) (es k)); rewrite IH; cbn [negb]; [reflexivity|]. rewrite !Z.opp_involutive. reflexivity. }
  assert (NC : forall c e l, negate s c (e :: l) = negate s (negate_at s c e) l) by reflexivity.
  assert (EI : forall m b b', told_apart the_outputs s (es m) b b' -> b <> cfg2 (-1) 1 /\ b' <> cfg2 (-1) 1).
  { induction m0 as [|k IH]; intros b b' (before & e & later & c & E & Hc & Hne & Eb & Eb'); [destruct before; discriminate E|]. rewrite ES in E. apply one_machine_in in Hc. destruct Hc as (u & v & Hu & Hv & ->). fold (cfg2 u v) in *. destruct before as [|x0 [|x1 before]].
    - assert (E' : e = (if Nat.even k then e1 else e2) /\ later = (if Nat.even k then e2 else e1) :: es k) by (destruct (Nat.even k); cbn in E; injection E as <- <-; auto). destruct E' as (-> & ->). clear E. rewrite NC in Eb, Eb'. unfold s in Hne, Eb, Eb'. destruct (Nat.even k) eqn:EK; neg Hne; neg Eb; neg Eb'; fold s in Eb, Eb'; rewrite EN, EK in Eb, Eb'; subst b b';
        (destruct Hu as [-> | ->]; destruct Hv as [-> | ->]; rewrite !one_weight in Hne by sign; cbn in Hne; try (exfalso; apply Hne; reflexivity); split; unfold cfg2; cbn; discriminate).
    - assert (E' : e = (if Nat.even k then e2 else e1) /\ later = es k) by (destruct (Nat.even k); cbn in E; injection E as _ <- <-; auto). destruct E' as (-> & ->). clear E. unfold s in Hne, Eb, Eb'. destruct (Nat.even k) eqn:EK; neg Hne; neg Eb; neg Eb'; fold s in Eb, Eb'; rewrite EN, EK in Eb, Eb'; subst b b';
        (destruct Hu as [-> | ->]; destruct Hv as [-> | ->]; rewrite !one_weight in Hne by sign; cbn in Hne; try (exfalso; apply Hne; reflexivity); split; unfold cfg2; cbn; discriminate).
    - apply IH. exists before, e, later, (cfg2 u v). split; [destruct (Nat.even k); cbn in E; injection E; auto|]. split; [apply one_in; assumption|]. auto. }
  assert (G : forall b b', clos_refl_sym_trans _ (told_apart the_outputs s (es m)) b b' -> (b = cfg2 (-1) 1 <-> b' = cfg2 (-1) 1)).
  { intros b b' HC. induction HC as [x y HE|x|x y _ IH|x y z _ I1 _ I2]; [destruct (EI m x y HE); tauto|tauto|tauto|tauto]. }
  apply G in HM. destruct HM as (_ & HM). specialize (HM eq_refl). discriminate HM.
Qed.
(** Nothing is told apart where all configurations are equally probable. *)
Lemma one_machine_unlinked : ~ linked the_outputs (one_machine (1 / 2) 0).
Proof.
  intros HK. set (s := one_machine (1 / 2) 0) in *. assert (H1 : In (cfg2 1 1) (configurations s)) by (unfold s; rewrite one_machine_states; left; reflexivity). assert (H2 : In (cfg2 1 (-1)) (configurations s)) by (unfold s; rewrite one_machine_states; right; left; reflexivity). specialize (HK _ _ H1 H2).
  assert (G : forall b b', clos_refl_sym_trans _ (fun b b' => exists orders, Forall (fun order => Permutation order (unfixed (wd s))) orders /\ told_apart the_outputs s (update_sequence s (concat orders)) b b') b b' -> b = b').
  { intros b b' HC. induction HC as [x y HE|x|x y _ IH|x y z _ I1 _ I2]; [|reflexivity|symmetry; exact IH|congruence]. exfalso. destruct HE as (orders & O1 & before & e & later & c & E & Hc & Hne & _). apply Hne. pose proof Hc as Hc'. apply one_machine_in in Hc'. destruct Hc' as (u & v & Hu & Hv & ->). fold (cfg2 u v) in *.
    assert (He : e = e1 \/ e = e2). { assert (I : In e (update_sequence s (concat orders))) by (rewrite E; apply in_or_app; right; left; reflexivity). unfold update_sequence in I. apply filter_In in I. destruct I as (I & _). apply in_flat_map in I. destruct I as (i & Hi & I). apply in_concat in Hi. destruct Hi as (o & Ho & Hi). rewrite Forall_forall in O1. specialize (O1 o Ho). apply one_orders in O1. assert (Hi2 : i = 1%nat \/ i = 2%nat) by (destruct O1 as [-> | ->]; cbn in Hi; intuition lia). destruct Hi2 as [-> | ->]; [left|right]; cbn in I; destruct I as [<-|[]]; reflexivity. }
    apply one_machine_flat; [|exact Hc]. rewrite one_machine_states. unfold s. destruct He as [-> | ->]; [rewrite one_negate1|rewrite one_negate2]; unfold cfg2; destruct Hu as [-> | ->]; destruct Hv as [-> | ->]; cbn; auto. }
  apply G in HK. discriminate HK.
Qed.
