(** C26, C28, C63: the course of burn-in. *)
From Coq Require Import String Permutation.
From Verif Require Import Base BaseR BaseLemmas SpecR Clean CleanProofs Machine Dispatch Inference SpecMachine InferenceProofs.
Local Open Scope R_scope.

(** ** Clean-up always ends *)
Lemma del_le {A} l (r : list A) : (List.length (del l r) <= List.length r)%nat.
Proof. unfold del. rewrite app_length, firstn_length, skipn_length. lia. Qed.
Lemma mapM_cons {A B} (f : A -> res B) l bs : mapM f l = Ok bs -> match l, bs with [], [] => True | a :: _, b :: _ => f a = Ok b | _, _ => False end.
Proof.
  destruct l as [|a l]; cbn [mapM]; intros H; [injection H as <-; exact I|].
  apply bind_ok in H. destruct H as (b & E & H). apply bind_ok in H. destruct H as (bs' & _ & H). injection H as <-. exact E.
Qed.
Lemma action_size reset clean l fs fs' : cleaning_action reset clean l fs = Ok fs' -> (csize fs' <= csize fs)%nat.
Proof.
  unfold cleaning_action, reset_dimension, remove_dimension. intros H.
  destruct reset; [|destruct clean; [|discriminate]]; apply mapM_cons in H; destruct fs as [|f fs], fs' as [|g fs']; try contradiction; cbn [csize]; try lia;
    destruct (Nat.ltb _ _); try discriminate; injection H as <-; cbn [cf_val]; unfold ncols; destruct (cf_val f) as [|r m]; cbn [map hd]; try lia.
  - rewrite upd_length. lia.
  - apply del_le.
Qed.
Lemma clean_up_total fs reset clean : clean_up_codes (S (csize fs)) fs reset clean <> None.
Proof.
  set (n := csize fs). unfold clean_up_codes. destruct fs as [|f fs0] eqn:Ef; [discriminate|]. rewrite <- Ef in *.
  set (mu := fun s : nat * list cfactor * bool => (csize (snd (fst s)) - fst (fst s))%nat).
  set (I := fun s : nat * list cfactor * bool => (csize (snd (fst s)) <= n)%nat).
  assert (W : forall body, (forall s s', I s -> below s = true -> body s = Ok s' -> I s' /\ (mu s' < mu s)%nat) -> forall s, I s -> while (S n) below (fun s => Some (body s)) s <> None).
  { intros body Hb s HI. apply (while_total below _ I mu).
    - intros s0 H0 C. split; [discriminate|]. intros s' E. injection E as E. eapply Hb; eassumption.
    - exact HI.
    - unfold mu. unfold I in HI. lia. }
  assert (B1 : forall s s', I s -> below s = true -> inactive_body (cleaning_action reset clean) s = Ok s' -> I s' /\ (mu s' < mu s)%nat).
  { intros [[l g] red] s' HI C H. unfold I, mu in *. cbn [fst snd] in *. cbn [below] in C. apply Nat.ltb_lt in C. unfold inactive_body in H.
    apply bind_ok in H. destruct H as (bs & _ & H). destruct (existsb _ bs).
    - apply bind_ok in H. destruct H as (g' & E & H). injection H as <-. cbn [fst snd]. apply action_size in E. lia.
    - injection H as <-. cbn [fst snd]. lia. }
  assert (B2 : forall l s s', I s -> below s = true -> dup_body (cleaning_action reset clean) l s = Ok s' -> I s' /\ (mu s' < mu s)%nat).
  { intros l0 [[l g] red] s' HI C H. unfold I, mu in *. cbn [fst snd] in *. cbn [below] in C. apply Nat.ltb_lt in C. unfold dup_body in H.
    apply bind_ok in H. destruct H as (d & _ & H). destruct d.
    - apply bind_ok in H. destruct H as (g' & E & H). injection H as <-. cbn [fst snd]. apply action_size in E. lia.
    - injection H as <-. cbn [fst snd]. lia. }
  assert (I1 : forall fuel body s s', (forall s s', I s -> below s = true -> body s = Ok s' -> I s' /\ (mu s' < mu s)%nat) -> while fuel below (fun s => Some (body s)) s = Some (Ok s') -> I s -> I s').
  { intros fuel body s s' Hb E HI. refine (proj1 (while_inv below _ I _ fuel s s' E HI)). intros s0 s1 H0 C E1. injection E1 as E1. eapply Hb; eassumption. }
  destruct (while _ below (fun s => Some (inactive_body _ s)) _) as [[[[l1 fs1] red1]|e]|] eqn:E1; try discriminate.
  - assert (HI1 : I (l1, fs1, red1)) by (eapply I1; [exact B1|exact E1|unfold I, n; rewrite Ef; cbn [fst snd]; lia]).
    destruct (while _ below (dup_outer _ _) _) as [[[[l2 fs2] red2]|e]|] eqn:E2; try discriminate.
    exfalso. revert E2. apply (while_total below _ I mu); [|exact HI1|unfold mu, I in *; cbn [fst snd] in *; lia].
    intros [[l g] red] HI C. unfold dup_outer.
    destruct (while _ below (fun s => Some (dup_body _ l s)) _) as [[[[l3 fs3] red3]|e]|] eqn:E3; (split; [discriminate|]) || (exfalso; revert E3; apply (W _ (B2 l)); exact HI); try discriminate.
    intros s' E. injection E as <-.
    assert (HI3 : I (l3, fs3, red3) /\ (csize fs3 <= csize g)%nat).
    { pose proof (while_inv below (fun s => Some (dup_body (cleaning_action reset clean) l s)) (fun s => I s /\ (csize (snd (fst s)) <= csize g)%nat)) as WI.
      destruct (fun H => WI H _ _ _ E3) as [G _]; [|unfold I in *; cbn [fst snd] in *; lia|exact G].
      intros [[a b] r] s' [G1 G2] Cb E. injection E as E. unfold dup_body in E. apply bind_ok in E. destruct E as (d & _ & E). destruct d.
      - apply bind_ok in E. destruct E as (g' & E & E'). injection E' as <-. apply action_size in E. unfold I in *. cbn [fst snd] in *. lia.
      - injection E as <-. unfold I in *. cbn [fst snd] in *. lia. }
    cbn [below] in C. apply Nat.ltb_lt in C. unfold I, mu in *. cbn [fst snd] in *. lia.
  - exfalso. revert E1. apply (W _ B1). unfold I, n. rewrite Ef. cbn [fst snd]. lia.
Qed.
Lemma clean_layer_total w l reset clean : clean_layer w l reset clean <> None.
Proof.
  unfold clean_layer. cbv zeta. destruct (mapM _ _) as [cfs|e]; [|discriminate].
  pose proof (clean_up_total cfs reset clean). destruct (clean_up_codes _ _ _ _) as [[[cfs' red]|e]|]; congruence.
Qed.
Lemma clean_all_total ls : forall w, clean_all w ls <> None.
Proof.
  induction ls as [|l ls IH]; intros w; cbn [clean_all]; [discriminate|]. cbv zeta.
  destruct (auto_clean _ || auto_reset _); [|apply IH].
  pose proof (clean_layer_total w l (auto_reset (get_lay w l)) (auto_clean (get_lay w l))). destruct (clean_layer _ _ _ _) as [[[w' b]|e]|]; try congruence.
  pose proof (IH w'). destruct (clean_all w' ls) as [[[w'' b']|e]|]; congruence.
Qed.
Lemma final_clean_total ls : forall w, final_clean w ls <> None.
Proof.
  induction ls as [|l ls IH]; intros w; cbn [final_clean]; [discriminate|].
  destruct (auto_reset _); [|apply IH].
  pose proof (clean_layer_total w l false true). destruct (clean_layer _ _ _ _) as [[[w' b]|e]|]; try congruence.
Qed.
Lemma main_body_total o cfg ms ls pre x : main_body o cfg ms ls pre x <> None.
Proof.
  destruct x as [[k0 b] s]. unfold main_body. cbv zeta. unfold div_ok.
  destruct (Nat.eqb _ 0); [discriminate|]. destruct (Nat.eqb (window cfg) 0); [discriminate|].
  assert (GO : forall sA, (if (burn_in_max cfg <? Z.of_nat (S k0) + pre)%Z then
      match final_clean (wd sA) (all_layers (wd sA)) with
      | None => None
      | Some (Err e) => Some (Err e)
      | Some (Ok w) => Some (Ok (S k0, true, set_iters (fold_left rewind_l ls (set_wd sA w)) (Z.of_nat (S k0))))
      end
    else Some (bind (sweep o ms sA) (fun s1 => bind (update_lbdas ls s1) (fun s2 =>
               bind (foldM update_trace_l ls s2) (fun s3 => Ok (S k0, false, s3)))))) <> None).
  { intros sA. destruct (_ <? _)%Z; [|discriminate]. pose proof (final_clean_total (all_layers (wd sA)) (wd sA)). destruct (final_clean _ _) as [[w|e]|]; congruence. }
  destruct (Nat.eqb _ 0); [|apply GO]. destruct (check_all _ _ _ _) as [[s1 conv]|e]; [|discriminate]. destruct conv; [|apply GO].
  pose proof (clean_all_total (all_layers (wd s1)) (wd s1)). destruct (clean_all _ _) as [[[w red]|e]|]; try congruence. destruct red; [apply GO|discriminate].
Qed.

(** Number of rounds allowed to both loops that is always enough. *)
Definition enough (cfg : settings) : nat := S (S (Z.to_nat (Z.max (burn_in_min cfg) (burn_in_max cfg)))).
Lemma C26_terminates_lemma o cfg ms ls s fuel : (0 <= burn_in_min cfg)%Z -> (enough cfg <= fuel)%nat -> burn_in fuel o cfg ms ls s <> None.
Proof.
  intros Hm Hf. unfold enough in Hf. unfold burn_in.
  destruct (while fuel _ _ (0%Z, [], s)) as [[[[pre sched] s1]|e]|] eqn:E1; [|discriminate|].
  - cbv zeta. set (s2 := fold_left _ ls _).
    assert (Epre : pre = burn_in_min cfg).
    { destruct (while_inv (fun '(k, _, _) => negb (k =? burn_in_min cfg)%Z) (fun x => Some (pre_body o cfg ms ls x)) (fun _ => True) (fun _ _ _ _ _ => I) _ _ _ E1 I) as [_ C].
      apply negb_false_iff, Z.eqb_eq in C. exact C. }
    destruct (while fuel _ (main_body _ _ _ _ _) _) as [[[[k stop] s3]|e]|] eqn:E2; try discriminate.
    exfalso. revert E2.
    apply (while_total _ _ (fun '(k, stop, _) => stop = true \/ k = 0%nat \/ (Z.of_nat k + pre <= burn_in_max cfg)%Z)
       (fun '(k, stop, _) => if stop : bool then 0%nat else (S (Z.to_nat (burn_in_max cfg)) - k)%nat)).
    + intros [[k stop] s0] HI C. apply negb_true_iff in C. split; [apply main_body_total|].
      intros [[k' stop'] s'] E. apply main_body_inv in E. destruct E as (-> & _ & _ & R). subst stop.
      inversion R; subst.
      * split; [right; right; assumption|]. lia.
      * split; [left; reflexivity|]. destruct HI as [HI|[HI|HI]]; [discriminate|lia|lia].
      * split; [left; reflexivity|]. destruct HI as [HI|[HI|HI]]; [discriminate|lia|lia].
    + right. left. reflexivity.
    + lia.
  - exfalso. revert E1. apply (while_total _ _ (fun '(k, _, _) => (0 <= k <= burn_in_min cfg)%Z) (fun '(k, _, _) => Z.to_nat (burn_in_min cfg - k))).
    + intros [[k sched] s0] HI C. apply negb_true_iff, Z.eqb_neq in C. split; [discriminate|]. intros [[k' sched'] s'] E. injection E as E. unfold pre_body in E.
      apply bind_ok in E. destruct E as (_ & _ & E). apply bind_ok in E. destruct E as (s1 & _ & E). 
      assert (k' = k + 1)%Z; [|lia].
      destruct (_ <? _)%Z; [|injection E; auto]. destruct (anneal _).
      * apply bind_ok in E. destruct E as (_ & _ & E). apply bind_ok in E. destruct E as (? & _ & E). apply bind_ok in E. destruct E as (? & _ & E). injection E; auto.
      * apply bind_ok in E. destruct E as (? & _ & E). injection E; auto.
    + lia.
    + lia.
Qed.
