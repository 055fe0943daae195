(** A run of inference leaves the traces of everything it does not update alone. *)
From Coq Require Import String Permutation.
From Verif Require Import Base BaseR BaseLemmas Fuzzy Clean CleanProofs Machine Dispatch Inference SpecMachine InferenceProofs InferenceProofs2 InferenceProofs6 PreserveProofs.
Local Open Scope R_scope.

Section Untouched.
Context (o : oracle) (cfg : settings) (ms ls : list nat).
Definition untouched (s s' : state) : Prop := (forall i, ~ In i ms -> mtr s' i = mtr s i) /\ (forall l, ~ In l ls -> ltr s' l = ltr s l).
Lemma untouched_refl s : untouched s s.
Proof. split; auto. Qed.
Lemma untouched_trans a b c : untouched a b -> untouched b c -> untouched a c.
Proof. intros [H1 H2] [G1 G2]. split; intros; [rewrite G1, H1|rewrite G2, H2]; auto. Qed.
Lemma untouched_eq s s' : mtr s' = mtr s -> ltr s' = ltr s -> untouched s s'.
Proof. intros E1 E2. split; intros; [rewrite E1|rewrite E2]; reflexivity. Qed.
Lemma fset_other {A} (f : nat -> A) i x j : j <> i -> fset f i x j = f j.
Proof. intros H. unfold fset. destruct (Nat.eqb_spec j i); [contradiction|reflexivity]. Qed.
Lemma foldM_untouched {A : Type} (f : state -> A -> res state) l s s' : (forall s a s', In a l -> f s a = Ok s' -> untouched s s') -> foldM f l s = Ok s' -> untouched s s'.
Proof.
  intros H E. apply (foldM_keeps (untouched s) _ _ _ _) in E; [exact E| |apply untouched_refl].
  intros s0 a s1 J0 Ha E1. eapply untouched_trans; [exact J0|]. eapply H; eassumption.
Qed.
Lemma fold_left_untouched {A : Type} (f : state -> A -> state) l : (forall s a, In a l -> untouched s (f s a)) -> forall s, untouched s (fold_left f l s).
Proof.
  induction l as [|a l IH]; intros H s; [apply untouched_refl|]. cbn [fold_left]. eapply untouched_trans; [apply H; left; reflexivity|]. apply IH. intros s0 b Hb. apply H. right. exact Hb.
Qed.
Lemma set_ltr_untouched s l t k : In l ls -> untouched s (set_ltr s l t k).
Proof. intros Hl. split; [auto|]. intros j Hj. cbn. apply fset_other. intros ->. contradiction. Qed.
Lemma set_mtr_untouched s i t k : In i ms -> untouched s (set_mtr s i t k).
Proof. intros Hl. split; [|auto]. intros j Hj. cbn. apply fset_other. intros ->. contradiction. Qed.
Lemma sweep_untouched p s s' : sweep o p s = Ok s' -> untouched s s'.
Proof.
  unfold sweep. intros E. eapply untouched_trans; [|eapply foldM_untouched; [|exact E]]; [apply untouched_eq; reflexivity|].
  intros s0 a s1 _ E1. unfold call_mat in E1. apply bind_ok in E1. destruct E1 as (w & _ & E1). injection E1 as <-. apply untouched_eq; reflexivity.
Qed.
Lemma update_lbdas_untouched p s s' : update_lbdas p s = Ok s' -> untouched s s'.
Proof.
  intros E. eapply foldM_untouched; [|exact E]. intros s0 a s1 _ E1. unfold call_lbda in E1. apply bind_ok in E1. destruct E1 as (w & _ & E1). injection E1 as <-. apply untouched_eq; reflexivity.
Qed.
Lemma update_trace_l_untouched s s' : foldM update_trace_l ls s = Ok s' -> untouched s s'.
Proof.
  intros E. eapply foldM_untouched; [|exact E]. intros s0 a s1 Ha E1. unfold update_trace_l in E1. destruct (ltr s0 a); [|discriminate]. destruct (Nat.ltb _ _); [|discriminate]. injection E1 as <-. apply set_ltr_untouched, Ha.
Qed.
Lemma update_trace_m_untouched s s' : foldM update_trace_m ms s = Ok s' -> untouched s s'.
Proof.
  intros E. eapply foldM_untouched; [|exact E]. intros s0 a s1 Ha E1. unfold update_trace_m in E1. destruct (mtr s0 a); [|discriminate]. destruct (Nat.ltb _ _); [|discriminate].
  apply bind_ok in E1. destruct E1 as (x & _ & E1). injection E1 as <-. apply set_mtr_untouched, Ha.
Qed.
Lemma allocate_m_untouched n s s' : foldM (allocate_m n) ms s = Ok s' -> untouched s s'.
Proof.
  intros E. eapply foldM_untouched; [|exact E]. intros s0 a s1 Ha E1. unfold allocate_m in E1. apply bind_ok in E1. destruct E1 as (x & _ & E1).
  destruct (is_ibp _ _); [|injection E1 as <-; apply set_mtr_untouched, Ha]. apply bind_ok in E1. destruct E1 as (m & _ & E1). injection E1 as <-. apply set_mtr_untouched, Ha.
Qed.
Lemma allocate_l_untouched n s : untouched s (fold_left (allocate_l n) ls s).
Proof. apply fold_left_untouched. intros s0 a Ha. apply set_ltr_untouched, Ha. Qed.
Lemma rewind_l_untouched s : untouched s (fold_left rewind_l ls s).
Proof. apply fold_left_untouched. intros s0 a Ha. apply set_ltr_untouched, Ha. Qed.
Lemma check_all_untouched e l : forall s s' b, check_all o l e s = Ok (s', b) -> untouched s s'.
Proof.
  induction l as [|a l IH]; intros s s' b E; cbn [check_all] in E; [injection E as <- _; apply untouched_refl|]. destruct (ltr s a) as [t|]; [|discriminate]. apply bind_ok in E. destruct E as ([s1 b1] & E1 & E2). injection E2 as <- _.
  apply IH in E1. eapply untouched_trans; [|exact E1]. apply untouched_eq; reflexivity.
Qed.
Lemma pre_body_untouched x x' : pre_body o cfg ms ls x = Ok x' -> untouched (snd x) (snd x').
Proof.
  destruct x as [[k sc] s]. unfold pre_body. cbv zeta. intros E. cbn [snd]. apply bind_ok in E. destruct E as (_ & _ & E). apply bind_ok in E. destruct E as (s1 & E1 & E). apply sweep_untouched in E1.
  destruct (_ <? _)%Z; [|injection E as <-; exact E1]. destruct (anneal (wd s1)) eqn:Ea.
  - apply bind_ok in E. destruct E as (_ & _ & E). apply bind_ok in E. destruct E as (sc' & _ & E). apply bind_ok in E. destruct E as (s2 & E2 & E). injection E as <-. cbn [snd].
    eapply untouched_trans; [exact E1|]. eapply foldM_untouched; [|exact E2]. intros s0 [l st] s3 _ E3. unfold anneal_step in E3. apply bind_ok in E3. destruct E3 as (y & _ & E3). injection E3 as <-. apply untouched_eq; reflexivity.
  - apply bind_ok in E. destruct E as (s2 & E2 & E). injection E as <-. cbn [snd]. eapply untouched_trans; [exact E1|]. eapply update_lbdas_untouched, E2.
Qed.
Lemma main_body_untouched pre x x' : main_body o cfg ms ls pre x = Some (Ok x') -> untouched (snd x) (snd x').
Proof.
  destruct x as [[k st] s]. unfold main_body. cbv zeta. intros E. cbn [snd]. destruct (div_ok (print_step cfg)); [|discriminate]. destruct (div_ok (window cfg)); [|discriminate].
  assert (GO : forall s, (if (burn_in_max cfg <? Z.of_nat (S k) + pre)%Z then
      match final_clean (wd s) (all_layers (wd s)) with
      | None => None
      | Some (Err e) => Some (Err e)
      | Some (Ok w) => Some (Ok (S k, true, set_iters (fold_left rewind_l ls (set_wd s w)) (Z.of_nat (S k))))
      end
    else Some (bind (sweep o ms s) (fun s1 => bind (update_lbdas ls s1) (fun s2 =>
               bind (foldM update_trace_l ls s2) (fun s3 => Ok (S k, false, s3)))))) = Some (Ok x') -> untouched s (snd x')).
  { clear s E. intros s E. destruct (_ <? _)%Z.
    - destruct (final_clean _ _) as [[w|]|] eqn:Ec; try discriminate. injection E as <-. cbn [snd]. eapply untouched_trans; [apply untouched_eq with (s' := set_wd s w); reflexivity|].
      eapply untouched_trans; [apply rewind_l_untouched|]. apply untouched_eq; reflexivity.
    - injection E as E. apply bind_ok in E. destruct E as (s1 & E1 & E). apply bind_ok in E. destruct E as (s2 & E2 & E). apply bind_ok in E. destruct E as (s3 & E3 & E). injection E as <-. cbn [snd].
      eapply untouched_trans; [eapply sweep_untouched, E1|]. eapply untouched_trans; [eapply update_lbdas_untouched, E2|]. apply update_trace_l_untouched, E3. }
  destruct (Nat.eqb _ _); [|apply (GO s E)]. destruct (check_all o ls (eps cfg) _) as [[s1 conv]|] eqn:E1; [|discriminate].
  assert (I1 : untouched s s1) by (eapply untouched_trans; [apply rewind_l_untouched|eapply check_all_untouched, E1]). destruct conv; [|eapply untouched_trans; [exact I1|apply (GO s1 E)]].
  destruct (clean_all _ _) as [[[w red]|]|] eqn:Ec; try discriminate. destruct red.
  - eapply untouched_trans; [exact I1|]. eapply untouched_trans; [|eapply GO, E]. eapply untouched_trans; [|apply rewind_l_untouched]. eapply untouched_trans; [|apply allocate_l_untouched]. apply untouched_eq; reflexivity.
  - injection E as <-. cbn [snd]. eapply untouched_trans; [exact I1|]. apply untouched_eq; reflexivity.
Qed.
Lemma burn_in_untouched fuel s s' : burn_in fuel o cfg ms ls s = Some (Ok s') -> untouched s s'.
Proof.
  unfold burn_in. intros E. destruct (while fuel _ _ (0%Z, [], s)) as [[[[pre sc] s1]|]|] eqn:E1; try discriminate.
  assert (I1 : untouched s s1).
  { assert (St : forall x x', untouched s (snd x) -> (let '(k, _, _) := x in negb (k =? burn_in_min cfg)%Z) = true -> Some (pre_body o cfg ms ls x) = Some (Ok x') -> untouched s (snd x')).
    { intros x x' J _ E'. injection E' as E'. eapply untouched_trans; [exact J|]. apply pre_body_untouched, E'. }
    destruct (while_inv _ _ (fun x : Z * list rvec * state => untouched s (snd x)) St _ _ _ E1 (untouched_refl s)) as (G & _). exact G. }
  destruct (while fuel _ _ (0%nat, false, _)) as [[[[k st] s3]|]|] eqn:E2; try discriminate. injection E as <-.
  assert (St : forall x x', untouched s (snd x) -> (let '(_, stop, _) := x in negb stop) = true -> main_body o cfg ms ls pre x = Some (Ok x') -> untouched s (snd x')).
  { intros x x' J _ E'. eapply untouched_trans; [exact J|]. eapply main_body_untouched, E'. }
  destruct (while_inv _ _ (fun x : nat * bool * state => untouched s (snd x)) St _ _ _ E2) as (G & _); [|exact G].
  cbn [snd]. eapply untouched_trans; [exact I1|]. eapply untouched_trans; [apply allocate_l_untouched|]. apply rewind_l_untouched.
Qed.
Lemma samples_untouched n : forall s s', samples n o cfg ms ls s = Ok s' -> untouched s s'.
Proof.
  induction n as [|n IH]; intros s s' E; cbn [samples] in E; [injection E as <-; apply untouched_refl|]. apply bind_ok in E. destruct E as (s1 & E1 & E). eapply untouched_trans; [|eapply IH, E]. unfold sample_body in E1.
  apply bind_ok in E1. destruct E1 as (a & Ea & E1). apply bind_ok in E1. destruct E1 as (b & Eb & E1). apply bind_ok in E1. destruct E1 as (c & Ec & E1). apply bind_ok in E1. destruct E1 as (d & Ed & E1). apply bind_ok in E1. destruct E1 as (_ & _ & E1).
  injection E1 as <-. eapply untouched_trans; [eapply sweep_untouched, Ea|]. eapply untouched_trans; [eapply update_trace_m_untouched, Eb|]. eapply untouched_trans; [eapply update_lbdas_untouched, Ec|]. apply update_trace_l_untouched, Ed.
Qed.
End Untouched.

Lemma infer_untouched fuel o cfg n s s' ms ls s1 : infer fuel o cfg n s = Some (Ok s') -> prepare s = Ok (ms, ls, s1) -> untouched ms ls s s'.
Proof.
  intros E EP. unfold infer in E. rewrite EP in E. destruct (burn_in fuel o cfg ms ls s1) as [[s2|]|] eqn:EB; try discriminate. injection E as E. apply bind_ok in E. destruct E as (s3 & E3 & E).
  apply prepare_spec in EP. destruct EP as (_ & _ & _ & _ & _ & P6 & _ & P8 & _).
  eapply untouched_trans; [split; intros; [apply P6|apply P8]|]. eapply untouched_trans; [eapply burn_in_untouched, EB|]. eapply untouched_trans; [eapply allocate_m_untouched, E3|].
  eapply untouched_trans; [apply allocate_l_untouched|]. eapply samples_untouched, E.
Qed.
