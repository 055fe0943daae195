(** C26, C27, C28, C63: the monitored part of burn-in. *)
From Coq Require Import String Permutation.
From Verif Require Import Base BaseR BaseLemmas BaseRLemmas SpecR SpecClean Fuzzy Lambda MaxMachine Clean CleanProofs CleanProofs2 Machine Dispatch Inference SpecMachine MachineProofs InferenceProofs InferenceProofs2 InferenceProofs3.
Local Open Scope R_scope.

(** ** Widths of dispersions *)
Lemma lbda_MAX_AND_length Z_ U X v : List.length (lbda_MAX_AND Z_ U X v) = List.length v.
Proof.
  unfold lbda_MAX_AND. cbv zeta. match goal with |- context [Nat.iter ?n ?f ?s] => set (g := f); set (s0 := s); generalize n end. intros n.
  assert (H : List.length (m_parm (Nat.iter n g s0)) = List.length v).
  { induction n as [|k IH]; [reflexivity|]. change (Nat.iter (S k) g s0) with (g (Nat.iter k g s0)). unfold g at 1. unfold lbda_MAX_AND_step. cbn [m_parm]. rewrite upd_length. exact IH. }
  unfold set_last. destruct (Req_EM_T _ _); rewrite ?upd_length; exact H.
Qed.
Lemma compute_lbda_width w l f v rt : compute_lbda w l f = Ok (v, rt) -> (1 <= width (disp w l))%nat -> (1 <= width v <= width (disp w l))%nat.
Proof.
  unfold compute_lbda. cbv zeta. destruct (beta _) as [a b]. unfold disp. destruct f; intros H H1;
  repeat match type of H with bind _ _ = Ok _ => apply bind_ok in H; let E := fresh "E" in destruct H as (? & E & H) end;
  injection H as <- <-; try (cbn [width]; fold (width (lv (lbda (get_lay w l)))); lia).
  match goal with E : vector _ = Ok ?x |- _ => unfold vector in E; destruct (lv (lbda (get_lay w l))); [discriminate|injection E as ->] end.
  cbn [width] in *. rewrite lbda_MAX_AND_length. lia.
Qed.
Lemma run_lbda_width w l w' j : run_lbda w l = Ok w' -> (1 <= width (disp w j))%nat -> (1 <= width (disp w' j) <= width (disp w j))%nat.
Proof.
  unfold run_lbda. intros H H1. apply bind_ok in H. destruct H as (f & _ & H). apply bind_ok in H. destruct H as ([v rt] & E & H). injection H as <-.
  unfold disp. rewrite get_lay_set. destruct (Nat.eqb_spec j l) as [->|]; cbn [andb]; [|fold (disp w j); lia].
  destruct (Nat.ltb _ _); [|fold (disp w l); lia]. cbn [lbda with_ratios with_lbda lv with_lv]. eapply compute_lbda_width; eassumption.
Qed.
Lemma update_lbdas_width ls s s' j : NoDup ls -> update_lbdas ls s = Ok s' -> (1 <= width (disp (wd s) j))%nat -> (1 <= width (disp (wd s') j) <= width (disp (wd s) j))%nat.
Proof.
  intros ND H. apply update_lbdas_spec in H; [|exact ND]. destruct H as (H & _). revert H. generalize (wd s') as w', (wd s) as w. clear.
  induction ls as [|l ls IH]; intros w' w H H1; cbn [foldM] in H; [injection H as <-; lia|].
  apply bind_ok in H. destruct H as (w1 & E & H). pose proof (run_lbda_width _ _ _ j E H1). pose proof (IH _ _ H). lia.
Qed.
Lemma run_mat_layers o w i w' : run_mat o w i = Ok w' -> layers w' = layers w.
Proof.
  unfold run_mat. intros H. apply bind_ok in H. destruct H as (f & _ & H). apply bind_ok in H. destruct H as (e & _ & H). injection H as <-.
  destruct e; reflexivity.
Qed.
Lemma sweep_layers o ms s s' : sweep o ms s = Ok s' -> layers (wd s') = layers (wd s).
Proof.
  intros H. apply sweep_spec in H. cbv zeta in H. destruct H as (H & _). change (layers (wd s)) with (layers (tick (wd s))). revert H. generalize (tick (wd s)) as w, (wd s') as w'.
  generalize (o_perm o (clock (wd s)) ms). intros p. induction p as [|i p IH]; intros w w' H; cbn [foldM] in H; [injection H as <-; reflexivity|].
  apply bind_ok in H. destruct H as (w1 & E & H). apply run_mat_layers in E. rewrite (IH _ _ H). exact E.
Qed.
Lemma clean_layer_layers w l reset clean w' b : clean_layer w l reset clean = Some (Ok (w', b)) -> layers w' = layers w.
Proof.
  unfold clean_layer. cbv zeta. destruct (mapM _ _) as [cfs|e]; [|discriminate]. destruct (clean_up_codes _ _ _ _) as [[[cfs' red]|e]|]; try discriminate.
  intros H. injection H as <- <-. destruct red; [|reflexivity]. generalize (combine (factors (get_lay w l)) cfs'). intros ps. revert w.
  induction ps as [|[i cf] ps IH]; intros w; cbn [fold_left]; [reflexivity|]. rewrite IH. destruct reset; reflexivity.
Qed.
Lemma clean_all_layers ls : forall w w' b, clean_all w ls = Some (Ok (w', b)) -> layers w' = layers w.
Proof.
  induction ls as [|l ls IH]; intros w w' b H; cbn [clean_all] in H; [injection H as <- <-; reflexivity|]. cbv zeta in H.
  destruct (auto_clean _ || auto_reset _); [|eapply IH; exact H].
  destruct (clean_layer _ _ _ _) as [[[w1 b1]|e]|] eqn:E1; try discriminate. destruct (clean_all w1 ls) as [[[w2 b2]|e]|] eqn:E2; try discriminate.
  injection H as <- <-. rewrite (IH _ _ _ E2). eapply clean_layer_layers; exact E1.
Qed.
Lemma disp_layers w w' l : layers w' = layers w -> disp w' l = disp w l.
Proof. intros H. unfold disp, get_lay. rewrite H. reflexivity. Qed.

(** ** Checks *)
Lemma avg_mean v : mean v = avg v.
Proof. reflexivity. Qed.
Lemma expit_sigma x : expit x = sigma x.
Proof. unfold expit, sigma, Rdiv. rewrite Rmult_1_l. reflexivity. Qed.
Lemma single_trace_settled xs e : check_convergence_single_trace xs e = true <-> settled e xs.
Proof.
  unfold check_convergence_single_trace. set (l := Nat.div (List.length xs) 2).
  assert (Hl : (2 * l <= List.length xs < 2 * l + 2)%nat).
  { pose proof (Nat.div_mod (List.length xs) 2). pose proof (Nat.mod_upper_bound (List.length xs) 2). lia. }
  split.
  - destruct (Nat.eqb_spec l 0) as [|H0]; [discriminate|]. intros H. exists (firstn l xs), (skipn l xs). split; [symmetry; apply firstn_skipn|].
    clearbody l. split; [destruct l; [lia|]; destruct xs; [cbn in Hl; lia|discriminate]|].
    split; [rewrite firstn_length, skipn_length; lia|]. rewrite <- !expit_sigma. apply Rltb_true. exact H.
  - intros (a & b & -> & Ha & Hlen & Hd). rewrite app_length in *.
    assert (l = List.length a) by lia. assert (l <> 0)%nat by (destruct a; [contradiction|cbn in *; lia]).
    rewrite (proj2 (Nat.eqb_neq _ _)) by assumption. clearbody l. subst l. apply Rltb_true. rewrite !expit_sigma.
    rewrite firstn_app, Nat.sub_diag, firstn_all, skipn_app, Nat.sub_diag, skipn_all. cbn [firstn skipn app]. rewrite app_nil_r. exact Hd.
Qed.
Lemma check_convergence_spec o k t e : check_convergence o k t e = true -> looks_converged e (match lwidth t with None => 1%nat | Some n => n end) (lcells t).
Proof.
  unfold check_convergence. cbv zeta. intros H.
  set (read := fun j => match nth j (lcells t) None with Some v => v | None => o_memory o k j end) in *.
  exists (map read (seq 0 (List.length (lcells t)))). split.
  - split; [rewrite map_length, seq_length; reflexivity|]. intros j v Hj. 
    assert (j < List.length (lcells t))%nat by (apply nth_error_Some; congruence).
    rewrite nth_error_map. rewrite (nth_error_nth' _ 0%nat) by (rewrite seq_length; assumption). rewrite seq_nth by assumption. cbn. unfold read.
    rewrite (nth_error_nth _ _ None Hj). reflexivity.
  - intros c Hc. rewrite map_map. apply single_trace_settled.
    change (fun x => comp c (read x)) with (fun j => component c (read j)).
    destruct (lwidth t) as [n|].
    + rewrite forallb_forall in H. apply H. apply in_seq. lia.
    + assert (c = 0)%nat by lia. subst c. exact H.
Qed.

(** ** Nothing to clean *)
Lemma clean_layer_false w l reset clean w' : clean_layer w l reset clean = Some (Ok (w', false)) -> reset || clean = true -> w' = w /\
  forall ms L, factor_values w l ms -> aligned ms L -> ~ redundant ms L.
Proof.
  unfold clean_layer. cbv zeta. destruct (mapM _ _) as [cfs|e] eqn:Em; [|discriminate]. destruct (clean_up_codes _ _ _ _) as [[[cfs' red]|e]|] eqn:Ec; try discriminate.
  intros H Hrc. injection H as <- ->. split; [reflexivity|]. intros ms L HV HA HR.
  assert (Ev : vals cfs = ms).
  { clear - HV Em. unfold factor_values in HV. revert cfs ms HV Em. generalize (factors (get_lay w l)). intros fs. induction fs as [|i fs IH]; intros cfs ms HV Em.
    - cbn in *. destruct ms; [|discriminate]. injection Em as <-. reflexivity.
    - destruct ms as [|m ms]; [discriminate|]. cbn [map] in HV. injection HV as Hv HV. cbn [mapM] in Em. apply bind_ok in Em. destruct Em as (x & E1 & Em). apply bind_ok in Em. destruct Em as (xs & E2 & Em).
      injection Em as <-. cbn [vals map]. f_equal; [|apply (IH xs ms HV E2)]. unfold read2 in E1. rewrite Hv in E1. cbn in E1. apply bind_ok in E1. destruct E1 as (y & _ & E1). injection E1 as <-. reflexivity. }
  rewrite <- Ev in HA, HR. assert (EL : csize cfs = L).
  { destruct HA as [Hne HF]. destruct cfs as [|f cfs0]; [contradiction Hne; reflexivity|]. cbn [csize vals map] in *. inversion HF as [|? ? [Hm Hc] _]; subst.
    unfold ncols. destruct (cf_val f) as [|r m]; [contradiction|]. cbn [hd]. inversion Hc; assumption. }
  destruct (C34_lemma cfs L reset clean HA Hrc (S (csize cfs))) as (fs' & red & E & H1 & _); [lia|]. rewrite E in Ec. injection Ec as <- ->. apply H1 in HR. discriminate.
Qed.
Lemma clean_all_false ls : forall w w', clean_all w ls = Some (Ok (w', false)) -> w' = w /\ forall l, In l ls -> ~ needs_cleaning w l.
Proof.
  induction ls as [|l ls IH]; intros w w' H; cbn [clean_all] in H; [injection H as <-; split; [reflexivity|contradiction]|]. cbv zeta in H.
  destruct (auto_clean (get_lay w l) || auto_reset (get_lay w l)) eqn:Ef.
  - destruct (clean_layer _ _ _ _) as [[[w1 b1]|e]|] eqn:E1; try discriminate. destruct (clean_all w1 ls) as [[[w2 b2]|e]|] eqn:E2; try discriminate.
    injection H as H Hb. apply orb_false_iff in Hb. destruct Hb as [-> ->]. apply clean_layer_false in E1; [|rewrite orb_comm; exact Ef]. destruct E1 as [-> E1].
    destruct (IH _ _ E2) as [-> G]. subst w'. split; [reflexivity|]. intros j [<-|Hj]; [|apply G; exact Hj]. intros (_ & ms & L & HV & HA & HR). exact (E1 ms L HV HA HR).
  - destruct (IH _ _ H) as [-> G]. split; [reflexivity|]. intros j [<-|Hj]; [|apply G; exact Hj]. intros ([C|C] & _); rewrite C in Ef; [discriminate|rewrite orb_true_r in Ef; discriminate].
Qed.
