(** The updates of an ordinary machine are draws from its joint posterior. *)
From Coq Require Import String Permutation Lra.
From Verif Require Import Base BaseR BaseLemmas BaseRLemmas Spec SpecR HelpersProofs Canon Outputs Fuzzy Scores Sampling SamplingProofs HierProofs Lambda LambdaProofs MaxMachine Clean Machine Dispatch Inference SpecMachine SpecOrdinary MachineProofs MachineProofs2 BuiltProofs InferenceProofs InferenceProofs2 PlainProofs DispatchProofs UpdateProofs OrdinaryProofs OrdinaryProofs2 OrdinaryProofs3.
Local Open Scope R_scope.

(** Sweeps under proportional weights *)
Lemma sweep_prop w1 w2 c F r N L A : 0 < c -> (forall m, okmat N L m -> 0 < w2 m) -> (forall m, okmat N L m -> w1 m = c * w2 m) -> okmat N L A ->
  ref_sweep w1 F r N L A = ref_sweep w2 F r N L A /\ okmat N L (ref_sweep w2 F r N L A).
Proof.
  intros Hc Hp Hw. unfold ref_sweep. assert (HI : forall q, In q (cells N L) -> (fst q < N)%nat /\ (snd q < L)%nat) by (intros [n l] H; apply in_cells in H; exact H).
  revert A. induction (cells N L) as [|[n l] cs IH]; intros A HA; [split; [reflexivity|exact HA]|]. cbn [fold_left].
  assert (HI' : forall q, In q cs -> (fst q < N)%nat /\ (snd q < L)%nat) by (intros q Hq; apply HI; right; exact Hq). specialize (IH HI'). destruct (at2 F n l =? 1)%Z; [apply IH, HA|].
  destruct (HI (n, l) (or_introl eq_refl)) as (Hn & Hl). cbn [fst snd] in *.
  assert (P1 : okmat N L (set2 A n l 1)) by (apply okmat_set; [exact HA|unfold pm1; auto]). assert (P2 : okmat N L (set2 A n l (-1))) by (apply okmat_set; [exact HA|unfold pm1; auto]).
  assert (E : log_odds w1 A n l = log_odds w2 A n l).
  { unfold log_odds. rewrite (Hw _ P1), (Hw _ P2). rewrite !ln_mult by (try exact Hc; apply Hp; assumption). ring. }
  rewrite E. apply IH. apply okmat_set; [exact HA|]. apply mg_flip_pm. apply (okmat_pm N L); assumption.
Qed.
Lemma sweep_same w1 w2 c F r N L A : 0 < c -> (forall m, okmat N L m -> 0 < w2 m) -> (forall m, okmat N L m -> w1 m = c * w2 m) -> okmat N L A -> ref_sweep w1 F r N L A = ref_sweep w2 F r N L A.
Proof. intros. eapply sweep_prop; eassumption. Qed.

Lemma standard_implemented m : In m standard_models -> exists o i, In (o, i) implemented /\ m = model_name o i.
Proof.
  unfold standard_models. intros H. repeat (destruct H as [<-|H]; [|]); [| | | | | | | |contradiction].
  - exists OR, AND. split; [cbn; auto 10|reflexivity].
  - exists OR, NAND. split; [cbn; auto 10|reflexivity].
  - exists OR, XOR. split; [cbn; auto 10|reflexivity].
  - exists NAND, XOR. split; [cbn; auto 10|reflexivity].
  - exists XOR, AND. split; [cbn; auto 10|reflexivity].
  - exists XOR, XOR. split; [cbn; auto 10|reflexivity].
  - exists XOR, NXOR. split; [cbn; auto 10|reflexivity].
  - exists XOR, NAND. split; [cbn; auto 10|reflexivity].
Qed.

(** Layers of sound machines *)
Lemma okmat_cols N L A : okmat N L A -> nrows A = N /\ (N = 0%nat \/ ncols A = L).
Proof. intros ((H1 & H2) & _). split; [exact H1|]. destruct A as [|v A]; [left; symmetry; exact H1|right]. unfold ncols. cbn [hd]. inversion H2; subst. reflexivity. Qed.
Lemma sound_layer2 w l : sound w -> (l < List.length (layers w))%nat -> List.length (factors (get_lay w l)) = 2%nat ->
  exists f g L A B X x, layer2 w l f g (nrows X) (ncols X) L A B X x /\ (Z.of_nat (nrows X) <= 32767)%Z /\ (Z.of_nat (ncols X) <= 32767)%Z.
Proof.
  intros S Hl H2. pose proof (so_plain _ S) as P. destruct (so_layer _ S l Hl) as (G1 & G2 & G3 & (K & G4) & G5 & _). cbv zeta in *.
  destruct (plain_child _ P l Hl) as [(_ & (X & EX))|(E & _)]; [|lia]. destruct (plain_disp _ P l Hl) as (x & Ex). pose proof (plain_axes _ P l Hl) as AX. pose proof (wf_placed _ (so_wf _ S) l) as PL. specialize (G5 H2).
  destruct (factors (get_lay w l)) as [|f [|g [|? t]]] eqn:EF; try discriminate. pose proof (G4 0%nat ltac:(cbn; lia)) as F0. pose proof (G4 1%nat ltac:(cbn; lia)) as F1. rewrite EX in *. cbn [nth shape_of] in F0, F1. destruct F0 as (A & EA & HA). destruct F1 as (B & EB & HB).
  destruct (PL f Hl ltac:(cbn; auto)) as (pf & lf & ND). destruct (PL g Hl ltac:(cbn; auto)) as (pg & lg & _). destruct (axes2 w f g AX) as (a0 & a1).
  assert (Hfg : f <> g) by (inversion ND as [|? ? N1 _]; subst; intros ->; apply N1; left; reflexivity).
  exists f, g, K, A, B, X, x. split; [|split; apply G5; cbn; auto]. destruct G2 as (R1 & R2). constructor; auto 10.
Qed.
Lemma sound_layer3 w l : sound w -> (l < List.length (layers w))%nat -> List.length (factors (get_lay w l)) = 3%nat ->
  exists f g h N D M L A B C X x, layer3 w l f g h N D M L A B C X x.
Proof.
  intros S Hl H2. pose proof (so_plain _ S) as P. destruct (so_layer _ S l Hl) as (G1 & G2 & G3 & (K & G4) & G5 & _). cbv zeta in *.
  destruct (plain_child _ P l Hl) as [(E & _)|(_ & (X & EX))]; [lia|]. destruct (plain_disp _ P l Hl) as (x & Ex). pose proof (plain_axes _ P l Hl) as AX. pose proof (wf_placed _ (so_wf _ S) l) as PL. clear G5.
  destruct (factors (get_lay w l)) as [|f [|g [|h [|? t]]]] eqn:EF; try discriminate. pose proof (G4 0%nat ltac:(cbn; lia)) as F0. pose proof (G4 1%nat ltac:(cbn; lia)) as F1. pose proof (G4 2%nat ltac:(cbn; lia)) as F2. rewrite EX in *. cbn [nth shape_of] in F0, F1, F2. destruct F0 as (A & EA & HA). destruct F1 as (B & EB & HB). destruct F2 as (C & EC & HC).
  destruct (PL f Hl ltac:(cbn; auto)) as (pf & lf & ND). destruct (PL g Hl ltac:(cbn; auto)) as (pg & lg & _). destruct (PL h Hl ltac:(cbn; auto)) as (ph & lh & _). cbn in AX. injection AX as a0 a1 a2.
  exists f, g, h. do 3 eexists. exists K, A, B, C, X, x. destruct G2 as (R1 & R2). constructor; auto 10. split; [exact HA|]. split; [exact HB|]. split; [exact HC|exact R1].
Qed.

(** The joint posterior as a function of one factor *)
Section OneFactor.
Context (outs : string -> list vec -> nat -> Z) (Houts : outputs outs) (w : world) (S : sound w) (l i : nat) (Hl : (l < List.length (layers w))%nat) (Hi : In i (factors (get_lay w l))).
Let i_lt : (i < List.length (mats w))%nat. Proof. apply (wf_placed _ (so_wf _ S) l i Hl Hi). Qed.
Lemma put_value A j : (j < List.length (mats w))%nat -> value (put w i A) j = if Nat.eqb j i then A2 A else value w j.
Proof.
  intros Hj. unfold value, put. change (get_mat (write w ?a ?x) j) with (get_mat w j). rewrite get_arr_write by (apply stored_val; [apply (so_wf _ S)|exact i_lt]).
  destruct (Nat.eqb_spec j i) as [->|Hn]; [rewrite Nat.eqb_refl; reflexivity|]. rewrite (proj2 (Nat.eqb_neq _ _)); [reflexivity|]. apply (so_own _ S i); [exists l; auto|exact Hj|exact Hn].
Qed.
(** The part that depends on the factor. *)
Definition part (A : mat) : R := layer_lik outs (put w i A) l * factor_prior (put w i A) i * Rprod (layer_lik outs (put w i A)) (parents (get_mat w i)).
Lemma layer_lik_pos w' k : 0 < layer_lik outs w' k.
Proof.
  unfold layer_lik. destruct (map (value w') (factors (get_lay w' k))) as [|[a|] [|[b|] [|[c|] [|? t]]]]; try apply Rlt_0_1; destruct (value w' (child (get_lay w' k))) as [x|x]; try apply Rlt_0_1; destruct (disp w' k); try apply Rlt_0_1; first [apply lik2_pos|apply lik3_pos].
Qed.
Lemma factor_prior_pos w' j : 0 < bprior (get_mat w' j) < 1 -> 0 < factor_prior w' j.
Proof. intros H. unfold factor_prior. destruct (value w' j); [apply prior_pos; exact H|apply Rlt_0_1]. Qed.
Lemma part_pos A : 0 < part A.
Proof.
  unfold part. repeat apply Rmult_lt_0_compat; [apply layer_lik_pos|apply factor_prior_pos|apply Rprod_pos; intros; apply layer_lik_pos]. change (get_mat (put w i A) i) with (get_mat w i). apply (so_factor _ S l i Hl Hi).
Qed.
Lemma rest_lik A k : (k < List.length (layers w))%nat -> k <> l -> child (get_lay w k) <> i -> layer_lik outs (put w i A) k = layer_lik outs w k.
Proof.
  intros Hk Hn Hc. unfold layer_lik. change (get_lay (put w i A) k) with (get_lay w k). change (disp (put w i A) k) with (disp w k).
  assert (E : map (value (put w i A)) (factors (get_lay w k)) = map (value w) (factors (get_lay w k))).
  { apply map_ext_in. intros j Hj. destruct (wf_placed _ (so_wf _ S) k j Hk Hj) as (Hj0 & Ej & _). rewrite put_value by exact Hj0. destruct (Nat.eqb_spec j i) as [->|]; [|reflexivity]. exfalso. destruct (wf_placed _ (so_wf _ S) l i Hl Hi) as (_ & E & _). congruence. }
  rewrite E, put_value by exact (proj1 (so_layer _ S k Hk)). rewrite (proj2 (Nat.eqb_neq _ _) Hc). reflexivity.
Qed.
Lemma split_filter (f : nat -> R) (p : nat -> bool) t : Rprod f t = Rprod f (filter p t) * Rprod f (filter (fun k => negb (p k)) t).
Proof. induction t as [|a t IH]; [cbn; ring|]. rewrite Rprod_cons, IH. cbn [filter]. destruct (p a); cbn [negb]; rewrite Rprod_cons; ring. Qed.
Lemma joint_part : exists c, 0 < c /\ forall A, joint outs (put w i A) = c * part A.
Proof.
  set (n := List.length (layers w)). set (pk := fun k => Nat.eqb (child (get_lay w k)) i). set (pl := fun k => Nat.eqb k l).
  assert (EP : parents (get_mat w i) = filter pk (seq 0 n)) by apply (so_factor _ S l i Hl Hi).
  assert (Hcl : pk l = false) by (unfold pk; apply Nat.eqb_neq; destruct (so_layer _ S l Hl) as (_ & _ & G & _); specialize (G i Hi); lia).
  assert (FL : filter pl (filter (fun k => negb (pk k)) (seq 0 n)) = [l]).
  { assert (G : forall t, NoDup t -> In l t -> filter pl (filter (fun k => negb (pk k)) t) = [l]).
    { induction t as [|a t IH]; intros ND HIn; [contradiction|]. inversion ND as [|? ? N1 N2]; subst. cbn [filter]. destruct (Nat.eq_dec a l) as [->|Ha].
      - rewrite Hcl. cbn [negb filter]. unfold pl at 1. rewrite Nat.eqb_refl. f_equal. assert (Z : forall t, ~ In l t -> filter pl (filter (fun k => negb (pk k)) t) = []).
        { clear. induction t as [|b t IH]; intros Hb; [reflexivity|]. cbn [filter]. destruct (negb (pk b)); [|apply IH; intros C; apply Hb; right; exact C]. cbn [filter]. unfold pl at 1. rewrite (proj2 (Nat.eqb_neq b l)) by (intros ->; apply Hb; left; reflexivity). apply IH. intros C. apply Hb. right. exact C. }
        apply Z. exact N1.
      - destruct HIn as [->|HIn]; [contradiction|]. destruct (negb (pk a)); [|apply IH; assumption]. cbn [filter]. unfold pl at 1. rewrite (proj2 (Nat.eqb_neq a l) Ha). apply IH; assumption. }
    apply G; [apply seq_NoDup|]. apply in_seq. unfold n. lia. }
  set (rest := filter (fun k => negb (pl k)) (filter (fun k => negb (pk k)) (seq 0 n))).
  assert (HR : forall k, In k rest -> (k < n)%nat /\ k <> l /\ child (get_lay w k) <> i).
  { intros k Hk. unfold rest in Hk. apply filter_In in Hk. destruct Hk as (Hk & K1). apply filter_In in Hk. destruct Hk as (Hk & K2). apply in_seq in Hk. apply negb_true_iff, Nat.eqb_neq in K1. apply negb_true_iff, Nat.eqb_neq in K2. split; [lia|auto]. }
  assert (HF : In i (flat_map factors (layers w))) by (apply in_flat_map; exists (get_lay w l); split; [apply nth_In; exact Hl|exact Hi]). apply in_split in HF. destruct HF as (s & t & EF).
  assert (ND : ~ In i (s ++ t)) by (pose proof (wf_nodup _ (so_wf _ S)) as G; unfold members in G; apply NoDup_app_l in G; rewrite EF in G; apply NoDup_remove_2 in G; exact G).
  assert (HM : forall j, In j (s ++ t) -> (j < List.length (mats w))%nat /\ 0 < bprior (get_mat w j) < 1).
  { intros j Hj. assert (Hj' : In j (flat_map factors (layers w))) by (rewrite EF; apply in_app_or in Hj; apply in_or_app; destruct Hj; [left|right; right]; assumption). apply in_flat_map in Hj'. destruct Hj' as (y & Hy & Hj').
    apply (In_nth _ _ no_layer) in Hy. destruct Hy as (k & Hk & <-). split; [apply (wf_placed _ (so_wf _ S) k j Hk Hj')|apply (so_factor _ S k j Hk Hj')]. }
  exists (Rprod (layer_lik outs w) rest * Rprod (factor_prior w) (s ++ t)). split; [apply Rmult_lt_0_compat; apply Rprod_pos; intros; [apply layer_lik_pos|apply factor_prior_pos, HM; assumption]|].
  intros A. unfold joint. change (layers (put w i A)) with (layers w). fold n. rewrite (split_filter _ pk (seq 0 n)), (split_filter _ pl (filter (fun k => negb (pk k)) (seq 0 n))), FL. fold rest. rewrite <- EP.
  rewrite (Rprod_ext (layer_lik outs (put w i A)) (layer_lik outs w) rest) by (intros k Hk; destruct (HR k Hk) as (K1 & K2 & K3); apply rest_lik; assumption).
  rewrite EF, Rprod_app, (Rprod_cons _ i t). replace (Rprod (factor_prior (put w i A)) s) with (Rprod (factor_prior w) s).
  2:{ apply Rprod_ext. intros j Hj. unfold factor_prior. change (get_mat (put w i A) j) with (get_mat w j). rewrite put_value by (apply HM, in_or_app; left; exact Hj). rewrite (proj2 (Nat.eqb_neq j i)); [reflexivity|]. intros ->. apply ND, in_or_app. left. exact Hj. }
  replace (Rprod (factor_prior (put w i A)) t) with (Rprod (factor_prior w) t).
  2:{ apply Rprod_ext. intros j Hj. unfold factor_prior. change (get_mat (put w i A) j) with (get_mat w j). rewrite put_value by (apply HM, in_or_app; right; exact Hj). rewrite (proj2 (Nat.eqb_neq j i)); [reflexivity|]. intros ->. apply ND, in_or_app. right. exact Hj. }
  rewrite Rprod_app. unfold part. rewrite (Rprod_cons _ l []). set (u := Rprod _ []). assert (Eu : u = 1) by reflexivity. rewrite Eu. ring.
Qed.
End OneFactor.
