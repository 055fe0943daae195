(** The order of MAX-AND dispersions is lost on large data (C126). *)
From Coq Require Import Lra Permutation.
From Flocq Require Import Core.
From Verif Require Import Base BaseR BaseLemmas BaseRLemmas SpecR Outputs Sampling Fuzzy SpecMax MaxMachine MaxMachineProofs SpecMaxRun SpecFloat FloatFuzzy FloatProofs FloatProofs7 FloatMax FloatMaxProofs.
Local Open Scope R_scope.

(** n + 1 rows; the first dimension misses the last one. *)
Definition big_factor (n : nat) : mat := map (fun i => [(if Nat.ltb i n then 1 else -1)%Z; 1%Z]) (seq 0 (S n)).
Definition big_data (n : nat) : mat := map (fun _ => [1%Z]) (seq 0 (S n)).
Definition big_other : mat := [[1; 1]]%Z.
Section Big.
  Variables (n : nat).
  Lemma big_A : has_shape2 (big_factor n) (S n) 2.
  Proof. split; [unfold big_factor; rewrite map_length, seq_length; reflexivity|]. apply Forall_forall. intros r Hr. apply in_map_iff in Hr. destruct Hr as (i & <- & _). reflexivity. Qed.
  Lemma big_B : has_shape2 big_other 1 2.
  Proof. split; [reflexivity|repeat constructor]. Qed.
  Lemma big_X : has_shape2 (big_data n) (S n) 1.
  Proof. split; [unfold big_data; rewrite map_length, seq_length; reflexivity|]. apply Forall_forall. intros r Hr. apply in_map_iff in Hr. destruct Hr as (i & <- & _). reflexivity. Qed.
  Lemma big_X_at i : (i < S n)%nat -> at2 (big_data n) i 0 = 1%Z.
  Proof. intros Hi. unfold at2, row, big_data. rewrite (nth_map_seq (fun _ => [1%Z])) by assumption. reflexivity. Qed.
  Lemma big_A_at i : (i < S n)%nat -> at2 (big_factor n) i 0 = (if Nat.ltb i n then 1 else -1)%Z /\ at2 (big_factor n) i 1 = 1%Z.
  Proof. intros Hi. unfold at2, row, big_factor. rewrite (nth_map_seq (fun i => [(if Nat.ltb i n then 1 else -1)%Z; 1%Z])) by assumption. split; reflexivity. Qed.
  Lemma big_expl0 i : (i < S n)%nat -> explains (big_factor n) big_other i 0 0 = Nat.ltb i n.
  Proof. intros Hi. unfold explains. rewrite (proj1 (big_A_at i Hi)). destruct (Nat.ltb i n); reflexivity. Qed.
  Lemma big_expl1 i : (i < S n)%nat -> explains (big_factor n) big_other i 0 1 = true.
  Proof. intros Hi. unfold explains. rewrite (proj2 (big_A_at i Hi)). reflexivity. Qed.
  (** Counts. *)
  Lemma count_column N (f : nat -> nat -> bool) : count_cells N 1 f = List.length (filter (fun i => f i 0%nat) (seq 0 N)).
  Proof.
    unfold count_cells, cells. generalize (seq 0 N). intros ls. induction ls as [|i ls IH]; [reflexivity|].
    cbn [list_prod seq map app filter fst snd]. destruct (f i 0%nat); cbn [List.length]; [f_equal|]; exact IH.
  Qed.
  Lemma count_when f (P : nat -> bool) k : (forall i, (i < S n)%nat -> f i 0%nat = P i) -> List.length (filter P (seq 0 (S n))) = k -> count_nonzero (S n) 1 f = Z.of_nat k.
  Proof.
    intros H <-. rewrite count_nonzero_cells, count_column. f_equal. f_equal. apply filter_ext_in. intros i Hi. apply H, in_seq0, Hi.
  Qed.
  Lemma filter_lt : List.length (filter (fun i => Nat.ltb i n) (seq 0 (S n))) = n.
  Proof.
    rewrite seq_S. rewrite filter_app. cbn [Nat.add filter]. rewrite Nat.ltb_irrefl, app_nil_r.
    rewrite (filter_ext_in _ (fun _ => true)); [|intros i Hi; apply Nat.ltb_lt, in_seq0, Hi]. rewrite <- (seq_length n 0) at 2. f_equal. generalize (seq 0 n). intros l. induction l as [|a l IH]; [reflexivity|]. cbn [filter]. f_equal. exact IH.
  Qed.
  Lemma filter_all : List.length (filter (fun _ : nat => true) (seq 0 (S n))) = S n.
  Proof. rewrite <- (seq_length (S n) 0) at 2. f_equal. generalize (seq 0 (S n)). intros l. induction l as [|a l IH]; [reflexivity|]. cbn [filter]. f_equal. exact IH. Qed.
  Lemma filter_none (l : list nat) : List.length (filter (fun _ => false) l) = 0%nat.
  Proof. induction l as [|a l IH]; [reflexivity|exact IH]. Qed.
  Lemma filter_last : List.length (filter (fun i => negb (Nat.ltb i n)) (seq 0 (S n))) = 1%nat.
  Proof.
    rewrite seq_S. rewrite filter_app. cbn [Nat.add filter]. rewrite Nat.ltb_irrefl. cbn [negb]. rewrite app_length. cbn [List.length].
    rewrite (filter_ext_in _ (fun _ => false)); [rewrite filter_none; reflexivity|]. intros i Hi. apply in_seq0 in Hi. apply Nat.ltb_lt in Hi. rewrite Hi. reflexivity.
  Qed.

  Lemma pred_at l i : (l < 2)%nat -> (i < S n)%nat ->
    nth l (map (fun l n0 d => (at2 (OR_AND_product_expand (col (big_factor n) l) (col big_other l)) n0 d =? 1)%Z) (seq 0 2)) (fun _ _ => false) i 0%nat = explains (big_factor n) big_other i 0 l.
  Proof. intros Hl Hi. apply (preds_at (big_factor n) big_other (big_data n) (S n) 1 2 big_A big_B l i 0%nat Hl Hi). lia. Qed.
  Lemma big_prec0 : precision (big_factor n) big_other (big_data n) (S n) 1 [] 0 = laplace n 0.
  Proof.
    unfold precision, explained_after. f_equal; apply Nat2Z.inj; rewrite <- count_nonzero_cells.
    - apply count_when with (P := fun i => Nat.ltb i n); [|apply filter_lt]. intros i Hi. rewrite big_X_at, big_expl0 by assumption. cbn [existsb negb]. rewrite andb_true_r. reflexivity.
    - apply count_when with (P := fun _ => false); [|apply filter_none]. intros i Hi. rewrite big_X_at by assumption. reflexivity.
  Qed.
  Lemma big_prec1 : precision (big_factor n) big_other (big_data n) (S n) 1 [] 1 = laplace (S n) 0.
  Proof.
    unfold precision, explained_after. f_equal; apply Nat2Z.inj; rewrite <- count_nonzero_cells.
    - apply count_when with (P := fun _ => true); [|apply filter_all]. intros i Hi. rewrite big_X_at, big_expl1 by assumption. reflexivity.
    - apply count_when with (P := fun _ => false); [|apply filter_none]. intros i Hi. rewrite big_X_at by assumption. reflexivity.
  Qed.
  Lemma big_prec10 : precision (big_factor n) big_other (big_data n) (S n) 1 [1%nat] 0 = 1 / 2.
  Proof.
    replace (1 / 2) with (laplace 0 0) by (unfold laplace; cbn; lra).
    unfold precision, explained_after. f_equal; apply Nat2Z.inj; rewrite <- count_nonzero_cells; apply count_when with (P := fun _ => false); try apply filter_none;
      intros i Hi; cbn [existsb]; rewrite big_expl1 by assumption; cbn [orb negb]; apply andb_false_r.
  Qed.
  Lemma laplace_less : laplace n 0 < laplace (S n) 0.
  Proof.
    unfold laplace. rewrite S_INR. pose proof (pos_INR n). cbn [INR]. assert (E : forall x, 0 <= x -> (x + 1) / (x + 0 + 2) = 1 - / (x + 2)) by (intros x Hx; field; lra).
    rewrite !E by lra. assert (/ (INR n + 1 + 2) < / (INR n + 2)) by (apply Rinv_lt_contravar; [apply Rmult_lt_0_compat; lra|lra]). lra.
  Qed.
  Lemma big_exact new : greedy_dispersions (big_factor n) big_other (big_data n) (S n) 1 2 new -> nth 0 new 0 = 1 / 2.
  Proof.
    intros (_ & pi & P1 & P2 & _). apply Permutation_sym in P1. cbn [seq] in P1. destruct (Permutation_length_2_inv P1) as [->| ->].
    - exfalso. destruct (P2 0%nat ltac:(lia)) as [_ G]. specialize (G 1%nat ltac:(lia)). cbn [nth firstn] in G. rewrite big_prec0, big_prec1 in G. pose proof laplace_less. lra.
    - destruct (P2 1%nat ltac:(lia)) as [G _]. cbn [nth firstn] in G. rewrite big_prec10 in G. exact G.
  Qed.
  Hypothesis Hn : Z.of_nat n = (2 ^ 27)%Z.
  Lemma big_double a b c : nth 0 (double_lbda_MAX_AND (big_factor n) big_other (big_data n) [a; b; c]) 0 = 9007199187632129 / 9007199254740992.
  Proof.
    unfold double_lbda_MAX_AND. rewrite (shape2_nrows _ _ _ big_A), (shape2_nrows _ _ _ big_B), (shape2_ncols _ _ _ big_A) by lia.
    set (preds := map _ (seq 0 2)). set (s0 := Build_mstate _ _ _ _ _).
    assert (TP : m_TP s0 = [Z.of_nat n; Z.of_nat (S n)]).
    { unfold s0. cbn [m_TP]. cbn [seq map]. f_equal; [|f_equal].
      - apply count_when with (P := fun i => Nat.ltb i n); [|apply filter_lt]. intros i Hi. unfold preds. rewrite pred_at, big_X_at, big_expl0 by (assumption || lia). apply andb_true_r.
      - apply count_when with (P := fun _ => true); [|apply filter_all]. intros i Hi. unfold preds. rewrite pred_at, big_X_at, big_expl1 by (assumption || lia). reflexivity. }
    assert (FP : m_FP s0 = [0; 0]%Z).
    { unfold s0. cbn [m_FP]. cbn [seq map]. f_equal; [|f_equal]; apply count_when with (P := fun _ => false) (k := 0%nat); try apply filter_none; intros i Hi; rewrite big_X_at by assumption; apply andb_false_r. }
    assert (W1 : double_pp_rate (Z.of_nat n) 0 = 9007199187632129 / 9007199254740992).
    { rewrite Hn. unfold double_pp_rate. rewrite <- (tie_value 134217729) by (left; reflexivity). f_equal. change (2 ^ 27 + 0)%Z with 134217728%Z. change (2 ^ 27)%Z with 134217728%Z. f_equal; lra. }
    assert (W2 : double_pp_rate (Z.of_nat (S n)) 0 = 9007199187632129 / 9007199254740992).
    { rewrite Nat2Z.inj_succ, Hn. unfold double_pp_rate. rewrite <- (tie_value 134217730) by (right; reflexivity). f_equal. change (Z.succ (2 ^ 27) + 0)%Z with 134217729%Z. change (Z.succ (2 ^ 27))%Z with 134217729%Z. f_equal; lra. }
    assert (AM : forall x, argmax [x; x] = 0%nat).
    { intros x. unfold argmax. cbn [List.length seq fold_left]. unfold rat. cbn [nth]. destruct (Rltb_spec x x); cbn [nth]; destruct (Rltb_spec x x); try reflexivity; lra. }
    assert (A1 : forall x, argmax [x] = 0%nat).
    { intros x. unfold argmax. cbn [List.length seq fold_left]. destruct (Rltb _ _); reflexivity. }
    cbn [Nat.iter nat_rect]. set (s1 := double_MAX_AND_step (S n) 1 (big_data n) preds s0).
    assert (L1 : m_list s1 = [1%nat] /\ m_parm s1 = [9007199187632129 / 9007199254740992; b; c] /\ exists p q, m_TP s1 = [p] /\ m_FP s1 = [q]).
    { unfold s1, double_MAX_AND_step. cbn [m_list m_parm m_TP m_FP]. rewrite TP, FP. cbn [combine map]. rewrite W1, W2, AM.
      split; [reflexivity|]. split; [reflexivity|]. eexists. eexists. split; reflexivity. }
    destruct L1 as (L1 & L2 & p & q & L3 & L4).
    set (s2 := double_MAX_AND_step (S n) 1 (big_data n) preds s1).
    assert (M2 : exists y, m_parm s2 = [9007199187632129 / 9007199254740992; y; c]).
    { unfold s2, double_MAX_AND_step. cbn [m_parm]. rewrite L1, L2, L3, L4. cbn [combine map]. rewrite A1. eexists. reflexivity. }
    destruct M2 as (y & M2). rewrite M2. destruct (Req_EM_T _ _); reflexivity.
  Qed.
End Big.
Lemma C126_lemma : exists A B X N, N = Z.to_nat (2 ^ 27 + 1) /\ has_shape2 A N 2 /\ has_shape2 B 1 2 /\ has_shape2 X N 1 /\
  (exists new, greedy_dispersions A B X N 1 2 new) /\ (forall new, greedy_dispersions A B X N 1 2 new -> nth 0 new 0 = 1 / 2) /\
  (forall parm, List.length parm = 3%nat -> 99 / 100 < nth 0 (double_lbda_MAX_AND A B X parm) 0).
Proof.
  pose (n := Z.to_nat (2 ^ 27)). assert (Hn : Z.of_nat n = (2 ^ 27)%Z) by (apply Z2Nat.id; lia).
  exists (big_factor n), big_other, (big_data n), (S n). split; [rewrite Z2Nat.inj_add by lia; fold n; rewrite Nat.add_comm; reflexivity|].
  clearbody n. split; [apply big_A|]. split; [apply big_B|]. split; [apply big_X|]. split.
  { destruct (C40_lemma _ _ _ [0; 0; 0] _ _ _ (big_A n) big_B (big_X n) ltac:(lia) eq_refl) as (new & pi & _ & H1 & _ & H3 & H4 & H5 & H6).
    exists new. split; [exact H1|]. exists pi. split; [exact H3|]. split; [exact H4|]. split; [exact H5|exact H6]. }
  split; [intros new; apply big_exact|].
  intros [|a [|b [|c [|]]]] H; try discriminate H. rewrite big_double by exact Hn. lra.
Qed.
Lemma C126_close_lemma A B X parm N D L : has_shape2 A N L -> has_shape2 B D L -> has_shape2 X N D -> (0 < N)%nat -> (Z.of_nat (N * D) + 2 <= 94906265)%Z ->
  List.length parm = S L -> Forall is_double parm ->
  exists new, greedy_dispersions A B X N D L new /\ forall l, (l <= L)%nat -> Rabs (nth l (double_lbda_MAX_AND A B X parm) 0 - nth l new 0) <= roundoff.
Proof.
  intros HA HB HX HN HS Hp Hd. destruct (C125_lemma A B X parm N D L HA HB HX HN HS Hp Hd) as (new & G & _ & H & _). exists new. split; [exact G|].
  intros l Hl. destruct (H l Hl) as (_ & _ & K). eapply Rle_trans; [apply (K (rnd (nth l new 0))), C114_rounding_lemma|].
  destruct (greedy_rate A B X N D L new l G Hl) as (p & q & _ & E). pose proof (laplace_range p q) as B0. rewrite <- E in B0.
  eapply Rle_trans; [apply (rnd_err 1); [lra|rewrite Rabs_pos_eq; lra]|]. rewrite Rmult_1_l. apply Req_le. reflexivity.
Qed.
