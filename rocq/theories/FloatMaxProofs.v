(** Proof of C125. *)
From Coq Require Import Lra Permutation.
From Flocq Require Import Core.
From Verif Require Import Base BaseR BaseLemmas BaseRLemmas SpecR Outputs Sampling Fuzzy SpecMax MaxMachine MaxMachineProofs SpecMaxRun SpecFloat FloatFuzzy FloatProofs FloatProofs7 TidyProofs FloatMax.
Local Open Scope R_scope.

Definition small (N D : nat) : Prop := (Z.of_nat (N * D) + 2 <= 94906265)%Z.
Lemma bpow54 : 2 * bpow radix2 (-54) = / (IZR (2 ^ 26) * IZR (2 ^ 27)).
Proof. change (bpow radix2 (-54)) with (/ IZR (2 ^ 54)). rewrite <- mult_IZR. change (2 ^ 54)%Z with (2 * (2 ^ 26 * 2 ^ 27))%Z. rewrite (mult_IZR 2). assert (IZR (2 ^ 26 * 2 ^ 27) <> 0) by (apply IZR_neq; discriminate). field. assumption. Qed.

(** Different fractions with small denominators stay different. *)
Lemma rnd_fractions a b c d : (0 < b <= 94906265)%Z -> (0 < d <= 94906265)%Z -> (0 < a < b)%Z -> (0 < c < d)%Z ->
  IZR a / IZR b < IZR c / IZR d -> rnd (IZR a / IZR b) < rnd (IZR c / IZR d).
Proof.
  intros Hb Hd Ha Hc H.
  assert (B0 : 0 < IZR b) by (apply IZR_lt; lia). assert (D0 : 0 < IZR d) by (apply IZR_lt; lia).
  assert (U : forall p q, (0 < p < q)%Z -> Rabs (IZR p / IZR q) < 1).
  { intros p q Hp. assert (0 < IZR q) by (apply IZR_lt; lia). assert (0 < IZR p) by (apply IZR_lt; lia). assert (IZR p < IZR q) by (apply IZR_lt; lia).
    rewrite Rabs_pos_eq by (apply Rlt_le, Rdiv_lt_0_compat; assumption). apply (Rmult_lt_reg_r (IZR q)); [assumption|]. unfold Rdiv. rewrite Rmult_assoc, Rinv_l by lra. lra. }
  assert (G : / (IZR b * IZR d) <= IZR c / IZR d - IZR a / IZR b).
  { assert (K : (a * d < c * b)%Z).
    { apply lt_IZR. rewrite !mult_IZR. apply (Rmult_lt_compat_r (IZR b * IZR d)) in H; [|apply Rmult_lt_0_compat; assumption].
      replace (IZR a / IZR b * (IZR b * IZR d)) with (IZR a * IZR d) in H by (field; lra). replace (IZR c / IZR d * (IZR b * IZR d)) with (IZR c * IZR b) in H by (field; lra). exact H. }
    assert (K2 : 1 <= IZR c * IZR b - IZR a * IZR d) by (rewrite <- !mult_IZR, <- minus_IZR; apply (IZR_le 1); lia).
    replace (IZR c / IZR d - IZR a / IZR b) with ((IZR c * IZR b - IZR a * IZR d) * / (IZR b * IZR d)) by (field; lra).
    rewrite <- (Rmult_1_l (/ _)) at 1. apply Rmult_le_compat_r; [|exact K2]. apply Rlt_le, Rinv_0_lt_compat, Rmult_lt_0_compat; assumption. }
  assert (M : / (IZR (2 ^ 26) * IZR (2 ^ 27)) < / (IZR b * IZR d)).
  { rewrite <- !mult_IZR. apply Rinv_lt_contravar; [rewrite <- mult_IZR; apply IZR_lt; nia|apply IZR_lt; nia]. }
  rewrite <- bpow54 in M.
  pose proof (rnd_half_ulp _ (U a b Ha)) as E1. pose proof (rnd_half_ulp _ (U c d Hc)) as E2.
  apply Rabs_le_inv in E1. apply Rabs_le_inv in E2. lra.
Qed.
Lemma laplace_frac p q : laplace p q = IZR (Z.of_nat p + 1) / IZR (Z.of_nat p + Z.of_nat q + 2).
Proof. unfold laplace. rewrite !plus_IZR, <- !INR_IZR_INZ. reflexivity. Qed.
(** Rates of counts of at most [M] cells. *)
Definition rate (M : nat) (x : R) : Prop := exists p q, (p + q <= M)%nat /\ x = laplace p q.
Lemma rate_mono N D x y : small N D -> rate (N * D) x -> rate (N * D) y -> x < y -> rnd x < rnd y.
Proof.
  unfold small. intros HS (p & q & H1 & ->) (p' & q' & H2 & ->). rewrite !laplace_frac. intros H. apply rnd_fractions; try lia. exact H.
Qed.
Lemma double_rate a b : double_pp_rate (Z.of_nat a) (Z.of_nat b) = rnd (laplace a b).
Proof. unfold double_pp_rate. change ((IZR (Z.of_nat a) + 1) / (IZR (Z.of_nat a + Z.of_nat b) + 2)) with (pp_rate (Z.of_nat a) (Z.of_nat b)). rewrite pp_rate_laplace. reflexivity. Qed.
Lemma count_two N D b c : (forall n d, b n d = true -> c n d = true -> False) -> (count_cells N D b + count_cells N D c <= N * D)%nat.
Proof.
  intros H. rewrite <- (LambdaProofs.cells_length N D). unfold count_cells. induction (cells N D) as [|x ls IH]; [reflexivity|].
  cbn [filter]. specialize (H (fst x) (snd x)). destruct (b (fst x) (snd x)), (c (fst x) (snd x)); cbn [List.length]; try lia; exfalso; apply H; reflexivity.
Qed.
Lemma precision_rate A B X N D e l : rate (N * D) (precision A B X N D e l).
Proof.
  eexists. eexists. split; [|reflexivity]. apply count_two. intros n d. rewrite !andb_true_iff, !Z.eqb_eq. intros [[E _] _] [[F _] _]. rewrite E in F. discriminate.
Qed.
Lemma rest_rate A B X N D e : rate (N * D) (laplace (unexplained A B X N D e 1) (unexplained A B X N D e (-1))).
Proof.
  eexists. eexists. split; [|reflexivity]. apply count_two. intros n d. rewrite !andb_true_iff, !Z.eqb_eq. intros [E _] [F _]. rewrite E in F. discriminate.
Qed.

Lemma rat_map_rnd v i : rat (map rnd v) i = rnd (rat v i).
Proof. unfold rat. rewrite <- rnd_0 at 1. apply map_nth. Qed.
Lemma argmax_rnd N D v : small N D -> Forall (rate (N * D)) v -> argmax (map rnd v) = argmax v.
Proof.
  intros HS Hv. unfold argmax. rewrite map_length.
  assert (G : forall ls best, (best < List.length v)%nat -> (forall i, In i ls -> (i < List.length v)%nat) ->
    fold_left (fun best i => if Rltb (rat (map rnd v) best) (rat (map rnd v) i) then i else best) ls best =
    fold_left (fun best i => if Rltb (rat v best) (rat v i) then i else best) ls best).
  { induction ls as [|i ls IH]; intros best Hb Hl; [reflexivity|]. cbn [fold_left]. rewrite !rat_map_rnd.
    assert (Hi : (i < List.length v)%nat) by (apply Hl; left; reflexivity).
    assert (R1 : rate (N * D) (rat v best)) by (rewrite Forall_forall in Hv; apply Hv, nth_In; assumption).
    assert (R2 : rate (N * D) (rat v i)) by (rewrite Forall_forall in Hv; apply Hv, nth_In; assumption).
    replace (Rltb (rnd (rat v best)) (rnd (rat v i))) with (Rltb (rat v best) (rat v i)).
    - apply IH; [destruct (Rltb _ _); assumption|intros j Hj; apply Hl; right; assumption].
    - destruct (Rltb_spec (rat v best) (rat v i)) as [C|C], (Rltb_spec (rnd (rat v best)) (rnd (rat v i))) as [C'|C']; try reflexivity; exfalso.
      + pose proof (rate_mono N D _ _ HS R1 R2 C). lra.
      + assert (C2 : rat v i <= rat v best) by lra. apply rnd_le in C2. lra. }
  destruct v as [|a v]; [reflexivity|]. apply G; [cbn; lia|]. intros i Hi. apply in_seq0. exact Hi.
Qed.
Lemma rmin_rnd v : v <> [] -> rmin (map rnd v) = rnd (rmin v).
Proof.
  intros Hv. destruct (rmin_spec v Hv) as [R1 R2]. destruct (rmin_spec (map rnd v)) as [S1 S2]; [destruct v; [congruence|discriminate]|].
  apply Rle_antisym; [apply S2, in_map, R1|]. apply in_map_iff in S1. destruct S1 as (x & <- & Hx). apply rnd_le, R2, Hx.
Qed.

Definition rounded (s : mstate) : mstate := {| m_list := m_list s; m_TP := m_TP s; m_FP := m_FP s; m_mask := m_mask s; m_parm := map rnd (m_parm s) |}.
Section Update.
  Variables (A B X : mat) (N D L : nat).
  Hypotheses (HA : has_shape2 A N L) (HB : has_shape2 B D L) (HS : small N D).
  Let preds := map (fun l n d => (at2 (OR_AND_product_expand (col A l) (col B l)) n d =? 1)%Z) (seq 0 L).
  Lemma double_step s pi : minv A B X N D L s pi -> double_MAX_AND_step N D X preds (rounded s) = rounded (lbda_MAX_AND_step N D X preds s).
  Proof.
    intros (_ & HTP & HFP & _).
    assert (E1 : map (fun '(tp, fp) => pp_rate tp fp) (combine (m_TP s) (m_FP s)) = map (fun l => precision A B X N D pi l) (m_list s)).
    { rewrite HTP, HFP. clear. induction (m_list s) as [|l ls IH]; [reflexivity|]. cbn [map combine]. rewrite pp_rate_laplace. f_equal. exact IH. }
    assert (E2 : map (fun '(tp, fp) => double_pp_rate tp fp) (combine (m_TP s) (m_FP s)) = map rnd (map (fun '(tp, fp) => pp_rate tp fp) (combine (m_TP s) (m_FP s)))).
    { rewrite HTP, HFP. clear. induction (m_list s) as [|l ls IH]; [reflexivity|]. cbn [map combine]. rewrite pp_rate_laplace, double_rate. f_equal. exact IH. }
    unfold double_MAX_AND_step, lbda_MAX_AND_step, rounded. cbn [m_list m_TP m_FP m_mask m_parm]. rewrite E2.
    rewrite (argmax_rnd N D); [|exact HS|rewrite E1; apply Forall_forall; intros x Hx; apply in_map_iff in Hx; destruct Hx as (l & <- & _); apply precision_rate].
    rewrite rat_map_rnd, map_upd_any. reflexivity.
  Qed.
  Variable parm : rvec.
  Hypothesis Hparm : List.length parm = S L.
  Hypothesis Hd : map rnd parm = parm.
  Let s0 := {| m_list := seq 0 L;
               m_TP := map (fun l => count_nonzero N D (fun n d => nth l preds (fun _ _ => false) n d && (at2 X n d =? 1)%Z)) (seq 0 L);
               m_FP := map (fun l => count_nonzero N D (fun n d => nth l preds (fun _ _ => false) n d && (at2 X n d =? -1)%Z)) (seq 0 L);
               m_mask := fun _ _ => false; m_parm := parm |}.
  Lemma double_iter j : (j <= L)%nat -> Nat.iter j (double_MAX_AND_step N D X preds) s0 = rounded (Nat.iter j (lbda_MAX_AND_step N D X preds) s0).
  Proof.
    induction j as [|j IH]; intros Hj.
    - cbn. unfold rounded, s0. cbn [m_list m_TP m_FP m_mask m_parm]. rewrite Hd. reflexivity.
    - destruct (iter_inv A B X N D L HA HB parm Hparm j) as (pi & _ & P2 & _); [lia|].
      cbn [Nat.iter nat_rect]. etransitivity; [apply f_equal, IH; lia|]. apply (double_step _ pi). exact P2.
  Qed.
End Update.
Lemma set_last_same v x : v <> [] -> rat v (List.length v - 1) = x -> set_last v x = v.
Proof.
  intros Hv <-. unfold set_last, rat. apply (nth_ext _ _ 0 0); [apply upd_length|]. intros i Hi. rewrite upd_length in Hi.
  destruct (Nat.eq_dec i (List.length v - 1)) as [->|Ne]; [rewrite nth_upd_same by lia; reflexivity|rewrite nth_upd_other by lia; reflexivity].
Qed.
Lemma set_last_rnd v x : map rnd (set_last v x) = set_last (map rnd v) (rnd x).
Proof. unfold set_last. rewrite map_upd_any, map_length. reflexivity. Qed.
Lemma double_lbda_rnd A B X parm N D L : has_shape2 A N L -> has_shape2 B D L -> (0 < N)%nat -> small N D -> List.length parm = S L -> Forall is_double parm ->
  double_lbda_MAX_AND A B X parm = map rnd (lbda_MAX_AND A B X parm).
Proof.
  intros HA HB HN HS Hp Hd. assert (Hd' : map rnd parm = parm).
  { rewrite <- (map_id parm) at 2. apply map_ext_in. intros x Hx. rewrite Forall_forall in Hd. apply rnd_fix, Hd, Hx. }
  unfold double_lbda_MAX_AND, lbda_MAX_AND. rewrite (shape2_nrows _ _ _ HA), (shape2_nrows _ _ _ HB), (shape2_ncols _ _ _ HA HN).
  rewrite (double_iter A B X N D L HA HB HS parm Hp Hd' L (Nat.le_refl L)).
  destruct (iter_inv A B X N D L HA HB parm Hp L (Nat.le_refl L)) as (pi & _ & (_ & _ & _ & _ & Q5 & _) & _).
  set (s := Nat.iter L _ _) in *. unfold rounded. cbn [m_mask m_parm].
  rewrite !count_nonzero_cells, double_rate, pp_rate_laplace. set (r := laplace _ _). rewrite <- set_last_rnd.
  set (p1 := set_last (m_parm s) r). assert (N1 : p1 <> []). { intros E. apply (f_equal (@List.length R)) in E. unfold p1, set_last in E. rewrite upd_length, Q5 in E. discriminate. }
  assert (G : forall v, v <> [] -> (if Req_EM_T (rat v (List.length v - 1)) (rmin v) then v else set_last v (rmin v)) = set_last v (rmin v)).
  { intros v Hv. destruct (Req_EM_T _ _) as [E|E]; [symmetry; apply set_last_same; assumption|reflexivity]. }
  rewrite !G; [|exact N1|destruct p1; [congruence|discriminate]]. rewrite set_last_rnd, rmin_rnd by exact N1. reflexivity.
Qed.
Lemma rnd_rate_range N D x : small N D -> rate (N * D) x -> 0 < rnd x < 1.
Proof.
  intros HS (p & q & H & ->). unfold small in HS. rewrite laplace_frac. split.
  - assert (E : rnd (IZR 1 / IZR (2 ^ 27)) = IZR 1 / IZR (2 ^ 27)).
    { apply rnd_fix. exists 1%Z, (-27)%Z. split; [reflexivity|]. split; [discriminate|]. cbn [powerRZ]. unfold Rdiv. f_equal. f_equal. rewrite pow_IZR. reflexivity. }
    apply Rlt_le_trans with (IZR 1 / IZR (2 ^ 27)); [apply Rdiv_lt_0_compat; apply IZR_lt; lia|]. rewrite <- E. apply rnd_le.
    apply Rmult_le_compat; [apply IZR_le; lia|apply Rlt_le, Rinv_0_lt_compat, IZR_lt; lia|apply IZR_le; lia|apply Rinv_le_contravar; [apply IZR_lt; lia|apply IZR_le; lia]].
  - assert (E : rnd (IZR (2 ^ 27 - 1) / IZR (2 ^ 27)) = IZR (2 ^ 27 - 1) / IZR (2 ^ 27)).
    { apply rnd_fix. exists (2 ^ 27 - 1)%Z, (-27)%Z. split; [reflexivity|]. split; [discriminate|]. cbn [powerRZ]. unfold Rdiv. f_equal. f_equal. rewrite pow_IZR. reflexivity. }
    apply Rle_lt_trans with (IZR (2 ^ 27 - 1) / IZR (2 ^ 27)); [|apply (Rmult_lt_reg_r (IZR (2 ^ 27))); [apply IZR_lt; lia|unfold Rdiv; rewrite Rmult_assoc, Rinv_l by (apply IZR_neq; discriminate); rewrite Rmult_1_r, Rmult_1_l; apply IZR_lt; lia]].
    rewrite <- E. apply rnd_le. set (n := (Z.of_nat p + Z.of_nat q + 2)%Z). assert (0 < IZR n) by (apply IZR_lt; unfold n; lia). assert (0 < IZR (2 ^ 27)) by (apply IZR_lt; lia).
    apply (Rmult_le_reg_r (IZR n * IZR (2 ^ 27))); [apply Rmult_lt_0_compat; assumption|].
    replace (IZR (Z.of_nat p + 1) / IZR n * (IZR n * IZR (2 ^ 27))) with (IZR ((Z.of_nat p + 1) * 2 ^ 27)) by (rewrite mult_IZR; field; lra).
    replace (IZR (2 ^ 27 - 1) / IZR (2 ^ 27) * (IZR n * IZR (2 ^ 27))) with (IZR ((2 ^ 27 - 1) * n)) by (rewrite mult_IZR; field; lra).
    apply IZR_le. unfold n. nia.
Qed.
Lemma greedy_rate A B X N D L new l : greedy_dispersions A B X N D L new -> (l <= L)%nat -> rate (N * D) (nth l new 0).
Proof.
  intros (_ & pi & P1 & P2 & _ & _ & P4).
  assert (G : forall l, (l < L)%nat -> rate (N * D) (nth l new 0)).
  { intros k Hk. assert (Hin : In k pi) by (apply (Permutation_in _ (Permutation_sym P1)), in_seq0, Hk).
    destruct (In_nth _ _ 0%nat Hin) as (i & I1 & I2). rewrite <- I2. rewrite (proj1 (P2 i ltac:(rewrite <- (seq_length L 0), <- (Permutation_length P1); exact I1))). apply precision_rate. }
  intros Hl. destruct (Nat.eq_dec l L) as [->|Ne]; [|apply G; lia]. destruct P4 as [->|(k & K1 & ->)]; [apply rest_rate|apply G, K1].
Qed.
Lemma C125_lemma A B X parm N D L : has_shape2 A N L -> has_shape2 B D L -> has_shape2 X N D -> (0 < N)%nat -> (Z.of_nat (N * D) + 2 <= 94906265)%Z ->
  List.length parm = S L -> Forall is_double parm ->
  exists new, greedy_dispersions A B X N D L new /\ List.length (double_lbda_MAX_AND A B X parm) = S L /\
    (forall l, (l <= L)%nat -> let x := nth l (double_lbda_MAX_AND A B X parm) 0 in
       is_double x /\ 0 < x < 1 /\ forall y, is_double y -> Rabs (x - nth l new 0) <= Rabs (y - nth l new 0)) /\
    (forall a b, (a <= L)%nat -> (b <= L)%nat ->
       (nth a (double_lbda_MAX_AND A B X parm) 0 < nth b (double_lbda_MAX_AND A B X parm) 0 <-> nth a new 0 < nth b new 0)).
Proof.
  intros HA HB HX HN HS Hp Hd. destruct (C40_lemma A B X parm N D L HA HB HX HN Hp) as (new & pi & E & H1 & H2 & H3 & H4 & H5 & H6).
  unfold lbda_MAX_AND_K in E. cbn [Nat.eqb] in E. injection E as E.
  assert (G : greedy_dispersions A B X N D L new) by (split; [exact H1|]; exists pi; repeat split; auto; try apply H4; try apply H6; assumption).
  rewrite (double_lbda_rnd A B X parm N D L HA HB HN HS Hp Hd), E.
  assert (M : forall l, nth l (map rnd new) 0 = rnd (nth l new 0)) by (intros l; apply rat_map_rnd).
  exists new. split; [exact G|]. split; [rewrite map_length; exact H1|]. split.
  - intros l Hl. cbv zeta. rewrite M. destruct (C114_rounding_lemma (nth l new 0)) as (R1 & R2 & _). split; [exact R1|]. split; [|exact R2].
    apply (rnd_rate_range N D); [exact HS|]. apply (greedy_rate A B X N D L); assumption.
  - intros a b Ha Hb. rewrite !M. split; intros C.
    + destruct (Rlt_dec (nth a new 0) (nth b new 0)) as [K|K]; [exact K|]. apply Rnot_lt_le, rnd_le in K. lra.
    + apply (rate_mono N D); [exact HS| | |exact C]; apply (greedy_rate A B X N D L); assumption.
Qed.
Lemma C125_example_lemma :
  let A := [[1]; [-1]]%Z in let B := [[1]]%Z in let X := [[1]; [-1]]%Z in
  has_shape2 A 2 1 /\ has_shape2 B 1 1 /\ has_shape2 X 2 1 /\ Forall is_double [1 / 2; 1 / 4] /\
  precision A B X 2 1 [] 0 = 2 / 3 /\ laplace (unexplained A B X 2 1 (seq 0 1) 1) (unexplained A B X 2 1 (seq 0 1) (-1)) = 1 / 3 /\
  double_lbda_MAX_AND A B X [1 / 2; 1 / 4] = [6004799503160661 / 9007199254740992; 6004799503160661 / 18014398509481984].
Proof.
  intros A B X. assert (HA : has_shape2 A 2 1) by (split; [reflexivity|repeat constructor]). assert (HB : has_shape2 B 1 1) by (split; [reflexivity|repeat constructor]).
  assert (HX : has_shape2 X 2 1) by (split; [reflexivity|repeat constructor]).
  assert (Hd : Forall is_double [1 / 2; 1 / 4]).
  { apply Forall_cons; [|apply Forall_cons; [|apply Forall_nil]]; [exists 1%Z, (-1)%Z|exists 1%Z, (-2)%Z]; (split; [reflexivity|split; [discriminate|unfold powerRZ; simpl; field]]). }
  do 4 (split; [assumption|]). split; [cbv - [Rplus Rmult Rdiv Rinv IZR INR]; cbn; lra|]. split; [cbv - [Rplus Rmult Rdiv Rinv IZR INR]; cbn; lra|].
  rewrite (double_lbda_rnd A B X _ 2 1 1 HA HB); [|lia|unfold small; cbn; lia|reflexivity|exact Hd].
  assert (E : lbda_MAX_AND A B X [1 / 2; 1 / 4] = [2 / 3; 1 / 3]).
  { destruct (C40_lemma A B X [1 / 2; 1 / 4] 2 1 1 HA HB HX ltac:(lia) eq_refl) as (new & pi & K & H1 & _ & H3 & H4 & _ & H6).
    unfold lbda_MAX_AND_K in K. cbn [Nat.eqb] in K. injection K as ->.
    assert (pi = [0%nat]) as -> by (apply Permutation_length_1_inv, Permutation_sym, H3).
    destruct (H4 0%nat ltac:(lia)) as [V _]. cbn [nth firstn] in V.
    assert (P1 : precision A B X 2 1 [] 0 = 2 / 3) by (cbv - [Rplus Rmult Rdiv Rinv IZR INR]; cbn; lra).
    assert (P2 : laplace (unexplained A B X 2 1 (seq 0 1) 1) (unexplained A B X 2 1 (seq 0 1) (-1)) = 1 / 3) by (cbv - [Rplus Rmult Rdiv Rinv IZR INR]; cbn; lra).
    cbv zeta in H6. rewrite P1 in V. rewrite P2 in H6. destruct new as [|a [|b [|]]]; try discriminate H1. cbn [nth] in V, H6. subst a. f_equal. f_equal.
    destruct H6 as [H6 [->|(l & Hl & G)]]; [reflexivity|]. replace l with 0%nat in G by lia. cbn [nth] in G. lra. }
  rewrite E. cbn [map]. f_equal; [|f_equal].
  - rewrite (rnd_at 0 6004799503160661); [change (bpow radix2 (0 - 53)) with (/ 9007199254740992); lra|lia| |].
    + change (bpow radix2 (0 - 1)) with (/ 2). change (bpow radix2 0) with 1. rewrite Rabs_pos_eq; lra.
    + change (bpow radix2 (53 - 0)) with 9007199254740992. apply Rabs_def1; lra.
  - rewrite (rnd_at (-1) 6004799503160661); [change (bpow radix2 (-1 - 53)) with (/ 18014398509481984); lra|lia| |].
    + change (bpow radix2 (-1 - 1)) with (/ 4). change (bpow radix2 (-1)) with (/ 2). rewrite Rabs_pos_eq; lra.
    + change (bpow radix2 (53 - -1)) with 18014398509481984. apply Rabs_def1; lra.
Qed.
(** Beyond the bound: two rates whose order is lost. *)
Lemma tie_value n : n = 134217729 \/ n = 134217730 -> rnd (n / (n + 1)) = 9007199187632129 / 9007199254740992.
Proof.
  intros Hn. assert (E : n / (n + 1) = 1 - / (n + 1)) by (field; destruct Hn; lra).
  rewrite E. rewrite (rnd_at 0 9007199187632129); [change (bpow radix2 (0 - 53)) with (/ 9007199254740992); lra|lia| |].
  - change (bpow radix2 (0 - 1)) with (/ 2). change (bpow radix2 0) with 1. destruct Hn; subst n; rewrite Rabs_pos_eq; lra.
  - change (bpow radix2 (53 - 0)) with 9007199254740992. destruct Hn; subst n; apply Rabs_def1; lra.
Qed.
Lemma C125_ties_lemma : laplace (Z.to_nat (2 ^ 27)) 0 < laplace (Z.to_nat (2 ^ 27 + 1)) 0 /\
  argmax [pp_rate (2 ^ 27) 0; pp_rate (2 ^ 27 + 1) 0] = 1%nat /\
  double_pp_rate (2 ^ 27) 0 = double_pp_rate (2 ^ 27 + 1) 0 /\ argmax [double_pp_rate (2 ^ 27) 0; double_pp_rate (2 ^ 27 + 1) 0] = 0%nat.
Proof.
  assert (V1 : pp_rate (2 ^ 27) 0 = 134217729 / (134217729 + 1)) by (unfold pp_rate; change (2 ^ 27 + 0)%Z with 134217728%Z; change (2 ^ 27)%Z with 134217728%Z; f_equal; lra).
  assert (V2 : pp_rate (2 ^ 27 + 1) 0 = 134217730 / (134217730 + 1)) by (unfold pp_rate; change (2 ^ 27 + 1 + 0)%Z with 134217729%Z; change (2 ^ 27 + 1)%Z with 134217729%Z; f_equal; lra).
  assert (V : pp_rate (2 ^ 27) 0 < pp_rate (2 ^ 27 + 1) 0) by (rewrite V1, V2; lra).
  assert (W : double_pp_rate (2 ^ 27) 0 = double_pp_rate (2 ^ 27 + 1) 0).
  { change (rnd (pp_rate (2 ^ 27) 0) = rnd (pp_rate (2 ^ 27 + 1) 0)). rewrite V1, V2, !tie_value; auto. }
  split. { rewrite <- !pp_rate_laplace, !Z2Nat.id by lia. exact V. }
  split; [|split; [exact W|rewrite W]]; unfold argmax; cbn [List.length seq fold_left rat nth].
  - destruct (Rltb_spec (pp_rate (2 ^ 27) 0) (pp_rate (2 ^ 27) 0)); unfold rat; cbn [nth]; destruct (Rltb_spec (pp_rate (2 ^ 27) 0) (pp_rate (2 ^ 27 + 1) 0)); try reflexivity; lra.
  - set (x := double_pp_rate _ _). unfold rat. cbn [nth]. destruct (Rltb_spec x x); cbn [nth]; destruct (Rltb_spec x x); try reflexivity; lra.
Qed.
