(** What the MAX-AND score computes for any order of the dispersions; sweeps that work row by row. *)
From Coq Require Import Lia Lra Permutation.
From Verif Require Import Base BaseLemmas BaseR BaseRLemmas Spec SpecR SpecMax Outputs Sampling SamplingProofs Parallel ParallelProofs Fuzzy MaxMachine MaxMachineProofs SpecMaxRun.
Local Open Scope R_scope.

Lemma find_map' {A B} (f : A -> B) (c : B -> bool) ls : find c (map f ls) = option_map f (find (fun a => c (f a)) ls).
Proof. induction ls as [|a ls IH]; [reflexivity|]. cbn. destruct (c (f a)); [reflexivity|exact IH]. Qed.
Lemma map_nth_seq {A} (l : list A) d : l = map (fun r => nth r l d) (seq 0 (List.length l)).
Proof. induction l as [|a l IH]; [reflexivity|]. cbn [List.length seq map]. f_equal. rewrite <- seq_shift, map_map. exact IH. Qed.
Section Order.
Context (lam : list R) (L : nat) (ord : list nat) (HO : decreasing_order lam L ord).
Lemma order_length : List.length ord = L.
Proof. rewrite (Permutation_length (proj1 HO)), seq_length. reflexivity. Qed.
Lemma order_in l : In l ord <-> (l < L)%nat.
Proof. rewrite <- in_seq0. split; apply Permutation_in; [|symmetry]; apply HO. Qed.
Definition outpo (z u : vec) : R := match find (actb z u) ord with Some l => nth l lam 0 | None => nth L lam 0 end.
Lemma outpo_max z u : max_output lam z u L (outpo z u).
Proof.
  unfold outpo. destruct (find _ _) as [l|] eqn:E.
  - left. destruct (find_nth _ _ _ 0%nat E) as (k & K1 & K2 & K3 & K4). rewrite order_length in K1.
    assert (Hl : In l ord) by (apply find_some in E; apply E). apply order_in in Hl.
    split; [exists l; split; [exact Hl|split; [apply actb_active; exact K3|reflexivity]]|].
    intros l' Hl' Ha. apply actb_active in Ha. apply order_in in Hl'. apply (In_nth _ _ 0%nat) in Hl'. destruct Hl' as (k' & Hk' & <-). rewrite order_length in Hk'.
    destruct (Nat.lt_trichotomy k k') as [G|[->|G]].
    + rewrite <- K2. apply HO. lia.
    + rewrite K2. lra.
    + rewrite (K4 k' G) in Ha. discriminate.
  - right. split; [|reflexivity]. intros l Hl Ha. apply actb_active in Ha. apply order_in in Hl. pose proof (find_none _ _ E l Hl). congruence.
Qed.
Lemma any_order z U x D l rt : (forall k, (k <= L)%nat -> 0 < nth k lam 0 < 1) -> tables L lam rt -> List.length z = L -> has_shape2 U D L -> (0 < D)%nat -> (l < L)%nat ->
  let k := nth l ord 0%nat in max_log_odds lam z (replace_column U k l) x D L k (score_MAX_AND_float z U x l ord rt).
Proof.
  intros Hpos HT Hz HU HDp Hl k. set (U' := replace_column U k l).
  assert (Hk : (k < L)%nat) by (apply order_in, nth_In; rewrite order_length; exact Hl).
  exists (Rsum (fun d => obs_loglik (nth d x 0%Z) (outpo (upd z k 1%Z) (row U' d))) (seq 0 D)),
         (Rsum (fun d => obs_loglik (nth d x 0%Z) (outpo (upd z k (-1)%Z) (row U' d))) (seq 0 D)).
  split; [exists (fun d => outpo (upd z k 1%Z) (row U' d)); split; [intros d Hd; apply outpo_max|reflexivity]|].
  split; [exists (fun d => outpo (upd z k (-1)%Z) (row U' d)); split; [intros d Hd; apply outpo_max|reflexivity]|].
  unfold score_MAX_AND_float. rewrite (shape2_nrows _ _ _ HU), (shape2_ncols _ _ _ HU HDp). fold k.
  set (g := fun d => obs_loglik (nth d x 0%Z) (outpo (upd z k 1%Z) (row U' d)) - obs_loglik (nth d x 0%Z) (outpo (upd z k (-1)%Z) (row U' d))).
  transitivity (Rsum g (seq 0 D)).
  2:{ unfold g. clear. induction (seq 0 D) as [|d ls IH]; cbn [Rsum fold_right] in *; [lra|]. unfold Rsum in *. lra. }
  rewrite <- (Rplus_0_l (Rsum g (seq 0 D))). rewrite <- fold_sum.
  assert (Efold : forall (f h : R -> nat -> R) ls a, (forall s d, In d ls -> f s d = h s d) -> fold_left f ls a = fold_left h ls a).
  { intros f h ls. induction ls as [|d ls IH]; intros a H; [reflexivity|]. cbn [fold_left]. rewrite H by (left; reflexivity). apply IH. intros s e He. apply H. right. assumption. }
  apply Efold. intros s d Hd. apply in_seq0 in Hd. unfold g.
  pose proof (shape2_row _ _ _ d HU Hd) as Hrow.
  assert (Erow : row U' d = upd (row U d) k (at2 U d l)).
  { unfold U', replace_column, row. rewrite (nth_indep _ [] (upd [] k (nth l [] 0%Z))) by (rewrite map_length; pose proof (proj1 HU); unfold mat, vec in *; lia). rewrite (map_nth (fun u => upd u k (nth l u 0%Z))). reflexivity. }
  set (srt := fun r => nth r ord 0%nat).
  assert (Eseq : ord = map srt (seq 0 l) ++ k :: map srt (seq (S l) (L - S l))).
  { rewrite (map_nth_seq ord 0%nat) at 1. rewrite order_length. assert (E : seq 0 L = seq 0 l ++ l :: seq (S l) (L - S l)).
    { replace L with (l + S (L - S l))%nat at 1 by lia. rewrite seq_app. reflexivity. }
    rewrite E, map_app. reflexivity. }
  set (on := fun r => ((at1 z (nth r ord 0%nat) =? 1) && (at2 U d (nth r ord 0%nat) =? 1))%Z%bool).
  assert (ND : NoDup ord) by (apply (Permutation_NoDup (l := seq 0 L)); [symmetry; apply HO|apply seq_NoDup]).
  assert (Eon : forall y r, (r < L)%nat -> r <> l -> actb (upd z k y) (row U' d) (srt r) = on r).
  { intros y r Hr Nr. unfold actb, on. assert (Ne : srt r <> k). { intros C. apply Nr. rewrite NoDup_nth in ND. apply ND; [rewrite order_length; lia|rewrite order_length; lia|exact C]. }
    rewrite Erow. rewrite !nth_upd_other by exact Ne. reflexivity. }
  assert (Elo : forall y, find (actb (upd z k y) (row U' d)) (map srt (seq 0 l)) = option_map srt (find on (seq 0 l))).
  { intros y. rewrite find_map'. f_equal. apply find_ext. intros r Hr. apply in_seq0 in Hr. apply Eon; lia. }
  assert (Ehi : forall y, find (actb (upd z k y) (row U' d)) (map srt (seq (S l) (L - S l))) = option_map srt (find on (seq (S l) (L - S l)))).
  { intros y. rewrite find_map'. f_equal. apply find_ext. intros r Hr. apply in_seq in Hr. apply Eon; lia. }
  assert (Emid : forall y, actb (upd z k y) (row U' d) k = ((y =? 1) && (at2 U d l =? 1))%Z%bool).
  { intros y. unfold actb. rewrite Erow. rewrite !nth_upd_same by lia. reflexivity. }
  assert (Eout : forall y, outpo (upd z k y) (row U' d) =
    match find on (seq 0 l) with Some r => nth (srt r) lam 0 | None =>
      if ((y =? 1) && (at2 U d l =? 1))%Z%bool then nth k lam 0
      else match find on (seq (S l) (L - S l)) with Some r => nth (srt r) lam 0 | None => nth L lam 0 end end).
  { intros y. unfold outpo. rewrite Eseq. rewrite find_app'. rewrite Elo. destruct (find on (seq 0 l)); [reflexivity|].
    cbn [find option_map]. rewrite Emid. destruct (_ && _)%bool; [reflexivity|]. rewrite Ehi. destruct (find on _); reflexivity. }
  rewrite !Eout. cbn [Z.eqb Pos.eqb andb]. rewrite find_existsb. unfold first_such. fold on.
  destruct (at2 U d l =? 1)%Z eqn:EU; cbn [negb andb].
  2:{ destruct (find on (seq 0 l)); [lra|]. destruct (find on _); lra. }
  destruct (find on (seq 0 l)) as [r0|] eqn:E0; [lra|].
  assert (Epick : forall k', (k' <= L)%nat ->
    (if (at1 x d =? 1)%Z then rat2 (fst rt) k k'
     else if (at1 x d =? -1)%Z then rat2 (snd rt) k k' else 0) =
    obs_loglik (nth d x 0%Z) (nth k lam 0) - obs_loglik (nth d x 0%Z) (nth k' lam 0)).
  { intros k' Hk'. destruct (HT k k' ltac:(lia) Hk') as [T1 T2]. rewrite T1, T2. unfold obs_loglik, at1.
    destruct (nth d x 0 =? 1)%Z; [reflexivity|]. destruct (nth d x 0 =? -1)%Z; lra. }
  destruct (find on (seq (S l) (L - S l))) as [r|] eqn:E1.
  - apply find_some in E1. destruct E1 as [E1 _]. apply in_seq in E1. rewrite Epick; [reflexivity|]. apply Nat.lt_le_incl. apply order_in, nth_In. rewrite order_length. lia.
  - rewrite Epick by lia. reflexivity.
Qed.
End Order.
Lemma argsort_order lam L ord : List.length lam = S L -> is_argsort (map Ropp (butlast lam)) ord -> decreasing_order lam L ord.
Proof.
  intros HL HO. pose proof (argsort_length _ _ HO) as Hlen. rewrite map_length, (butlast_length lam L HL) in Hlen.
  assert (Hin : forall l, In l ord -> (l < L)%nat) by (intros l Hl; apply (argsort_in _ _ l HO) in Hl; rewrite map_length, (butlast_length lam L HL) in Hl; exact Hl).
  split; [pose proof (proj1 HO) as P; rewrite map_length, (butlast_length lam L HL) in P; exact P|]. intros a b Hab. pose proof (proj2 HO a b ltac:(lia)) as HS.
  assert (E : forall k, (k < L)%nat -> nth k (map Ropp (butlast lam)) 0 = - nth k lam 0).
  { intros k Hk. rewrite (nth_indep _ 0 (Ropp 0)) by (rewrite map_length, (butlast_length lam L HL); assumption). rewrite map_nth. rewrite (butlast_nth lam L) by assumption. reflexivity. }
  rewrite !E in HS by (apply Hin, nth_In; lia). lra.
Qed.
Lemma trunc_spec s : truncation (IZR (trunc s)) s.
Proof.
  pose proof (trunc_nonneg s). pose proof (trunc_neg s). split; [eauto|]. split; [|split; intros; [apply H|apply H0]; assumption].
  destruct (Rle_dec 0 s) as [G|G]; [destruct (H G)|destruct (H0 ltac:(lra))]; apply Rabs_def1; lra.
Qed.

(** ** Sweeps with row-local log-odds *)
Lemma firstn_upd_ge {A} (l : list A) k x j : (j <= k)%nat -> firstn j (upd l k x) = firstn j l.
Proof. revert l k. induction j as [|j IH]; intros [|a l] [|k] H; cbn; try reflexivity; [lia|]. f_equal. apply IH. lia. Qed.
Lemma skipn_upd_lt {A} (l : list A) k x j : (k < j)%nat -> skipn j (upd l k x) = skipn j l.
Proof. revert l k. induction j as [|j IH]; intros [|a l] [|k] H; cbn; try reflexivity; try lia. apply IH. lia. Qed.
Lemma skipn_tl {A} j : forall l : list A, skipn (S j) l = tl (skipn j l).
Proof. induction j as [|j IH]; intros [|a l]; try reflexivity. exact (IH l). Qed.
Lemma hd_skipn {A} j : forall (l : list A) d, hd d (skipn j l) = nth j l d.
Proof. induction j as [|j IH]; intros [|a l] d; try reflexivity. exact (IH l d). Qed.
Lemma nth_firstn_lt {A} k : forall (l : list A) j d, (j < k)%nat -> nth j (firstn k l) d = nth j l d.
Proof. induction k as [|k IH]; intros [|a l] [|j] d H; try reflexivity; try lia. cbn. apply IH. lia. Qed.
Section Rows.
Context (logit : mat -> nat -> nat -> R) (fixed : mat) (rand : nat -> nat -> R) (loc : row_local logit) (N L : nat) (Z0 : mat) (HZ : okmat N L Z0).
Context (Hr : forall n l, (n < N)%nat -> (l < L)%nat -> is_draw (rand n l)).
Let R' := sample_loop logit Z0 fixed rand.
Lemma seqrow_skip n j : skipn j (seqrow logit fixed rand Z0 n j) = skipn j (row Z0 n).
Proof.
  induction j as [|j IH]; [reflexivity|]. rewrite seqrow_S. assert (E : skipn (S j) (seqrow logit fixed rand Z0 n j) = skipn (S j) (row Z0 n)).
  { rewrite !skipn_tl, IH. reflexivity. }
  unfold cell_row. destruct (_ =? 1)%Z; [exact E|]. rewrite skipn_upd_lt by lia. exact E.
Qed.
Lemma seqrow_first n i j : (i <= j)%nat -> firstn i (seqrow logit fixed rand Z0 n j) = firstn i (seqrow logit fixed rand Z0 n i).
Proof.
  induction 1 as [|j H IH]; [reflexivity|]. rewrite seqrow_S, <- IH. unfold cell_row. destruct (_ =? 1)%Z; [reflexivity|]. apply firstn_upd_ge. exact H.
Qed.
Lemma seqrow_at n j : (n < N)%nat -> (j <= L)%nat -> seqrow logit fixed rand Z0 n j = row_at Z0 R' n j.
Proof.
  intros Hn Hj. unfold row_at. unfold R'. rewrite (sample_loop_row logit fixed rand loc N L Z0 (proj1 HZ) n). rewrite (proj2 (Nat.ltb_lt _ _) Hn). rewrite <- (seqrow_first n j L Hj) || rewrite (seqrow_first n j L Hj).
  rewrite <- (seqrow_skip n j). symmetry. apply firstn_skipn.
Qed.
Lemma loop_swept : swept (fun n l => logit (only_row n (row_at Z0 R' n l)) n l) fixed rand N L Z0 R'.
Proof.
  split; [apply sample_loop_ok; exact HZ|]. intros n l Hn Hl.
  assert (E : at2 R' n l = at1 (seqrow logit fixed rand Z0 n (S l)) l).
  { unfold at2, R'. rewrite (sample_loop_row logit fixed rand loc N L Z0 (proj1 HZ) n), (proj2 (Nat.ltb_lt _ _) Hn). unfold at1.
    pose proof (seqrow_first n (S l) L ltac:(lia)) as G. rewrite <- (nth_firstn_lt (S l) (seqrow logit fixed rand Z0 n L)), G, nth_firstn_lt by lia. reflexivity. }
  rewrite E, seqrow_S. unfold cell_row. rewrite <- seqrow_at by lia.
  assert (E0 : at1 (seqrow logit fixed rand Z0 n l) l = at2 Z0 n l).
  { unfold at2, at1. rewrite <- !hd_skipn, seqrow_skip. reflexivity. }
  destruct (at2 fixed n l =? 1)%Z; [exact E0|]. unfold at1 at 1. rewrite nth_upd_same by (rewrite (seqrow_length logit fixed rand N L Z0 (proj1 HZ)) by exact Hn; exact Hl). rewrite E0.
  apply flip_is_mg; [eapply okmat_pm; eassumption|apply Hr; assumption].
Qed.
End Rows.
