(** Proofs for C17, C18, C24, C42, C62. *)
From Coq Require Import String Lra.
From Coquelicot Require Import RInt Hierarchy.
From Verif Require Import Base BaseLemmas BaseR BaseRLemmas Spec Outputs OutputsProofs SpecR Sampling SamplingProofs Lambda Invariance InvarianceProofs.
Local Open Scope R_scope.

(** * Counting *)
Lemma count_fold {A} (c : A -> bool) ls a :
  fold_left (fun k x => if c x then (k + 1)%Z else k) ls a = (a + Z.of_nat (List.length (filter c ls)))%Z.
Proof.
  revert a. induction ls as [|x ls IH]; intros a; [simpl; lia|]. cbn [fold_left filter]. rewrite IH.
  destruct (c x); cbn [List.length]; lia.
Qed.
Lemma fold_prod_gen {A B S} (f : S -> A -> B -> S) la lb s :
  fold_left (fun s a => fold_left (fun s b => f s a b) lb s) la s =
  fold_left (fun s '(a, b) => f s a b) (list_prod la lb) s.
Proof.
  revert s. induction la as [|a la IH]; intros s; [reflexivity|]. cbn [fold_left list_prod].
  rewrite fold_left_app, IH. f_equal. clear IH. revert s. induction lb as [|b lb IHb]; intros s; [reflexivity|].
  cbn [fold_left map]. apply IHb.
Qed.
Lemma fold_left_ext_fun {A S} (f g : S -> A -> S) ls s : (forall s a, f s a = g s a) -> fold_left f ls s = fold_left g ls s.
Proof. intros H. revert s. induction ls as [|a ls IH]; intros s; [reflexivity|]. cbn [fold_left]. rewrite H. apply IH. Qed.

Lemma count2 (c : nat -> nat -> bool) N D :
  fold_left (fun k n => fold_left (fun k d => if c n d then (k + 1)%Z else k) (seq 0 D) k) (seq 0 N) 0%Z =
  Z.of_nat (List.length (filter (fun '(n, d) => c n d) (cells N D))).
Proof.
  rewrite (fold_prod_gen (fun k n d => if c n d then (k + 1)%Z else k)).
  rewrite <- (Z.add_0_l (Z.of_nat _)). rewrite <- count_fold. unfold cells.
  apply fold_left_ext_fun. intros s [n d]. reflexivity.
Qed.
Lemma count3 (c : nat -> nat -> nat -> bool) N D M :
  fold_left (fun k n => fold_left (fun k d => fold_left (fun k m => if c n d m then (k + 1)%Z else k) (seq 0 M) k) (seq 0 D) k) (seq 0 N) 0%Z =
  Z.of_nat (List.length (filter (fun '(n, (d, m)) => c n d m) (cells3 N D M))).
Proof.
  rewrite (fold_left_ext_fun _ (fun k n => fold_left (fun k p => if c n (fst p) (snd p) then (k + 1)%Z else k) (cells D M) k)).
  - rewrite (fold_prod_gen (fun k n p => if c n (fst p) (snd p) then (k + 1)%Z else k)).
    rewrite <- (Z.add_0_l (Z.of_nat _)). rewrite <- count_fold. unfold cells3.
    apply fold_left_ext_fun. intros s [n [d m]]. reflexivity.
  - intros k n. rewrite (fold_prod_gen (fun k d m => if c n d m then (k + 1)%Z else k)). unfold cells.
    apply fold_left_ext_fun. intros s [d m]. reflexivity.
Qed.

Lemma filter_length_ext {A} (f g : A -> bool) l : (forall a, In a l -> f a = g a) -> List.length (filter f l) = List.length (filter g l).
Proof.
  induction l as [|a l IH]; intros H; [reflexivity|]. cbn [filter]. rewrite (H a (or_introl eq_refl)).
  destruct (g a); cbn [List.length]; rewrite IH; auto; intros; apply H; right; assumption.
Qed.
Lemma filter_length_le {A} (f g : A -> bool) l : (forall a, In a l -> f a = true -> g a = true) ->
  (List.length (filter f l) <= List.length (filter g l))%nat.
Proof.
  induction l as [|a l IH]; intros H; [reflexivity|]. cbn [filter].
  pose proof (H a (or_introl eq_refl)). specialize (IH (fun x Hx => H x (or_intror Hx))).
  destruct (f a), (g a); cbn [List.length]; try lia; discriminate H0; reflexivity.
Qed.
Lemma filter_negb_length {A} (f : A -> bool) l :
  (List.length (filter f l) + List.length (filter (fun a => negb (f a)) l) = List.length l)%nat.
Proof. induction l as [|a l IH]; [reflexivity|]. cbn [filter]. destruct (f a); cbn [negb List.length]; lia. Qed.
Lemma filter_map_length {A B} (h : A -> B) (f : B -> bool) l :
  List.length (filter f (map h l)) = List.length (filter (fun a => f (h a)) l).
Proof. induction l as [|a l IH]; [reflexivity|]. cbn [map filter]. destruct (f (h a)); cbn [List.length]; lia. Qed.

Lemma concat_cells {A B C} (g : A -> B -> C) la lb :
  concat (map (fun a => map (g a) lb) la) = map (fun '(a, b) => g a b) (list_prod la lb).
Proof.
  induction la as [|a la IH]; [reflexivity|]. cbn [map concat list_prod]. rewrite map_app, map_map, IH. reflexivity.
Qed.
Lemma list_as_map {A} (l : list A) d : l = map (fun i => nth i l d) (seq 0 (List.length l)).
Proof.
  apply (list_ext _ _ d); [rewrite map_length, seq_length; reflexivity|].
  intros i Hi. rewrite nth_map_seq by exact Hi. reflexivity.
Qed.
Lemma concat_mat X N D : has_shape2 X N D -> concat X = map (fun '(n, d) => at2 X n d) (cells N D).
Proof.
  intros HX. unfold cells. rewrite <- (concat_cells (at2 X)). f_equal.
  etransitivity; [apply (list_as_map X [])|]. destruct HX as [E HX]. rewrite E. apply map_ext_seq. intros n Hn.
  etransitivity; [apply (list_as_map _ 0%Z)|]. rewrite (Forall_nth' _ X n [] HX) by lia. reflexivity.
Qed.
Lemma cells_length N D : List.length (cells N D) = (N * D)%nat.
Proof. unfold cells. rewrite prod_length, !seq_length. reflexivity. Qed.
Lemma cells3_length N D M : List.length (cells3 N D M) = (N * D * M)%nat.
Proof. unfold cells3. rewrite prod_length, seq_length, cells_length. lia. Qed.
Lemma cells3_nil N M : cells3 N 0 M = [].
Proof. unfold cells3. change (cells 0 M) with (@nil (nat * nat)). induction (seq 0 N); [reflexivity|exact IHl]. Qed.
Lemma in_cells3 n d m N D M : In (n, (d, m)) (cells3 N D M) <-> (n < N /\ d < D /\ m < M)%nat.
Proof. unfold cells3, cells. rewrite !in_prod_iff, !in_seq. lia. Qed.
Lemma in_cells2 n d N D : In (n, d) (cells N D) <-> (n < N /\ d < D)%nat.
Proof. unfold cells. rewrite in_prod_iff, !in_seq. lia. Qed.
Lemma concat_app_concat {A} (l : list (list (list A))) : concat (concat l) = concat (map (@concat A) l).
Proof. induction l as [|a l IH]; [reflexivity|]. cbn [concat map]. rewrite concat_app, IH. reflexivity. Qed.
Lemma concat_ten X N D M : has_shape3 X N D M ->
  concat (concat X) = map (fun '(n, (d, m)) => at3 X n d m) (cells3 N D M).
Proof.
  intros [E HX]. etransitivity; [exact (concat_app_concat X)|]. unfold cells3.
  rewrite <- (map_ext (fun '(n, p) => (fun n p => at3 X n (fst p) (snd p)) n p)) by (intros [n [d m]]; reflexivity).
  rewrite <- (concat_cells (fun n p => at3 X n (fst p) (snd p))). f_equal.
  rewrite (list_as_map X []) at 1. rewrite map_map, E. apply map_ext_seq. intros n Hn.
  rewrite (concat_mat _ D M).
  - apply map_ext. intros [d m]. reflexivity.
  - apply (Forall_nth' _ X n [] HX). lia.
Qed.

Lemma zero_points2 X N D : has_shape2 X N D -> no_of_points_2d X = Z.of_nat (observed2 X N D).
Proof.
  intros HX. unfold no_of_points_2d, observed2. rewrite (concat_mat X N D HX), filter_map_length.
  rewrite (filter_length_ext _ (fun '(n, d) => at2 X n d =? 0)%Z) by (intros [n d] _; apply Z.eqb_sym).
  pose proof (filter_negb_length (fun '(n, d) => at2 X n d =? 0)%Z (cells N D)) as H. rewrite cells_length in H.
  rewrite (filter_length_ext (fun '(n, d) => negb (at2 X n d =? 0)%Z) (fun a => negb (let '(n, d) := a in (at2 X n d =? 0)%Z))) by (intros [n d] _; reflexivity).
  rewrite (shape2_nrows _ _ _ HX). destruct N as [|N]; [unfold cells; simpl; lia|].
  rewrite (shape2_ncols _ _ _ HX) by lia. lia.
Qed.
Lemma shape3_dims X N D M : has_shape3 X N D M -> (0 < N)%nat -> List.length (hd [] X) = D.
Proof. intros [E HX] HN. destruct X as [|s X]; [simpl in E; lia|]. inversion HX as [|? ? [H _] ?]; subst. reflexivity. Qed.
Lemma shape3_dims' X N D M : has_shape3 X N D M -> (0 < N)%nat -> (0 < D)%nat -> List.length (hd [] (hd [] X)) = M.
Proof.
  intros [E HX] HN HD. destruct X as [|s X]; [simpl in E; lia|]. inversion HX as [|? ? [H H'] ?]; subst. simpl.
  destruct s as [|r s]; [simpl in HD; lia|]. inversion H'; subst. reflexivity.
Qed.
Lemma zero_points3 X N D M : has_shape3 X N D M -> no_of_points_3d X = Z.of_nat (observed3 X N D M).
Proof.
  intros HX. unfold no_of_points_3d, observed3. rewrite (concat_ten X N D M HX), filter_map_length.
  rewrite (filter_length_ext _ (fun '(n, (d, m)) => at3 X n d m =? 0)%Z) by (intros [n [d m]] _; apply Z.eqb_sym).
  pose proof (filter_negb_length (fun '(n, (d, m)) => at3 X n d m =? 0)%Z (cells3 N D M)) as H. rewrite cells3_length in H.
  rewrite (filter_length_ext (fun '(n, (d, m)) => negb (at3 X n d m =? 0)%Z) (fun a => negb (let '(n, (d, m)) := a in (at3 X n d m =? 0)%Z)))
    by (intros [n [d m]] _; reflexivity).
  rewrite (proj1 HX). destruct N as [|N]; [unfold cells3, cells; simpl; lia|].
  rewrite (shape3_dims _ _ _ _ HX) by lia. destruct D as [|D]; [replace (S N * 0 * _)%nat with 0%nat by lia; lia|].
  rewrite (shape3_dims' _ _ _ _ HX) by lia. lia.
Qed.

Lemma correct2_le out o i X N D L A B : is_output o i out -> (correct2 out X N D L A B <= observed2 X N D)%nat.
Proof.
  intros Ho. apply filter_length_le. intros [n d] _ H. apply Z.eqb_eq in H.
  pose proof (out_pm o i out [row A n; row B d] L Ho) as [E|E]; rewrite E in H; rewrite H; reflexivity.
Qed.
Lemma correct3_le out o i X N D M L A B C : is_output o i out -> (correct3 out X N D M L A B C <= observed3 X N D M)%nat.
Proof.
  intros Ho. apply filter_length_le. intros [n [d m]] _ H. apply Z.eqb_eq in H.
  pose proof (out_pm o i out [row A n; row B d; row C m] L Ho) as [E|E]; rewrite E in H; rewrite H; reflexivity.
Qed.

Lemma counted_model_name o i : counted_model (model_name o i) = model_name o i.
Proof. destruct o, i; reflexivity. Qed.

Lemma counter2_lemma o i out : In (o, i) implemented -> is_output o i out ->
  exists counter, make_correct_predictions_counter_2d (model_name o i) = Ok counter /\
  forall A B X N D L, okmat N L A -> okmat D L B -> has_shape2 X N D ->
    counter A B X = Z.of_nat (correct2 out X N D L A B).
Proof.
  intros Hin Ho. destruct (output_2d_lemma o i Hin) as (f & Ef & Hf).
  unfold make_correct_predictions_counter_2d. rewrite counted_model_name, Ef. cbn [of_option bind].
  eexists. split; [reflexivity|]. intros A B X N D L [HA bA] [HB bB] HX. unfold counter_2d, correct2.
  rewrite (shape2_nrows _ _ _ HX). rewrite count2. f_equal.
  destruct N as [|N]; [reflexivity|]. rewrite (shape2_ncols _ _ _ HX) by lia.
  apply filter_length_ext. intros [n d] Hnd. apply in_cells2 in Hnd. destruct Hnd as [Hn Hd].
  rewrite Z.eqb_sym. f_equal. pose proof (shape2_row _ _ _ _ HA Hn) as E1. pose proof (shape2_row _ _ _ _ HB Hd) as E2.
  apply (lom_output_unique o i [row A n; row B d] L); [|apply Ho].
  rewrite <- E1. apply Hf; [apply bin2_row, bA|apply bin2_row, bB|congruence].
Qed.
Lemma counter3_lemma o i out : In (o, i) implemented -> is_output o i out ->
  exists counter, make_correct_predictions_counter_3d (model_name o i) = Ok counter /\
  forall A B C X N D M L, okmat N L A -> okmat D L B -> okmat M L C -> has_shape3 X N D M ->
    counter A B C X = Z.of_nat (correct3 out X N D M L A B C).
Proof.
  intros Hin Ho. destruct (output_3d_lemma o i Hin) as (f & Ef & Hf).
  unfold make_correct_predictions_counter_3d. rewrite counted_model_name, Ef. cbn [of_option bind].
  eexists. split; [reflexivity|]. intros A B C X N D M L [HA bA] [HB bB] [HC bC] HX. unfold counter_3d, correct3.
  rewrite (proj1 HX). rewrite count3. f_equal.
  destruct N as [|N]; [reflexivity|]. rewrite (shape3_dims _ _ _ _ HX) by lia.
  destruct D as [|D]; [rewrite !cells3_nil; reflexivity|].
  rewrite (shape3_dims' _ _ _ _ HX) by lia.
  apply filter_length_ext. intros [n [d m]] Hnd. apply in_cells3 in Hnd. destruct Hnd as (Hn & Hd & Hm).
  rewrite Z.eqb_sym. f_equal. pose proof (shape2_row _ _ _ _ HA Hn) as E1. pose proof (shape2_row _ _ _ _ HB Hd) as E2.
  pose proof (shape2_row _ _ _ _ HC Hm) as E3.
  apply (lom_output_unique o i [row A n; row B d; row C m] L); [|apply Ho].
  rewrite <- E1. apply Hf; try (apply bin2_row; assumption); congruence.
Qed.

(** * Log-likelihood *)
Lemma sigma_0 : sigma 0 = 1 / 2.
Proof. unfold sigma. rewrite Ropp_0, exp_0. lra. Qed.
Lemma point_ll lbda x y : tern x -> pm1 y ->
  ln (sigma (lbda * IZR x * IZR y)) =
    (if (x =? y)%Z then ln (sigma lbda) else 0) + (if (negb (x =? 0) && negb (x =? y))%Z then ln (sigma (- lbda)) else 0)
    + (if (x =? 0)%Z then ln (1 / 2) else 0).
Proof.
  intros [-> | [-> | ->]] [-> | ->]; cbn [Z.eqb Pos.eqb negb andb]; rewrite ?Rplus_0_l, ?Rplus_0_r; f_equal;
    try (rewrite <- sigma_0); f_equal; lra.
Qed.
Lemma Rsum_if {A} (c : A -> bool) k l : Rsum (fun a => if c a then k else 0) l = INR (List.length (filter c l)) * k.
Proof.
  induction l as [|a l IH]; [simpl; lra|]. rewrite Rsum_cons, IH. cbn [filter]. destruct (c a); [|lra].
  cbn [List.length]. rewrite S_INR. lra.
Qed.
Lemma Rsum_list_prod {A B} (f : A -> B -> R) la lb :
  Rsum (fun a => Rsum (f a) lb) la = Rsum (fun '(a, b) => f a b) (list_prod la lb).
Proof.
  induction la as [|a la IH]; [reflexivity|]. cbn [list_prod]. rewrite Rsum_cons, Rsum_app, IH, Rsum_map. reflexivity.
Qed.
Lemma count_parts {A} (x y : A -> Z) ls (l0 l1 l2 : R) : (forall a, In a ls -> tern (x a) /\ pm1 (y a)) ->
  Rsum (fun a => (if (x a =? y a)%Z then l0 else 0) + (if (negb (x a =? 0) && negb (x a =? y a))%Z then l1 else 0)
    + (if (x a =? 0)%Z then l2 else 0)) ls =
  INR (List.length (filter (fun a => x a =? y a)%Z ls)) * l0 +
  (INR (List.length (filter (fun a => negb (x a =? 0)%Z) ls)) - INR (List.length (filter (fun a => x a =? y a)%Z ls))) * l1 +
  (INR (List.length ls) - INR (List.length (filter (fun a => negb (x a =? 0)%Z) ls))) * l2.
Proof.
  induction ls as [|a ls IH]; intros H; [simpl; lra|]. rewrite Rsum_cons, IH by (intros; apply H; right; assumption).
  destruct (H a (or_introl eq_refl)) as [Hx Hy]. cbn [filter List.length]. rewrite S_INR.
  destruct Hx as [-> | [-> | ->]], Hy as [-> | ->]; cbn [Z.eqb Pos.eqb negb andb List.length]; rewrite ?S_INR; lra.
Qed.

Lemma tern2_at X N D n d : has_shape2 X N D -> tern2 X -> (n < N)%nat -> (d < D)%nat -> tern (at2 X n d).
Proof.
  intros HX HT Hn Hd. pose proof (shape2_row _ _ _ _ HX Hn) as E.
  assert (T : tern1 (row X n)) by (apply (Forall_nth' _ X n [] HT); rewrite (proj1 HX); exact Hn).
  apply (Forall_nth' _ _ d 0%Z T). unfold row in E. unfold row. lia.
Qed.
Lemma tern3_at X N D M n d m : has_shape3 X N D M -> tern3 X -> (n < N)%nat -> (d < D)%nat -> (m < M)%nat -> tern (at3 X n d m).
Proof.
  intros [E HX] HT Hn Hd Hm. apply (tern2_at _ D M); try assumption.
  - apply (Forall_nth' _ X n [] HX). lia.
  - apply (Forall_nth' _ X n [] HT). lia.
Qed.

Lemma loglik2 o i out lbda X N D L A B : is_output o i out -> has_shape2 X N D -> tern2 X ->
  ln (lik2 out lbda X N D L A B) =
    INR (correct2 out X N D L A B) * ln (sigma lbda)
    + (INR (observed2 X N D) - INR (correct2 out X N D L A B)) * ln (sigma (- lbda))
    + (INR (N * D) - INR (observed2 X N D)) * ln (1 / 2).
Proof.
  intros Ho HX HT. unfold lik2. rewrite ln_Rprod by (intros; apply Rprod_pos; intros; apply sigma_pos).
  rewrite (Rsum_ext _ (fun n => Rsum (fun d => ln (sigma (lbda * IZR (at2 X n d) * IZR (out [row A n; row B d] L)))) (seq 0 D)))
    by (intros; apply ln_Rprod; intros; apply sigma_pos).
  rewrite Rsum_list_prod. unfold correct2, observed2. fold (cells N D). rewrite <- cells_length.
  set (x := fun p => at2 X (fst p) (snd p)). set (y := fun p : nat * nat => out [row A (fst p); row B (snd p)] L).
  rewrite (filter_length_ext (fun '(n, d) => at2 X n d =? out [row A n; row B d] L)%Z (fun a => x a =? y a)%Z) by (intros [? ?] _; reflexivity).
  rewrite (filter_length_ext (fun '(n, d) => negb (at2 X n d =? 0)%Z) (fun a => negb (x a =? 0)%Z)) by (intros [? ?] _; reflexivity).
  assert (H : forall a, In a (cells N D) -> tern (x a) /\ pm1 (y a)).
  { intros [n d] Ha. apply in_cells2 in Ha. split; [apply (tern2_at X N D); tauto|apply (out_pm o i), Ho]. }
  rewrite <- count_parts by exact H. apply Rsum_ext. intros [n d] Ha. destruct (H _ Ha) as [Hx Hy].
  rewrite <- point_ll by assumption. reflexivity.
Qed.
Lemma loglik3 o i out lbda X N D M L A B C : is_output o i out -> has_shape3 X N D M -> tern3 X ->
  ln (lik3 out lbda X N D M L A B C) =
    INR (correct3 out X N D M L A B C) * ln (sigma lbda)
    + (INR (observed3 X N D M) - INR (correct3 out X N D M L A B C)) * ln (sigma (- lbda))
    + (INR (N * D * M) - INR (observed3 X N D M)) * ln (1 / 2).
Proof.
  intros Ho HX HT. unfold lik3. rewrite ln_Rprod by (intros; repeat (apply Rprod_pos; intros); apply sigma_pos).
  rewrite (Rsum_ext _ (fun n => Rsum (fun p => ln (sigma (lbda * IZR (at3 X n (fst p) (snd p)) * IZR (out [row A n; row B (fst p); row C (snd p)] L)))) (cells D M))).
  2:{ intros n _. rewrite ln_Rprod by (intros; apply Rprod_pos; intros; apply sigma_pos).
      rewrite (Rsum_ext _ (fun d => Rsum (fun m => ln (sigma (lbda * IZR (at3 X n d m) * IZR (out [row A n; row B d; row C m] L)))) (seq 0 M)))
        by (intros; apply ln_Rprod; intros; apply sigma_pos).
      rewrite Rsum_list_prod. apply Rsum_ext. intros [d m] _. reflexivity. }
  rewrite Rsum_list_prod. unfold correct3, observed3. fold (cells3 N D M). rewrite <- cells3_length.
  set (x := fun p => at3 X (fst p) (fst (snd p)) (snd (snd p))).
  set (y := fun p : nat * (nat * nat) => out [row A (fst p); row B (fst (snd p)); row C (snd (snd p))] L).
  rewrite (filter_length_ext (fun '(n, (d, m)) => at3 X n d m =? out [row A n; row B d; row C m] L)%Z (fun a => x a =? y a)%Z) by (intros [? [? ?]] _; reflexivity).
  rewrite (filter_length_ext (fun '(n, (d, m)) => negb (at3 X n d m =? 0)%Z) (fun a => negb (x a =? 0)%Z)) by (intros [? [? ?]] _; reflexivity).
  assert (H : forall a, In a (cells3 N D M) -> tern (x a) /\ pm1 (y a)).
  { intros [n [d m]] Ha. apply in_cells3 in Ha. split; [apply (tern3_at X N D M); tauto|apply (out_pm o i), Ho]. }
  rewrite <- count_parts by exact H. apply Rsum_ext. intros [n [d m]] Ha. destruct (H _ Ha) as [Hx Hy].
  rewrite <- point_ll by assumption. reflexivity.
Qed.

(** * The optimum *)
Lemma ln_le_sub t : 0 < t -> ln t <= t - 1.
Proof.
  intros Ht. pose proof (exp_ineq1_le (ln t)) as H. rewrite exp_ln in H by exact Ht. lra.
Qed.
Lemma sigma_ge_half x : 0 <= x -> 1 / 2 <= sigma x.
Proof.
  intros Hx. unfold sigma. assert (H : exp (- x) <= 1).
  { rewrite <- exp_0. destruct (Req_dec x 0) as [-> | Hne]; [rewrite Ropp_0; lra|]. left. apply exp_increasing. lra. }
  pose proof (exp_pos (- x)). replace (1 / 2) with (/ 2) by lra. apply Rinv_le_contravar; lra.
Qed.
Lemma sigma_neg_log t : 0 < t -> sigma (- ln t) = / (1 + t).
Proof. intros Ht. unfold sigma. rewrite Ropp_involutive, exp_ln by exact Ht. reflexivity. Qed.

Lemma gibbs a b p q : 0 < a -> 0 < b -> 0 < p < 1 -> 0 < q < 1 ->
  (p - q) * (a / q - b / (1 - q)) <= 0 -> a * ln p + b * ln (1 - p) <= a * ln q + b * ln (1 - q).
Proof.
  intros Ha Hb Hp Hq H.
  pose proof (ln_le_sub (p / q)) as H1. pose proof (ln_le_sub ((1 - p) / (1 - q))) as H2.
  rewrite ln_div in H1 by lra. rewrite ln_div in H2 by lra.
  assert (P1 : 0 < p / q) by (apply Rdiv_lt_0_compat; lra). assert (P2 : 0 < (1 - p) / (1 - q)) by (apply Rdiv_lt_0_compat; lra).
  specialize (H1 P1). specialize (H2 P2).
  assert (E : a * (p / q - 1) + b * ((1 - p) / (1 - q) - 1) = (p - q) * (a / q - b / (1 - q))) by (field; lra).
  pose proof (Rmult_le_compat_l a _ _ (Rlt_le _ _ Ha) H1). pose proof (Rmult_le_compat_l b _ _ (Rlt_le _ _ Hb) H2). lra.
Qed.

Lemma C17_val_lemma P ND alpha beta : (P <= ND)%nat -> 0 < alpha -> 0 < beta ->
  0 < lbda_log_argument (Z.of_nat ND) (Z.of_nat P) alpha beta /\
  best_dispersion P ND alpha beta (lbda_val (Z.of_nat ND) (Z.of_nat P) alpha beta).
Proof.
  intros HP Ha Hb. apply le_INR in HP. pose proof (pos_INR P) as HP0.
  unfold lbda_val, lbda_log_argument. rewrite <- !INR_IZR_INZ.
  set (a := INR P + alpha). set (b := INR ND - INR P + beta). assert (Pa : 0 < a) by (unfold a; lra). assert (Pb : 0 < b) by (unfold b; lra).
  assert (E : INR ND + alpha + beta = a + b) by (unfold a, b; lra). rewrite E.
  set (t := (a + b) / a - 1). assert (Et : t = b / a) by (unfold t; field; lra).
  assert (Pt : 0 < t) by (rewrite Et; apply Rdiv_lt_0_compat; lra). split; [exact Pt|].
  assert (Es : sigma (Rmax (- ln t) 0) = Rmax (1 / 2) (a / (a + b))).
  { assert (F : / (1 + t) = a / (a + b)) by (rewrite Et; field; lra).
    destruct (Rle_lt_dec (ln t) 0) as [H|H].
    - rewrite Rmax_left by lra. rewrite sigma_neg_log by exact Pt. rewrite F, Rmax_right; [reflexivity|].
      rewrite <- F, <- sigma_neg_log by exact Pt. apply sigma_ge_half. lra.
    - rewrite Rmax_right by lra. rewrite sigma_0. rewrite Rmax_left; [reflexivity|].
      rewrite <- F. assert (1 < t). { apply ln_lt_inv; [lra|exact Pt|rewrite ln_1; exact H]. }
      replace (1 / 2) with (/ 2) by lra. apply Rinv_le_contravar; lra. }
  split; [apply Rmax_r|]. split; [unfold a in Es; rewrite E; exact Es|].
  intros x Hx. unfold objective. fold a b. rewrite !sigma_opp. set (lam := Rmax (- ln t) 0) in *.
  pose proof (sigma_pos x). pose proof (sigma_lt1 x). pose proof (sigma_pos lam). pose proof (sigma_lt1 lam).
  apply gibbs; try lra. pose proof (sigma_ge_half x Hx) as Hh. rewrite Es in *. unfold Rmax. destruct (Rle_dec (1 / 2) (a / (a + b))) as [Hc|Hc].
  - right. replace (a / (a / (a + b)) - b / (1 - a / (a + b))) with 0 by (field; repeat split; lra). ring.
  - assert (Hab : a < b).
    { apply Rnot_le_lt in Hc. apply (Rmult_lt_compat_r (a + b)) in Hc; [|lra]. unfold Rdiv in Hc at 1. rewrite Rmult_assoc, Rinv_l in Hc by lra. lra. }
    replace (a / (1 / 2) - b / (1 - 1 / 2)) with (2 * (a - b)) by (field; lra).
    assert (0 <= (sigma x - 1 / 2) * (2 * (b - a))) by (apply Rmult_le_pos; lra). lra.
Qed.

Lemma C17_2_lemma : forall o i, In (o, i) implemented -> forall out, is_output o i out ->
  forall A B X N D L alpha beta, okmat N L A -> okmat D L B -> has_shape2 X N D -> 0 < alpha -> 0 < beta ->
  exists lam, lbda_update_2d (model_name o i) A B X alpha beta = Ok lam /\
    best_dispersion (correct2 out X N D L A B) (observed2 X N D) alpha beta lam.
Proof.
  intros o i Hin out Ho A B X N D L alpha beta HA HB HX Ha Hb.
  destruct (counter2_lemma o i out Hin Ho) as (f & Ef & Hf). unfold lbda_update_2d. rewrite Ef. cbn [bind].
  eexists. split; [reflexivity|]. rewrite (Hf A B X N D L) by assumption. rewrite (zero_points2 X N D HX).
  apply C17_val_lemma; try assumption. apply (correct2_le out o i), Ho.
Qed.
Lemma C17_3_lemma : forall o i, In (o, i) implemented -> forall out, is_output o i out ->
  forall A B C X N D M L alpha beta, okmat N L A -> okmat D L B -> okmat M L C -> has_shape3 X N D M -> 0 < alpha -> 0 < beta ->
  exists lam, lbda_update_3d (model_name o i) A B C X alpha beta = Ok lam /\
    best_dispersion (correct3 out X N D M L A B C) (observed3 X N D M) alpha beta lam.
Proof.
  intros o i Hin out Ho A B C X N D M L alpha beta HA HB HC HX Ha Hb.
  destruct (counter3_lemma o i out Hin Ho) as (f & Ef & Hf). unfold lbda_update_3d. rewrite Ef. cbn [bind].
  eexists. split; [reflexivity|]. rewrite (Hf A B C X N D M L) by assumption. rewrite (zero_points3 X N D M HX).
  apply C17_val_lemma; try assumption. apply (correct3_le out o i), Ho.
Qed.

Lemma C18_2_lemma : forall o i, In (o, i) implemented -> forall out, is_output o i out ->
  exists counter, make_correct_predictions_counter_2d (model_name o i) = Ok counter /\
  forall A B X N D L, okmat N L A -> okmat D L B -> has_shape2 X N D ->
    counter A B X = Z.of_nat (correct2 out X N D L A B) /\
    (correct2 out X N D L A B <= observed2 X N D)%nat /\
    (tern2 X -> forall lbda, ln (lik2 out lbda X N D L A B) =
      IZR (counter A B X) * ln (sigma lbda) + IZR (no_of_points_2d X - counter A B X) * ln (sigma (- lbda))
      + (INR (N * D) - INR (observed2 X N D)) * ln (1 / 2)).
Proof.
  intros o i Hin out Ho. destruct (counter2_lemma o i out Hin Ho) as (f & Ef & Hf). exists f. split; [exact Ef|].
  intros A B X N D L HA HB HX. split; [apply Hf; assumption|]. split; [apply (correct2_le out o i), Ho|].
  intros HT lbda. rewrite (loglik2 o i) by assumption. rewrite minus_IZR, (Hf A B X N D L), (zero_points2 X N D), <- !INR_IZR_INZ by assumption.
  reflexivity.
Qed.
Lemma C18_3_lemma : forall o i, In (o, i) implemented -> forall out, is_output o i out ->
  exists counter, make_correct_predictions_counter_3d (model_name o i) = Ok counter /\
  forall A B C X N D M L, okmat N L A -> okmat D L B -> okmat M L C -> has_shape3 X N D M ->
    counter A B C X = Z.of_nat (correct3 out X N D M L A B C) /\
    (correct3 out X N D M L A B C <= observed3 X N D M)%nat /\
    (tern3 X -> forall lbda, ln (lik3 out lbda X N D M L A B C) =
      IZR (counter A B C X) * ln (sigma lbda) + IZR (no_of_points_3d X - counter A B C X) * ln (sigma (- lbda))
      + (INR (N * D * M) - INR (observed3 X N D M)) * ln (1 / 2)).
Proof.
  intros o i Hin out Ho. destruct (counter3_lemma o i out Hin Ho) as (f & Ef & Hf). exists f. split; [exact Ef|].
  intros A B C X N D M L HA HB HC HX. split; [apply Hf; assumption|]. split; [apply (correct3_le out o i), Ho|].
  intros HT lbda. rewrite (loglik3 o i) by assumption.
  rewrite minus_IZR, (Hf A B C X N D M L), (zero_points3 X N D M), <- !INR_IZR_INZ by assumption. reflexivity.
Qed.
Lemma C18_IBP_lemma :
  make_correct_predictions_counter_2d "OR-AND-IBP" = make_correct_predictions_counter_2d "OR-AND".
Proof. reflexivity. Qed.

(** * qL-AND *)
Lemma qL_loop_spec c ls q k : (k < q)%Z ->
  qL_loop c ls q k = if (q <=? k + Z.of_nat (cnt c ls))%Z then 1%Z else (-1)%Z.
Proof.
  revert k. induction ls as [|l ls IH]; intros k Hk; cbn [qL_loop].
  - rewrite cnt_nil. destruct (Z.leb_spec q (k + Z.of_nat 0)); [lia|reflexivity].
  - rewrite cnt_cons. destruct (c l).
    + destruct (Z.eqb_spec (k + 1) q).
      * destruct (Z.leb_spec q (k + Z.of_nat (1 + cnt c ls))); [reflexivity|lia].
      * rewrite IH by lia. replace (k + 1 + Z.of_nat (cnt c ls))%Z with (k + Z.of_nat (1 + cnt c ls))%Z by lia. reflexivity.
    + destruct (Z.eqb_spec k q); [lia|]. rewrite IH by lia. reflexivity.
Qed.
Lemma C42_lemma u z q : (1 <= q)%Z ->
  (qL_AND_product u z q = 1%Z \/ qL_AND_product u z q = (-1)%Z) /\
  (qL_AND_product u z q = 1%Z <->
   exists ls, NoDup ls /\ (q <= Z.of_nat (List.length ls))%Z /\
     forall l, In l ls -> (l < List.length u)%nat /\ nth l u 0%Z = 1%Z /\ nth l z 0%Z = 1%Z).
Proof.
  intros Hq. unfold qL_AND_product. rewrite qL_loop_spec by lia. rewrite Z.add_0_l.
  set (c := fun l => ((at1 u l =? 1) && (at1 z l =? 1))%Z).
  split; [destruct (q <=? _)%Z; auto|]. split.
  - destruct (Z.leb_spec q (Z.of_nat (cnt c (seq 0 (List.length u))))) as [H|H]; [intros _|discriminate].
    exists (filter c (seq 0 (List.length u))). split; [apply NoDup_filter, seq_NoDup|]. split; [exact H|].
    intros l Hl. apply filter_In in Hl. destruct Hl as [Hl Hc]. apply in_seq in Hl.
    apply andb_true_iff in Hc. destruct Hc as [H1 H2]. apply Z.eqb_eq in H1, H2. unfold at1 in *. split; [lia|auto].
  - intros (ls & Hn & Hlen & Hls). destruct (Z.leb_spec q (Z.of_nat (cnt c (seq 0 (List.length u))))) as [H|H]; [reflexivity|].
    exfalso. assert (List.length ls <= cnt c (seq 0 (List.length u)))%nat; [|lia].
    apply NoDup_incl_length; [exact Hn|]. intros l Hl. destruct (Hls l Hl) as (H1 & H2 & H3).
    apply filter_In. split; [apply in_seq; lia|]. unfold c, at1. rewrite H2, H3. reflexivity.
Qed.
Lemma C42_counter_lemma A B X q N D : has_shape2 X N D ->
  counter_qL A B X q = Z.of_nat (List.length (filter (fun '(n, d) => qL_AND_product (row A n) (row B d) (at1 q d) =? at2 X n d)%Z (cells N D))).
Proof.
  intros HX. unfold counter_qL. rewrite (shape2_nrows _ _ _ HX), count2. f_equal.
  destruct N as [|N]; [reflexivity|]. rewrite (shape2_ncols _ _ _ HX) by lia. reflexivity.
Qed.

(** * Link functions *)
Lemma expit_sigma x : expit x = sigma x.
Proof. unfold expit, sigma. lra. Qed.
Lemma sigma_incr x y : x < y -> sigma x < sigma y.
Proof.
  intros H. unfold sigma. apply Rinv_lt_contravar.
  - apply Rmult_lt_0_compat; apply sigma_den.
  - assert (exp (- y) < exp (- x)) by (apply exp_increasing; lra). lra.
Qed.
Lemma logsumexp_lemma a : a <> [] -> logsumexp a = ln (Rsum exp a).
Proof.
  intros Ha. unfold logsumexp. set (m := fold_right Rmax (hd 0 a) a).
  rewrite (Rsum_ext _ (fun x => exp (- m) * exp x)) by (intros; rewrite <- exp_plus; f_equal; lra).
  rewrite Rsum_scale. rewrite ln_mult; [rewrite ln_exp; lra|apply exp_pos|].
  destruct a as [|x a]; [contradiction|]. rewrite Rsum_cons. pose proof (exp_pos x).
  assert (0 <= Rsum exp a) by (apply Rsum_nonneg; intros; left; apply exp_pos). lra.
Qed.
Lemma logsumexp_max a m : a <> [] -> m = fold_right Rmax (hd 0 a) a -> In m a /\ forall x, In x a -> x <= m.
Proof.
  intros Ha ->. destruct a as [|x0 a]; [contradiction|]. cbn [hd].
  assert (G : forall l d, (In (fold_right Rmax d l) (d :: l)) /\ forall x, In x l -> x <= fold_right Rmax d l).
  { induction l as [|y l IH]; intros d; [split; [left; reflexivity|intros x []]|]. cbn [fold_right]. destruct (IH d) as [I1 I2]. split.
    - unfold Rmax at 1. destruct (Rle_dec y (fold_right Rmax d l)); [|right; left; reflexivity].
      destruct I1 as [I1|I1]; [left; exact I1|right; right; exact I1].
    - intros x [<-|Hx]; [apply Rmax_l|]. eapply Rle_trans; [apply I2, Hx|apply Rmax_r]. }
  destruct (G (x0 :: a) x0) as [G1 G2]. split; [|exact G2]. destruct G1 as [G1|G1]; [|exact G1]. rewrite <- G1. left. reflexivity.
Qed.
Lemma C62_lemma :
  (forall x, 0 < expit x < 1) /\ (forall x y, x < y -> expit x < expit y) /\
  (forall x, expit (- x) = 1 - expit x) /\
  (forall x, logit_aux (expit x) = x) /\ (forall p, 0 < p < 1 -> expit (logit_aux p) = p) /\
  (forall a, a <> [] -> logsumexp a = ln (Rsum exp a)) /\
  (forall a x, In x a -> exp (x - fold_right Rmax (hd 0 a) a) <= 1).
Proof.
  repeat match goal with |- _ /\ _ => split end; intros.
  - rewrite expit_sigma. split; [apply sigma_pos|apply sigma_lt1].
  - rewrite !expit_sigma. apply sigma_incr, H.
  - rewrite !expit_sigma. apply sigma_opp.
  - rewrite expit_sigma. unfold logit_aux. rewrite sigma_ratio'. apply ln_exp.
  - rewrite expit_sigma. unfold logit_aux, sigma. rewrite exp_Ropp, exp_ln by (apply Rdiv_lt_0_compat; lra). field. lra.
  - apply logsumexp_lemma, H.
  - destruct (logsumexp_max a _ (fun E : a = [] => match eq_ind a (In x) H [] E with end) eq_refl) as [_ G].
    rewrite <- exp_0. destruct (Rle_lt_or_eq_dec _ _ (G x H)) as [K|K]; [left; apply exp_increasing; lra|right; f_equal; lra].
Qed.

(** * Noisy emission *)
Lemma C24_lemma :
  (forall p lam, 0 <= p <= 1 ->
     sigma (- Rabs lam) <= noisy_emission p lam <= sigma (Rabs lam) /\
     is_E 2 (fun rs => if xorb (Rltb (nth 0 rs 0) p) (Rltb (nth 1 rs 0) (sigma (- lam))) then 1 else 0) (noisy_emission p lam)) /\
  (forall p q lam, 0 <= lam -> p <= q -> noisy_emission p lam <= noisy_emission q lam) /\
  (forall p q lam, 0 < lam -> p < q -> noisy_emission p lam < noisy_emission q lam).
Proof.
  assert (E : forall p lam, noisy_emission p lam = p * sigma lam + (1 - p) * (1 - sigma lam)).
  { intros. unfold noisy_emission. rewrite !expit_sigma, sigma_opp. reflexivity. }
  split; [|split].
  - intros p lam Hp. rewrite E. pose proof (sigma_pos lam). pose proof (sigma_lt1 lam). split.
    + rewrite sigma_opp. assert (K : sigma (Rabs lam) = sigma lam /\ 1 / 2 <= sigma lam \/ sigma (Rabs lam) = 1 - sigma lam /\ sigma lam <= 1 / 2).
      { unfold Rabs. destruct (Rcase_abs lam) as [Hl|Hl].
        - right. rewrite sigma_opp. split; [reflexivity|]. pose proof (sigma_ge_half (- lam)). rewrite sigma_opp in H1. lra.
        - left. split; [reflexivity|]. apply sigma_ge_half. lra. }
      set (s := sigma lam) in *. destruct K as [[-> Hs]|[-> Hs]].
      * assert (0 <= p * (2 * s - 1)) by (apply Rmult_le_pos; lra). assert (0 <= (1 - p) * (2 * s - 1)) by (apply Rmult_le_pos; lra). lra.
      * assert (0 <= p * (1 - 2 * s)) by (apply Rmult_le_pos; lra). assert (0 <= (1 - p) * (1 - 2 * s)) by (apply Rmult_le_pos; lra). lra.
    + assert (He : 0 <= sigma (- lam) <= 1) by (rewrite sigma_opp; lra).
      exists (fun r => if Rltb r p then 1 - sigma (- lam) else sigma (- lam)). split.
      * intros r _. cbn [is_E nth].
        exists (fun s => if xorb (Rltb r p) (Rltb s (sigma (- lam))) then 1 else 0). split; [intros; reflexivity|].
        destruct (Rltb r p); cbn [xorb].
        -- pose proof (is_RInt_step (sigma (- lam)) 0 1 He) as K. replace (sigma (- lam) * 0 + (1 - sigma (- lam)) * 1) with (1 - sigma (- lam)) in K by ring.
           eapply (@is_RInt_ext R_NormedModule); [|exact K]. intros x _. simpl. destruct (Rltb x (sigma (- lam))); reflexivity.
        -- pose proof (is_RInt_step (sigma (- lam)) 1 0 He) as K. replace (sigma (- lam) * 1 + (1 - sigma (- lam)) * 0) with (sigma (- lam)) in K by ring.
           eapply (@is_RInt_ext R_NormedModule); [|exact K]. intros x _. simpl. destruct (Rltb x (sigma (- lam))); reflexivity.
      * pose proof (is_RInt_step p (1 - sigma (- lam)) (sigma (- lam)) Hp) as K.
        replace (p * sigma lam + (1 - p) * (1 - sigma lam)) with (p * (1 - sigma (- lam)) + (1 - p) * sigma (- lam)) by (rewrite sigma_opp; ring).
        exact K.
  - intros p q lam Hl Hpq. rewrite !E. pose proof (sigma_ge_half lam Hl). assert (0 <= (q - p) * (2 * sigma lam - 1)) by (apply Rmult_le_pos; lra). lra.
  - intros p q lam Hl Hpq. rewrite !E. pose proof (sigma_incr 0 lam Hl) as K. rewrite sigma_0 in K.
    assert (0 < (q - p) * (2 * sigma lam - 1)) by (apply Rmult_lt_0_compat; lra). lra.
Qed.

(** * Examples *)
Definition lexA : mat := [[1; -1]; [1; 1]]%Z.
Definition lexB : mat := [[1; 1]; [-1; 1]; [-1; -1]]%Z.
Definition lexX : mat := [[1; 0; -1]; [-1; 1; 1]]%Z.
Lemma C17_example_lemma :
  okmat 2 2 lexA /\ okmat 3 2 lexB /\ has_shape2 lexX 2 3 /\ tern2 lexX /\
  lbda_update_2d "OR-AND" lexA lexB lexX 1 1 = Ok (lbda_val 5 3 1 1) /\
  lbda_val 5 3 1 1 = ln (4 / 3) /\ lbda_val 5 0 1 1 = 0 /\
  correct2 (fun rows L => OR_AND_product (nth 0 rows []) (nth 1 rows [])) lexX 2 3 2 lexA lexB = 3%nat /\
  observed2 lexX 2 3 = 5%nat.
Proof.
  split; [split; [shape_tac|bin_tac]|]. split; [split; [shape_tac|bin_tac]|]. split; [shape_tac|]. split; [bin_tac|].
  split; [reflexivity|]. split; [|split; [|split; reflexivity]].
  - unfold lbda_val, lbda_log_argument. replace ((5 + 1 + 1) / (3 + 1) - 1) with (3 / 4) by lra.
    rewrite ln_div by lra. rewrite ln_div by lra. assert (ln 3 < ln 4) by (apply ln_increasing; lra).
    rewrite Rmax_left by lra. lra.
  - unfold lbda_val, lbda_log_argument. replace ((5 + 1 + 1) / (0 + 1) - 1) with 6 by lra.
    assert (0 < ln 6) by (rewrite <- ln_1; apply ln_increasing; lra). rewrite Rmax_right by lra. reflexivity.
Qed.
Lemma C42_example_lemma :
  (qL_AND_product [1; 1; -1; 1] [1; -1; 1; 1] 2 = 1 /\ qL_AND_product [1; 1; -1; 1] [1; -1; 1; 1] 3 = -1)%Z.
Proof. split; reflexivity. Qed.
Lemma expit_ln3 : expit (ln 3) = 3 / 4 /\ expit (- ln 3) = 1 / 4.
Proof. unfold expit. rewrite Ropp_involutive, exp_Ropp, exp_ln by lra. lra. Qed.
Lemma C24_example_lemma : noisy_emission 1 (ln 3) = 3 / 4 /\ noisy_emission (1 / 3) (ln 3) = 5 / 12.
Proof. unfold noisy_emission. destruct expit_ln3 as [-> ->]. lra. Qed.
Lemma C62_example_lemma : logit_aux (3 / 4) = ln 3 /\ expit (ln 3) = 3 / 4 /\ logsumexp [0; ln 2; ln 3] = ln 6.
Proof.
  split; [unfold logit_aux; f_equal; lra|]. split; [apply expit_ln3|]. rewrite logsumexp_lemma by discriminate.
  cbn [Rsum fold_right]. rewrite exp_0, !exp_ln by lra. f_equal. lra.
Qed.
