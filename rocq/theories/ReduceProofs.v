(** Proofs for ParallelReduce.v. *)
From Coq Require Import Permutation.
From Verif Require Import Base BaseLemmas BaseR Spec SpecR Outputs Fuzzy Lambda LambdaProofs FuzzyProofs ParallelReduce.
Local Open Scope Z_scope.

(** ** Sums and positions *)
Definition b2z (b : bool) : Z := if b then 1 else 0.
Lemma Zsum_perm f l l' : Permutation l l' -> Zsum f l = Zsum f l'.
Proof. induction 1; rewrite ?Zsum_cons; try lia; reflexivity. Qed.
Lemma Zsum_flat_map {A} f (g : A -> list nat) ls : Zsum f (flat_map g ls) = fold_right (fun a acc => Zsum f (g a) + acc) 0 ls.
Proof. induction ls as [|a ls IH]; [reflexivity|]. cbn [flat_map fold_right]. rewrite Zsum_app, IH. reflexivity. Qed.
Lemma Zsum_map f (g : nat -> nat) ls : Zsum f (map g ls) = Zsum (fun i => f (g i)) ls.
Proof. induction ls as [|a ls IH]; [reflexivity|]. cbn [map]. rewrite !Zsum_cons, IH. reflexivity. Qed.
Lemma block_app W a b : block W (a ++ b) = (block W a ++ block W b)%list.
Proof. unfold block. apply flat_map_app. Qed.
Lemma block_concat W dist : concat (map (block W) dist) = block W (concat dist).
Proof. induction dist as [|a dist IH]; [reflexivity|]. cbn [map concat]. rewrite IH, block_app. reflexivity. Qed.
Lemma seq_map_add a n : map (fun j => (a + j)%nat) (seq 0 n) = seq a n.
Proof. revert a. induction n as [|n IH]; intros a; [reflexivity|]. cbn [seq map]. f_equal; [lia|]. rewrite <- seq_shift, map_map, <- (IH (S a)). apply map_ext. intros; lia. Qed.
Lemma block_seq W N : block W (seq 0 N) = seq 0 (N * W).
Proof.
  induction N as [|N IH]; [reflexivity|]. rewrite List.seq_S, block_app, IH. cbn [block flat_map plus]. rewrite app_nil_r, seq_map_add, <- seq_app. f_equal. cbn [Nat.mul]. lia.
Qed.
Lemma block_perm W l l' : Permutation l l' -> Permutation (block W l) (block W l').
Proof.
  induction 1 as [|x l l' _ IH|x y l|l l' l'' _ IH1 _ IH2]; cbn [block flat_map]; [apply perm_nil|apply Permutation_app_head; exact IH| |eapply perm_trans; eassumption].
  rewrite !app_assoc. apply Permutation_app_tail, Permutation_app_comm.
Qed.
Lemma dist_perm W N dist : Permutation (concat dist) (seq 0 N) -> Permutation (concat (map (block W) dist)) (seq 0 (N * W)).
Proof. intros H. rewrite block_concat, <- block_seq. apply block_perm, H. Qed.

(** ** Counters *)
Definition cong (x y : Z) : Prop := exists k, x = y + k * 2 ^ 64.
Lemma cong_refl x : cong x x. Proof. exists 0. lia. Qed.
Lemma cong_add a b c d : cong a b -> cong c d -> cong (a + c) (b + d).
Proof. intros (k & ->) (j & ->). exists (k + j). ring. Qed.
Lemma cong_sym a b : cong a b -> cong b a.
Proof. intros (k & ->). exists (- k). ring. Qed.
Lemma cong_trans a b c : cong a b -> cong b c -> cong a c.
Proof. intros (k & ->) (j & ->). exists (j + k). ring. Qed.
Lemma wrap_cong x : cong (wrap 64 x) x.
Proof. unfold wrap. exists (- ((x + 2 ^ (64 - 1)) / 2 ^ 64)). rewrite Z.mod_eq by (apply Z.pow_nonzero; lia). ring. Qed.
Lemma cong_wrap x y : cong x y -> wrap 64 x = wrap 64 y.
Proof. intros (k & ->). unfold wrap. f_equal. replace (y + k * 2 ^ 64 + 2 ^ (64 - 1)) with (y + 2 ^ (64 - 1) + k * 2 ^ 64) by ring. apply Z.mod_add. apply Z.pow_nonzero; lia. Qed.
Definition load (hit : nat -> bool) (w : worker) : Z := w_acc w + Zsum (fun k => b2z (hit k)) (w_todo w).
Definition total (hit : nat -> bool) (ws : list worker) : Z := fold_right (fun w a => load hit w + a) 0 ws.
Lemma total_upd hit ws i w : (i < List.length ws)%nat -> total hit (upd ws i w) = total hit ws - load hit (nth i ws (Worker [] 0)) + load hit w.
Proof.
  revert i. induction ws as [|v ws IH]; intros i Hi; [cbn in Hi; lia|]. destruct i as [|i].
  - cbn. unfold total. lia.
  - cbn [upd nth]. change (total hit (v :: upd ws i w) = total hit (v :: ws) - load hit (nth i ws (Worker [] 0)) + load hit w). unfold total in *. cbn [fold_right]. rewrite IH by (cbn in Hi; lia). lia.
Qed.
Lemma count_step_cong hit ws i : cong (total hit (count_step hit ws i)) (total hit ws) /\ List.length (count_step hit ws i) = List.length ws.
Proof.
  unfold count_step. destruct (nth_error ws i) as [[[|k ks] a]|] eqn:E; try (split; [apply cong_refl|reflexivity]). assert (Hi : (i < List.length ws)%nat) by (apply nth_error_Some; rewrite E; discriminate).
  split; [|apply upd_length]. rewrite total_upd by exact Hi. rewrite (nth_error_nth _ _ _ E). unfold load. cbn [w_acc w_todo]. rewrite Zsum_cons. destruct (hit k); cbn [b2z].
  - destruct (wrap_cong (a + 1)) as (j & ->). exists j. ring.
  - exists 0. ring.
Qed.
Lemma count_run_cong hit sched ws : cong (total hit (count_run hit sched ws)) (total hit ws).
Proof.
  unfold count_run. revert ws. induction sched as [|i sched IH]; intros ws; [apply cong_refl|]. cbn [fold_left]. eapply cong_trans; [apply IH|apply count_step_cong].
Qed.
Lemma total_start hit W dist : total hit (start W dist) = Zsum (fun k => b2z (hit k)) (concat (map (block W) dist)).
Proof. induction dist as [|a dist IH]; [reflexivity|]. unfold total, start in *. cbn [map fold_right concat]. rewrite IH, Zsum_app. unfold load. cbn [w_acc w_todo]. lia. Qed.
Lemma total_done hit ws : done ws -> total hit ws = fold_right Z.add 0 (map w_acc ws).
Proof. induction 1 as [|w ws H _ IH]; [reflexivity|]. unfold total in *. cbn [fold_right map]. rewrite IH. unfold load. rewrite H. cbn. lia. Qed.
Lemma sum_perm l l' : Permutation l l' -> fold_right Z.add 0 l = fold_right Z.add 0 l'.
Proof. induction 1; cbn; lia. Qed.
Lemma fold_wrap order : forall a, wrap 64 a = a -> wrap 64 (fold_left (fun a b => wrap 64 (a + b)) order a) = fold_left (fun a b => wrap 64 (a + b)) order a /\ cong (fold_left (fun a b => wrap 64 (a + b)) order a) (a + fold_right Z.add 0 order).
Proof.
  induction order as [|b order IH]; intros a Ha; cbn [fold_left fold_right]; [split; [exact Ha|exists 0; ring]|]. destruct (IH (wrap 64 (a + b))) as (I1 & I2); [apply cong_wrap, wrap_cong|]. split; [exact I1|]. eapply cong_trans; [exact I2|]. destruct (wrap_cong (a + b)) as (k & ->). exists k. ring.
Qed.
Lemma count_value hit N W r : parallel_count hit N W r -> r = wrap 64 (Zsum (fun k => b2z (hit k)) (seq 0 (N * W))).
Proof.
  intros (dist & sched & order & HP & HD & HO & ->). destruct (fold_wrap order 0 eq_refl) as (E & C). rewrite <- E. apply cong_wrap. eapply cong_trans; [exact C|]. cbn [Z.add]. rewrite (sum_perm _ _ HO), <- (total_done hit _ HD). eapply cong_trans; [apply count_run_cong|]. rewrite total_start, (Zsum_perm _ _ _ (dist_perm W N dist HP)). apply cong_refl.
Qed.
(** Enough steps for every worker. *)
Lemma count_run_done hit sched : forall ws, (forall i, (i < List.length ws)%nat -> (List.length (w_todo (nth i ws (Worker [] 0))) <= count_occ Nat.eq_dec sched i)%nat) -> done (count_run hit sched ws).
Proof.
  induction sched as [|i sched IH]; intros ws H.
  - apply Forall_forall. intros w Hw. apply (In_nth _ _ (Worker [] 0)) in Hw. destruct Hw as (k & Hk & <-). specialize (H k Hk). cbn in H. destruct (w_todo _); [reflexivity|cbn in H; lia].
  - cbn [count_run fold_left]. apply IH. intros j Hj. rewrite (proj2 (count_step_cong hit ws i)) in Hj. specialize (H j Hj). cbn [count_occ] in H. unfold count_step. destruct (nth_error ws i) as [[[|k ks] a]|] eqn:E.
    + destruct (Nat.eq_dec i j) as [->|Hij]; [|exact H]. rewrite (nth_error_nth _ _ _ E). cbn. lia.
    + assert (Hi : (i < List.length ws)%nat) by (apply nth_error_Some; rewrite E; discriminate). destruct (Nat.eq_dec i j) as [->|Hij].
      * rewrite nth_upd_same by exact Hi. rewrite (nth_error_nth _ _ _ E) in H. cbn in H |- *. lia.
      * rewrite nth_upd_other by (intros C; apply Hij; symmetry; exact C). exact H.
    + destruct (Nat.eq_dec i j) as [->|Hij]; [|exact H]. apply nth_error_None in E. lia.
Qed.
Lemma count_possible hit N W : parallel_count hit N W (wrap 64 (Zsum (fun k => b2z (hit k)) (seq 0 (N * W)))).
Proof.
  set (ws := count_run hit (repeat 0%nat (N * W)) (start W [seq 0 N])). assert (HP : Permutation (concat [seq 0 N]) (seq 0 N)) by (cbn; rewrite app_nil_r; apply Permutation_refl).
  assert (HD : done ws).
  { apply count_run_done. intros i Hi. cbn in Hi. assert (i = 0)%nat as -> by lia. cbn [start map nth w_todo]. rewrite block_seq, seq_length. clear. induction (N * W)%nat as [|k IH]; cbn; [lia|]. lia. }
  assert (G : parallel_count hit N W (fold_left (fun a b => wrap 64 (a + b)) (map w_acc ws) 0)) by (exists [seq 0 N], (repeat 0%nat (N * W)), (map w_acc ws); auto using Permutation_refl).
  rewrite <- (count_value _ _ _ _ G). exact G.
Qed.
Lemma C113_count_lemma hit N W r : parallel_count hit N W r <-> r = wrap 64 (Zsum (fun k => b2z (hit k)) (seq 0 (N * W))).
Proof. split; [apply count_value|intros ->; apply count_possible]. Qed.
Lemma hits_bound (hit : nat -> bool) ls : 0 <= Zsum (fun k => b2z (hit k)) ls <= Z.of_nat (List.length ls).
Proof. induction ls as [|k ls IH]; [cbn; lia|]. rewrite Zsum_cons. cbn [List.length]. destruct (hit k); cbn [b2z]; lia. Qed.
Lemma C113_count_exact hit N W r : Z.of_nat (N * W) < 2 ^ 63 -> (parallel_count hit N W r <-> r = Zsum (fun k => b2z (hit k)) (seq 0 (N * W))).
Proof.
  intros H. rewrite C113_count_lemma. rewrite wrap_id; [reflexivity|lia|]. pose proof (hits_bound hit (seq 0 (N * W))) as B. rewrite seq_length in B. change (64 - 1) with 63. lia.
Qed.

(** ** Filling *)
Section Fill.
  Context {A : Type} (zero : A) (g : nat -> A) (P : nat).
  Definition filled (s : list A * list (list nat)) : Prop := List.length (fst s) = P /\ forall k, (k < P)%nat -> In k (concat (snd s)) \/ nth k (fst s) zero = g k.
  Lemma concat_upd (qs : list (list nat)) i k ks j : nth_error qs i = Some (k :: ks) -> In j (concat qs) -> j = k \/ In j (concat (upd qs i ks)).
  Proof.
    revert i. induction qs as [|q qs IH]; intros i E H; [destruct i; discriminate|]. destruct i as [|i]; cbn in E, H |- *.
    - injection E as ->. apply in_app_or in H. destruct H as [[->|H]|H]; [left; reflexivity|right; apply in_or_app; auto|right; apply in_or_app; auto].
    - apply in_app_or in H. destruct H as [H|H]; [right; apply in_or_app; auto|]. destruct (IH i E H) as [->|G]; [left; reflexivity|right; apply in_or_app; auto].
  Qed.
  Lemma fill_step_filled s i : filled s -> filled (fill_step g s i).
  Proof.
    intros (H1 & H2). unfold fill_step. destruct (nth_error (snd s) i) as [[|k ks]|] eqn:E; try (split; assumption). split; cbn [fst snd]; [rewrite upd_length; exact H1|]. intros j Hj. destruct (Nat.eq_dec j k) as [->|Hjk].
    - right. apply nth_upd_same. rewrite H1. exact Hj.
    - rewrite nth_upd_other by exact Hjk. destruct (H2 j Hj) as [H|H]; [|right; exact H]. destruct (concat_upd _ _ _ _ _ E H) as [->|G]; [contradiction|left; exact G].
  Qed.
  Lemma fill_run_filled sched : forall s, filled s -> filled (fill_run g sched s).
  Proof. induction sched as [|i sched IH]; intros s H; [exact H|]. cbn. apply IH, fill_step_filled, H. Qed.
  Lemma fill_run_done sched : forall s, (forall i, (i < List.length (snd s))%nat -> (List.length (nth i (snd s) []) <= count_occ Nat.eq_dec sched i)%nat) -> Forall (eq []) (snd (fill_run g sched s)).
  Proof.
    induction sched as [|i sched IH]; intros s H.
    - cbn [fill_run fold_left]. apply Forall_forall. intros q Hq. apply (In_nth _ _ []) in Hq. destruct Hq as (k & Hk & <-). specialize (H k Hk). cbn in H. destruct (nth k (snd s) []); [reflexivity|cbn in H; lia].
    - cbn. apply IH. intros j Hj. assert (EL : List.length (snd (fill_step g s i)) = List.length (snd s)) by (unfold fill_step; destruct (nth_error (snd s) i) as [[|k ks]|]; cbn; rewrite ?upd_length; reflexivity). rewrite EL in Hj. specialize (H j Hj). cbn [count_occ] in H.
      unfold fill_step. destruct (nth_error (snd s) i) as [[|k ks]|] eqn:E; cbn [snd].
      + destruct (Nat.eq_dec i j) as [->|Hij]; [|exact H]. rewrite (nth_error_nth _ _ _ E). cbn. lia.
      + assert (Hi : (i < List.length (snd s))%nat) by (apply nth_error_Some; rewrite E; discriminate). destruct (Nat.eq_dec i j) as [->|Hij].
        * rewrite nth_upd_same by exact Hi. rewrite (nth_error_nth _ _ _ E) in H. cbn in H. lia.
        * rewrite nth_upd_other by (intros C; apply Hij; symmetry; exact C). exact H.
      + destruct (Nat.eq_dec i j) as [->|Hij]; [|exact H]. apply nth_error_None in E. lia.
  Qed.
End Fill.
Lemma fill_value {A} (zero : A) g N W X : parallel_fill zero g N W X -> X = map g (seq 0 (N * W)).
Proof.
  intros (dist & sched & HP & HD & <-). cbv zeta in *. set (s0 := (repeat zero (N * W), map (block W) dist)) in *.
  assert (F : filled zero g (N * W) s0). { split; [apply repeat_length|]. intros k Hk. left. cbn [snd s0]. eapply Permutation_in; [apply Permutation_sym, (dist_perm W N dist HP)|]. apply in_seq. lia. }
  apply (fill_run_filled zero g (N * W) sched) in F. destruct F as (F1 & F2). apply (nth_ext _ _ zero (g 0%nat)); [rewrite map_length, seq_length; exact F1|]. intros k Hk. rewrite F1 in Hk. rewrite map_nth, seq_nth by exact Hk. cbn [plus]. destruct (F2 k Hk) as [C|E]; [|exact E].
  exfalso. clear - C HD. induction HD as [|q qs Hq _ IH]; cbn in C; [exact C|]. rewrite <- Hq in C. apply IH, C.
Qed.
Lemma fill_possible {A} (zero : A) g N W : parallel_fill zero g N W (map g (seq 0 (N * W))).
Proof.
  assert (G : exists X, parallel_fill zero g N W X).
  { eexists. exists [seq 0 N], (repeat 0%nat (N * W)). split; [cbn; rewrite app_nil_r; apply Permutation_refl|]. cbv zeta. split; [|reflexivity]. apply fill_run_done. intros i Hi. cbn in Hi. assert (i = 0)%nat as -> by lia. cbn [snd map nth]. rewrite block_seq, seq_length. clear. induction (N * W)%nat as [|k IH]; cbn; lia. }
  destruct G as (X & G). rewrite <- (fill_value _ _ _ _ _ G). exact G.
Qed.
Lemma C113_fill_lemma {A} (zero : A) g N W X : parallel_fill zero g N W X <-> X = map g (seq 0 (N * W)).
Proof. split; [apply fill_value|intros ->; apply fill_possible]. Qed.

(** ** The counters and outputs of the package *)
Lemma count_loop_sum (c : nat -> bool) ls a : fold_left (fun a k => if c k then a + 1 else a) ls a = a + Zsum (fun k => b2z (c k)) ls.
Proof. revert a. induction ls as [|k ls IH]; intros a; cbn [fold_left]; [cbn; lia|]. rewrite IH, Zsum_cons. destruct (c k); cbn [b2z]; lia. Qed.
Lemma count_nested (h : Z -> nat -> Z) (v : nat -> Z) ls a : (forall a n, h a n = a + v n) -> fold_left h ls a = a + Zsum v ls.
Proof. intros H. revert a. induction ls as [|k ls IH]; intros a; cbn [fold_left]; [cbn; lia|]. rewrite IH, H, Zsum_cons. lia. Qed.
Lemma sum_positions f N W : Zsum f (seq 0 (N * W)) = Zsum (fun n => Zsum (fun j => f (n * W + j)%nat) (seq 0 W)) (seq 0 N).
Proof. rewrite <- block_seq. unfold block. rewrite Zsum_flat_map. unfold Zsum at 2. induction (seq 0 N) as [|n ns IH]; [reflexivity|]. cbn [fold_right]. rewrite IH, Zsum_map. reflexivity. Qed.
Lemma div_pos n W j : (j < W)%nat -> ((n * W + j) / W = n /\ (n * W + j) mod W = j)%nat.
Proof. intros H. rewrite Nat.add_comm. split; [rewrite Nat.div_add by lia; rewrite Nat.div_small by lia; reflexivity|rewrite Nat.mod_add by lia; apply Nat.mod_small; lia]. Qed.
Lemma C113_counter_2d_lemma f A B X r : Z.of_nat (nrows X * ncols X) < 2 ^ 63 ->
  (parallel_count (fun k => f (row A (k / ncols X)) (row B (k mod ncols X)) =? at2 X (k / ncols X) (k mod ncols X)) (nrows X) (ncols X) r <-> r = counter_2d f A B X).
Proof.
  intros H. rewrite C113_count_exact by exact H. rewrite sum_positions. unfold counter_2d. rewrite (count_nested _ (fun n => Zsum (fun d => b2z (f (row A n) (row B d) =? at2 X n d)) (seq 0 (ncols X)))) by (intros; apply count_loop_sum). rewrite Z.add_0_l.
  match goal with |- r = ?a <-> r = ?b => replace a with b; [reflexivity|] end. apply Zsum_ext. intros n _. apply Zsum_ext. intros j Hj. apply in_seq in Hj. destruct (div_pos n (ncols X) j) as (-> & ->); [lia|reflexivity].
Qed.
Lemma C113_counter_qL_lemma A B X q r : Z.of_nat (nrows X * ncols X) < 2 ^ 63 ->
  (parallel_count (fun k => qL_AND_product (row A (k / ncols X)) (row B (k mod ncols X)) (at1 q (k mod ncols X)) =? at2 X (k / ncols X) (k mod ncols X)) (nrows X) (ncols X) r <-> r = counter_qL A B X q).
Proof.
  intros H. rewrite C113_count_exact by exact H. rewrite sum_positions. unfold counter_qL. rewrite (count_nested _ (fun n => Zsum (fun d => b2z (qL_AND_product (row A n) (row B d) (at1 q d) =? at2 X n d)) (seq 0 (ncols X)))) by (intros; apply count_loop_sum). rewrite Z.add_0_l.
  match goal with |- r = ?a <-> r = ?b => replace a with b; [reflexivity|] end. apply Zsum_ext. intros n _. apply Zsum_ext. intros j Hj. apply in_seq in Hj. destruct (div_pos n (ncols X) j) as (-> & ->); [lia|reflexivity].
Qed.
Lemma C113_counter_3d_lemma f A B C X r : let N := List.length X in let D := List.length (hd [] X) in let M := List.length (hd [] (hd [] X)) in
  Z.of_nat (N * (D * M)) < 2 ^ 63 ->
  (parallel_count (fun k => let n := (k / (D * M))%nat in let d := ((k mod (D * M)) / M)%nat in let m := ((k mod (D * M)) mod M)%nat in f (row A n) (row B d) (row C m) =? at3 X n d m) N (D * M) r <-> r = counter_3d f A B C X).
Proof.
  cbv zeta. intros H. rewrite C113_count_exact by exact H. rewrite sum_positions. unfold counter_3d. set (D := List.length (hd [] X)) in *. set (M := List.length (hd [] (hd [] X))) in *.
  rewrite (count_nested _ (fun n => Zsum (fun d => Zsum (fun m => b2z (f (row A n) (row B d) (row C m) =? at3 X n d m)) (seq 0 M)) (seq 0 D))) by (intros a n; apply count_nested; intros a' d; apply count_loop_sum). rewrite Z.add_0_l.
  match goal with |- r = ?a <-> r = ?b => replace a with b; [reflexivity|] end. apply Zsum_ext. intros n _. rewrite sum_positions. apply Zsum_ext. intros d Hd. apply Zsum_ext. intros m Hm. apply in_seq in Hd, Hm.
  assert (HW : (d * M + m < D * M)%nat) by nia. destruct (div_pos n (D * M) (d * M + m) HW) as (-> & ->). destruct (div_pos d M m) as (-> & ->); [lia|reflexivity].
Qed.
Lemma rows_positions {A} (h : nat -> nat -> A) N W : concat (map (fun n => map (h n) (seq 0 W)) (seq 0 N)) = map (fun k => h (k / W)%nat (k mod W)%nat) (seq 0 (N * W)).
Proof.
  rewrite <- block_seq. unfold block. induction (seq 0 N) as [|n ns IH]; [reflexivity|]. cbn [map concat flat_map]. rewrite map_app, IH. f_equal. rewrite map_map. apply map_ext_in. intros j Hj. apply in_seq in Hj. destruct (div_pos n W j) as (-> & ->); [lia|reflexivity].
Qed.
Lemma C113_output_2d_lemma f A B X : parallel_fill 0 (fun k => f (row A (k / nrows B)) (row B (k mod nrows B))) (nrows A) (nrows B) X <-> X = concat (output_function_2d f A B).
Proof. rewrite C113_fill_lemma. unfold output_function_2d. rewrite rows_positions. reflexivity. Qed.
Lemma C113_output_3d_lemma f A B C X :
  parallel_fill 0 (fun k => f (row A (k / (nrows B * nrows C))) (row B ((k mod (nrows B * nrows C)) / nrows C)) (row C ((k mod (nrows B * nrows C)) mod nrows C))) (nrows A) (nrows B * nrows C) X <-> X = concat (concat (output_function_3d f A B C)).
Proof.
  rewrite C113_fill_lemma. set (D := nrows B). set (M := nrows C).
  assert (E : concat (concat (map (fun n => map (fun d => map (fun m => f (row A n) (row B d) (row C m)) (seq 0 M)) (seq 0 D)) (seq 0 (nrows A)))) = concat (map (fun n => map (fun j => f (row A n) (row B (j / M)) (row C (j mod M))) (seq 0 (D * M))) (seq 0 (nrows A)))).
  { induction (seq 0 (nrows A)) as [|n ns IH]; [reflexivity|]. cbn [map concat]. rewrite concat_app, IH. f_equal. apply (rows_positions (fun d m => f (row A n) (row B d) (row C m))). }
  assert (G : concat (concat (output_function_3d f A B C)) = map (fun k => f (row A (k / (D * M))) (row B ((k mod (D * M)) / M)) (row C ((k mod (D * M)) mod M))) (seq 0 (nrows A * (D * M)))) by exact (eq_trans E (rows_positions (fun n j => f (row A n) (row B (j / M)) (row C (j mod M))) _ _)).
  rewrite G. reflexivity.
Qed.

(** ** Statements *)
Lemma hits_filter (hit : nat -> bool) ls : Zsum (fun k => b2z (hit k)) ls = Z.of_nat (List.length (filter hit ls)).
Proof. induction ls as [|k ls IH]; [reflexivity|]. rewrite Zsum_cons, IH. cbn [filter]. destruct (hit k); cbn [b2z List.length]; lia. Qed.
Lemma C113_reduction_lemma hit N W r : parallel_count hit N W r <-> r = wrap 64 (Z.of_nat (List.length (filter hit (seq 0 (N * W))))).
Proof. rewrite C113_count_lemma, hits_filter. reflexivity. Qed.
Lemma block_length W rows : List.length (block W rows) = (List.length rows * W)%nat.
Proof. induction rows as [|n rows IH]; [reflexivity|]. cbn [block flat_map]. rewrite app_length, map_length, seq_length. cbn [List.length]. fold (block W rows). lia. Qed.
Lemma C113_completes_lemma hit W dist sched :
  (forall i, (i < List.length dist)%nat -> (List.length (nth i dist []) * W <= count_occ Nat.eq_dec sched i)%nat) ->
  done (count_run hit sched (start W dist)) /\ (forall (A : Type) (g : nat -> A) X, Forall (eq []) (snd (fill_run g sched (X, map (block W) dist)))).
Proof.
  intros H. split.
  - apply count_run_done. unfold start. intros i Hi. rewrite map_length in Hi. rewrite (nth_indep _ _ (Worker (block W []) 0)) by (rewrite map_length; exact Hi). rewrite (map_nth (fun rows => Worker (block W rows) 0)). cbn [w_todo]. rewrite block_length. apply H, Hi.
  - intros A g X. apply fill_run_done. cbn [snd]. intros i Hi. rewrite map_length in Hi. rewrite (nth_indep _ _ (block W [])) by (rewrite map_length; exact Hi). rewrite map_nth, block_length. apply H, Hi.
Qed.
Lemma shape_points X N D : has_shape2 X N D -> (nrows X * ncols X <= N * D)%nat.
Proof. intros (H1 & H2). unfold nrows, ncols. destruct X as [|x X]; [cbn in H1; subst; cbn; lia|]. inversion H2 as [|? ? E _]. cbn [hd]. apply Nat.mul_le_mono; apply Nat.eq_le_incl; [exact H1|exact E]. Qed.
Lemma C113_2d_lemma : forall o i, In (o, i) implemented -> forall out, is_output o i out ->
  exists f, get_scalar_output_function_2d (counted_model (model_name o i)) = Some f /\
  forall A B X N D L, okmat N L A -> okmat D L B -> has_shape2 X N D -> Z.of_nat (N * D) < 2 ^ 63 ->
    forall r, parallel_counter_2d f A B X r <-> r = Z.of_nat (correct2 out X N D L A B).
Proof.
  intros o i Hin out Ho. destruct (C18_2_lemma o i Hin out Ho) as (c & Ec & Hc). unfold make_correct_predictions_counter_2d in Ec. destruct (get_scalar_output_function_2d (counted_model (model_name o i))) as [f|]; [|discriminate]. injection Ec as <-. exists f. split; [reflexivity|].
  intros A B X N D L HA HB HX HP r. rewrite <- (proj1 (Hc A B X N D L HA HB HX)). apply C113_counter_2d_lemma. pose proof (shape_points X N D HX). lia.
Qed.
Lemma C113_3d_lemma : forall o i, In (o, i) implemented -> forall out, is_output o i out ->
  exists f, get_scalar_output_function_3d (counted_model (model_name o i)) = Some f /\
  forall A B C X N D M L, okmat N L A -> okmat D L B -> okmat M L C -> has_shape3 X N D M -> Z.of_nat (N * D * M) < 2 ^ 63 ->
    forall r, parallel_counter_3d f A B C X r <-> r = Z.of_nat (correct3 out X N D M L A B C).
Proof.
  intros o i Hin out Ho. destruct (C18_3_lemma o i Hin out Ho) as (c & Ec & Hc). unfold make_correct_predictions_counter_3d in Ec. destruct (get_scalar_output_function_3d (counted_model (model_name o i))) as [f|]; [|discriminate]. injection Ec as <-. exists f. split; [reflexivity|].
  intros A B C X N D M L HA HB HC HX HP r. rewrite <- (proj1 (Hc A B C X N D M L HA HB HC HX)). apply C113_counter_3d_lemma.
  destruct HX as (H1 & H2). destruct X as [|x X]; [cbn; lia|]. inversion H2 as [|? ? (E1 & E2) _]. cbn [hd]. destruct x as [|y x]; [cbn in E1 |- *; rewrite Nat.mul_0_r; lia|]. inversion E2 as [|? ? E3 _]. cbn [hd].
  eapply Z.le_lt_trans; [|exact HP]. apply Nat2Z.inj_le, Nat.eq_le_incl. rewrite <- Nat.mul_assoc. apply f_equal2; [exact H1|apply f_equal2; [exact E1|exact E3]].
Qed.
Lemma C113_qL_lemma : forall A B X q N D, has_shape2 X N D -> Z.of_nat (N * D) < 2 ^ 63 ->
  forall r, parallel_counter_qL A B X q r <-> r = Z.of_nat (List.length (filter (fun '(n, d) => qL_AND_product (row A n) (row B d) (at1 q d) =? at2 X n d) (cells N D))).
Proof.
  intros A B X q N D HX HP r. rewrite <- (C42_counter_lemma A B X q N D HX). apply C113_counter_qL_lemma. pose proof (shape_points X N D HX). lia.
Qed.
(** Arrays in row-major order. *)
Lemma rows_entries {A} (zero : A) (h : nat -> nat -> A) N W (X : list A) :
  X = map (fun k => h (k / W)%nat (k mod W)%nat) (seq 0 (N * W)) <-> List.length X = (N * W)%nat /\ forall n j, (n < N)%nat -> (j < W)%nat -> nth (n * W + j) X zero = h n j.
Proof.
  split.
  - intros ->. split; [rewrite map_length, seq_length; reflexivity|]. intros n j Hn Hj. assert (HP : (n * W + j < N * W)%nat) by nia.
    rewrite (nth_indep _ _ (h (0 / W)%nat (0 mod W)%nat)) by (rewrite map_length, seq_length; exact HP). rewrite (map_nth (fun k => h (k / W)%nat (k mod W)%nat)), seq_nth by exact HP. cbn [plus]. destruct (div_pos n W j Hj) as (-> & ->). reflexivity.
  - intros (H1 & H2). apply (nth_ext _ _ zero (h (0 / W)%nat (0 mod W)%nat)); [rewrite map_length, seq_length; exact H1|]. intros k Hk. rewrite H1 in Hk. rewrite (map_nth (fun k => h (k / W)%nat (k mod W)%nat)), seq_nth by exact Hk. cbn [plus].
    assert (HW : (W <> 0)%nat) by (intros ->; lia). rewrite <- H2; [|apply Nat.div_lt_upper_bound; lia|apply Nat.mod_upper_bound; exact HW]. f_equal. rewrite (Nat.div_mod k W HW) at 1. lia.
Qed.
Lemma C113_fill_2d {A} (zero : A) (h : nat -> nat -> A) N D X :
  parallel_fill zero (fun k => h (k / D)%nat (k mod D)%nat) N D X <-> List.length X = (N * D)%nat /\ forall n d, (n < N)%nat -> (d < D)%nat -> nth (n * D + d) X zero = h n d.
Proof. rewrite C113_fill_lemma. apply rows_entries. Qed.
Lemma C113_fill_3d {A} (zero : A) (h : nat -> nat -> nat -> A) N D M X :
  parallel_fill zero (fun k => h (k / (D * M))%nat ((k mod (D * M)) / M)%nat ((k mod (D * M)) mod M)%nat) N (D * M) X <->
  List.length X = (N * D * M)%nat /\ forall n d m, (n < N)%nat -> (d < D)%nat -> (m < M)%nat -> nth ((n * D + d) * M + m) X zero = h n d m.
Proof.
  rewrite C113_fill_lemma, (rows_entries zero (fun n j => h n (j / M)%nat (j mod M)%nat)). rewrite Nat.mul_assoc. split; intros (H1 & H2); (split; [exact H1|]).
  - intros n d m Hn Hd Hm. replace ((n * D + d) * M + m)%nat with (n * (D * M) + (d * M + m))%nat by ring. rewrite H2 by nia. destruct (div_pos d M m Hm) as (-> & ->). reflexivity.
  - intros n j Hn Hj. assert (HM : (M <> 0)%nat) by (intros ->; lia). rewrite <- H2; [|exact Hn|apply Nat.div_lt_upper_bound; lia|apply Nat.mod_upper_bound; exact HM]. f_equal. rewrite (Nat.div_mod j M HM) at 1. ring.
Qed.
Lemma C113_outputs_lemma f A B X : parallel_output_2d f A B X <-> X = concat (output_function_2d f A B).
Proof. apply C113_output_2d_lemma. Qed.
Lemma C113_outputs3_lemma f A B C X : parallel_output_3d f A B C X <-> X = concat (concat (output_function_3d f A B C)).
Proof. apply C113_output_3d_lemma. Qed.
Lemma C113_fuzzy_lemma f (A B : rmat) X : parallel_output_2d_fuzzy f A B X <-> List.length X = (nrows A * nrows B)%nat /\
  forall n d, (n < nrows A)%nat -> (d < nrows B)%nat -> ndR_get (output_function_2d_fuzzy f A B) [n; d] = Some (nth (n * nrows B + d) X 0%R).
Proof.
  unfold parallel_output_2d_fuzzy. cbv zeta. rewrite (C113_fill_2d 0%R (fun n d => f (nth n A []) (nth d B []))).
  assert (G : forall n d, (n < nrows A)%nat -> (d < nrows B)%nat -> ndR_get (output_function_2d_fuzzy f A B) [n; d] = Some (f (nth n A []) (nth d B []))).
  { intros n d Hn Hd. unfold output_function_2d_fuzzy. rewrite ndR_build_get by (repeat constructor; assumption). reflexivity. }
  split; intros (H1 & H2); (split; [exact H1|]); intros n d Hn Hd; specialize (H2 n d Hn Hd).
  - rewrite G by assumption. rewrite H2. reflexivity.
  - rewrite G in H2 by assumption. injection H2 as ->. reflexivity.
Qed.
Lemma C113_fuzzy3_lemma f (A B C : rmat) X : parallel_output_3d_fuzzy f A B C X <-> List.length X = (nrows A * nrows B * nrows C)%nat /\
  forall n d m, (n < nrows A)%nat -> (d < nrows B)%nat -> (m < nrows C)%nat -> ndR_get (output_function_3d_fuzzy f A B C) [n; d; m] = Some (nth ((n * nrows B + d) * nrows C + m) X 0%R).
Proof.
  unfold parallel_output_3d_fuzzy. cbv zeta. rewrite (C113_fill_3d 0%R (fun n d m => f (nth n A []) (nth d B []) (nth m C []))).
  assert (G : forall n d m, (n < nrows A)%nat -> (d < nrows B)%nat -> (m < nrows C)%nat -> ndR_get (output_function_3d_fuzzy f A B C) [n; d; m] = Some (f (nth n A []) (nth d B []) (nth m C []))).
  { intros n d m Hn Hd Hm. unfold output_function_3d_fuzzy. rewrite ndR_build_get by (repeat constructor; assumption). reflexivity. }
  split; intros (H1 & H2); (split; [exact H1|]); intros n d m Hn Hd Hm; specialize (H2 n d m Hn Hd Hm).
  - rewrite G by assumption. rewrite H2. reflexivity.
  - rewrite G in H2 by assumption. injection H2 as ->. reflexivity.
Qed.
