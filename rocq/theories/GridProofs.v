(** C87: splitting with retries, chunks and the order of configurations in a grid search. *)
From Coq Require Import String Lra Lia.
From Verif Require Import Base BaseLemmas BaseR BaseRLemmas SpecR SpecHelpers Helpers HelpersProofs Spec Canon Fuzzy MaxMachine Machine Dispatch Inference LayerOutput Predict SpecMachine SpecOrdinary SpecPass Experiments SpecExperiments ExperimentProofs ExperimentProofs4.
Local Open Scope R_scope.

(** ** Retries *)
Definition attempt (d : split_draws) (k : nat) (v : vec) (balanced : bool) := split_train_test v ((1 / 10) ^ (k + 1)) balanced (s_rand d k) (s_pos d k) (s_neg d k).
Lemma retry_spec fuel d v b : forall k, match retry_split fuel d k v ((1 / 10) ^ (k + 1)) b with
  | Some r => exists k', attempt d k' v b = Ok r
  | None => forall k', (k <= k' <= k + fuel)%nat -> exists e, attempt d k' v b = Err e end.
Proof.
  induction fuel as [|fuel IH]; intros k; cbn [retry_split]; fold (attempt d k v b); destruct (attempt d k v b) as [r|e] eqn:E; try (exists k; exact E).
  - intros k' H. replace k' with k by lia. exists e. exact E.
  - replace ((1 / 10) ^ (k + 1) * (1 / 10)) with ((1 / 10) ^ (Datatypes.S k + 1)) by (cbn [pow Nat.add]; ring). specialize (IH (Datatypes.S k)). destruct (retry_split _ _ _ _ _ _); [exact IH|].
    intros k' H. destruct (Nat.eq_dec k' k) as [->|N]; [exists e; exact E|]. apply IH. lia.
Qed.
Lemma count_pos_In (f : Z -> bool) v : (0 < count_pos (List.length v) (fun i => f (at1 v i)))%nat <-> exists x, In x v /\ f x = true.
Proof.
  unfold count_pos. split.
  - intros H. destruct (filter (fun i => f (at1 v i)) (seq 0 (List.length v))) as [|i l] eqn:E; [cbn in H; lia|]. assert (Hi : In i (filter (fun i => f (at1 v i)) (seq 0 (List.length v)))) by (rewrite E; left; reflexivity).
    apply filter_In in Hi. destruct Hi as [Hi Hf]. apply in_seq in Hi. exists (at1 v i). split; [|exact Hf]. unfold at1. apply nth_In. lia.
  - intros (x & Hx & Hf). destruct (In_nth v x 0%Z Hx) as (i & Hi & Ei). assert (G : In i (filter (fun i => f (at1 v i)) (seq 0 (List.length v)))) by (apply filter_In; split; [apply in_seq; lia|unfold at1; rewrite Ei; exact Hf]).
    destruct (filter _ _); [destruct G|cbn; lia].
Qed.
Lemma tenth_pos k : 0 < (1 / 10) ^ k.
Proof. apply pow_lt. lra. Qed.
(** All sufficiently late attempts succeed iff a test set can be held out; otherwise none does. *)
Lemma small_tenth (y : R) : 0 < y -> exists N, forall k, (N <= k)%nat -> (1 / 10) ^ (k + 1) < y.
Proof.
  intros Hy. destruct (pow_lt_1_zero (1 / 10) ltac:(rewrite Rabs_right; lra) y Hy) as (N & HN). exists N. intros k Hk. specialize (HN (k + 1)%nat ltac:(lia)). rewrite Rabs_right in HN; [exact HN|]. left. apply tenth_pos.
Qed.
Lemma attempt_possible d v b : splittable b v -> exists N, forall k, (N <= k)%nat -> exists r, attempt d k v b = Ok r.
Proof.
  intros Hs. unfold attempt. destruct b; cbn [splittable] in Hs.
  - destruct Hs as [H1 H2]. destruct (small_tenth (1 / (INR (nobs v) + 1))) as (N & HN). { apply Rdiv_lt_0_compat; [lra|]. pose proof (pos_INR (nobs v)). lra. }
    exists N. intros k Hk. specialize (HN k Hk). pose proof (pos_INR (nobs v)) as Hn. pose proof (tenth_pos (k + 1)) as Ht.
    destruct (C46_success_lemma v ((1 / 10) ^ (k + 1)) (s_rand d k) (s_pos d k) (s_neg d k) ltac:(lra)) as [_ G]. apply (G 0%nat).
    { unfold is_floor. cbn [INR]. split; [apply Rmult_le_pos; [|lra]; apply Rmult_le_pos; lra|]. assert (INR (nobs v) * (1 / 10) ^ (k + 1) <= 1); [|lra]. apply Rle_trans with (INR (nobs v) * (1 / (INR (nobs v) + 1))); [apply Rmult_le_compat_l; lra|]. apply Rmult_le_reg_r with (INR (nobs v) + 1); [lra|]. field_simplify; lra. }
    split; [lia|]. split; [lia|]. split; [apply (count_pos_In (fun x => x =? 1)%Z); exists 1%Z; split; [exact H1|reflexivity]|apply (count_pos_In (fun x => x =? -1)%Z); exists (-1)%Z; split; [exact H2|reflexivity]].
  - assert (Hn : (0 < nobs v)%nat). { unfold nobs. apply (count_pos_In (fun x => negb (x =? 0)%Z)). destruct Hs as (x & Hx & Hne). exists x. split; [exact Hx|]. apply Bool.negb_true_iff. apply Z.eqb_neq. exact Hne. }
    destruct (small_tenth (1 / (INR (List.length v) + 1))) as (N & HN). { apply Rdiv_lt_0_compat; [lra|]. pose proof (pos_INR (List.length v)). lra. }
    exists N. intros k Hk. specialize (HN k Hk). pose proof (pos_INR (List.length v)) as Hl. pose proof (tenth_pos (k + 1)) as Ht.
    destruct (C46_success_lemma v ((1 / 10) ^ (k + 1)) (s_rand d k) (s_pos d k) (s_neg d k) ltac:(lra)) as [G _]. apply G. split; [exact Hn|]. apply Rle_trans with 1; [|replace 1 with (INR 1) by reflexivity; apply le_INR; lia].
    apply Rle_trans with (1 / (INR (List.length v) + 1) * INR (List.length v)); [apply Rmult_le_compat_r; lra|]. apply Rmult_le_reg_r with (INR (List.length v) + 1); [lra|]. field_simplify; lra.
Qed.
Lemma attempt_impossible d v b k r : attempt d k v b = Ok r -> splittable b v.
Proof.
  unfold attempt. intros E. pose proof (tenth_pos (k + 1)) as Ht. destruct (C46_success_lemma v ((1 / 10) ^ (k + 1)) (s_rand d k) (s_pos d k) (s_neg d k) ltac:(lra)) as [G1 G2]. destruct b; cbn [splittable].
  - destruct (trunc_floor (INR (nobs v) * (1 / 10) ^ (k + 1) / 2)) as (S & _ & HS). { apply Rmult_le_pos; [|lra]. apply Rmult_le_pos; [apply pos_INR|lra]. }
    destruct (proj1 (G2 S HS) ltac:(exists r; exact E)) as (_ & _ & H1 & H2). apply (count_pos_In (fun x => x =? 1)%Z) in H1. apply (count_pos_In (fun x => x =? -1)%Z) in H2.
    destruct H1 as (x & Hx & Ex), H2 as (y & Hy & Ey). apply Z.eqb_eq in Ex, Ey. subst. auto.
  - destruct (proj1 G1 ltac:(exists r; exact E)) as (H1 & _). unfold nobs in H1. apply (count_pos_In (fun x => negb (x =? 0)%Z)) in H1. destruct H1 as (x & Hx & Ex). exists x. split; [exact Hx|]. apply Bool.negb_true_iff, Z.eqb_neq in Ex. exact Ex.
Qed.
Lemma retry_split_lemma d v b : (splittable b v -> exists N, forall fuel, (N <= fuel)%nat -> exists r k, retry_split fuel d 0 v (1 / 10) b = Some r /\ attempt d k v b = Ok r) /\
  (~ splittable b v -> forall fuel, retry_split fuel d 0 v (1 / 10) b = None).
Proof.
  assert (E : 1 / 10 = (1 / 10) ^ (0 + 1)) by (cbn; ring). split.
  - intros Hs. destruct (attempt_possible d v b Hs) as (N & HN). exists N. intros fuel Hf. pose proof (retry_spec fuel d v b 0) as H. rewrite <- E in H. destruct (retry_split fuel d 0 v (1 / 10) b) as [r|].
    + destruct H as (k & Hk). exists r, k. auto.
    + destruct (H fuel ltac:(lia)) as (e & He). destruct (HN fuel Hf) as (r & Hr). congruence.
  - intros Hs fuel. pose proof (retry_spec fuel d v b 0) as H. rewrite <- E in H. destruct (retry_split fuel d 0 v (1 / 10) b) as [r|]; [|reflexivity]. destruct H as (k & Hk). destruct (Hs (attempt_impossible _ _ _ _ _ Hk)).
Qed.

(** ** Filling an array *)
Lemma concat_length_shape {A} (m : list (list A)) c : Forall (fun r => List.length r = c) m -> List.length (concat m) = (List.length m * c)%nat.
Proof. induction 1 as [|r m Hr _ IH]; cbn; [reflexivity|]. rewrite app_length, IH, Hr. reflexivity. Qed.
Lemma fill2_spec m : forall v, (List.length (concat m) <= List.length v)%nat -> map (@List.length Z) (fill2 m v) = map (@List.length Z) m /\ concat (fill2 m v) = firstn (List.length (concat m)) v.
Proof.
  induction m as [|r m IH]; intros v H; [split; reflexivity|]. cbn [fill2 concat map] in *. rewrite app_length in *. destruct (IH (skipn (List.length r) v)) as [H1 H2]; [rewrite skipn_length; lia|]. rewrite H1, H2, firstn_length. split; [f_equal; lia|].
  rewrite <- (firstn_skipn (List.length r) (firstn (List.length r + List.length (concat m)) v)). rewrite firstn_firstn, Nat.min_l by lia. f_equal. rewrite skipn_firstn_comm. f_equal. lia.
Qed.
Lemma fill3_spec t : forall v, (List.length (concat (map (@concat Z) t)) <= List.length v)%nat -> map (map (@List.length Z)) (fill3 t v) = map (map (@List.length Z)) t /\ concat (map (@concat Z) (fill3 t v)) = firstn (List.length (concat (map (@concat Z) t))) v.
Proof.
  induction t as [|m t IH]; intros v H; [split; reflexivity|]. cbn [fill3 concat map] in *. rewrite app_length in *. destruct (fill2_spec m v ltac:(lia)) as [G1 G2]. destruct (IH (skipn (List.length (concat m)) v)) as [H1 H2]; [rewrite skipn_length; lia|]. rewrite G1, G2, H1, H2. split; [reflexivity|].
  set (a := List.length (concat m)) in *. set (b := List.length (concat (map (@concat Z) t))) in *.
  rewrite <- (firstn_skipn a (firstn (a + b) v)). rewrite firstn_firstn, Nat.min_l by lia. f_equal. rewrite skipn_firstn_comm. f_equal. lia.
Qed.
Lemma lengths_shape2 (m m' : mat) n c : map (@List.length Z) m' = map (@List.length Z) m -> has_shape2 m n c -> has_shape2 m' n c.
Proof.
  unfold has_shape2. intros E [H1 H2]. split; [rewrite <- H1; transitivity (List.length (map (@List.length Z) m')); [symmetry; apply map_length|rewrite E; apply map_length]|].
  rewrite Forall_forall in *. intros r Hr. assert (Hl : In (List.length r) (map (@List.length Z) m)) by (rewrite <- E; apply in_map; exact Hr). apply in_map_iff in Hl. destruct Hl as (r' & <- & Hr'). apply H2, Hr'.
Qed.
Lemma lengths_nth {A} (m m' : list (list A)) i : map (@List.length A) m' = map (@List.length A) m -> List.length (nth i m' []) = List.length (nth i m []).
Proof. intros E. rewrite <- !(map_nth (@List.length A)). cbn [List.length]. rewrite E. reflexivity. Qed.
Lemma tern_concat (m : mat) : tern2 m <-> tern1 (concat m).
Proof. unfold tern2, tern1. induction m as [|r m IH]; cbn; [split; constructor|]. rewrite Forall_app, <- IH. split; [intros H; inversion H; auto|intros [H1 H2]; constructor; auto]. Qed.
Lemma tern_entries X : ternary X <-> tern1 (entries X).
Proof.
  destruct X as [m|t]; cbn [ternary entries]; [apply tern_concat|]. unfold tern3. induction t as [|m t IH]; cbn; [split; constructor|]. unfold tern1 in *. rewrite Forall_app, <- IH. split; [intros H; inversion H; subst; split; [apply tern_concat|]; assumption|intros [H1 H2]; constructor; [apply tern_concat|]; assumption].
Qed.
Lemma fill_spec X v : List.length v = List.length (entries X) -> rectangular X -> tern1 v -> shape_of (fill X v) = shape_of X /\ entries (fill X v) = v /\ data_ok (fill X v) /\ (matrix2 (fill X v) <-> matrix2 X).
Proof.
  intros Hl HR Ht. assert (G : shape_of (fill X v) = shape_of X /\ entries (fill X v) = v /\ rectangular (fill X v)).
  { destruct X as [m|t]; cbn [fill shape_of entries rectangular] in *.
    - destruct (fill2_spec m v ltac:(lia)) as [E1 E2]. assert (En : nrows (fill2 m v) = nrows m) by (unfold nrows; transitivity (List.length (map (@List.length Z) (fill2 m v))); [symmetry; apply map_length|rewrite E1; apply map_length]).
      assert (Ec : ncols (fill2 m v) = ncols m). { pose proof (lengths_nth m (fill2 m v) 0 E1) as H0. unfold ncols. destruct m, (fill2 _ v); try discriminate E1; [reflexivity|cbn in *; congruence]. }
      rewrite En, Ec. split; [reflexivity|]. split; [rewrite E2, <- Hl, firstn_all; reflexivity|]. eapply lengths_shape2; eassumption.
    - destruct (fill3_spec t v ltac:(lia)) as [E1 E2]. assert (En : List.length (fill3 t v) = List.length t) by (transitivity (List.length (map (map (@List.length Z)) (fill3 t v))); [symmetry; apply map_length|rewrite E1; apply map_length]).
      assert (Eh : map (@List.length Z) (hd [] (fill3 t v)) = map (@List.length Z) (hd [] t)). { destruct t, (fill3 _ v); try discriminate E1; [reflexivity|cbn in *; congruence]. }
      assert (E3 : List.length (hd [] (fill3 t v)) = List.length (hd [] t)) by (transitivity (List.length (map (@List.length Z) (hd [] (fill3 t v)))); [symmetry; apply map_length|rewrite Eh; apply map_length]).
      assert (E4 : List.length (hd [] (hd [] (fill3 t v))) = List.length (hd [] (hd [] t))). { pose proof (lengths_nth _ _ 0 Eh) as H0. destruct (hd [] t), (hd [] (fill3 t v)); try discriminate Eh; [reflexivity|cbn in *; congruence]. }
      rewrite En, E3, E4. split; [reflexivity|]. split; [rewrite E2, <- Hl, firstn_all; reflexivity|]. unfold has_shape3 in *. destruct HR as [R1 R2]. split; [exact En|]. rewrite Forall_forall in *. intros m Hm.
      destruct (In_nth _ _ [] Hm) as (i & Hi & Ei). assert (Em : map (@List.length Z) m = map (@List.length Z) (nth i t [])). { rewrite <- Ei. change (@nil vec) with (@nil (list Z)). rewrite <- !(map_nth (map (@List.length Z))). rewrite E1. reflexivity. }
      eapply lengths_shape2; [exact Em|]. apply R2. apply nth_In. rewrite <- En. exact Hi. }
  destruct G as (G1 & G2 & G3). split; [exact G1|]. split; [exact G2|]. split; [split; [exact G3|apply tern_entries; rewrite G2; exact Ht]|]. destruct X; cbn; split; intros (? & E); try discriminate E; eexists; reflexivity.
Qed.

(** ** Chunks *)
Lemma skipn_twice {A} a b : forall l : list A, skipn b (skipn a l) = skipn (a + b) l.
Proof. induction a as [|a IH]; intros l; [reflexivity|]. destruct l as [|x l]; [cbn; apply skipn_nil|apply IH]. Qed.
Lemma cut_run argsort fuel os clks arrs (good : experiment -> Prop) (Q : nat -> list experiment -> experiment -> outcome -> Prop) c : (0 < c)%nat ->
  (forall k ch, Forall good ch -> exists arrs' rs, run_chunk argsort fuel (os k) arrs (clks k) ch = Some (Ok (arrs', rs)) /\ List.length rs = List.length ch /\
     forall i e r, nth_error ch i = Some e -> nth_error rs i = Some r -> Q k (firstn i ch) e r) ->
  forall n es k, (List.length es <= n)%nat -> Forall good es -> exists rs, run_chunks argsort fuel os clks arrs k (cut n c es) = Some (Ok rs) /\ List.length rs = List.length es /\
    forall j e r, nth_error es j = Some e -> nth_error rs j = Some r -> Q (k + j / c)%nat (firstn (j mod c) (skipn (j / c * c) es)) e r.
Proof.
  intros Hc H. induction n as [|n IH]; intros es k Hn HF.
  - destruct es as [|e es]; [|cbn in Hn; lia]. exists []. split; [reflexivity|]. split; [reflexivity|]. intros [|j] e r E; discriminate E.
  - destruct es as [|e0 es0]; [exists []; split; [reflexivity|]; split; [reflexivity|]; intros [|j] e r E; discriminate E|]. set (es := e0 :: es0) in *.
    change (cut (Datatypes.S n) c es) with (firstn c es :: cut n c (skipn c es)). cbn [run_chunks].
    rewrite <- (firstn_skipn c es) in HF. apply Forall_app in HF. destruct HF as [F1 F2].
    destruct (H k (firstn c es) F1) as (arrs1 & rs1 & R1 & R2 & R3).
    destruct (IH (skipn c es) (Datatypes.S k)) as (rs2 & S1 & S2 & S3); [rewrite skipn_length; unfold es in *; cbn [List.length] in *; lia|exact F2|].
    rewrite R1, S1. exists (rs1 ++ rs2). split; [reflexivity|]. split; [rewrite app_length, R2, S2, <- app_length, firstn_skipn; reflexivity|]. intros j e r E1 E2.
    destruct (lt_dec j (List.length rs1)) as [Hj|Hj].
    + rewrite nth_error_app1 in E2 by exact Hj. rewrite R2, firstn_length in Hj. rewrite Nat.div_small, Nat.mod_small by lia. rewrite Nat.add_0_r. cbn [Nat.mul skipn]. assert (E1' : nth_error (firstn c es) j = Some e).
      { rewrite <- (firstn_skipn c es), nth_error_app1 in E1 by (rewrite firstn_length; lia). exact E1. }
      specialize (R3 j e r E1' E2). rewrite firstn_firstn, Nat.min_l in R3 by lia. exact R3.
    + rewrite nth_error_app2 in E2 by lia. assert (Hlen : List.length rs1 = c). { assert (nth_error es j <> None) by congruence. apply nth_error_Some in H0. rewrite R2, firstn_length in *. lia. }
      assert (Hc1 : List.length (firstn c es) = c) by congruence. rewrite Hlen in *. assert (E1' : nth_error (skipn c es) (j - c) = Some e). { rewrite <- (firstn_skipn c es), nth_error_app2 in E1 by lia. rewrite Hc1 in E1. exact E1. }
      specialize (S3 (j - c)%nat e r E1' E2). replace j with ((j - c) + 1 * c)%nat by lia. rewrite Nat.div_add, Nat.mod_add by lia. replace (k + ((j - c) / c + 1))%nat with (Datatypes.S k + (j - c) / c)%nat by lia.
      replace (((j - c) / c + 1) * c)%nat with (c + (j - c) / c * c)%nat by lia. rewrite <- skipn_twice. exact S3.
Qed.
Lemma chunk_size_pos n : (0 < n)%nat -> (0 < chunk_size n)%nat.
Proof. intros H. unfold chunk_size. destruct (Nat.eqb_spec (n mod 112) 0) as [E|E]; [|lia]. pose proof (Nat.div_mod n 112 ltac:(lia)). lia. Qed.
Lemma chunk_size_one n : (0 < n <= 112)%nat -> chunk_size n = 1%nat.
Proof. intros H. unfold chunk_size. pose proof (Nat.div_mod n 112 ltac:(lia)) as E. pose proof (Nat.mod_upper_bound n 112 ltac:(lia)). destruct (Nat.eqb_spec (n mod 112) 0) as [E0|E0]; nia. Qed.
(** Experiments on data of another type. *)
Lemma chunk_convert argsort o X es : forall arrs clk, random o -> 
  Forall (fun e => e_train e = Convert X /\ admissible arrs e X /\ runs_on X (e_model e)) es ->
  forall fuel, (1002 <= fuel)%nat -> exists arrs' rs, run_chunk argsort fuel o arrs clk es = Some (Ok (arrs', rs)) /\ List.length rs = List.length es /\
    forall k e r, nth_error es k = Some e -> nth_error rs k = Some r -> exists arrs_k clk_k arrs_k' clk_k', LOM_predictive argsort fuel o arrs_k clk_k e = Some (Ok (arrs_k', clk_k', r)).
Proof.
  induction es as [|e es IH]; intros arrs clk Hr HF fuel Hf.
  - exists arrs, []. split; [reflexivity|]. split; [reflexivity|]. intros [|k] e r E; discriminate E.
  - inversion HF as [|? ? (Et & AD & oo & ii & o' & i' & inv & invf & EM & EC & HX) HF']; subst. destruct (C86_lemma argsort o arrs clk e oo ii o' i' inv invf X Hr EM EC AD HX fuel Hf) as (arrs1 & clk1 & r & H1 & _).
    destruct (IH arrs1 clk1 Hr) with (fuel := fuel) as (arrs' & rs & R1 & R2 & R3); [|exact Hf|].
    { eapply Forall_impl; [|exact HF']. intros e1 (E1 & (_ & A) & E3). split; [exact E1|]. split; [|exact E3]. split; [rewrite E1; reflexivity|exact A]. }
    exists arrs', (r :: rs). cbn [run_chunk]. rewrite H1, R1. split; [reflexivity|]. split; [cbn; rewrite R2; reflexivity|]. intros [|k] e0 r0 E1 E2; cbn [nth_error] in E1, E2; [injection E1 as <-; injection E2 as <-; eauto|eauto].
Qed.

(** ** Configurations *)
Lemma seq_plus p n : forall a, seq (p + a) n = map (fun j => (j + 1 * p)%nat) (seq a n).
Proof. induction n as [|n IH]; intros a; [reflexivity|]. cbn [seq map]. f_equal; [lia|]. replace (Datatypes.S (p + a)) with (p + Datatypes.S a)%nat by lia. apply IH. Qed.
Lemma flat_map_seq {A B} (f : A -> list B) (dA : A) p (g : A -> nat -> B) l : (0 < p)%nat -> (forall x, In x l -> f x = map (g x) (seq 0 p)) -> flat_map f l = map (fun j => g (nth (j / p) l dA) (j mod p)%nat) (seq 0 (List.length l * p)).
Proof.
  intros Hp. induction l as [|x l IH]; intros H; [reflexivity|]. cbn [flat_map List.length Nat.mul]. rewrite seq_app, map_app, (H x (or_introl eq_refl)), IH by (intros y Hy; apply H; right; exact Hy). f_equal.
  - apply map_ext_in. intros j Hj. apply in_seq in Hj. rewrite Nat.div_small, Nat.mod_small by lia. reflexivity.
  - cbn [Nat.add]. replace (seq p (List.length l * p)) with (map (fun j => (j + 1 * p)%nat) (seq 0 (List.length l * p))) by (rewrite <- seq_plus, Nat.add_0_r; reflexivity). rewrite map_map. apply map_ext. intros j. rewrite Nat.div_add, Nat.mod_add by lia. rewrite Nat.add_comm. reflexivity.
Qed.
Definition configuration (truth : vec) (s : source) (mask : list bool) (ms : list string) (Ls : list nat) (n : nat) (lb : R) (an : bool) (j : nat) : experiment :=
  {| e_truth := truth; e_train := s; e_mask := mask; e_model := model_at ms (List.length Ls) n j; e_latent := latent_at Ls n j; e_lbda := lb; e_anneal := an |}.
Lemma configurations_seq truth s mask ms Ls n lb an : configurations truth s mask ms Ls n lb an = map (configuration truth s mask ms Ls n lb an) (seq 0 (List.length ms * (List.length Ls * n))).
Proof.
  unfold configurations. destruct (Nat.eq_dec n 0) as [->|Hn]; [rewrite !Nat.mul_0_r; cbn [seq map]; induction ms as [|m ms IH]; [reflexivity|]; cbn [flat_map]; rewrite IH, app_nil_r; clear; induction Ls as [|L Ls IH]; [reflexivity|exact IH]|].
  destruct (Nat.eq_dec (List.length Ls) 0) as [El|Hl]; [destruct Ls; [|discriminate El]; cbn [List.length Nat.mul]; rewrite Nat.mul_0_r; cbn [seq map flat_map]; induction ms as [|m ms IH]; [reflexivity|exact IH]|].
  assert (Hp : (0 < List.length Ls * n)%nat) by nia.
  rewrite (flat_map_seq _ ""%string (List.length Ls * n) (fun m j => {| e_truth := truth; e_train := s; e_mask := mask; e_model := m; e_latent := nth (j / n) Ls 0%nat; e_lbda := lb; e_anneal := an |}) ms Hp).
  - apply map_ext. intros j. unfold configuration, model_at, latent_at. f_equal. f_equal. rewrite (Nat.mul_comm (List.length Ls) n), Nat.mod_mul_r by lia. rewrite Nat.mul_comm, Nat.div_add by lia. rewrite (Nat.div_small (j mod n)) by (apply Nat.mod_upper_bound; lia). reflexivity.
  - intros m _. rewrite (flat_map_seq _ 0%nat n (fun L _ => {| e_truth := truth; e_train := s; e_mask := mask; e_model := m; e_latent := L; e_lbda := lb; e_anneal := an |}) Ls) by (lia || reflexivity). reflexivity.
Qed.
Lemma before_chunk {A} (f : nat -> A) N c j : (j < N)%nat -> firstn (j mod c) (skipn (j / c * c) (map f (seq 0 N))) = map f (seq (j / c * c) (j mod c)).
Proof.
  intros Hj. assert (Hd : j = (c * (j / c) + j mod c)%nat). { destruct (Nat.eq_dec c 0) as [->|Hc]; [cbn; reflexivity|]. apply Nat.div_mod, Hc. }
  rewrite skipn_map, firstn_map. f_equal. set (a := (j / c * c)%nat) in *. set (b := (j mod c)%nat) in *. assert (a + b <= N)%nat by lia. replace N with (a + (b + (N - a - b)))%nat by lia. rewrite seq_app, skipn_app, seq_length, Nat.sub_diag. cbn [skipn Nat.add]. rewrite skipn_all2 by (rewrite seq_length; lia). cbn [app].
  rewrite seq_app, firstn_app, seq_length, Nat.sub_diag. cbn [firstn]. rewrite app_nil_r, firstn_all2 by (rewrite seq_length; lia). reflexivity.
Qed.

(** ** The whole search *)
Lemma entries_size X : rectangular X -> (forall n, In n (shape_of X) -> (0 < n)%nat) -> List.length (entries X) = fold_right Nat.mul 1%nat (shape_of X).
Proof.
  destruct X as [m|t]; cbn [rectangular shape_of entries fold_right].
  - intros [H1 H2] _. rewrite Nat.mul_1_r. exact (concat_length_shape m (ncols m) H2).
  - intros [H1 H2] _. rewrite (concat_length_shape (map (@concat Z) t) (List.length (hd [] t) * List.length (hd [] (hd [] t)))); [rewrite map_length, Nat.mul_1_r; reflexivity|].
    rewrite Forall_map. eapply Forall_impl; [|exact H2]. intros m [G1 G2]. rewrite <- G1. exact (concat_length_shape m _ G2).
Qed.
Lemma positions_lt shape idx : In idx (indices shape) -> (position shape idx < fold_right Nat.mul 1 shape)%nat.
Proof. intros H. assert (In (position shape idx) (seq 0 (fold_right Nat.mul 1%nat shape))) by (rewrite <- positions_seq; apply in_map, H). apply in_seq in H0. lia. Qed.
Lemma split_held X d k b tr mask : draws_ok b (entries X) d -> data_ok X -> attempt d k (entries X) b = Ok (tr, mask) -> held_out X (fill X tr) mask /\ data_ok (fill X tr) /\ (matrix2 (fill X tr) <-> matrix2 X).
Proof.
  intros Hd (HR & HT) E. unfold attempt in E. pose proof (tenth_pos (k + 1)) as Ht. apply tern_entries in HT.
  destruct (C46_lemma (entries X) ((1 / 10) ^ (k + 1)) b (s_rand d k) (s_pos d k) (s_neg d k) tr mask (Rlt_le _ _ Ht) (fun Hb S HS => Hd Hb k S HS) E) as (L1 & L2 & H & _).
  assert (Tt : tern1 tr). { unfold tern1 in *. rewrite Forall_forall in *. intros x Hx. destruct (In_nth _ _ 0%Z Hx) as (i & Hi & <-). rewrite L1 in Hi. destruct (H i Hi) as [_ E2]. unfold at1 in E2. rewrite E2. destruct (nth i mask false); [unfold tern; auto|]. apply HT, nth_In, Hi. }
  destruct (fill_spec X tr L1 HR Tt) as (F1 & F2 & F3 & F4). split; [|split; assumption]. unfold held_out. rewrite F2. split; [exact F1|]. split; [exact L1|]. split; [exact L2|]. intros i Hi. rewrite L2 in Hi. destruct (H i Hi) as [H1 H2]. split; [exact H2|exact H1].
Qed.
Lemma held_admissible X T mask arrs s m L lb an : data_ok X -> data_ok T -> (matrix2 X -> small X) -> (matrix2 T <-> matrix2 X) -> (forall n, In n (shape_of X) -> (0 < n)%nat) -> (an = true -> lb <> 0) -> held_out X T mask -> training_data arrs s T ->
  admissible arrs {| e_truth := entries X; e_train := s; e_mask := mask; e_model := m; e_latent := L; e_lbda := lb; e_anneal := an |} T.
Proof.
  intros HX HT Hs H2 Hn Hl (E1 & E2 & E3 & E4) Hd. pose proof (entries_size X (proj1 HX) Hn) as ES. unfold admissible. cbn [e_truth e_train e_mask e_model e_latent e_lbda e_anneal]. rewrite E1. split; [exact Hd|]. split; [exact HT|].
  split; [rewrite H2; unfold small; rewrite E1; exact Hs|]. split; [exact Hn|]. split; [congruence|]. split; [exact ES|]. split; [|exact Hl].
  intros idx Hi Hm. pose proof (positions_lt _ _ Hi) as Hp. destruct (E4 (position (shape_of X) idx) ltac:(rewrite E3, ES; exact Hp)) as [_ H]. specialize (H Hm). destruct HX as [_ HX]. apply tern_entries in HX. unfold tern1 in HX. rewrite Forall_forall in HX.
  specialize (HX (at1 (entries X) (position (shape_of X) idx))). unfold at1 in *. destruct (HX ltac:(apply nth_In; rewrite ES; exact Hp)) as [E|[E|E]]; auto. contradiction.
Qed.
Lemma filter_map_length {A} (f : experiment -> bool) (g : A -> experiment) (h : A -> bool) l : (forall x, f (g x) = h x) -> List.length (filter f (map g l)) = List.length (filter h l).
Proof. intros H. induction l as [|x l IH]; [reflexivity|]. cbn. rewrite H. destruct (h x); cbn; rewrite IH; reflexivity. Qed.
Lemma C87_lemma argsort os clks d X int8 ms Ls n lb balanced an : (forall k, random (os k)) -> draws_ok balanced (entries X) d -> splittable balanced (entries X) ->
  data_ok X -> (matrix2 X -> small X) -> (forall k, In k (shape_of X) -> (0 < k)%nat) -> Forall (runs_on X) ms -> (an = true -> lb <> 0) ->
  exists N, forall sfuel fuel, (N <= sfuel)%nat -> (1002 <= fuel)%nat -> exists T mask rs,
    gridsearch argsort sfuel fuel os clks d X int8 (Some ms) Ls n lb balanced an = Some (Ok rs) /\ held_out X T mask /\
    let total := (List.length ms * (List.length Ls * n))%nat in let c := chunk_size total in List.length rs = total /\
    forall j r, nth_error rs j = Some r -> let m := model_at ms (List.length Ls) n j in let L := latent_at Ls n j in
      r_model r = m /\ r_size r = L /\ exists arrs clk arrs' clk' Y,
      let e := {| e_truth := entries X; e_train := if int8 then Given 0 else Convert T; e_mask := mask; e_model := m; e_latent := L; e_lbda := lb; e_anneal := an |} in
      LOM_predictive argsort fuel (os (j / c)%nat) arrs clk e = Some (Ok (arrs', clk', r)) /\ admissible arrs e Y /\
      if int8 && Nat.odd (List.length (filter (fun i => negates_data (model_at ms (List.length Ls) n i)) (seq (j / c * c) (j mod c)))) then opposite T Y else Y = T.
Proof.
  intros Hr Hd Hs HX Hsm Hn Hms Hl. destruct (retry_split_lemma d (entries X) balanced) as [G _]. destruct (G Hs) as (N & HN). exists N. intros sfuel fuel H1 H2. destruct (HN sfuel H1) as ([tr mask] & k & R1 & R2).
  destruct (split_held X d k balanced tr mask Hd HX R2) as (HO & HT & HM). set (T := fill X tr) in *. unfold gridsearch. rewrite R1. fold T. cbv zeta.
  set (s := if int8 then Given 0 else Convert T). set (arrs := if int8 then [T] else []). rewrite configurations_seq, map_length, seq_length. set (total := (List.length ms * (List.length Ls * n))%nat). set (cf := configuration (entries X) s mask ms Ls n lb an).
  assert (TD : training_data arrs s T) by (unfold arrs, s; destruct int8; reflexivity).
  assert (AD : forall j, admissible arrs (cf j) T) by (intros j; apply (held_admissible X); assumption).
  assert (RO : forall j, (j < total)%nat -> runs_on T (model_at ms (List.length Ls) n j)).
  { intros j Hj. unfold model_at. rewrite Forall_forall in Hms. destruct (Hms (nth (j / (List.length Ls * n)) ms ""%string)) as (oo & ii & o' & i' & inv & invf & E1 & E2 & E3); [apply nth_In; apply Nat.div_lt_upper_bound; unfold total in Hj; nia|]. exists oo, ii, o', i', inv, invf. rewrite HM. auto. }
  destruct (Nat.eq_dec total 0) as [E0|N0].
  { rewrite E0. cbn. exists T, mask, []. split; [reflexivity|]. split; [exact HO|]. split; [reflexivity|]. intros [|j] r E; discriminate E. }
  destruct (cut_run argsort fuel os clks arrs (fun e => exists j, (j < total)%nat /\ e = cf j)
     (fun k bef e r => exists arrs clk arrs' clk' Y, LOM_predictive argsort fuel (os k) arrs clk e = Some (Ok (arrs', clk', r)) /\ admissible arrs e Y /\ (if int8 && Nat.odd (List.length (filter inverts bef)) then opposite T Y else Y = T))
     (chunk_size total) (chunk_size_pos total ltac:(lia))) with (n := total) (es := map cf (seq 0 total)) (k := 0%nat) as (rs & Q1 & Q2 & Q3).
  - intros k0 ch HF. destruct int8.
    + destruct (C86_chunk_lemma argsort (os k0) 0 T ch arrs (clks k0) (Hr k0)) with (fuel := fuel) as (arrs' & rs & Q1 & Q2 & Q3); [|exact H2|].
      { eapply Forall_impl; [|exact HF]. intros e (j & Hj & ->). split; [reflexivity|]. split; [apply AD|]. destruct (RO j Hj) as (oo & ii & o' & i' & inv & invf & E1 & E2 & E3). exists oo, ii, o', i', inv, invf. auto. }
      exists arrs', rs. split; [exact Q1|]. split; [exact Q2|]. intros i e r E1 E2. destruct (Q3 i e r E1 E2) as (x1 & x2 & x3 & x4 & Y & Y1 & Y2 & Y3 & Y4). exists x1, x2, x3, x4, Y. split; [exact Y1|]. split; [exact Y4|exact Y3].
    + destruct (chunk_convert argsort (os k0) T ch arrs (clks k0) (Hr k0)) with (fuel := fuel) as (arrs' & rs & Q1 & Q2 & Q3); [|exact H2|].
      { eapply Forall_impl; [|exact HF]. intros e (j & Hj & ->). split; [reflexivity|]. split; [apply AD|apply RO, Hj]. }
      exists arrs', rs. split; [exact Q1|]. split; [exact Q2|]. intros i e r E1 E2. destruct (Q3 i e r E1 E2) as (x1 & x2 & x3 & x4 & Y1). exists x1, x2, x3, x4, T. split; [exact Y1|]. split; [|reflexivity].
      rewrite Forall_forall in HF. destruct (HF e (nth_error_In _ _ E1)) as (j & Hj & ->). destruct (AD j) as (_ & A). split; [reflexivity|exact A].
  - rewrite map_length, seq_length. lia.
  - rewrite Forall_forall. intros e He. apply in_map_iff in He. destruct He as (j & <- & Hj). apply in_seq in Hj. exists j. split; [lia|reflexivity].
  - exists T, mask, rs. split; [exact Q1|]. split; [exact HO|]. rewrite map_length, seq_length in Q2. split; [exact Q2|]. intros j r Er.
    assert (Hj : (j < total)%nat) by (rewrite <- Q2; apply nth_error_Some; congruence).
    assert (Ej : nth_error (map cf (seq 0 total)) j = Some (cf j)). { rewrite nth_error_map. rewrite (nth_error_nth' (seq 0 total) 0%nat) by (rewrite seq_length; exact Hj). rewrite seq_nth by exact Hj. reflexivity. }
    destruct (Q3 j (cf j) r Ej Er) as (x1 & x2 & x3 & x4 & Y & Y1 & Y2 & Y3). rewrite before_chunk in Y3 by exact Hj. rewrite (filter_map_length inverts cf (fun i => negates_data (model_at ms (List.length Ls) n i))) in Y3 by reflexivity.
    destruct (RO j Hj) as (oo & ii & o' & i' & inv & invf & E1 & E2 & E3). rewrite Nat.add_0_l in *.
    assert (E3' : matrix2 Y \/ (o', i') = (OR, AND)). { destruct E3 as [E3|E3]; [left|right; exact E3]. destruct (int8 && _); [|subst Y; exact E3]. destruct Y3 as [Y3 _]. destruct E3 as (m0 & E3). rewrite E3 in Y3. destruct Y; [eexists; reflexivity|discriminate Y3]. }
    destruct (C85_lemma argsort (os (j / chunk_size total)%nat) x1 x2 (cf j) oo ii o' i' inv invf Y (Hr _) E1 E2 Y2 E3' fuel H2) as (w & D & st & ar & r' & p & _ & _ & _ & _ & Z1 & Z2 & Z3 & _). rewrite Y1 in Z1. injection Z1 as _ _ <-.
    split; [exact Z2|]. split; [exact Z3|]. exists x1, x2, x3, x4, Y. auto.
Qed.
(** At most 112 experiments, or data of another type. *)
Lemma C87_partial_lemma argsort os clks d X int8 ms Ls n lb balanced an : (forall k, random (os k)) -> draws_ok balanced (entries X) d -> splittable balanced (entries X) ->
  data_ok X -> (matrix2 X -> small X) -> (forall k, In k (shape_of X) -> (0 < k)%nat) -> Forall (runs_on X) ms -> (an = true -> lb <> 0) ->
  let total := (List.length ms * (List.length Ls * n))%nat in int8 = false \/ (total <= 112)%nat ->
  exists N, forall sfuel fuel, (N <= sfuel)%nat -> (1002 <= fuel)%nat -> exists T mask rs,
    gridsearch argsort sfuel fuel os clks d X int8 (Some ms) Ls n lb balanced an = Some (Ok rs) /\ held_out X T mask /\ List.length rs = total /\
    forall j r, nth_error rs j = Some r -> let m := model_at ms (List.length Ls) n j in let L := latent_at Ls n j in
      r_model r = m /\ r_size r = L /\ exists k arrs clk arrs' clk',
      let e := {| e_truth := entries X; e_train := if int8 then Given 0 else Convert T; e_mask := mask; e_model := m; e_latent := L; e_lbda := lb; e_anneal := an |} in
      LOM_predictive argsort fuel (os k) arrs clk e = Some (Ok (arrs', clk', r)) /\ admissible arrs e T.
Proof.
  intros H1 H2 H3 H4 H5 H6 H7 H8 total HS. destruct (C87_lemma argsort os clks d X int8 ms Ls n lb balanced an H1 H2 H3 H4 H5 H6 H7 H8) as (N & HN). exists N. intros sfuel fuel G1 G2. destruct (HN sfuel fuel G1 G2) as (T & mask & rs & R1 & R2 & R3 & R4). fold total in R3, R4.
  exists T, mask, rs. split; [exact R1|]. split; [exact R2|]. split; [exact R3|]. intros j r Er. destruct (R4 j r Er) as (S1 & S2 & arrs & clk & arrs' & clk' & Y & S3 & S4 & S5). split; [exact S1|]. split; [exact S2|].
  assert (EY : Y = T). { destruct HS as [->|HS]; [exact S5|]. assert (Hj : (j < total)%nat) by (rewrite <- R3; apply nth_error_Some; congruence). rewrite (chunk_size_one total) in S5 by lia. rewrite Nat.mod_1_r in S5. cbn [seq filter List.length Nat.odd] in S5. rewrite Bool.andb_false_r in S5. exact S5. }
  subst Y. exists (j / chunk_size total)%nat, arrs, clk, arrs', clk'. split; assumption.
Qed.
(** More experiments on an int8 array: the second one is trained on negated data if the first model negates data. *)
Lemma C87_refuted_lemma argsort os clks d X ms Ls n lb balanced an : (forall k, random (os k)) -> draws_ok balanced (entries X) d -> splittable balanced (entries X) ->
  data_ok X -> (matrix2 X -> small X) -> (forall k, In k (shape_of X) -> (0 < k)%nat) -> Forall (runs_on X) ms -> (an = true -> lb <> 0) ->
  (112 < List.length ms * (List.length Ls * n))%nat -> negates_data (hd ""%string ms) = true ->
  exists N, forall sfuel fuel, (N <= sfuel)%nat -> (1002 <= fuel)%nat -> exists T mask rs r,
    gridsearch argsort sfuel fuel os clks d X true (Some ms) Ls n lb balanced an = Some (Ok rs) /\ held_out X T mask /\ nth_error rs 1 = Some r /\
    exists k arrs clk arrs' clk' Y,
      let e := {| e_truth := entries X; e_train := Given 0; e_mask := mask; e_model := model_at ms (List.length Ls) n 1; e_latent := latent_at Ls n 1; e_lbda := lb; e_anneal := an |} in
      LOM_predictive argsort fuel (os k) arrs clk e = Some (Ok (arrs', clk', r)) /\ nth_error arrs 0 = Some Y /\ opposite T Y.
Proof.
  intros H1 H2 H3 H4 H5 H6 H7 H8 HS HI. destruct (C87_lemma argsort os clks d X true ms Ls n lb balanced an H1 H2 H3 H4 H5 H6 H7 H8) as (N & HN). exists N. intros sfuel fuel G1 G2. destruct (HN sfuel fuel G1 G2) as (T & mask & rs & R1 & R2 & R3 & R4).
  set (total := (List.length ms * (List.length Ls * n))%nat) in *. destruct (nth_error rs 1) as [r|] eqn:Er; [|apply nth_error_None in Er; lia]. exists T, mask, rs, r. split; [exact R1|]. split; [exact R2|]. split; [exact Er|].
  destruct (R4 1%nat r Er) as (_ & _ & arrs & clk & arrs' & clk' & Y & S3 & S4 & S5). exists (1 / chunk_size total)%nat, arrs, clk, arrs', clk', Y. split; [exact S3|]. destruct S4 as [S4 _]. split; [exact S4|].
  assert (HC : (2 <= chunk_size total)%nat). { unfold chunk_size. pose proof (Nat.div_mod total 112 ltac:(lia)) as E. pose proof (Nat.mod_upper_bound total 112 ltac:(lia)). destruct (Nat.eqb_spec (total mod 112) 0) as [E0|E0]; nia. }
  rewrite Nat.div_small, Nat.mod_small in S5 by lia. cbn [Nat.mul seq filter] in S5. unfold model_at in S5 at 1. rewrite Nat.div_0_l in S5 by (intros E; unfold total in HS; rewrite E, Nat.mul_0_r in HS; lia). replace (nth 0 ms ""%string) with (hd ""%string ms) in S5 by (destruct ms; reflexivity). rewrite HI in S5. exact S5.
Qed.
Lemma C87_unsplittable_lemma argsort os clks d X int8 ms Ls n lb balanced an : ~ splittable balanced (entries X) -> forall sfuel fuel, gridsearch argsort sfuel fuel os clks d X int8 (Some ms) Ls n lb balanced an = None.
Proof. intros H sfuel fuel. unfold gridsearch. rewrite (proj2 (retry_split_lemma d (entries X) balanced) H). reflexivity. Qed.
