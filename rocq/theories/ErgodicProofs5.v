(** Convergence of sequences of Metropolised single-site flips with ties (for C102). A flip loses part of the mean square
    of a function wherever the function differs between two neighbours of different weight, and only passes it on where
    they tie. So a sequence of flips that loses nothing moves the function along the negation of all sites, and whatever
    is told apart on that way would be lost. *)
From Coq Require Import Lra Lia Permutation Relations Classical_Prop.
From Verif Require Import Base BaseR BaseRLemmas ErgodicProofs.
Local Open Scope R_scope.

(** Paths *)
Inductive path {C} (E : C -> C -> Prop) : nat -> C -> C -> Prop :=
| path_0 x : path E 0 x x
| path_S k x y z : E x y \/ E y x -> path E k y z -> path E (S k) x z.
Lemma path_close {C} (E : C -> C -> Prop) h e : 0 <= e -> (forall b b', E b b' -> Rabs (h b - h b') <= e) -> forall k x y, path E k x y -> Rabs (h x - h y) <= INR k * e.
Proof.
  intros He H k x y HP. induction HP as [x|k x y z HE HP IH]; [replace (h x - h x) with 0 by ring; rewrite Rabs_R0; cbn; lra|]. rewrite S_INR. replace (h x - h z) with ((h x - h y) + (h y - h z)) by ring. eapply Rle_trans; [apply Rabs_triang|].
  assert (Rabs (h x - h y) <= e) by (destruct HE as [HE|HE]; [apply H, HE|rewrite Rabs_minus_sym; apply H, HE]). lra.
Qed.
Lemma path_trans {C} (E : C -> C -> Prop) k x y : path E k x y -> forall k' z, path E k' y z -> path E (k + k') x z.
Proof. intros H. induction H as [x|k x y z HE H IH]; intros k' u Hu; [exact Hu|]. cbn. econstructor; [exact HE|]. apply IH, Hu. Qed.
Lemma path_sym {C} (E : C -> C -> Prop) k x y : path E k x y -> path E k y x.
Proof.
  intros H. induction H as [x|k x y z HE H IH]; [constructor|]. replace (S k) with (k + 1)%nat by lia. eapply path_trans; [exact IH|]. econstructor; [destruct HE; [right|left]; eassumption|constructor].
Qed.
Lemma linked_path {C} (E : C -> C -> Prop) x y : clos_refl_sym_trans _ E x y -> exists k, path E k x y.
Proof.
  intros H. induction H as [x y H|x|x y H (k & IH)|x y z H1 (k1 & IH1) H2 (k2 & IH2)].
  - exists 1%nat. econstructor; [left; exact H|constructor].
  - exists 0%nat. constructor.
  - exists k. apply path_sym, IH.
  - exists (k1 + k2)%nat. eapply path_trans; eassumption.
Qed.

Section L2.
Context {C Q : Type} (St : list C) (HSt : NoDup St) (flip : Q -> C -> C) (free : Q -> bool) (sites : list Q) (w : C -> R).
Context (flip_in : forall q c, In q sites -> free q = true -> In c St -> In (flip q c) St).
Context (flip_inv : forall q c, In q sites -> free q = true -> In c St -> flip q (flip q c) = c).
Context (wpos : forall c, In c St -> 0 < w c).
Let Op := op flip free w.
Let Ops := ops flip free w.
Definition good (qs : list Q) : Prop := forall q, In q qs -> In q sites /\ free q = true.
Definition negs (qs : list Q) (c : C) : C := fold_left (fun c q => flip q c) qs c.
Definition norm (h : C -> R) : R := Rsum (fun c => w c * (h c * h c)) St.
Definition drop (a b : R) : R := Rmin a b - Rmin a b * Rmin a b / Rmax a b.

Lemma drop_pair a b x y : 0 < a -> 0 < b -> a * (x * x) - a * ((Rmin 1 (b / a) * y + (1 - Rmin 1 (b / a)) * x) * (Rmin 1 (b / a) * y + (1 - Rmin 1 (b / a)) * x)) + (b * (y * y) - b * ((Rmin 1 (a / b) * x + (1 - Rmin 1 (a / b)) * y) * (Rmin 1 (a / b) * x + (1 - Rmin 1 (a / b)) * y))) = drop a b * ((x - y) * (x - y)).
Proof.
  intros Ha Hb. unfold drop. destruct (Rle_lt_dec a b) as [H|H].
  - rewrite (Rmin_left a b), (Rmax_right a b) by lra. rewrite (Rmin_left 1 (b / a)) by (apply (Rmult_le_reg_l a); [lra|]; replace (a * (b / a)) with b by (field; lra); lra). rewrite (Rmin_right 1 (a / b)) by (apply (Rmult_le_reg_l b); [lra|]; replace (b * (a / b)) with a by (field; lra); lra). field. lra.
  - rewrite (Rmin_right a b), (Rmax_left a b) by lra. rewrite (Rmin_right 1 (b / a)) by (apply (Rmult_le_reg_l a); [lra|]; replace (a * (b / a)) with b by (field; lra); lra). rewrite (Rmin_left 1 (a / b)) by (apply (Rmult_le_reg_l b); [lra|]; replace (b * (a / b)) with a by (field; lra); lra). field. lra.
Qed.
Lemma drop_pos a b : 0 < a -> 0 < b -> 0 <= drop a b /\ (a <> b -> 0 < drop a b).
Proof.
  intros Ha Hb. unfold drop. set (m := Rmin a b). set (M := Rmax a b). assert (Hm : 0 < m) by (apply Rmin_glb_lt; assumption). assert (HM : 0 < M) by (eapply Rlt_le_trans; [exact Ha|apply Rmax_l]).
  assert (E : m - m * m / M = m * (M - m) / M) by (field; lra). rewrite E. assert (mM : m <= M) by (eapply Rle_trans; [apply Rmin_l|apply Rmax_l]). split.
  - apply Rmult_le_pos; [nra|left; apply Rinv_0_lt_compat, HM].
  - intros Hne. apply Rdiv_lt_0_compat; [|exact HM]. apply Rmult_lt_0_compat; [exact Hm|]. unfold m, M, Rmin, Rmax. destruct (Rle_dec a b); lra.
Qed.
Lemma op_drop q h : In q sites -> free q = true -> 2 * (norm h - norm (Op q h)) = Rsum (fun c => drop (w c) (w (flip q c)) * ((h c - h (flip q c)) * (h c - h (flip q c)))) St.
Proof.
  intros Hq Hf. set (g := fun c => w c * (h c * h c) - w c * (Op q h c * Op q h c)). transitivity (Rsum (fun c => g c + g (flip q c)) St).
  - rewrite Rsum_add. rewrite (flip_sum St HSt flip free sites flip_in flip_inv q g Hq Hf). unfold g. rewrite Rsum_sub. unfold norm. ring.
  - apply Rsum_ext. intros c Hc. pose proof (flip_in q c Hq Hf Hc) as Hc'. unfold g, Op, op, accq. rewrite Hf, (flip_inv q c Hq Hf Hc). apply drop_pair; apply wpos; assumption.
Qed.
Lemma norm_op q h : In q sites -> free q = true -> norm (Op q h) <= norm h.
Proof.
  intros Hq Hf. pose proof (op_drop q h Hq Hf) as E. assert (0 <= Rsum (fun c => drop (w c) (w (flip q c)) * ((h c - h (flip q c)) * (h c - h (flip q c)))) St); [|lra]. apply Rsum_nonneg. intros c Hc. apply Rmult_le_pos; [apply drop_pos; apply wpos; auto|]. apply Rle_0_sqr.
Qed.
Lemma good_cons q qs : good (q :: qs) -> In q sites /\ free q = true /\ good qs.
Proof. intros H. destruct (H q (or_introl eq_refl)). split; [assumption|]. split; [assumption|]. intros x Hx. apply H. right. exact Hx. Qed.
Lemma good_app a b : good (a ++ b) <-> good a /\ good b.
Proof. unfold good. split; [intros H; split; intros q Hq; apply H, in_or_app; auto|]. intros (H1 & H2) q Hq. apply in_app_or in Hq. destruct Hq; auto. Qed.
Lemma norm_ops qs h : good qs -> norm (Ops qs h) <= norm h.
Proof. induction qs as [|q qs IH]; intros H; [apply Rle_refl|]. apply good_cons in H. destruct H as (H1 & H2 & H3). unfold Ops. cbn [ops fold_right]. eapply Rle_trans; [apply norm_op; assumption|]. apply IH, H3. Qed.
Lemma negs_in qs : good qs -> forall c, In c St -> In (negs qs c) St.
Proof. induction qs as [|q qs IH]; intros H c Hc; [exact Hc|]. apply good_cons in H. destruct H as (H1 & H2 & H3). cbn [negs fold_left]. apply (IH H3). apply flip_in; assumption. Qed.

(** What is told apart on the way *)
Definition edge (qs : list Q) (b b' : C) : Prop :=
  exists qs1 q qs2 c, qs = (qs1 ++ q :: qs2)%list /\ In c St /\ w (flip q c) <> w c /\ b = negs qs2 c /\ b' = negs qs2 (flip q c).
Lemma edge_cons q qs b b' : edge qs b b' -> edge (q :: qs) b b'.
Proof. intros (a & x & d & c & -> & H). exists (q :: a), x, d, c. split; [reflexivity|exact H]. Qed.

(** Functions that are not told apart move along. *)
Lemma moves qs h : good qs -> (forall b b', edge qs b b' -> h b = h b') -> forall c, In c St -> Ops qs h c = h (negs qs c).
Proof.
  induction qs as [|q qs IH]; intros HG HE c Hc; [reflexivity|]. apply good_cons in HG. destruct HG as (H1 & H2 & H3). unfold Ops. cbn [ops fold_right negs fold_left]. fold (negs qs (flip q c)). fold (ops flip free w qs h). fold (Ops qs h). unfold op. rewrite H2.
  assert (IH' : forall c, In c St -> Ops qs h c = h (negs qs c)) by (apply (IH H3); intros b b' Hb; apply HE, edge_cons, Hb). rewrite !IH' by auto. destruct (Req_dec (w (flip q c)) (w c)) as [E|E].
  - unfold accq. rewrite E. unfold Rdiv. rewrite Rinv_r by (pose proof (wpos c Hc); lra). rewrite Rmin_left by lra. ring.
  - rewrite (HE (negs qs c) (negs qs (flip q c))); [ring|]. exists [], q, qs, c. auto.
Qed.

(** Functions that hardly lose anything hardly differ where they would be told apart. *)
Lemma drop_bound : exists d, 0 < d /\ forall q c, In q sites -> free q = true -> In c St -> w (flip q c) <> w c -> d <= drop (w c) (w (flip q c)).
Proof.
  destruct (pos_bound (fun p => if (free (fst p) && negb (if Req_EM_T (w (flip (fst p) (snd p))) (w (snd p)) then true else false))%bool then drop (w (snd p)) (w (flip (fst p) (snd p))) else 1) (list_prod sites St)) as (m & H1 & H2).
  - intros (q, c) Hp. cbn [fst snd]. apply in_prod_iff in Hp. destruct Hp as (Hq & Hc). destruct (free q) eqn:E; cbn [andb]; [|lra]. destruct (Req_EM_T _ _) as [G|G]; cbn [negb]; [lra|]. apply drop_pos; [apply wpos, Hc|apply wpos, flip_in; assumption|]. intros F. apply G. symmetry. exact F.
  - exists m. split; [exact H1|]. intros q c Hq Hf Hc Hne. specialize (H2 (q, c) (proj2 (in_prod_iff _ _ _ _) (conj Hq Hc))). cbn [fst snd] in H2. rewrite Hf in H2. destruct (Req_EM_T _ _) as [G|G]; [contradiction|]. exact H2.
Qed.
Section Bounds.
Context (d : R) (Hd : 0 < d) (HD : forall q c, In q sites -> free q = true -> In c St -> w (flip q c) <> w c -> d <= drop (w c) (w (flip q c))).
Lemma gap q h eta : In q sites -> free q = true -> 0 <= eta -> 2 * (norm h - norm (Op q h)) <= d * (eta * eta) -> forall c, In c St -> w (flip q c) <> w c -> Rabs (h c - h (flip q c)) <= eta.
Proof.
  intros Hq Hf He H c Hc Hne. rewrite (op_drop q h Hq Hf) in H. set (F := fun c => drop (w c) (w (flip q c)) * ((h c - h (flip q c)) * (h c - h (flip q c)))) in *.
  assert (H1 : F c <= Rsum F St). { apply Rsum_one; [|exact Hc]. intros y Hy. unfold F. apply Rmult_le_pos; [apply drop_pos; apply wpos; auto|]. apply Rle_0_sqr. }
  pose proof (HD q c Hq Hf Hc Hne) as H2. unfold F in H1 at 1. set (x := h c - h (flip q c)) in *. assert (H3 : d * (x * x) <= d * (eta * eta)). { assert (0 <= x * x) by apply Rle_0_sqr. nra. } apply Rmult_le_reg_l in H3; [|exact Hd]. apply Rsqr_le_abs_0 in H3. rewrite (Rabs_pos_eq eta He) in H3. exact H3.
Qed.
Lemma follow qs h eta : good qs -> 0 <= eta -> 2 * (norm h - norm (Ops qs h)) <= d * (eta * eta) -> forall c, In c St -> Rabs (Ops qs h c - h (negs qs c)) <= INR (List.length qs) * eta.
Proof.
  intros HG He. induction qs as [|q qs IH]; intros H c Hc; [unfold Ops; cbn; replace (h c - h c) with 0 by ring; rewrite Rabs_R0; lra|]. apply good_cons in HG. destruct HG as (H1 & H2 & H3).
  change (Ops (q :: qs) h) with (Op q (Ops qs h)) in *. pose proof (norm_op q (Ops qs h) H1 H2) as N1. pose proof (norm_ops qs h H3) as N2. specialize (IH H3 ltac:(lra)).
  cbn [negs fold_left]. fold (negs qs (flip q c)). pose proof (flip_in q c H1 H2 Hc) as Hc'. assert (Near : Rabs (Op q (Ops qs h) c - Ops qs h (flip q c)) <= eta).
  { unfold Op, op. rewrite H2. destruct (Req_dec (w (flip q c)) (w c)) as [E|E].
    - unfold accq. rewrite E. unfold Rdiv. rewrite Rinv_r by (pose proof (wpos c Hc); lra). rewrite Rmin_left by lra. match goal with |- Rabs ?x <= _ => replace x with 0 by ring end. rewrite Rabs_R0. exact He.
    - pose proof (gap q (Ops qs h) eta H1 H2 He ltac:(lra) c Hc E) as G. pose proof (accq_pos St flip free sites w flip_in wpos q c H1 H2 Hc) as A. match goal with |- Rabs ?x <= _ => replace x with ((1 - accq flip w q c) * (Ops qs h c - Ops qs h (flip q c))) by ring end. rewrite Rabs_mult, (Rabs_pos_eq (1 - accq flip w q c)) by lra. pose proof (Rabs_pos (Ops qs h c - Ops qs h (flip q c))). nra. }
  specialize (IH _ Hc'). cbn [List.length]. rewrite S_INR. replace (Op q (Ops qs h) c - h (negs qs (flip q c))) with ((Op q (Ops qs h) c - Ops qs h (flip q c)) + (Ops qs h (flip q c) - h (negs qs (flip q c)))) by ring. eapply Rle_trans; [apply Rabs_triang|]. lra.
Qed.
Lemma edge_close qs h eta : good qs -> 0 <= eta -> 2 * (norm h - norm (Ops qs h)) <= d * (eta * eta) -> forall b b', edge qs b b' -> Rabs (h b - h b') <= (2 * INR (List.length qs) + 1) * eta.
Proof.
  intros HG He H b b' (qs1 & q & qs2 & c & -> & Hc & Hne & -> & ->). apply good_app in HG. destruct HG as (G1 & G2). apply good_cons in G2. destruct G2 as (H1 & H2 & H3).
  assert (EO : Ops (qs1 ++ q :: qs2) h = Ops qs1 (Op q (Ops qs2 h))) by (unfold Ops; rewrite ops_app; reflexivity). rewrite EO in H. pose proof (norm_ops qs1 (Op q (Ops qs2 h)) G1) as N0. pose proof (norm_op q (Ops qs2 h) H1 H2) as N1. pose proof (norm_ops qs2 h H3) as N2.
  pose proof (follow qs2 h eta H3 He ltac:(lra)) as F. pose proof (F c Hc) as F1. pose proof (F _ (flip_in q c H1 H2 Hc)) as F2. pose proof (gap q (Ops qs2 h) eta H1 H2 He ltac:(lra) c Hc Hne) as G.
  rewrite app_length. cbn [List.length]. rewrite plus_INR, S_INR. pose proof (pos_INR (List.length qs1)). pose proof (pos_INR (List.length qs2)). 
  assert (K : Rabs (h (negs qs2 c) - h (negs qs2 (flip q c))) <= (2 * INR (List.length qs2) + 1) * eta).
  { replace (h (negs qs2 c) - h (negs qs2 (flip q c))) with (- (Ops qs2 h c - h (negs qs2 c)) + ((Ops qs2 h c - Ops qs2 h (flip q c)) + (Ops qs2 h (flip q c) - h (negs qs2 (flip q c))))) by ring. eapply Rle_trans; [apply Rabs_triang|]. rewrite Rabs_Ropp. pose proof (Rabs_triang (Ops qs2 h c - Ops qs2 h (flip q c)) (Ops qs2 h (flip q c) - h (negs qs2 (flip q c)))). lra. }
  nra.
Qed.

Lemma contracts n K : exists e, 0 < e <= 1 /\ forall qs, good qs -> (List.length qs <= n)%nat -> (forall x y, In x St -> In y St -> exists k, (k <= K)%nat /\ path (edge qs) k x y) ->
  forall h, Rsum (fun c => w c * h c) St = 0 -> norm (Ops qs h) <= (1 - e) * norm h.
Proof.
  set (W := Rsum w St). assert (W0 : 0 <= W) by (apply Rsum_nonneg; intros c Hc; left; apply wpos, Hc). set (A := INR K * (2 * INR n + 1)). assert (A0 : 0 <= A) by (unfold A; pose proof (pos_INR K); pose proof (pos_INR n); nra). set (B := W * (A * A) * 2 / d). assert (B0 : 0 <= B) by (unfold B; apply Rmult_le_pos; [|left; apply Rinv_0_lt_compat, Hd]; assert (0 <= A * A) by nra; assert (0 <= W * (A * A)) by (apply Rmult_le_pos; assumption); lra).
  exists (/ (B + 1)). split; [split; [apply Rinv_0_lt_compat; lra|]; apply Rle_trans with (/ 1); [apply Rinv_le_contravar; lra|rewrite Rinv_1; lra]|].
  intros qs HG Hn HK h Hm. set (D := norm h - norm (Ops qs h)). assert (D0 : 0 <= D) by (unfold D; pose proof (norm_ops qs h HG); lra). set (eta := sqrt (2 * D / d)). assert (E0 : 0 <= eta) by apply sqrt_pos. assert (EE : d * (eta * eta) = 2 * D). { unfold eta. rewrite sqrt_sqrt; [field; lra|]. apply Rmult_le_pos; [lra|left; apply Rinv_0_lt_compat, Hd]. }
  assert (HE : forall b b', edge qs b b' -> Rabs (h b - h b') <= (2 * INR n + 1) * eta). { intros b b' Hb. eapply Rle_trans; [apply (edge_close qs h eta HG E0); [fold D; lra|exact Hb]|]. apply le_INR in Hn. nra. }
  assert (HR : forall x y, In x St -> In y St -> Rabs (h x - h y) <= A * eta). { intros x y Hx Hy. destruct (HK x y Hx Hy) as (k & Hk & HP). eapply Rle_trans; [apply (path_close (edge qs) h ((2 * INR n + 1) * eta)); [pose proof (pos_INR n); nra|exact HE|exact HP]|]. apply le_INR in Hk. unfold A. pose proof (pos_INR n). assert (0 <= (2 * INR n + 1) * eta) by nra. nra. }
  assert (HS : forall x, In x St -> h x * h x <= A * A * (eta * eta)).
  { intros x Hx. assert (NE : St <> []) by (intros E; rewrite E in Hx; exact Hx). pose proof (mean_between St w wpos h (h x - A * eta) (h x + A * eta) NE) as G. rewrite Hm in G. unfold Rdiv in G. rewrite Rmult_0_l in G. assert (G' : - (A * eta) <= h x <= A * eta). { assert (Q1 : h x - A * eta <= 0 <= h x + A * eta); [|lra]. apply G. intros c Hc. specialize (HR x c Hx Hc). pose proof (Rle_abs (h x - h c)). pose proof (Rle_abs (- (h x - h c))). rewrite Rabs_Ropp in *. lra. }
    assert (0 <= A * eta) by (apply Rmult_le_pos; assumption). replace (A * A * (eta * eta)) with ((A * eta) * (A * eta)) by ring. nra. }
  assert (HN : norm h <= B * D). { unfold norm. apply Rle_trans with (Rsum (fun c => (A * A * (eta * eta)) * w c) St); [apply Rsum_le; intros c Hc; pose proof (wpos c Hc); pose proof (HS c Hc); nra|]. rewrite Rsum_scale. fold W. apply Req_le. unfold B. replace (W * (A * A) * 2 / d * D) with (W * (A * A) * (2 * D) / d) by (field; lra). rewrite <- EE. field. lra. }
  assert (N0 : 0 <= norm h) by (apply Rsum_nonneg; intros c Hc; apply Rmult_le_pos; [left; apply wpos, Hc|apply Rle_0_sqr]). apply (Rmult_le_reg_l (B + 1)); [lra|]. replace ((B + 1) * ((1 - / (B + 1)) * norm h)) with (B * norm h) by (field; lra). unfold D in *. nra.
Qed.
End Bounds.

(** ** Passes *)
Context (is_pass : list Q -> Prop) (pass_good : forall qs, is_pass qs -> good qs).
Lemma passes_good ps : Forall is_pass ps -> good (concat ps).
Proof. intros H q Hq. apply in_concat in Hq. destruct Hq as (l & Hl & Hq). rewrite Forall_forall in H. exact (pass_good l (H l Hl) q Hq). Qed.
Lemma blocks2 m e : 0 < e <= 1 -> (forall ps, Forall is_pass ps -> List.length ps = m -> forall h, Rsum (fun c => w c * h c) St = 0 -> norm (Ops (concat ps) h) <= (1 - e) * norm h) ->
  forall b ps h, Forall is_pass ps -> (b * m <= List.length ps)%nat -> Rsum (fun c => w c * h c) St = 0 -> norm (Ops (concat ps) h) <= (1 - e) ^ b * norm h.
Proof.
  intros He H. induction b as [|b IH]; intros ps h HP HL Hm; [cbn; rewrite Rmult_1_l; apply norm_ops, passes_good, HP|]. set (k := (List.length ps - m)%nat).
  assert (HP1 : Forall is_pass (firstn k ps)) by (apply Forall_forall; intros p Hp; rewrite Forall_forall in HP; apply HP; rewrite <- (firstn_skipn k ps); apply in_or_app; left; exact Hp). assert (HP2 : Forall is_pass (skipn k ps)) by (apply Forall_forall; intros p Hp; rewrite Forall_forall in HP; apply HP; rewrite <- (firstn_skipn k ps); apply in_or_app; right; exact Hp).
  assert (EO : Ops (concat ps) h = Ops (concat (firstn k ps)) (Ops (concat (skipn k ps)) h)) by (unfold Ops; rewrite <- ops_app, <- concat_app, firstn_skipn; reflexivity). rewrite EO.
  eapply Rle_trans; [apply IH; [exact HP1|rewrite firstn_length; unfold k; cbn in HL; lia|]|].
  - rewrite <- Hm. apply (ops_stationary St HSt flip free sites w flip_in flip_inv wpos). intros q Hq. apply (passes_good _ HP2 q Hq).
  - cbn [pow]. assert (L2 : List.length (skipn k ps) = m) by (rewrite skipn_length; unfold k; cbn in HL; lia). specialize (H _ HP2 L2 h Hm). assert (0 <= (1 - e) ^ b) by (apply pow_le; lra). rewrite (Rmult_comm (1 - e)), Rmult_assoc. apply Rmult_le_compat_l; assumption.
Qed.
Lemma converges2 m n K : (forall ps, Forall is_pass ps -> List.length ps = m -> (List.length (concat ps) <= n)%nat /\ forall x y, In x St -> In y St -> exists k, (k <= K)%nat /\ path (edge (concat ps)) k x y) ->
  forall B eps, 0 < eps -> exists T, forall ps, Forall is_pass ps -> (T <= List.length ps)%nat -> forall h, (forall c, In c St -> Rabs (h c) <= B) -> forall c, In c St ->
  Rabs (Ops (concat ps) h c - Rsum (fun c => w c * h c) St / Rsum w St) <= eps.
Proof.
  intros HK B eps Heps. destruct drop_bound as (d & Hd & HD). destruct (contracts d Hd HD n K) as (e & He & HC). destruct (pos_bound w St wpos) as (wm & Hwm & HWm). set (W := Rsum w St).
  assert (W0 : 0 <= W) by (apply Rsum_nonneg; intros c Hc; left; apply wpos, Hc). set (U := W * (4 * (B * B)) + 1). assert (U0 : 0 < U) by (unfold U; assert (0 <= B * B) by apply Rle_0_sqr; assert (0 <= W * (4 * (B * B))) by (apply Rmult_le_pos; lra); lra).
  assert (A1 : Rabs (1 - e) < 1) by (apply Rabs_def1; lra). assert (X0 : 0 < wm * (eps * eps) / U) by (apply Rdiv_lt_0_compat; [apply Rmult_lt_0_compat; [exact Hwm|nra]|exact U0]). destruct (pow_lt_1_zero (1 - e) A1 _ X0) as (b & Hb). exists (b * m)%nat. intros ps HP HL h Hh c Hc.
  assert (NE : St <> []) by (intros E; rewrite E in Hc; exact Hc). assert (Wp : 0 < W) by (unfold W; eapply Rlt_le_trans; [apply (wpos c Hc)|]; apply Rsum_one; [intros y Hy; left; apply wpos, Hy|exact Hc]). set (a := Rsum (fun c => w c * h c) St / W).
  assert (Ba : - B <= a <= B). { apply (mean_between St w wpos h); [exact NE|]. intros x Hx. specialize (Hh x Hx). pose proof (Rle_abs (h x)). pose proof (Rle_abs (- h x)). rewrite Rabs_Ropp in *. lra. }
  set (g := fun x => h x - a). assert (Hg : Rsum (fun c => w c * g c) St = 0). { unfold g. rewrite (Rsum_ext _ (fun c => w c * h c - a * w c)) by (intros; ring). rewrite Rsum_sub, Rsum_scale. unfold a. fold W. field. lra. }
  pose proof (blocks2 m e He) as BL. specialize (BL ltac:(intros ps' HP' HL' h' Hm'; destruct (HK ps' HP' HL') as (K1 & K2); apply HC; [apply passes_good, HP'|exact K1|exact K2|exact Hm']) b ps g HP HL Hg).
  assert (EG : Ops (concat ps) g c = Ops (concat ps) h c - a) by (unfold Ops, g; apply ops_shift). rewrite <- EG. 
  assert (NG : norm g <= U). { unfold norm. apply Rle_trans with (Rsum (fun c => (4 * (B * B)) * w c) St); [|rewrite Rsum_scale; fold W; unfold U; lra]. apply Rsum_le. intros x Hx. pose proof (wpos x Hx). specialize (Hh x Hx). assert (G2 : g x * g x <= 4 * (B * B)). { unfold g. pose proof (Rle_abs (h x)). pose proof (Rle_abs (- h x)). rewrite Rabs_Ropp in *. nra. } nra. }
  assert (N0 : 0 <= norm g) by (apply Rsum_nonneg; intros x Hx; apply Rmult_le_pos; [left; apply wpos, Hx|apply Rle_0_sqr]). specialize (Hb b (Nat.le_refl b)). rewrite Rabs_pos_eq in Hb by (apply pow_le; lra).
  assert (P0 : 0 <= (1 - e) ^ b) by (apply pow_le; lra). assert (F1 : (1 - e) ^ b * norm g <= wm * (eps * eps)). { apply Rle_trans with ((1 - e) ^ b * U); [apply Rmult_le_compat_l; assumption|]. apply (Rmult_lt_compat_r U) in Hb; [|exact U0]. replace (wm * (eps * eps) / U * U) with (wm * (eps * eps)) in Hb by (field; lra). lra. }
  set (v := Ops (concat ps) g c) in *. assert (F2 : w c * (v * v) <= norm (Ops (concat ps) g)). { unfold norm. apply (Rsum_one (fun c => w c * (Ops (concat ps) g c * Ops (concat ps) g c))); [|exact Hc]. intros y Hy. apply Rmult_le_pos; [left; apply wpos, Hy|apply Rle_0_sqr]. }
  pose proof (HWm c Hc) as F3. assert (V0 : 0 <= v * v) by apply Rle_0_sqr. assert (F4 : wm * (v * v) <= wm * (eps * eps)) by nra. apply Rmult_le_reg_l in F4; [|exact Hwm]. apply Rsqr_le_abs_0 in F4. rewrite (Rabs_pos_eq eps) in F4 by lra. exact F4.
Qed.
End L2.
