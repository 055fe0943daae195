(** Convergence of passes of Metropolised single-site flips in random orders, with ties (for C103). *)
From Coq Require Import Lra Lia Permutation Relations Classical_Prop.
From Verif Require Import Base BaseR BaseRLemmas SpecPass ErgodicProofs ErgodicProofs5.
Local Open Scope R_scope.

(** Means over lists *)
Definition Avg {A} (l : list A) (f : A -> R) : R := Rsum f l / INR (List.length l).
Lemma len_pos {A} (l : list A) : l <> [] -> 0 < INR (List.length l).
Proof. intros H. apply lt_0_INR. destruct l; [congruence|cbn; lia]. Qed.
Lemma Avg_ext {A} (l : list A) f g : (forall x, In x l -> f x = g x) -> Avg l f = Avg l g.
Proof. intros H. unfold Avg. rewrite (Rsum_ext f g); [reflexivity|exact H]. Qed.
Lemma Avg_const {A} (l : list A) k : l <> [] -> Avg l (fun _ => k) = k.
Proof. intros H. unfold Avg. rewrite Rsum_const. field. pose proof (len_pos l H). lra. Qed.
Lemma Avg_lin {A} (l : list A) a b f g : Avg l (fun x => a * f x + b * g x) = a * Avg l f + b * Avg l g.
Proof. unfold Avg. rewrite Rsum_add, !Rsum_scale. unfold Rdiv. ring. Qed.
Lemma Avg_scale {A} (l : list A) a f : Avg l (fun x => a * f x) = a * Avg l f.
Proof. unfold Avg. rewrite Rsum_scale. unfold Rdiv. ring. Qed.
Lemma Avg_le {A} (l : list A) f g : l <> [] -> (forall x, In x l -> f x <= g x) -> Avg l f <= Avg l g.
Proof. intros H1 H2. unfold Avg. apply Rmult_le_compat_r; [left; apply Rinv_0_lt_compat, len_pos, H1|]. apply Rsum_le, H2. Qed.
Lemma Avg_sum {A B} (l : list A) (m : list B) f : Avg l (fun x => Rsum (fun y => f x y) m) = Rsum (fun y => Avg l (fun x => f x y)) m.
Proof.
  induction m as [|y m IH]; [cbn [Rsum fold_right map]; unfold Avg; rewrite Rsum_const; unfold Rdiv; cbn; ring|]. rewrite Rsum_cons, <- IH. transitivity (Avg l (fun x => 1 * f x y + 1 * Rsum (fun y => f x y) m)); [apply Avg_ext; intros x _; rewrite Rsum_cons; ring|]. rewrite Avg_lin. ring.
Qed.
Lemma Avg_map {A B} (g : A -> B) l f : Avg (map g l) f = Avg l (fun x => f (g x)).
Proof. unfold Avg. rewrite Rsum_map, map_length. reflexivity. Qed.
Lemma Avg_flat {A B} (l : list A) (g : A -> list B) n f : (forall x, In x l -> List.length (g x) = n) -> l <> [] -> n <> 0%nat -> Avg (flat_map g l) f = Avg l (fun x => Avg (g x) f).
Proof.
  intros H Hl Hn. assert (G : Rsum f (flat_map g l) = INR n * Rsum (fun x => Avg (g x) f) l /\ List.length (flat_map g l) = (n * List.length l)%nat).
  { clear Hl. induction l as [|x l IH]; [cbn; split; [ring|lia]|]. destruct (IH (fun y Hy => H y (or_intror Hy))) as (I1 & I2). cbn [flat_map]. rewrite Rsum_app, Rsum_cons, app_length, I1, I2, (H x (or_introl eq_refl)). split; [|cbn; lia]. unfold Avg at 2. rewrite (H x (or_introl eq_refl)). field. apply not_0_INR, Hn. }
  destruct G as (G1 & G2). unfold Avg at 1 2. rewrite G1, G2, mult_INR. field. split; [|apply not_0_INR, Hn]. pose proof (len_pos l Hl). lra.
Qed.
Lemma choices_length {A} (ps : list A) n : List.length (choices (repeat ps n)) = (List.length ps ^ n)%nat.
Proof.
  induction n as [|n IH]; [reflexivity|]. cbn [repeat choices Nat.pow]. assert (G : forall l : list A, List.length (flat_map (fun x => map (cons x) (choices (repeat ps n))) l) = (List.length l * List.length ps ^ n)%nat); [|apply G]. induction l as [|x l IHl]; [reflexivity|]. cbn [flat_map List.length]. rewrite app_length, map_length, IH, IHl. lia.
Qed.
Lemma choices_some {A} (ps : list A) n : ps <> [] -> choices (repeat ps n) <> [].
Proof. intros H E. apply (f_equal (@List.length _)) in E. rewrite choices_length in E. cbn in E. apply Nat.pow_nonzero in E; [exact E|]. destruct ps; [congruence|cbn; lia]. Qed.
Lemma Avg_S {A} (ps : list A) n f : ps <> [] -> Avg (choices (repeat ps (S n))) f = Avg ps (fun p => Avg (choices (repeat ps n)) (fun l => f (p :: l))).
Proof.
  intros H. cbn [repeat choices]. rewrite (Avg_flat _ _ (List.length (choices (repeat ps n)))); [apply Avg_ext; intros p _; apply Avg_map|intros x _; apply map_length|exact H|]. pose proof (choices_some ps n H) as G. destruct (choices (repeat ps n)); [congruence|cbn; lia].
Qed.
Lemma Avg_single {A} (x : A) f : Avg [x] f = f x.
Proof. unfold Avg. cbn. field. Qed.
Lemma Avg_app {A} (ps : list A) a b f : ps <> [] -> Avg (choices (repeat ps (a + b))) f = Avg (choices (repeat ps a)) (fun x => Avg (choices (repeat ps b)) (fun y => f (x ++ y))).
Proof.
  intros H. revert f. induction a as [|a IH]; intros f; [cbn [Nat.add repeat choices]; rewrite Avg_single; reflexivity|]. cbn [Nat.add]. rewrite !Avg_S by exact H. apply Avg_ext. intros p _. rewrite IH. reflexivity.
Qed.
(** The mean of squares *)
Lemma Avg_sq {A} (l : list A) f : l <> [] -> Avg l f * Avg l f <= Avg l (fun x => f x * f x).
Proof.
  intros H. set (m := Avg l f). assert (G : 0 <= Avg l (fun x => (f x - m) * (f x - m))). { rewrite <- (Avg_const l 0 H). apply Avg_le; [exact H|]. intros x _. apply Rle_0_sqr. }
  rewrite (Avg_ext l _ (fun x => 1 * (f x * f x) + 1 * (-2 * m * f x + m * m * 1))) in G by (intros; ring). rewrite Avg_lin, Avg_lin, Avg_const in G by exact H. fold m in G. lra.
Qed.
Lemma Avg_one {A} (l : list A) f x : In x l -> (forall y, In y l -> 0 <= f y) -> f x <= INR (List.length l) * Avg l f.
Proof.
  intros Hx H. assert (L : 0 < INR (List.length l)) by (apply len_pos; intros ->; exact Hx). unfold Avg. replace (INR (List.length l) * (Rsum f l / INR (List.length l))) with (Rsum f l) by (field; lra). apply Rsum_one; assumption.
Qed.

Section Mean.
Context {C Q : Type} (St : list C) (HSt : NoDup St) (flip : Q -> C -> C) (free : Q -> bool) (sites : list Q) (w : C -> R).
Context (flip_in : forall q c, In q sites -> free q = true -> In c St -> In (flip q c) St).
Context (flip_inv : forall q c, In q sites -> free q = true -> In c St -> flip q (flip q c) = c).
Context (wpos : forall c, In c St -> 0 < w c).
Context (Ps : list (list Q)) (HPs : Ps <> []) (Hgood : forall p, In p Ps -> good free sites p).
Let Ops := ops flip free w.
Let nrm := norm St w.
(** m passes, on average *)
Definition mops (m : nat) (h : C -> R) (c : C) : R := Avg (choices (repeat Ps m)) (fun ps => Ops (concat ps) h c).
Lemma ops_avg {A} qs (l : list A) (h : A -> C -> R) c : Avg l (fun x => Ops qs (h x) c) = Ops qs (fun c => Avg l (fun x => h x c)) c.
Proof.
  revert c. induction qs as [|q qs IH]; intros c; [reflexivity|]. transitivity (Avg l (fun x => op flip free w q (Ops qs (h x)) c)); [reflexivity|]. transitivity (op flip free w q (Ops qs (fun c => Avg l (fun x => h x c))) c); [|reflexivity]. unfold op. destruct (free q) eqn:E; [|apply IH]. rewrite <- !IH, <- Avg_lin. reflexivity.
Qed.
Lemma mops_app a b h c : mops (a + b) h c = mops a (mops b h) c.
Proof.
  unfold mops at 1. rewrite Avg_app by exact HPs. unfold mops at 1. apply Avg_ext. intros x _. transitivity (Avg (choices (repeat Ps b)) (fun y => Ops (concat x) (Ops (concat y) h) c)); [|apply (ops_avg (concat x) (choices (repeat Ps b)) (fun y => Ops (concat y) h) c)]. apply Avg_ext. intros y _. unfold Ops. rewrite concat_app, ops_app. reflexivity.
Qed.
Lemma seq_good m ps : In ps (choices (repeat Ps m)) -> good free sites (concat ps).
Proof.
  revert ps. induction m as [|m IH]; intros ps H; [cbn in H; destruct H as [<-|[]]; intros q []|]. cbn [repeat choices] in H. apply in_flat_map in H. destruct H as (p & Hp & H). apply in_map_iff in H. destruct H as (l & <- & Hl). cbn [concat]. apply good_app. split; [apply Hgood, Hp|apply IH, Hl].
Qed.
Lemma mops_stationary m h : Rsum (fun c => w c * mops m h c) St = Rsum (fun c => w c * h c) St.
Proof.
  unfold mops. rewrite (Rsum_ext _ (fun c => Avg (choices (repeat Ps m)) (fun ps => w c * Ops (concat ps) h c))) by (intros; rewrite Avg_scale; reflexivity). rewrite <- Avg_sum. rewrite <- (Avg_const (choices (repeat Ps m)) (Rsum (fun c => w c * h c) St)) by (apply choices_some, HPs). apply Avg_ext. intros ps Hp. apply (ops_stationary St HSt flip free sites w flip_in flip_inv wpos). intros q Hq. apply (seq_good m ps Hp q Hq).
Qed.
Lemma mops_range lo hi m h : (forall c, In c St -> lo <= h c <= hi) -> forall c, In c St -> lo <= mops m h c <= hi.
Proof.
  intros H c Hc. pose proof (choices_some Ps m HPs) as NE. assert (G : forall ps, In ps (choices (repeat Ps m)) -> lo <= Ops (concat ps) h c <= hi). { intros ps Hp. apply (ops_range St flip free sites w flip_in wpos); [|exact H|exact Hc]. intros q Hq. apply (seq_good m ps Hp q Hq). }
  unfold mops. split; [rewrite <- (Avg_const _ lo NE)|rewrite <- (Avg_const (choices (repeat Ps m)) hi NE)]; (apply Avg_le; [exact NE|]); intros ps Hp; apply G, Hp.
Qed.
Lemma mops_shift m h k c : mops m (fun x => h x - k) c = mops m h c - k.
Proof.
  unfold mops. rewrite (Avg_ext _ _ (fun ps => 1 * Ops (concat ps) h c + - k * 1)). { rewrite Avg_lin, Avg_const by (apply choices_some, HPs). ring. } intros ps _. unfold Ops. rewrite ops_shift. ring.
Qed.
Lemma norm_mops m h : nrm (mops m h) <= Avg (choices (repeat Ps m)) (fun ps => nrm (Ops (concat ps) h)).
Proof.
  unfold nrm, norm. rewrite Avg_sum. apply Rsum_le. intros c Hc. rewrite Avg_scale. apply Rmult_le_compat_l; [left; apply wpos, Hc|]. apply Avg_sq, choices_some, HPs.
Qed.
Lemma norm_mops_le m h : nrm (mops m h) <= nrm h.
Proof.
  eapply Rle_trans; [apply norm_mops|]. rewrite <- (Avg_const (choices (repeat Ps m)) (nrm h)) by (apply choices_some, HPs). apply Avg_le; [apply choices_some, HPs|]. intros ps Hp. apply (norm_ops St HSt flip free sites w flip_in flip_inv wpos). apply (seq_good m), Hp.
Qed.
(** What m passes tell apart *)
Definition medge (m : nat) (b b' : C) : Prop := exists ps, In ps (choices (repeat Ps m)) /\ edge St flip w (concat ps) b b'.
Lemma medge_more m k b b' : (m <= k)%nat -> medge m b b' -> medge k b b'.
Proof.
  intros Hk (ps & H1 & H2). revert Hk. induction k as [|k IH]; intros Hk; [assert (m = 0)%nat by lia; subst; exists ps; auto|]. destruct (Nat.eq_dec m (S k)) as [->|Hn]; [exists ps; auto|]. destruct IH as (ps' & H3 & H4); [lia|]. assert (EP : exists p, In p Ps) by (destruct Ps as [|p rest]; [congruence|exists p; left; reflexivity]). destruct EP as (p & EP). exists (p :: ps'). split.
  - cbn [repeat choices]. apply in_flat_map. exists p. split; [exact EP|]. apply in_map. exact H3.
  - cbn [concat]. clear - H4. induction p as [|q p IH]; [exact H4|]. cbn [app]. apply edge_cons, IH.
Qed.
Lemma path_more m k n x y : (m <= k)%nat -> path (medge m) n x y -> path (medge k) n x y.
Proof. intros Hk H. induction H as [x|n x y z HE H IH]; [constructor|]. econstructor; [|exact IH]. destruct HE; [left|right]; eapply medge_more; eassumption. Qed.

Lemma mcontracts m K : (forall x y, In x St -> In y St -> exists k, (k <= K)%nat /\ path (medge m) k x y) -> exists e, 0 < e <= 1 /\ forall h, Rsum (fun c => w c * h c) St = 0 -> nrm (mops m h) <= (1 - e) * nrm h.
Proof.
  intros HK. destruct (drop_bound St flip free sites w flip_in wpos) as (d & Hd & HD). set (seqs := choices (repeat Ps m)). assert (NE : seqs <> []) by (apply choices_some, HPs). set (N := INR (List.length seqs)). assert (N0 : 0 < N) by (apply len_pos, NE).
  set (n := fold_right Nat.max 0%nat (map (fun ps => List.length (concat ps)) seqs)). assert (Hn : forall ps, In ps seqs -> (List.length (concat ps) <= n)%nat). { intros ps Hp. unfold n. clear - Hp. induction seqs as [|x l IH]; [destruct Hp|]. cbn. destruct Hp as [->|Hp]; [lia|]. specialize (IH Hp). lia. }
  set (W := Rsum w St). assert (W0 : 0 <= W) by (apply Rsum_nonneg; intros c Hc; left; apply wpos, Hc). set (A := INR K * (2 * INR n + 1)). assert (A0 : 0 <= A) by (unfold A; pose proof (pos_INR K); pose proof (pos_INR n); nra).
  set (B := W * (A * A) * (2 * N) / d). assert (B0 : 0 <= B) by (unfold B; apply Rmult_le_pos; [|left; apply Rinv_0_lt_compat, Hd]; apply Rmult_le_pos; [apply Rmult_le_pos; [exact W0|nra]|lra]).
  exists (/ (B + 1)). split; [split; [apply Rinv_0_lt_compat; lra|]; apply Rle_trans with (/ 1); [apply Rinv_le_contravar; lra|rewrite Rinv_1; lra]|].
  intros h Hm. set (D := nrm h - nrm (mops m h)). assert (D0 : 0 <= D) by (unfold D; pose proof (norm_mops_le m h); lra). set (eta := sqrt (2 * N * D / d)). assert (E0 : 0 <= eta) by apply sqrt_pos. assert (EE : d * (eta * eta) = 2 * N * D). { unfold eta. rewrite sqrt_sqrt; [field; lra|]. apply Rmult_le_pos; [apply Rmult_le_pos; lra|left; apply Rinv_0_lt_compat, Hd]. }
  assert (HP : forall ps, In ps seqs -> 2 * (nrm h - nrm (Ops (concat ps) h)) <= d * (eta * eta)).
  { intros ps Hp. rewrite EE. pose proof (Avg_one seqs (fun ps => nrm h - nrm (Ops (concat ps) h)) ps Hp) as G. cbn beta in G. assert (G2 : nrm h - nrm (Ops (concat ps) h) <= N * Avg seqs (fun ps => nrm h - nrm (Ops (concat ps) h))). { apply G. intros y Hy. pose proof (norm_ops St HSt flip free sites w flip_in flip_inv wpos (concat y) h (seq_good m y Hy)). unfold nrm, Ops. lra. }
    rewrite (Avg_ext seqs _ (fun ps => nrm h * 1 + -1 * nrm (Ops (concat ps) h))) in G2 by (intros; ring). rewrite Avg_lin, Avg_const in G2 by exact NE. pose proof (norm_mops m h) as G3. fold seqs in G3. unfold D. nra. }
  assert (HE : forall b b', medge m b b' -> Rabs (h b - h b') <= (2 * INR n + 1) * eta). { intros b b' (ps & Hp & Hb). eapply Rle_trans; [apply (edge_close St HSt flip free sites w flip_in flip_inv wpos d Hd HD (concat ps) h eta (seq_good m ps Hp) E0 (HP ps Hp) b b' Hb)|]. pose proof (le_INR _ _ (Hn ps Hp)). nra. }
  assert (HR : forall x y, In x St -> In y St -> Rabs (h x - h y) <= A * eta). { intros x y Hx Hy. destruct (HK x y Hx Hy) as (k & Hk & HPt). eapply Rle_trans; [apply (path_close (medge m) h ((2 * INR n + 1) * eta)); [pose proof (pos_INR n); nra|exact HE|exact HPt]|]. apply le_INR in Hk. unfold A. pose proof (pos_INR n). assert (0 <= (2 * INR n + 1) * eta) by nra. nra. }
  assert (HS : forall x, In x St -> h x * h x <= A * A * (eta * eta)).
  { intros x Hx. assert (NS : St <> []) by (intros E; rewrite E in Hx; exact Hx). pose proof (mean_between St w wpos h (h x - A * eta) (h x + A * eta) NS) as G. rewrite Hm in G. unfold Rdiv in G. rewrite Rmult_0_l in G. assert (G' : - (A * eta) <= h x <= A * eta). { assert (Q1 : h x - A * eta <= 0 <= h x + A * eta); [|lra]. apply G. intros c Hc. specialize (HR x c Hx Hc). pose proof (Rle_abs (h x - h c)). pose proof (Rle_abs (- (h x - h c))). rewrite Rabs_Ropp in *. lra. }
    assert (0 <= A * eta) by (apply Rmult_le_pos; assumption). replace (A * A * (eta * eta)) with ((A * eta) * (A * eta)) by ring. nra. }
  assert (HN : nrm h <= B * D). { unfold nrm, norm. apply Rle_trans with (Rsum (fun c => (A * A * (eta * eta)) * w c) St); [apply Rsum_le; intros c Hc; pose proof (wpos c Hc); pose proof (HS c Hc); nra|]. rewrite Rsum_scale. fold W. apply Req_le. unfold B. replace (W * (A * A) * (2 * N) / d * D) with (W * (A * A) * (2 * N * D) / d) by (field; lra). rewrite <- EE. field. lra. }
  assert (Nn : 0 <= nrm h) by (apply Rsum_nonneg; intros c Hc; apply Rmult_le_pos; [left; apply wpos, Hc|apply Rle_0_sqr]). apply (Rmult_le_reg_l (B + 1)); [lra|]. replace ((B + 1) * ((1 - / (B + 1)) * nrm h)) with (B * nrm h) by (field; lra). unfold D in *. nra.
Qed.
Lemma mblocks m e : 0 < e <= 1 -> (forall h, Rsum (fun c => w c * h c) St = 0 -> nrm (mops m h) <= (1 - e) * nrm h) -> forall b r h, Rsum (fun c => w c * h c) St = 0 -> nrm (mops (b * m + r) h) <= (1 - e) ^ b * nrm h.
Proof.
  intros He H. induction b as [|b IH]; intros r h Hm; [cbn; rewrite Rmult_1_l; apply norm_mops_le|]. assert (EF : nrm (mops (S b * m + r) h) = nrm (mops m (mops (b * m + r) h))) by (unfold nrm, norm; apply Rsum_ext; intros c _; replace (S b * m + r)%nat with (m + (b * m + r))%nat by lia; rewrite mops_app; reflexivity). rewrite EF.
  eapply Rle_trans; [apply H; rewrite mops_stationary; exact Hm|]. cbn [pow]. rewrite Rmult_assoc. apply Rmult_le_compat_l; [lra|]. apply IH, Hm.
Qed.
Lemma mconverges m K : (forall x y, In x St -> In y St -> exists k, (k <= K)%nat /\ path (medge m) k x y) ->
  forall B eps, 0 < eps -> exists T, forall t, (T <= t)%nat -> forall h, (forall c, In c St -> Rabs (h c) <= B) -> forall c, In c St -> Rabs (mops t h c - Rsum (fun c => w c * h c) St / Rsum w St) <= eps.
Proof.
  intros HK B eps Heps. destruct (mcontracts m K HK) as (e & He & HC). destruct (pos_bound w St wpos) as (wm & Hwm & HWm). set (W := Rsum w St).
  assert (W0 : 0 <= W) by (apply Rsum_nonneg; intros c Hc; left; apply wpos, Hc). set (U := W * (4 * (B * B)) + 1). assert (U0 : 0 < U) by (unfold U; assert (0 <= B * B) by apply Rle_0_sqr; assert (0 <= W * (4 * (B * B))) by (apply Rmult_le_pos; lra); lra).
  assert (A1 : Rabs (1 - e) < 1) by (apply Rabs_def1; lra). assert (X0 : 0 < wm * (eps * eps) / U) by (apply Rdiv_lt_0_compat; [apply Rmult_lt_0_compat; [exact Hwm|nra]|exact U0]). destruct (pow_lt_1_zero (1 - e) A1 _ X0) as (b & Hb). exists (b * m)%nat. intros t Ht h Hh c Hc.
  assert (NE : St <> []) by (intros E; rewrite E in Hc; exact Hc). assert (Wp : 0 < W) by (unfold W; eapply Rlt_le_trans; [apply (wpos c Hc)|]; apply Rsum_one; [intros y Hy; left; apply wpos, Hy|exact Hc]). set (a := Rsum (fun c => w c * h c) St / W).
  assert (Ba : - B <= a <= B). { apply (mean_between St w wpos h); [exact NE|]. intros x Hx. specialize (Hh x Hx). pose proof (Rle_abs (h x)). pose proof (Rle_abs (- h x)). rewrite Rabs_Ropp in *. lra. }
  set (g := fun x => h x - a). assert (Hg : Rsum (fun c => w c * g c) St = 0). { unfold g. rewrite (Rsum_ext _ (fun c => w c * h c - a * w c)) by (intros; ring). rewrite Rsum_sub, Rsum_scale. unfold a. fold W. field. lra. }
  pose proof (mblocks m e He HC b (t - b * m) g Hg) as BL. replace (b * m + (t - b * m))%nat with t in BL by lia.
  assert (EG : mops t g c = mops t h c - a) by (unfold g; apply mops_shift). rewrite <- EG.
  assert (NG : nrm g <= U). { unfold nrm, norm. apply Rle_trans with (Rsum (fun c => (4 * (B * B)) * w c) St); [|rewrite Rsum_scale; fold W; unfold U; lra]. apply Rsum_le. intros x Hx. pose proof (wpos x Hx). specialize (Hh x Hx). assert (G2 : g x * g x <= 4 * (B * B)). { unfold g. pose proof (Rle_abs (h x)). pose proof (Rle_abs (- h x)). rewrite Rabs_Ropp in *. nra. } nra. }
  specialize (Hb b (Nat.le_refl b)). rewrite Rabs_pos_eq in Hb by (apply pow_le; lra).
  assert (P0 : 0 <= (1 - e) ^ b) by (apply pow_le; lra). assert (F1 : (1 - e) ^ b * nrm g <= wm * (eps * eps)). { apply Rle_trans with ((1 - e) ^ b * U); [apply Rmult_le_compat_l; assumption|]. apply (Rmult_lt_compat_r U) in Hb; [|exact U0]. replace (wm * (eps * eps) / U * U) with (wm * (eps * eps)) in Hb by (field; lra). lra. }
  set (v := mops t g c) in *. assert (F2 : w c * (v * v) <= nrm (mops t g)). { unfold nrm, norm. apply (Rsum_one (fun c => w c * (mops t g c * mops t g c))); [|exact Hc]. intros y Hy. apply Rmult_le_pos; [left; apply wpos, Hy|apply Rle_0_sqr]. }
  pose proof (HWm c Hc) as F3. assert (V0 : 0 <= v * v) by apply Rle_0_sqr. assert (F4 : wm * (v * v) <= wm * (eps * eps)) by nra. apply Rmult_le_reg_l in F4; [|exact Hwm]. apply Rsqr_le_abs_0 in F4. rewrite (Rabs_pos_eq eps) in F4 by lra. exact F4.
Qed.
End Mean.
