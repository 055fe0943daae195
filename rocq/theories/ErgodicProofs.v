(** Convergence of sequences of Metropolised single-site flips on a finite set of states without ties (for C100).
    The set of states that can be reached never loses weight; as long as it is not everything, some pair of neighbours
    is split by it, and then it gains weight. So after a bounded number of passes over all sites every state can be
    reached from every state, whatever the orders of the passes; the rest is the usual contraction argument. *)
From Coq Require Import Lra Lia Permutation.
From Verif Require Import Base BaseR BaseRLemmas.
Local Open Scope R_scope.

Lemma pos_bound {A} (f : A -> R) (l : list A) : (forall x, In x l -> 0 < f x) -> exists m, 0 < m /\ forall x, In x l -> m <= f x.
Proof.
  induction l as [|x l IH]; intros H; [exists 1; split; [lra|intros x []]|]. destruct (IH (fun y Hy => H y (or_intror Hy))) as (m & H1 & H2). exists (Rmin m (f x)). split; [apply Rmin_glb_lt; [exact H1|apply H; left; reflexivity]|]. intros y [<-|Hy]; [apply Rmin_r|]. eapply Rle_trans; [apply Rmin_l|apply H2, Hy].
Qed.
Lemma Rsum_one {A} (f : A -> R) l x : (forall y, In y l -> 0 <= f y) -> In x l -> f x <= Rsum f l.
Proof.
  induction l as [|y l IH]; intros H Hx; [destruct Hx|]. rewrite Rsum_cons. pose proof (Rsum_nonneg f l (fun z Hz => H z (or_intror Hz))). pose proof (H y (or_introl eq_refl)). destruct Hx as [->|Hx]; [lra|]. specialize (IH (fun z Hz => H z (or_intror Hz)) Hx). lra.
Qed.

Lemma mean_between {C} (St : list C) (w : C -> R) (wpos : forall c, In c St -> 0 < w c) h lo hi : St <> [] -> (forall c, In c St -> lo <= h c <= hi) -> lo <= Rsum (fun c => w c * h c) St / Rsum w St <= hi.
Proof.
  intros HS HB. assert (W : 0 < Rsum w St). { destruct St as [|x l] eqn:ES; [congruence|]. rewrite <- ES in *. eapply Rlt_le_trans; [apply (wpos x); rewrite ES; left; reflexivity|]. apply Rsum_one; [intros y Hy; left; apply wpos, Hy|rewrite ES; left; reflexivity]. }
  assert (L : Rsum w St * lo <= Rsum (fun c => w c * h c) St) by (rewrite (Rmult_comm (Rsum w St)), <- Rsum_scale; apply Rsum_le; intros c Hc; pose proof (wpos c Hc); pose proof (HB c Hc); nra). assert (H : Rsum (fun c => w c * h c) St <= Rsum w St * hi) by (rewrite (Rmult_comm (Rsum w St)), <- Rsum_scale; apply Rsum_le; intros c Hc; pose proof (wpos c Hc); pose proof (HB c Hc); nra).
  split; apply (Rmult_le_reg_r (Rsum w St)); try exact W; unfold Rdiv; rewrite Rmult_assoc, Rinv_l, Rmult_1_r by lra; lra.
Qed.

Section Ergodic.
Context {C Q : Type} (eqc : C -> C -> bool) (Heq : forall a b, eqc a b = true <-> a = b).
Context (St : list C) (HSt : NoDup St) (flip : Q -> C -> C) (free : Q -> bool) (sites : list Q) (w : C -> R).
Context (flip_in : forall q c, In q sites -> free q = true -> In c St -> In (flip q c) St).
Context (flip_inv : forall q c, In q sites -> free q = true -> In c St -> flip q (flip q c) = c).
Context (wpos : forall c, In c St -> 0 < w c).

Definition accq (q : Q) (c : C) : R := Rmin 1 (w (flip q c) / w c).
Definition op (q : Q) (h : C -> R) (c : C) : R := if free q then accq q c * h (flip q c) + (1 - accq q c) * h c else h c.
Definition ops (qs : list Q) (h : C -> R) : C -> R := fold_right op h qs.
Lemma ops_app a b h : ops (a ++ b) h = ops a (ops b h).
Proof. apply fold_right_app. Qed.
Lemma accq_pos q c : In q sites -> free q = true -> In c St -> 0 < accq q c <= 1.
Proof. intros Hq Hf Hc. unfold accq. split; [|apply Rmin_l]. apply Rmin_glb_lt; [lra|]. apply Rdiv_lt_0_compat; apply wpos; [apply flip_in; assumption|exact Hc]. Qed.
Lemma accq_stay q c : In q sites -> free q = true -> In c St -> w (flip q c) < w c -> accq q c < 1.
Proof.
  intros Hq Hf Hc Hlt. unfold accq. eapply Rle_lt_trans; [apply Rmin_r|]. apply (Rmult_lt_reg_r (w c)); [apply wpos, Hc|]. unfold Rdiv. rewrite Rmult_assoc, Rinv_l, Rmult_1_r, Rmult_1_l; [exact Hlt|]. pose proof (wpos c Hc). lra.
Qed.
Lemma ops_range lo hi qs h : (forall q, In q qs -> In q sites) -> (forall c, In c St -> lo <= h c <= hi) -> forall c, In c St -> lo <= ops qs h c <= hi.
Proof.
  induction qs as [|q qs IH]; intros Hq H; [exact H|]. intros c Hc. cbn [ops fold_right]. fold (ops qs h). unfold op. specialize (IH (fun x Hx => Hq x (or_intror Hx)) H). destruct (free q) eqn:E; [|apply IH, Hc]. pose proof (accq_pos q c (Hq q (or_introl eq_refl)) E Hc) as Ha. pose proof (IH c Hc). pose proof (IH (flip q c) (flip_in q c (Hq q (or_introl eq_refl)) E Hc)). nra.
Qed.
Lemma ops_shift qs h k : forall c, ops qs (fun x => h x - k) c = ops qs h c - k.
Proof. induction qs as [|q qs IH]; intros c; [reflexivity|]. cbn [ops fold_right]. fold (ops qs h) (ops qs (fun x => h x - k)). unfold op. destruct (free q); [rewrite !IH; ring|apply IH]. Qed.
Lemma ops_opp qs h : forall c, ops qs (fun x => - h x) c = - ops qs h c.
Proof. induction qs as [|q qs IH]; intros c; [reflexivity|]. cbn [ops fold_right]. fold (ops qs h) (ops qs (fun x => - h x)). unfold op. destruct (free q); [rewrite !IH; ring|apply IH]. Qed.

(** The weights are stationary *)
Lemma flip_sum q (f : C -> R) : In q sites -> free q = true -> Rsum (fun c => f (flip q c)) St = Rsum f St.
Proof.
  intros Hq Hf. rewrite <- (Rsum_map (flip q)). apply Rsum_perm. apply NoDup_Permutation; [|exact HSt|].
  - assert (G : forall l, NoDup l -> (forall c, In c l -> In c St) -> NoDup (map (flip q) l)).
    { induction l as [|c l IH]; intros Hd Hl; [constructor|]. inversion Hd; subst. cbn. constructor; [|apply IH; [assumption|intros; apply Hl; right; assumption]]. intros Ci. apply in_map_iff in Ci. destruct Ci as (b & E & Hb). assert (b = c); [|subst; contradiction]. rewrite <- (flip_inv q b), <- (flip_inv q c), E; auto; apply Hl; [left; reflexivity|right; exact Hb]. }
    apply G; auto.
  - intros c. rewrite in_map_iff. split; [intros (b & <- & Hb); apply flip_in; assumption|]. intros Hc. exists (flip q c). split; [apply flip_inv; assumption|apply flip_in; assumption].
Qed.
Lemma w_acc q c : In q sites -> free q = true -> In c St -> w c * accq q c = Rmin (w c) (w (flip q c)).
Proof.
  intros Hq Hf Hc. pose proof (wpos c Hc) as P. pose proof (wpos _ (flip_in q c Hq Hf Hc)) as P'. unfold accq, Rmin. set (y := w (flip q c)) in *. set (x := w c) in *. clearbody x y. destruct (Rle_dec 1 (y / x)) as [A|A], (Rle_dec x y) as [B|B].
  - lra.
  - exfalso. apply B. apply (Rmult_le_compat_l x) in A; [|lra]. replace (x * (y / x)) with y in A by (field; lra). lra.
  - exfalso. apply A. apply (Rmult_le_reg_l x); [lra|]. replace (x * (y / x)) with y by (field; lra). lra.
  - field. lra.
Qed.
Lemma op_stationary q h : In q sites -> Rsum (fun c => w c * op q h c) St = Rsum (fun c => w c * h c) St.
Proof.
  intros Hq. unfold op. destruct (free q) eqn:E; [|reflexivity]. transitivity (Rsum (fun c => (fun x => Rmin (w (flip q x)) (w x) * h x) (flip q c) + (w c * h c - Rmin (w (flip q c)) (w c) * h c)) St).
  - apply Rsum_ext. intros c Hc. pose proof (w_acc q c Hq E Hc) as EA. rewrite (flip_inv q c Hq E Hc). rewrite (Rmin_comm (w (flip q c)) (w c)). rewrite <- EA. ring.
  - rewrite Rsum_add, Rsum_sub. rewrite (flip_sum q (fun x => Rmin (w (flip q x)) (w x) * h x) Hq E). ring.
Qed.
Lemma ops_stationary qs h : (forall q, In q qs -> In q sites) -> Rsum (fun c => w c * ops qs h c) St = Rsum (fun c => w c * h c) St.
Proof. induction qs as [|q qs IH]; intros H; [reflexivity|]. cbn [ops fold_right]. fold (ops qs h). rewrite op_stationary by (apply H; left; reflexivity). apply IH. intros x Hx. apply H. right. exact Hx. Qed.

(** ** What can be reached *)
Context (notie : forall q c, In q sites -> free q = true -> In c St -> w (flip q c) <> w c).
Definition next (A : C -> bool) (q : Q) (x : C) : bool := if free q then A (flip q x) || (A x && Rltb (w (flip q x)) (w x)) else A x.
Definition nexts (qs : list Q) (A : C -> bool) : C -> bool := fold_left next qs A.
Lemma Rltb_t x y : Rltb x y = true <-> x < y.
Proof. unfold Rltb. destruct (Rlt_dec x y); split; auto; discriminate. Qed.
Lemma Rltb_f x y : Rltb x y = false <-> y <= x.
Proof. unfold Rltb. destruct (Rlt_dec x y); split; auto; try discriminate; lra. Qed.
Lemma next_ext A B q : In q sites -> (forall x, In x St -> A x = B x) -> forall x, In x St -> next A q x = next B q x.
Proof. intros Hq H x Hx. unfold next. destruct (free q) eqn:E; [|apply H, Hx]. rewrite (H x Hx), (H (flip q x)) by (apply flip_in; assumption). reflexivity. Qed.
Lemma nexts_ext qs : forall A B, (forall q, In q qs -> In q sites) -> (forall x, In x St -> A x = B x) -> forall x, In x St -> nexts qs A x = nexts qs B x.
Proof. induction qs as [|q qs IH]; intros A B Hq H x Hx; [apply H, Hx|]. cbn [nexts fold_left]. apply IH; [intros y Hy; apply Hq; right; exact Hy| |exact Hx]. apply next_ext; [apply Hq; left; reflexivity|exact H]. Qed.

Lemma steps_bound : exists d, 0 < d <= 1 /\ forall q c, In q sites -> free q = true -> In c St -> d <= accq q c /\ (w (flip q c) < w c -> d <= 1 - accq q c).
Proof.
  destruct (pos_bound (fun p => if free (fst p) then Rmin (accq (fst p) (snd p)) (if Rltb (w (flip (fst p) (snd p))) (w (snd p)) then 1 - accq (fst p) (snd p) else 1) else 1) (list_prod sites St)) as (m & H1 & H2).
  - intros (q, c) Hp. cbn [fst snd]. apply in_prod_iff in Hp. destruct Hp as (Hq & Hc). destruct (free q) eqn:E; [|lra]. apply Rmin_glb_lt; [apply accq_pos; assumption|]. destruct (Rltb _ _) eqn:EL; [|lra]. apply Rltb_t in EL. pose proof (accq_stay q c Hq E Hc EL). lra.
  - exists (Rmin m 1). split; [split; [apply Rmin_glb_lt; lra|apply Rmin_r]|]. intros q c Hq Hf Hc. specialize (H2 (q, c) (proj2 (in_prod_iff _ _ _ _) (conj Hq Hc))). cbn [fst snd] in H2. rewrite Hf in H2. pose proof (Rmin_l m 1). split.
    + eapply Rle_trans; [|apply Rmin_l]. eapply Rle_trans; [apply Rmin_l|exact H2].
    + intros Hlt. apply Rltb_t in Hlt. rewrite Hlt in H2. eapply Rle_trans; [apply Rmin_l|]. eapply Rle_trans; [exact H2|apply Rmin_r].
Qed.
Lemma reach_bound d : 0 < d <= 1 -> (forall q c, In q sites -> free q = true -> In c St -> d <= accq q c /\ (w (flip q c) < w c -> d <= 1 - accq q c)) ->
  forall qs A h x, (forall q, In q qs -> In q sites) -> (forall c, In c St -> 0 <= h c) -> In x St -> nexts qs A x = true -> exists c, In c St /\ A c = true /\ d ^ List.length qs * h x <= ops qs h c.
Proof.
  intros Hd HD qs. induction qs as [|q qs IH]; intros A h x Hq Hh Hx HN; [exists x; cbn; split; [exact Hx|]; split; [exact HN|lra]|]. cbn [nexts fold_left] in HN. destruct (IH (next A q) h x (fun y Hy => Hq y (or_intror Hy)) Hh Hx HN) as (c & Hc & HA & HB).
  assert (R0 : forall y, In y St -> 0 <= ops qs h y). { destruct (pos_bound (fun y => 1) St) as (m & _); [intros; lra|]. intros y Hy. clear - Hq Hh Hy flip_in wpos. assert (Hq' : forall x, In x qs -> In x sites) by (intros z Hz; apply Hq; right; exact Hz). revert y Hy. induction qs as [|q' qs IH]; intros y Hy; [apply Hh, Hy|]. cbn [ops fold_right]. fold (ops qs h). unfold op. assert (Hq2 : forall x, In x (q :: qs) -> In x sites) by (intros z [<-|Hz]; [apply Hq; left; reflexivity|apply Hq'; right; exact Hz]). specialize (IH Hq2 (fun z Hz => Hq' z (or_intror Hz))). destruct (free q') eqn:E; [|apply IH, Hy]. pose proof (accq_pos q' y (Hq' q' (or_introl eq_refl)) E Hy). pose proof (IH y Hy). pose proof (IH _ (flip_in q' y (Hq' q' (or_introl eq_refl)) E Hy)). nra. }
  cbn [ops fold_right List.length pow]. fold (ops qs h). unfold next in HA. pose proof (Hq q (or_introl eq_refl)) as Hqs. set (v := d ^ List.length qs * h x) in *. assert (V0 : 0 <= v) by (unfold v; apply Rmult_le_pos; [apply pow_le; lra|apply Hh, Hx]). rewrite Rmult_assoc. fold v. destruct (free q) eqn:E.
  - apply Bool.orb_true_iff in HA. destruct HA as [HA|HA].
    + exists (flip q c). pose proof (flip_in q c Hqs E Hc) as Hc'. split; [exact Hc'|]. split; [exact HA|]. unfold op. rewrite E, (flip_inv q c Hqs E Hc). destruct (HD q (flip q c) Hqs E Hc') as (HD1 & _). pose proof (accq_pos q _ Hqs E Hc'). pose proof (R0 _ Hc'). nra.
    + apply Bool.andb_true_iff in HA. destruct HA as (HA & HL). apply Rltb_t in HL. exists c. split; [exact Hc|]. split; [exact HA|]. unfold op. rewrite E. destruct (HD q c Hqs E Hc) as (_ & HD1). specialize (HD1 HL). pose proof (accq_pos q c Hqs E Hc). pose proof (R0 _ (flip_in q c Hqs E Hc)). nra.
  - exists c. split; [exact Hc|]. split; [exact HA|]. unfold op. rewrite E. nra.
Qed.

(** ** The weight of what can be reached *)
Definition massq (A : C -> bool) : R := Rsum (fun c => if A c then w c else 0) St.
Lemma mass_range A : 0 <= massq A <= Rsum w St.
Proof. unfold massq. split; [apply Rsum_nonneg|apply Rsum_le]; intros c Hc; pose proof (wpos c Hc); destruct (A c); lra. Qed.
Lemma gap_bound : exists g, 0 < g /\ forall q c, In q sites -> free q = true -> In c St -> g <= w c /\ g <= Rabs (w c - w (flip q c)).
Proof.
  destruct (pos_bound w St wpos) as (m & M1 & M2). destruct (pos_bound (fun p => if free (fst p) then Rabs (w (snd p) - w (flip (fst p) (snd p))) else 1) (list_prod sites St)) as (g & G1 & G2).
  - intros (q, c) Hp. cbn [fst snd]. apply in_prod_iff in Hp. destruct Hp as (Hq & Hc). destruct (free q) eqn:E; [|lra]. apply Rabs_pos_lt. pose proof (notie q c Hq E Hc). lra.
  - exists (Rmin m g). split; [apply Rmin_glb_lt; assumption|]. intros q c Hq Hf Hc. specialize (G2 (q, c) (proj2 (in_prod_iff _ _ _ _) (conj Hq Hc))). cbn [fst snd] in G2. rewrite Hf in G2. split; [eapply Rle_trans; [apply Rmin_l|apply M2, Hc]|eapply Rle_trans; [apply Rmin_r|exact G2]].
Qed.
Lemma mass_next g A q : In q sites -> free q = true -> (forall q c, In q sites -> free q = true -> In c St -> g <= w c /\ g <= Rabs (w c - w (flip q c))) ->
  massq A <= massq (next A q) /\ ((exists x, In x St /\ A x <> A (flip q x)) -> massq A + g / 2 <= massq (next A q)).
Proof.
  intros Hq Hf HG. set (D := fun c => (if next A q c then w c else 0) - (if A c then w c else 0)). assert (ED : massq (next A q) - massq A = Rsum D St) by (unfold massq, D; rewrite Rsum_sub; reflexivity).
  assert (E2 : Rsum (fun c => D c + D (flip q c)) St = 2 * Rsum D St) by (rewrite Rsum_add, (flip_sum q D Hq Hf); ring).
  assert (P : forall c, In c St -> 0 <= D c + D (flip q c) /\ (A c <> A (flip q c) -> g <= D c + D (flip q c))).
  { intros c Hc. pose proof (flip_in q c Hq Hf Hc) as Hc'. unfold D, next. rewrite Hf, (flip_inv q c Hq Hf Hc). destruct (HG q c Hq Hf Hc) as (G1 & G2). destruct (HG q _ Hq Hf Hc') as (G3 & _). pose proof (wpos c Hc) as W1. pose proof (wpos _ Hc') as W2. pose proof (notie q c Hq Hf Hc) as NT. set (a := w c) in *. set (b := w (flip q c)) in *.
    unfold Rabs in G2. destruct (Rcase_abs (a - b)); destruct (A c), (A (flip q c)); destruct (Rltb b a) eqn:L1; destruct (Rltb a b) eqn:L2; try apply Rltb_t in L1; try apply Rltb_t in L2; try apply Rltb_f in L1; try apply Rltb_f in L2; cbn [orb andb]; (split; [|intros CC]); try lra; try congruence. }
  assert (N0 : 0 <= Rsum (fun c => D c + D (flip q c)) St) by (apply Rsum_nonneg; intros c Hc; apply P, Hc). split; [lra|]. intros (x & Hx & HX). pose proof (Rsum_one (fun c => D c + D (flip q c)) St x (fun y Hy => proj1 (P y Hy)) Hx) as G. cbn beta in G. pose proof (proj2 (P x Hx) HX). lra.
Qed.
Lemma split_dec (A : C -> bool) q : {exists x, In x St /\ A x <> A (flip q x)} + {forall x, In x St -> A x = A (flip q x)}.
Proof.
  clear - A flip. induction St as [|x l IH]; [right; intros x []|]. destruct (Bool.bool_dec (A x) (A (flip q x))) as [E|E]; [|left; exists x; split; [left; reflexivity|exact E]]. destruct IH as [H|H]; [left; destruct H as (y & H1 & H2); exists y; split; [right; exact H1|exact H2]|right]. intros y [<-|Hy]; auto.
Qed.
Lemma pass_mass g qs : (forall q, In q qs -> In q sites) -> 0 < g -> (forall q c, In q sites -> free q = true -> In c St -> g <= w c /\ g <= Rabs (w c - w (flip q c))) ->
  forall A, massq A <= massq (nexts qs A) /\ (massq A + g / 2 <= massq (nexts qs A) \/ ((forall x, In x St -> nexts qs A x = A x) /\ forall q x, In q qs -> free q = true -> In x St -> A x = A (flip q x))).
Proof.
  intros Hq Hg HG. induction qs as [|q qs IH]; intros A; [split; [cbn; lra|right; split; [reflexivity|intros q x []]]|]. cbn [nexts fold_left]. fold (nexts qs (next A q)). specialize (IH (fun y Hy => Hq y (or_intror Hy)) (next A q)). destruct IH as (I1 & I2). pose proof (Hq q (or_introl eq_refl)) as Hqs. destruct (free q) eqn:E.
  - destruct (mass_next g A q Hqs E HG) as (M1 & M2). split; [lra|]. destruct (split_dec A q) as [H|H]; [specialize (M2 H); left; lra|]. assert (EN : forall x, In x St -> next A q x = A x) by (intros x Hx; unfold next; rewrite E, <- (H x Hx); destruct (A x); reflexivity). destruct I2 as [I2|(I2 & I3)]; [left; lra|]. right. split; [intros x Hx; rewrite I2, EN by exact Hx; reflexivity|].
    intros q' x [<-|Hq'] Hf Hx; [apply H, Hx|]. specialize (I3 q' x Hq' Hf Hx). rewrite !EN in I3; [exact I3|apply flip_in; auto; apply Hq; right; exact Hq'|exact Hx].
  - assert (EN : next A q = A) by (unfold next; rewrite E; reflexivity). rewrite EN in *. split; [exact I1|]. destruct I2 as [I2|(I2 & I3)]; [left; exact I2|right]. split; [exact I2|]. intros q' x [<-|Hq'] Hf Hx; [congruence|apply I3; assumption].
Qed.

(** ** Passes over all sites *)
Context (conn : forall A : C -> bool, (forall q x, In q sites -> free q = true -> In x St -> A x = A (flip q x)) -> forall x y, In x St -> In y St -> A x = A y).
Definition is_pass (qs : list Q) : Prop := Permutation qs sites.
Lemma pass_in qs : is_pass qs -> forall q, In q qs -> In q sites.
Proof. intros H q Hq. eapply Permutation_in; [exact H|exact Hq]. Qed.
Lemma full_next qs A : (forall q, In q qs -> In q sites) -> (forall x, In x St -> A x = true) -> forall x, In x St -> nexts qs A x = true.
Proof.
  revert A. induction qs as [|q qs IH]; intros A Hq H x Hx; [apply H, Hx|]. cbn [nexts fold_left]. apply IH; [intros y Hy; apply Hq; right; exact Hy| |exact Hx]. intros y Hy. unfold next. destruct (free q) eqn:E; [|apply H, Hy]. rewrite (H (flip q y)) by (apply flip_in; auto; apply Hq; left; reflexivity). reflexivity.
Qed.
Lemma concat_in ps : Forall is_pass ps -> forall q, In q (concat ps) -> In q sites.
Proof. intros H q Hq. apply in_concat in Hq. destruct Hq as (l & Hl & Hq). rewrite Forall_forall in H. exact (pass_in l (H l Hl) q Hq). Qed.
Lemma passes_mass g ps A c0 : Forall is_pass ps -> 0 < g -> (forall q c, In q sites -> free q = true -> In c St -> g <= w c /\ g <= Rabs (w c - w (flip q c))) -> In c0 St -> A c0 = true ->
  (forall x, In x St -> nexts (concat ps) A x = true) \/ INR (List.length ps) * (g / 2) <= massq (nexts (concat ps) A).
Proof.
  intros HP Hg HG Hc. revert A c0 Hc. induction ps as [|p ps IH]; intros A c0 Hc HA; [right; cbn; pose proof (mass_range A); lra|]. inversion HP as [|? ? HP1 HP2]; subst. cbn [concat List.length]. unfold nexts. rewrite fold_left_app. fold (nexts p A). fold (nexts (concat ps) (nexts p A)).
  rewrite S_INR. clear IH. enough (G : forall ps, Forall is_pass ps -> forall A, (exists c, In c St /\ A c = true) -> (forall x, In x St -> nexts (concat ps) A x = true) \/ massq A + INR (List.length ps) * (g / 2) <= massq (nexts (concat ps) A)).
  { destruct (G (p :: ps) HP A (ex_intro _ c0 (conj Hc HA))) as [H|H]; cbn [concat] in H; unfold nexts in H; rewrite fold_left_app in H; [left; exact H|]. right. cbn [List.length] in H. rewrite S_INR in H. pose proof (mass_range A). unfold nexts. lra. }
  clear - HG Hg conn flip_in flip_inv HSt wpos notie. intros ps. induction ps as [|p ps IH]; intros HP A (c & Hc & HA); [right; cbn; lra|]. inversion HP as [|? ? HP1 HP2]; subst. cbn [concat List.length]. unfold nexts. rewrite fold_left_app. fold (nexts p A). fold (nexts (concat ps) (nexts p A)). rewrite S_INR.
  destruct (pass_mass g p (pass_in p HP1) Hg HG A) as (M1 & [M2|(M2 & M3)]).
  - assert (EX : exists c', In c' St /\ nexts p A c' = true).
    { destruct (existsb (nexts p A) St) eqn:EE; [apply existsb_exists in EE; exact EE|]. exfalso. assert (Z0 : massq (nexts p A) = 0). { unfold massq. rewrite (Rsum_ext _ (fun _ => 0)); [rewrite Rsum_const; ring|]. intros y Hy. destruct (nexts p A y) eqn:EY; [|reflexivity]. assert (existsb (nexts p A) St = true) by (apply existsb_exists; eauto). congruence. } pose proof (mass_range A). lra. }
    destruct (IH HP2 (nexts p A) EX) as [H|H]; [left; exact H|right]. lra.
  - left. assert (FA : forall x, In x St -> A x = true). { intros x Hx. rewrite <- HA. apply conn; [|exact Hx|exact Hc]. intros q y Hq Hf Hy. apply (M3 q y); [eapply Permutation_in; [apply Permutation_sym, HP1|exact Hq]|exact Hf|exact Hy]. }
    apply full_next; [apply concat_in, HP2|]. intros x Hx. rewrite M2 by exact Hx. apply FA, Hx.
Qed.
Lemma concat_length ps : Forall is_pass ps -> List.length (concat ps) = (List.length ps * List.length sites)%nat.
Proof. induction 1 as [|p ps H _ IH]; [reflexivity|]. cbn [concat List.length]. rewrite app_length, IH, (Permutation_length H). reflexivity. Qed.
(** A common lower bound for all transitions after sufficiently many passes. *)
Lemma doeblin : exists M e, 0 < e <= 1 /\ forall ps, Forall is_pass ps -> List.length ps = M -> forall h, (forall c, In c St -> 0 <= h c) -> forall c x, In c St -> In x St -> e * h x <= ops (concat ps) h c.
Proof.
  destruct gap_bound as (g & Hg & HG). destruct steps_bound as (d & Hd & HD). pose proof (proj2 (mass_range (fun _ => true))) as _. destruct (archimed (Rsum w St / (g / 2))) as (AR & _). set (M := Z.to_nat (up (Rsum w St / (g / 2)))).
  assert (W0 : 0 <= Rsum w St) by (apply Rsum_nonneg; intros c Hc; left; apply wpos, Hc). assert (Q0 : 0 <= Rsum w St / (g / 2)) by (apply Rmult_le_pos; [exact W0|left; apply Rinv_0_lt_compat; lra]).
  assert (HM : Rsum w St < INR M * (g / 2)). { assert (EM : INR M = IZR (up (Rsum w St / (g / 2)))). { unfold M. rewrite INR_IZR_INZ, Z2Nat.id; [reflexivity|]. apply le_IZR. lra. } rewrite EM. apply (Rmult_lt_compat_r (g / 2)) in AR; [|lra]. replace (Rsum w St / (g / 2) * (g / 2)) with (Rsum w St) in AR by (field; lra). exact AR. }
  exists M, (d ^ (M * List.length sites)). split; [split; [apply pow_lt; lra|]; rewrite <- (pow1 (M * List.length sites)); apply pow_incr; lra|].
  intros ps HP HL h Hh c x Hc Hx. set (A := fun y => eqc c y). assert (HA : A c = true) by (apply Heq; reflexivity). destruct (passes_mass g ps A c HP Hg HG Hc HA) as [H|H]; [|pose proof (mass_range (nexts (concat ps) A)); rewrite HL in H; lra].
  destruct (reach_bound d Hd HD (concat ps) A h x (concat_in ps HP) Hh Hx (H x Hx)) as (c' & _ & E & HB). apply Heq in E. subst c'. rewrite (concat_length ps HP), HL in HB. exact HB.
Qed.
Lemma contract M e : 0 < e <= 1 -> (forall ps, Forall is_pass ps -> List.length ps = M -> forall h, (forall c, In c St -> 0 <= h c) -> forall c x, In c St -> In x St -> e * h x <= ops (concat ps) h c) ->
  forall ps h lo hi x, Forall is_pass ps -> List.length ps = M -> In x St -> (forall c, In c St -> lo <= h c <= hi) -> forall c, In c St -> lo + e * (h x - lo) <= ops (concat ps) h c <= hi - e * (hi - h x).
Proof.
  intros He HE ps h lo hi x HP HL Hx HB c Hc. split.
  - pose proof (HE ps HP HL (fun y => h y - lo) (fun y Hy => ltac:(pose proof (HB y Hy); cbn beta; lra)) c x Hc Hx) as G. cbn beta in G. rewrite ops_shift in G. lra.
  - pose proof (HE ps HP HL (fun y => (- h y) - (- hi)) (fun y Hy => ltac:(pose proof (HB y Hy); cbn beta; lra)) c x Hc Hx) as G. cbn beta in G. rewrite ops_shift, ops_opp in G. lra.
Qed.
Lemma blocks M e : 0 < e <= 1 -> (forall ps, Forall is_pass ps -> List.length ps = M -> forall h, (forall c, In c St -> 0 <= h c) -> forall c x, In c St -> In x St -> e * h x <= ops (concat ps) h c) ->
  forall b ps h lo hi, Forall is_pass ps -> (b * M <= List.length ps)%nat -> St <> [] -> (forall c, In c St -> lo <= h c <= hi) -> exists lo' hi', hi' - lo' <= (1 - e) ^ b * (hi - lo) /\ forall c, In c St -> lo' <= ops (concat ps) h c <= hi'.
Proof.
  intros He HE. induction b as [|b IH]; intros ps h lo hi HP HL HS HB; [exists lo, hi; split; [cbn; lra|]; apply ops_range; [apply concat_in, HP|exact HB]|].
  destruct St as [|x St'] eqn:ES; [congruence|]. rewrite <- ES in *. assert (Hx : In x St) by (rewrite ES; left; reflexivity). set (k := (List.length ps - M)%nat). rewrite <- (firstn_skipn k ps), concat_app, ops_app.
  assert (HP1 : Forall is_pass (firstn k ps)) by (apply Forall_forall; intros p Hp; rewrite Forall_forall in HP; apply HP; rewrite <- (firstn_skipn k ps); apply in_or_app; left; exact Hp). assert (HP2 : Forall is_pass (skipn k ps)) by (apply Forall_forall; intros p Hp; rewrite Forall_forall in HP; apply HP; rewrite <- (firstn_skipn k ps); apply in_or_app; right; exact Hp).
  assert (L2 : List.length (skipn k ps) = M) by (rewrite skipn_length; unfold k; cbn in HL; lia). assert (L1 : (b * M <= List.length (firstn k ps))%nat) by (rewrite firstn_length; unfold k; cbn in HL; lia).
  destruct (IH (firstn k ps) (ops (concat (skipn k ps)) h) (lo + e * (h x - lo)) (hi - e * (hi - h x)) HP1 L1 HS) as (lo' & hi' & H1 & H2).
  - intros c Hc. apply (contract M e He HE (skipn k ps) h lo hi x HP2 L2 Hx HB c Hc).
  - exists lo', hi'. split; [|exact H2]. cbn [pow]. replace (hi - e * (hi - h x) - (lo + e * (h x - lo))) with ((1 - e) * (hi - lo)) in H1 by ring. lra.
Qed.
Lemma converges : forall B eps, 0 < eps -> exists T, forall ps, Forall is_pass ps -> (T <= List.length ps)%nat -> forall h, (forall c, In c St -> Rabs (h c) <= B) -> forall c, In c St ->
  Rabs (ops (concat ps) h c - Rsum (fun c => w c * h c) St / Rsum w St) <= eps.
Proof.
  intros B eps Heps. destruct doeblin as (M & e & He & HE). assert (A1 : Rabs (1 - e) < 1) by (apply Rabs_def1; lra). assert (HB0 : 0 < eps / (2 * Rabs B + 1)) by (apply Rdiv_lt_0_compat; [exact Heps|pose proof (Rabs_pos B); lra]). destruct (pow_lt_1_zero (1 - e) A1 _ HB0) as (b & Hb). exists (b * M)%nat. intros ps HP HL h Hh c Hc.
  assert (HS : St <> []) by (intros E; rewrite E in Hc; exact Hc). destruct (blocks M e He HE b ps h (- B) B HP HL HS) as (lo & hi & H1 & H2). { intros y Hy. specialize (Hh y Hy). pose proof (Rle_abs (h y)). pose proof (Rle_abs (- h y)). rewrite Rabs_Ropp in *. lra. }
  pose proof (mean_between St w wpos (ops (concat ps) h) lo hi HS H2) as HM. rewrite (ops_stationary (concat ps) h (concat_in ps HP)) in HM. specialize (H2 c Hc).
  assert (G : hi - lo <= eps). { specialize (Hb b (Nat.le_refl b)). assert (B0 : 0 <= B) by (pose proof (Hh c Hc); pose proof (Rabs_pos (h c)); lra). rewrite Rabs_pos_eq in HB0 by exact B0. rewrite (Rabs_pos_eq B B0) in Hb. rewrite Rabs_pos_eq in Hb by (apply pow_le; lra). eapply Rle_trans; [exact H1|]. apply (Rmult_lt_compat_r (2 * B + 1)) in Hb; [|lra]. replace (eps / (2 * B + 1) * (2 * B + 1)) with eps in Hb by (field; lra). assert (0 <= (1 - e) ^ b) by (apply pow_le; lra). nra. }
  apply Rabs_le. lra.
Qed.
End Ergodic.
