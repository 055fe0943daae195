(** Expected density of generated tensors (C91). *)
From Coq Require Import String Lia Lra.
From Coquelicot Require Import RInt Hierarchy.
From Verif Require Import Base BaseLemmas BaseR BaseRLemmas Spec SpecR SpecF Fuzzy FuzzyProofs MaxFuzzyProofs Invariance InvarianceProofs UnbiasedProofs Helpers SpecHelpers HelpersProofs Generators SpecGenerators.
Local Open Scope R_scope.

(** * Powers *)
Lemma power_range x y : 0 <= x <= 1 -> 0 <= y -> 0 <= power x y <= 1.
Proof.
  intros Hx Hy. unfold power. destruct (Req_EM_T x 0) as [E|E]; [destruct (Req_EM_T y 0); lra|].
  unfold Rpower. split; [left; apply exp_pos|]. rewrite <- exp_0.
  assert (K : y * ln x <= 0). { assert (L : ln x <= 0). { rewrite <- ln_1. destruct (Rle_lt_or_eq_dec x 1 (proj2 Hx)) as [H|H]; [left; apply ln_increasing; lra|rewrite H; lra]. } nra. }
  destruct (Rle_lt_or_eq_dec _ _ K) as [H|H]; [left; apply exp_increasing, H|rewrite H; lra].
Qed.
Lemma power_root x n : 0 <= x -> (1 <= n)%nat -> power x (1 / INR n) ^ n = x.
Proof.
  intros Hx Hn. assert (P : 0 < INR n) by (apply lt_0_INR; lia). unfold power. destruct (Req_EM_T x 0) as [E|E].
  - destruct (Req_EM_T (1 / INR n) 0) as [E2|E2]; [exfalso; assert (0 < 1 / INR n) by (apply Rdiv_lt_0_compat; lra); lra|]. subst x. destruct n; [lia|]. cbn [pow]. ring.
  - rewrite <- Rpower_pow by apply exp_pos. rewrite Rpower_mult. replace (1 / INR n * INR n) with 1 by (field; lra). apply Rpower_1. lra.
Qed.
Lemma d_f_spec d L : 0 <= d <= 1 -> (1 <= L)%nat -> 0 <= d_f d L 3 <= 1 /\ (1 - d_f d L 3 ^ 3) ^ L = 1 - d.
Proof.
  intros Hd HL. assert (PL : 0 < INR L) by (apply lt_0_INR; lia). unfold d_f.
  assert (H1 : 0 <= power (1 - d) (1 / INR L) <= 1). { apply power_range; [lra|]. left. apply Rdiv_lt_0_compat; lra. }
  split.
  - apply power_range; [lra|]. left. apply Rdiv_lt_0_compat; [lra|apply lt_0_INR; lia].
  - rewrite power_root by (lra || lia). replace (1 - (1 - power (1 - d) (1 / INR L))) with (power (1 - d) (1 / INR L)) by ring. apply power_root; [lra|lia].
Qed.

(** * Independent bits *)
Lemma Rprod_ext_in {A} (f g : A -> R) ls : (forall i, In i ls -> f i = g i) -> Rprod f ls = Rprod g ls.
Proof. induction ls as [|i ls IH]; intros H; [reflexivity|]. cbn. rewrite (H i (or_introl eq_refl)). f_equal. apply IH. intros j Hj. apply H. right. exact Hj. Qed.

Definition dep (P : nat -> bool) (f : list bool -> R) : Prop := forall a b, (forall j, P j = true -> nth j a false = nth j b false) -> f a = f b.
Lemma dep_tail P f b : dep P f -> dep (fun j => P (S j)) (fun bs => f (b :: bs)).
Proof. intros H x y E. apply H. intros [|j] Hj; [reflexivity|]. cbn. apply E, Hj. Qed.
Lemma dep_head P f : dep P f -> P 0%nat = false -> forall bs, f (true :: bs) = f (false :: bs).
Proof. intros H E bs. apply H. intros [|j] Hj; [congruence|reflexivity]. Qed.
Lemma Ebl_indep w : forall P Q f g, dep P f -> dep Q g -> (forall j, P j && Q j = false) -> Ebl w (fun bs => f bs * g bs) = Ebl w f * Ebl w g.
Proof.
  induction w as [|p w IH]; intros P Q f g Hf Hg HPQ; [reflexivity|]. cbn [Ebl].
  assert (IHb : forall b, Ebl w (fun bs => f (b :: bs) * g (b :: bs)) = Ebl w (fun bs => f (b :: bs)) * Ebl w (fun bs => g (b :: bs))).
  { intros b. apply (IH (fun j => P (S j)) (fun j => Q (S j)) (fun bs => f (b :: bs)) (fun bs => g (b :: bs))); [apply dep_tail, Hf|apply dep_tail, Hg|intros j; apply HPQ]. }
  rewrite !IHb. specialize (HPQ 0%nat). destruct (P 0%nat) eqn:E.
  - cbn in HPQ. rewrite (Ebl_ext w (fun bs => g (true :: bs)) (fun bs => g (false :: bs))) by (intros bs _; apply (dep_head Q g Hg HPQ)). ring.
  - rewrite (Ebl_ext w (fun bs => f (true :: bs)) (fun bs => f (false :: bs))) by (intros bs _; apply (dep_head P f Hf E)). ring.
Qed.
Definition ind (b : bool) : R := if b then 1 else 0.
Lemma Ebl_nth w : forall i, (i < List.length w)%nat -> Ebl w (fun bs => ind (nth i bs false)) = nth i w 0.
Proof.
  induction w as [|p w IH]; intros i Hi; [cbn in Hi; lia|]. cbn [Ebl]. destruct i as [|i].
  - cbn [nth ind]. rewrite !Ebl_const. ring.
  - cbn [nth]. cbn [List.length] in Hi. rewrite IH by lia. ring.
Qed.
Lemma dep_nth i : dep (Nat.eqb i) (fun bs => ind (nth i bs false)).
Proof. intros a b H. rewrite (H i (Nat.eqb_refl i)). reflexivity. Qed.
Lemma dep_mult P Q f g : dep P f -> dep Q g -> dep (fun j => P j || Q j) (fun bs => f bs * g bs).
Proof. intros Hf Hg a b H. f_equal; [apply Hf|apply Hg]; intros j Hj; apply H; rewrite Hj; [reflexivity|apply orb_true_r]. Qed.
Lemma dep_neg P f : dep P f -> dep P (fun bs => 1 - f bs).
Proof. intros H a b E. rewrite (H a b E). reflexivity. Qed.
Lemma dep_prod (P : nat -> nat -> bool) (f : nat -> list bool -> R) ls : (forall l, In l ls -> dep (P l) (f l)) -> dep (fun j => existsb (fun l => P l j) ls) (fun bs => Rprod (fun l => f l bs) ls).
Proof.
  intros H a b E. apply Rprod_ext_in. intros l Hl. apply (H l Hl). intros j Hj. apply E, existsb_exists. exists l. auto.
Qed.
Lemma Ebl_prod_indep w (P : nat -> nat -> bool) (f : nat -> list bool -> R) ls : NoDup ls -> (forall l, In l ls -> dep (P l) (f l)) ->
  (forall l l' j, In l ls -> In l' ls -> l <> l' -> P l j && P l' j = false) ->
  Ebl w (fun bs => Rprod (fun l => f l bs) ls) = Rprod (fun l => Ebl w (f l)) ls.
Proof.
  induction ls as [|l ls IH]; intros HN HD HI; [exact (Ebl_const w 1)|]. inversion HN as [|x y Hx Hy]; subst.
  change (Rprod (fun l0 => Ebl w (f l0)) (l :: ls)) with (Ebl w (f l) * Rprod (fun l0 => Ebl w (f l0)) ls).
  rewrite <- IH; [|exact Hy|intros; apply HD; right; assumption|intros; apply HI; [right|right|]; assumption].
  apply (Ebl_indep w (P l) (fun j => existsb (fun l' => P l' j) ls) (f l) (fun bs => Rprod (fun l0 => f l0 bs) ls)).
  - apply HD. left. reflexivity.
  - apply dep_prod. intros l' Hl'. apply HD. right. exact Hl'.
  - intros j. destruct (P l j) eqn:E; [|reflexivity]. cbn [andb]. destruct (existsb _ ls) eqn:E2; [|reflexivity]. exfalso. apply existsb_exists in E2. destruct E2 as (l' & Hl' & E3).
    assert (HH := HI l l' j (or_introl eq_refl) (or_intror Hl')). rewrite E, E3 in HH. cbn in HH. assert (l <> l') by (intros ->; contradiction). specialize (HH H). discriminate.
Qed.

(** * From bits to uniform draws *)
Fixpoint bits_of (evs : list (R -> bool)) (rs : list R) : list bool :=
  match evs, rs with e :: evs', r :: rs' => e r :: bits_of evs' rs' | _, _ => [] end.
Definition is_event (e : R -> bool) (p : R) : Prop := forall u v, is_RInt (fun r => if e r then u else v) 0 1 (p * u + (1 - p) * v).
Lemma is_E_bits evs w : Forall2 is_event evs w -> forall f, is_E (List.length w) (fun rs => f (bits_of evs rs)) (Ebl w f).
Proof.
  induction 1 as [|e p evs w He HF IH]; intros f; [reflexivity|]. cbn [List.length is_E Ebl bits_of].
  exists (fun r => if e r then Ebl w (fun bs => f (true :: bs)) else Ebl w (fun bs => f (false :: bs))). split; [|apply He].
  intros r _. destruct (e r); apply (IH (fun bs => f (_ :: bs))).
Qed.
Lemma bits_of_length evs rs : List.length evs = List.length rs -> List.length (bits_of evs rs) = List.length rs.
Proof. revert rs. induction evs as [|e evs IH]; intros [|r rs] H; cbn in *; try reflexivity; try discriminate. f_equal. apply IH. lia. Qed.
Lemma bits_of_nth evs rs i d : List.length evs = List.length rs -> (i < List.length rs)%nat -> nth i (bits_of evs rs) false = (nth i evs d) (nth i rs 0).
Proof. revert rs i. induction evs as [|e evs IH]; intros [|r rs] i H Hi; cbn in *; try lia. destruct i; [reflexivity|]. apply IH; lia. Qed.
Lemma event_lt p : 0 <= p <= 1 -> is_event (fun r => Rltb r p) p.
Proof. intros H u v. apply is_RInt_step, H. Qed.
Lemma event_gt q : 0 <= q <= 1 -> is_event (fun r => Rltb (1 - q) r) q.
Proof.
  intros H u v. replace (q * u + (1 - q) * v) with ((1 - q) * v + (1 - (1 - q)) * u) by ring. 
  apply (is_RInt_Chasles (V := R_NormedModule) _ 0 (1 - q) 1 ((1 - q) * v) ((1 - (1 - q)) * u)).
  - apply (is_RInt_ext (V := R_NormedModule) (fun _ => v)).
    + intros x. rewrite Rmin_left, Rmax_right by lra. intros Hx. destruct (Rltb_spec (1 - q) x); [lra|reflexivity].
    + replace ((1 - q) * v) with (@scal _ R_NormedModule (1 - q - 0) v) by (unfold scal; simpl; unfold mult; simpl; lra). apply @is_RInt_const.
  - apply (is_RInt_ext (V := R_NormedModule) (fun _ => u)).
    + intros x. rewrite Rmin_left, Rmax_right by lra. intros Hx. destruct (Rltb_spec (1 - q) x); [reflexivity|lra].
    + replace ((1 - (1 - q)) * u) with (@scal _ R_NormedModule (1 - (1 - q)) u) by (unfold scal; simpl; unfold mult; simpl; lra). apply @is_RInt_const.
Qed.

(** * The cells *)
Lemma random_bits_nth rand off rows L q n l : (n < rows)%nat -> (l < L)%nat -> nth l (nth n (random_bits rand off rows L q) []) false = Rltb (1 - q) (rand (off + (n * L + l))%nat).
Proof.
  intros Hn Hl. unfold random_bits. rewrite (nth_map_lt _ (seq 0 rows) n 0%nat []) by (rewrite seq_length; exact Hn). rewrite seq_nth by exact Hn.
  rewrite (nth_map_lt _ (seq 0 L) l 0%nat false) by (rewrite seq_length; exact Hl). rewrite seq_nth by exact Hl. reflexivity.
Qed.
Lemma random_bits_shape rand off rows L q : List.length (random_bits rand off rows L q) = rows /\ Forall (fun r => List.length r = L) (random_bits rand off rows L q).
Proof. unfold random_bits. split; [rewrite map_length, seq_length; reflexivity|]. apply Forall_map, Forall_forall. intros n _. rewrite map_length, seq_length. reflexivity. Qed.

Section CELL.
Context (N D M L : nat) (q p : R) (Hq : 0 <= q <= 1) (Hp : 0 <= p <= 1).
Let K := (N * L + D * L + M * L)%nat.
Let w := (repeat q K ++ repeat p (N * D * M))%list.
Let evs := (repeat (fun r => Rltb (1 - q) r) K ++ repeat (fun r => Rltb r p) (N * D * M))%list.
Let k := (K + N * D * M)%nat.
Lemma lenw : List.length w = k. Proof. unfold w, k. rewrite app_length, !repeat_length. reflexivity. Qed.
Lemma lene : List.length evs = k. Proof. unfold evs, k. rewrite app_length, !repeat_length. reflexivity. Qed.
Lemma events : Forall2 is_event evs w.
Proof.
  unfold evs, w. apply Forall2_app.
  - induction K; cbn; constructor; [apply event_gt, Hq|assumption].
  - induction (N * D * M)%nat; cbn; constructor; [apply event_lt, Hp|assumption].
Qed.
Lemma w_low i : (i < K)%nat -> nth i w 0 = q.
Proof. intros H. unfold w. rewrite app_nth1 by (rewrite repeat_length; exact H). apply nth_repeat_lt || (rewrite (nth_indep _ 0 q) by (rewrite repeat_length; exact H); apply nth_repeat). Qed.
Lemma w_high i : (i < N * D * M)%nat -> nth (K + i) w 0 = p.
Proof. intros H. unfold w. rewrite app_nth2 by (rewrite repeat_length; lia). rewrite repeat_length. replace (K + i - K)%nat with i by lia. rewrite (nth_indep _ 0 p) by (rewrite repeat_length; exact H). apply nth_repeat. Qed.
Lemma bit_low rs i : List.length rs = k -> (i < K)%nat -> nth i (bits_of evs rs) false = Rltb (1 - q) (nth i rs 0).
Proof.
  intros Hl H. rewrite (bits_of_nth evs rs i (fun r => Rltb (1 - q) r)) by (rewrite ?lene, ?Hl; unfold k; lia). unfold evs. rewrite app_nth1 by (rewrite repeat_length; exact H). rewrite nth_repeat. reflexivity.
Qed.
Lemma bit_high rs i : List.length rs = k -> (i < N * D * M)%nat -> nth (K + i) (bits_of evs rs) false = Rltb (nth (K + i) rs 0) p.
Proof.
  intros Hl H. rewrite (bits_of_nth evs rs (K + i) (fun r => Rltb r p)) by (rewrite ?lene, ?Hl; unfold k; lia). unfold evs. rewrite app_nth2 by (rewrite repeat_length; lia). rewrite repeat_length. replace (K + i - K)%nat with i by lia. rewrite nth_repeat. reflexivity.
Qed.
Context (n d m : nat) (Hn : (n < N)%nat) (Hd : (d < D)%nat) (Hm : (m < M)%nat).
Let iz l := (n * L + l)%nat.
Let iu l := (N * L + (d * L + l))%nat.
Let iv l := (N * L + D * L + (m * L + l))%nat.
Let ie := (K + ((n * D + d) * M + m))%nat.
Lemma ranges l : (l < L)%nat -> (iz l < N * L)%nat /\ (N * L <= iu l < N * L + D * L)%nat /\ (N * L + D * L <= iv l < K)%nat.
Proof. intros Hl. unfold iz, iu, iv, K. repeat split; nia. Qed.
Lemma e_range : ((n * D + d) * M + m < N * D * M)%nat.
Proof. assert (n * D + d < N * D)%nat by nia. nia. Qed.
Definition active (bs : list bool) (l : nat) : R := ind (nth (iz l) bs false) * ind (nth (iu l) bs false) * ind (nth (iv l) bs false).
Definition Pl (l j : nat) : bool := Nat.eqb (iz l) j || Nat.eqb (iu l) j || Nat.eqb (iv l) j.
Definition off_ (bs : list bool) : R := Rprod (fun l => 1 - active bs l) (seq 0 L).
Lemma dep_active l : dep (Pl l) (fun bs => active bs l).
Proof. unfold active, Pl. apply (dep_mult (fun j => Nat.eqb (iz l) j || Nat.eqb (iu l) j)); [apply dep_mult|]; apply dep_nth. Qed.
Lemma E_active l : (l < L)%nat -> Ebl w (fun bs => active bs l) = q ^ 3.
Proof.
  intros Hl. destruct (ranges l Hl) as (R1 & R2 & R3). unfold active.
  rewrite (Ebl_indep w (fun j => Nat.eqb (iz l) j || Nat.eqb (iu l) j) (Nat.eqb (iv l))); [|apply dep_mult; apply dep_nth|apply dep_nth|].
  - rewrite (Ebl_indep w (Nat.eqb (iz l)) (Nat.eqb (iu l))); [|apply dep_nth|apply dep_nth|].
    + rewrite !Ebl_nth by (rewrite lenw; unfold k; lia). rewrite !w_low by lia. ring.
    + intros j. destruct (Nat.eqb_spec (iz l) j), (Nat.eqb_spec (iu l) j); try reflexivity. lia.
  - intros j. destruct (Nat.eqb_spec (iz l) j), (Nat.eqb_spec (iu l) j), (Nat.eqb_spec (iv l) j); try reflexivity; lia.
Qed.
Lemma dep_off : dep (fun j => existsb (fun l => Pl l j) (seq 0 L)) off_.
Proof. unfold off_. apply (dep_prod Pl (fun l bs => 1 - active bs l)). intros l _. apply dep_neg, dep_active. Qed.
Lemma E_off : Ebl w off_ = (1 - q ^ 3) ^ L.
Proof.
  unfold off_. rewrite (Ebl_prod_indep w Pl (fun l bs => 1 - active bs l)).
  - rewrite (Rprod_ext_in _ (fun _ => 1 - q ^ 3)).
    + clear. induction L as [|n0 IH]; [reflexivity|]. rewrite <- cons_seq. cbn [Rprod fold_right pow]. f_equal. rewrite <- seq_shift. fold (@Rprod nat). change (fold_right _ 1 _) with (Rprod (fun _ : nat => 1 - q ^ 3) (map S (seq 0 n0))). rewrite Rprod_map. exact IH.
    + intros l Hl. apply in_seq in Hl. rewrite (Ebl_ext w _ (fun bs => (-1) * active bs l + 1)) by (intros; ring). rewrite Ebl_lin, E_active by lia. ring.
  - apply seq_NoDup.
  - intros l _. apply dep_neg, dep_active.
  - intros l l' j H1 H2 Hne. apply in_seq in H1. apply in_seq in H2. destruct (ranges l ltac:(lia)) as (R1 & R2 & R3). destruct (ranges l' ltac:(lia)) as (S1 & S2 & S3).
    assert (iz l <> iz l' /\ iu l <> iu l' /\ iv l <> iv l') as (U1 & U2 & U3) by (unfold iz, iu, iv; repeat split; lia).
    unfold Pl. destruct (Nat.eqb_spec (iz l) j), (Nat.eqb_spec (iu l) j), (Nat.eqb_spec (iv l) j); cbn [orb andb]; try reflexivity;
    destruct (Nat.eqb_spec (iz l') j), (Nat.eqb_spec (iu l') j), (Nat.eqb_spec (iv l') j); cbn [orb]; try reflexivity; exfalso; lia.
Qed.
Definition flip (bs : list bool) : R := ind (nth ie bs false).
Lemma E_flip : Ebl w flip = p.
Proof. unfold flip. pose proof e_range as Hr. rewrite Ebl_nth by (rewrite lenw; unfold k, ie; lia). apply w_high, Hr. Qed.
Lemma E_flip_off : Ebl w (fun bs => off_ bs * flip bs) = (1 - q ^ 3) ^ L * p.
Proof.
  rewrite <- E_off, <- E_flip. apply (Ebl_indep w (fun j => existsb (fun l => Pl l j) (seq 0 L)) (Nat.eqb ie)); [apply dep_off|apply dep_nth|].
  intros j. destruct (Nat.eqb_spec ie j) as [E|]; [|apply andb_false_r]. rewrite andb_true_r. destruct (existsb _ _) eqn:E2; [|reflexivity]. exfalso. apply existsb_exists in E2. destruct E2 as (l & Hl & E3). apply in_seq in Hl.
  destruct (ranges l ltac:(lia)) as (R1 & R2 & R3). unfold Pl in E3. apply orb_true_iff in E3. destruct E3 as [E3|E3]; [apply orb_true_iff in E3; destruct E3 as [E3|E3]|]; apply Nat.eqb_eq in E3; unfold ie in E; lia.
Qed.

(** The cell of the product and of the noisy product under draws rs *)
Definition cell (rs : list R) : bool := existsb (fun l => Rltb (1 - q) (nth (iz l) rs 0) && Rltb (1 - q) (nth (iu l) rs 0) && Rltb (1 - q) (nth (iv l) rs 0)) (seq 0 L).
Definition flipped (rs : list R) : bool := Rltb (nth ie rs 0) p.
Lemma cell_bits rs : List.length rs = k -> ind (cell rs) = 1 - off_ (bits_of evs rs).
Proof.
  intros Hl. unfold cell, off_. assert (G : forall ls, (forall l, In l ls -> (l < L)%nat) -> ind (existsb (fun l => Rltb (1 - q) (nth (iz l) rs 0) && Rltb (1 - q) (nth (iu l) rs 0) && Rltb (1 - q) (nth (iv l) rs 0)) ls) = 1 - Rprod (fun l => 1 - active (bits_of evs rs) l) ls); [|apply G; intros l H; apply in_seq in H; lia].
  induction ls as [|l ls IH]; intros H; [cbn; ring|]. cbn [existsb]. change (Rprod (fun l0 => 1 - active (bits_of evs rs) l0) (l :: ls)) with ((1 - active (bits_of evs rs) l) * Rprod (fun l0 => 1 - active (bits_of evs rs) l0) ls).
  specialize (IH (fun l0 Hl0 => H l0 (or_intror Hl0))). destruct (ranges l (H l (or_introl eq_refl))) as (R1 & R2 & R3).
  unfold active at 1. rewrite !bit_low by (assumption || lia). destruct (Rltb _ (nth (iz l) rs 0)), (Rltb _ (nth (iu l) rs 0)), (Rltb _ (nth (iv l) rs 0)); cbn [andb orb ind]; try (rewrite IH; ring). ring.
Qed.
Lemma flipped_bits rs : List.length rs = k -> ind (flipped rs) = flip (bits_of evs rs).
Proof. intros Hl. unfold flipped, flip, ie. rewrite bit_high by (assumption || apply e_range). reflexivity. Qed.
Lemma is_E_cell : is_E k (fun rs => ind (cell rs)) (1 - (1 - q ^ 3) ^ L).
Proof.
  apply (is_E_ext k (fun rs => (fun bs => (-1) * off_ bs + 1) (bits_of evs rs))); [intros rs Hl _; rewrite cell_bits by exact Hl; ring|].
  replace (1 - (1 - q ^ 3) ^ L) with (Ebl w (fun bs => (-1) * off_ bs + 1)) by (rewrite Ebl_lin, E_off; ring). rewrite <- lenw. apply (is_E_bits evs w events (fun bs => (-1) * off_ bs + 1)).
Qed.
Lemma is_E_flipped : is_E k (fun rs => ind (flipped rs)) p.
Proof.
  apply (is_E_ext k (fun rs => flip (bits_of evs rs))); [intros rs Hl _; symmetry; apply flipped_bits, Hl|]. rewrite <- E_flip, <- lenw. apply (is_E_bits evs w events flip).
Qed.
Lemma is_E_noisy : is_E k (fun rs => ind (xorb (flipped rs) (cell rs))) ((1 - (1 - q ^ 3) ^ L) * (1 - p) + (1 - q ^ 3) ^ L * p).
Proof.
  (* off*flip*2 - off - flip + 1 *)
  assert (X : is_E k (fun rs => off_ (bits_of evs rs) * flip (bits_of evs rs)) ((1 - q ^ 3) ^ L * p)) by (rewrite <- E_flip_off, <- lenw; apply (is_E_bits evs w events (fun bs => off_ bs * flip bs))).
  pose proof (is_E_lin k 1 1 _ _ _ _ is_E_cell (is_E_lin k (-1) 2 _ _ _ _ is_E_flipped X)) as Y.
  replace ((1 - (1 - q ^ 3) ^ L) * (1 - p) + (1 - q ^ 3) ^ L * p) with (1 * (1 - (1 - q ^ 3) ^ L) + 1 * (-1 * p + 2 * ((1 - q ^ 3) ^ L * p))) by ring.
  eapply is_E_ext; [|exact Y]. intros rs Hl _. cbv beta. rewrite <- (flipped_bits rs Hl). replace (off_ (bits_of evs rs)) with (1 - ind (cell rs)) by (rewrite cell_bits by exact Hl; ring).
  destruct (cell rs), (flipped rs); cbn; ring.
Qed.
End CELL.
