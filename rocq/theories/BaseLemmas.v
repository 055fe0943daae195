(** Lemmas about the generic array operations of Base.v. *)
From Verif Require Import Base.
Local Open Scope Z_scope.

(** * [upd] *)
Lemma upd_length {A} (l : list A) i x : List.length (upd l i x) = List.length l.
Proof. revert i; induction l as [|a l IH]; intros [|i]; simpl; auto. Qed.

Lemma nth_upd {A} (l : list A) i j x d :
  nth j (upd l i x) d = if (Nat.eqb j i && Nat.ltb i (List.length l))%bool then x else nth j l d.
Proof.
  revert i j; induction l as [|a l IH]; intros i j.
  - destruct i, j; simpl; rewrite ?andb_false_r; reflexivity.
  - destruct i as [|i], j as [|j]; simpl; try reflexivity.
    rewrite IH. reflexivity.
Qed.

Lemma nth_upd_same {A} (l : list A) i x d :
  (i < List.length l)%nat -> nth i (upd l i x) d = x.
Proof.
  intros H. rewrite nth_upd, Nat.eqb_refl.
  destruct (Nat.ltb_spec i (List.length l)); [reflexivity|lia].
Qed.

Lemma nth_upd_other {A} (l : list A) i j x d : j <> i -> nth j (upd l i x) d = nth j l d.
Proof. intros H. rewrite nth_upd. destruct (Nat.eqb_spec j i); [contradiction|reflexivity]. Qed.

Lemma upd_oob {A} (l : list A) i x : (List.length l <= i)%nat -> upd l i x = l.
Proof.
  revert i; induction l as [|a l IH]; intros [|i] H; simpl in *; try reflexivity; try lia.
  rewrite IH by lia; reflexivity.
Qed.

Lemma upd_nth_same {A} (l : list A) i d : upd l i (nth i l d) = l.
Proof.
  revert i; induction l as [|a l IH]; intros [|i]; simpl; try reflexivity.
  rewrite IH; reflexivity.
Qed.

Lemma upd_upd_same {A} (l : list A) i x y : upd (upd l i x) i y = upd l i y.
Proof. revert i; induction l as [|a l IH]; intros [|i]; simpl; try reflexivity. rewrite IH; reflexivity. Qed.

Lemma upd_comm {A} (l : list A) i j x y :
  i <> j -> upd (upd l i x) j y = upd (upd l j y) i x.
Proof.
  revert i j; induction l as [|a l IH]; intros [|i] [|j] H; simpl; try reflexivity; try congruence.
  rewrite IH by congruence; reflexivity.
Qed.

Lemma nth_error_upd_same {A} (l : list A) i x : (i < List.length l)%nat -> nth_error (upd l i x) i = Some x.
Proof. revert i. induction l as [|a l IH]; intros [|i] H; simpl in *; try lia; [reflexivity|]. apply IH. lia. Qed.
Lemma nth_error_upd_other {A} (l : list A) i j x : j <> i -> nth_error (upd l i x) j = nth_error l j.
Proof. revert i j. induction l as [|a l IH]; intros [|i] [|j] H; simpl; try reflexivity; [congruence|]. apply IH. congruence. Qed.
Lemma Forall_upd {A} (P : A -> Prop) l i x : Forall P l -> P x -> Forall P (upd l i x).
Proof.
  intros H Hx. revert i; induction H as [|a l Ha Hl IH]; intros [|i]; simpl; constructor; auto.
Qed.

Lemma Forall_nth' {A} (P : A -> Prop) l i d : Forall P l -> (i < List.length l)%nat -> P (nth i l d).
Proof. intros H Hi. apply (proj1 (Forall_forall P l) H). apply nth_In; exact Hi. Qed.

Lemma list_ext {A} (l1 l2 : list A) d :
  List.length l1 = List.length l2 ->
  (forall i, (i < List.length l1)%nat -> nth i l1 d = nth i l2 d) -> l1 = l2.
Proof. intros H1 H2. apply (nth_ext _ _ d d H1 H2). Qed.

Lemma nth_map_seq {A} (f : nat -> A) n i d : (i < n)%nat -> nth i (map f (seq 0 n)) d = f i.
Proof.
  intros H. rewrite nth_indep with (d' := f 0%nat) by (rewrite map_length, seq_length; exact H).
  rewrite map_nth, seq_nth by exact H. reflexivity.
Qed.

Lemma map_seq_length {A} (f : nat -> A) n : List.length (map f (seq 0 n)) = n.
Proof. rewrite map_length, seq_length; reflexivity. Qed.

Lemma map_ext_seq {A} (f g : nat -> A) s n :
  (forall i, (s <= i < s + n)%nat -> f i = g i) -> map f (seq s n) = map g (seq s n).
Proof. intros H. apply map_ext_in. intros i Hi. apply H. apply in_seq in Hi. lia. Qed.

Lemma Forall2_length {A B} (R : A -> B -> Prop) l1 l2 : Forall2 R l1 l2 -> List.length l1 = List.length l2.
Proof. induction 1; simpl; congruence. Qed.

(** * shapes *)
Lemma shape2_row m n l i : has_shape2 m n l -> (i < n)%nat -> List.length (row m i) = l.
Proof. intros [H1 H2] Hi. unfold row. apply (Forall_nth' _ m i [] H2). lia. Qed.

Lemma shape2_ncols m n l : has_shape2 m n l -> (0 < n)%nat -> ncols m = l.
Proof. intros [H1 H2] Hn. unfold ncols. destruct m; simpl in *; [lia|]. inversion H2; auto. Qed.

Lemma shape2_nrows m n l : has_shape2 m n l -> nrows m = n.
Proof. intros [H _]; exact H. Qed.

Lemma bin2_row m i : bin2 m -> bin1 (row m i).
Proof.
  intros H. unfold row. destruct (Nat.lt_ge_cases i (List.length m)) as [Hi|Hi].
  - apply (Forall_nth' _ m i [] H Hi).
  - rewrite nth_overflow by exact Hi. constructor.
Qed.

Lemma bin1_at v i : bin1 v -> (i < List.length v)%nat -> pm1 (at1 v i).
Proof. intros H Hi. apply (Forall_nth' _ v i 0 H Hi). Qed.

Lemma bin2_at m n l i j : has_shape2 m n l -> bin2 m -> (i < n)%nat -> (j < l)%nat -> pm1 (at2 m i j).
Proof.
  intros Hs Hb Hi Hj. unfold at2. apply bin1_at; [apply bin2_row; exact Hb|].
  rewrite (shape2_row _ _ _ _ Hs Hi). exact Hj.
Qed.

Lemma set2_shape m n l i j x : has_shape2 m n l -> has_shape2 (set2 m i j x) n l.
Proof.
  intros [H1 H2]. unfold set2, has_shape2. rewrite upd_length. split; [exact H1|].
  destruct (Nat.lt_ge_cases i (List.length m)) as [Hi|Hi].
  - apply Forall_upd; [exact H2|]. rewrite upd_length. apply (shape2_row m n l); [split; assumption|lia].
  - rewrite upd_oob by exact Hi. exact H2.
Qed.

Lemma set2_bin m i j x : bin2 m -> pm1 x -> bin2 (set2 m i j x).
Proof.
  intros H Hx. unfold set2. apply Forall_upd; [exact H|].
  apply Forall_upd; [apply bin2_row; exact H|exact Hx].
Qed.

Lemma at1_upd v i j x :
  at1 (upd v i x) j = if (Nat.eqb j i && Nat.ltb i (List.length v))%bool then x else at1 v j.
Proof. unfold at1. apply nth_upd. Qed.

Lemma row_set2_same m i j x : (i < List.length m)%nat -> row (set2 m i j x) i = upd (row m i) j x.
Proof. intros H. unfold row, set2. rewrite nth_upd_same by exact H. reflexivity. Qed.

Lemma row_set2_other m i i' j x : i' <> i -> row (set2 m i j x) i' = row m i'.
Proof. intros H. unfold row, set2. rewrite nth_upd_other by exact H. reflexivity. Qed.

Lemma at2_set2 m n l i j x i' j' :
  has_shape2 m n l -> (i < n)%nat -> (j < l)%nat ->
  at2 (set2 m i j x) i' j' = if (Nat.eqb i' i && Nat.eqb j' j)%bool then x else at2 m i' j'.
Proof.
  intros Hs Hi Hj. unfold at2. destruct (Nat.eqb_spec i' i) as [->|Hne]; simpl.
  - rewrite row_set2_same by (destruct Hs; lia). rewrite at1_upd.
    rewrite (shape2_row _ _ _ _ Hs Hi).
    destruct (Nat.ltb_spec j l); [|lia]. rewrite andb_true_r. reflexivity.
  - rewrite row_set2_other by exact Hne. reflexivity.
Qed.

Lemma transpose_shape m n l : has_shape2 m n l -> (0 < n)%nat -> has_shape2 (transpose m) l n.
Proof.
  intros Hs Hn. unfold transpose. rewrite (shape2_ncols _ _ _ Hs Hn), (shape2_nrows _ _ _ Hs).
  split; [apply map_seq_length|]. apply Forall_forall. intros r Hr. apply in_map_iff in Hr.
  destruct Hr as (j & <- & _). apply map_seq_length.
Qed.

Lemma at2_transpose m n l i j :
  has_shape2 m n l -> (i < l)%nat -> (j < n)%nat -> at2 (transpose m) i j = at2 m j i.
Proof.
  intros Hs Hi Hj. unfold at2 at 1, transpose, row at 1.
  rewrite (shape2_ncols _ _ _ Hs) by lia. rewrite (shape2_nrows _ _ _ Hs).
  rewrite nth_map_seq by exact Hi. unfold at1. rewrite nth_map_seq by exact Hj. reflexivity.
Qed.

Lemma transpose_forall (P : Z -> Prop) m n l :
  has_shape2 m n l -> Forall (Forall P) m -> Forall (Forall P) (transpose m).
Proof.
  intros Hs Hm. destruct (Nat.eq_dec n 0) as [->|Hn].
  { destruct Hs as [H _]. destruct m; [|discriminate H]. simpl. constructor. }
  unfold transpose. rewrite (shape2_ncols _ _ _ Hs) by lia. rewrite (shape2_nrows _ _ _ Hs).
  apply Forall_forall. intros r Hr. apply in_map_iff in Hr. destruct Hr as (j & <- & Hj).
  apply in_seq in Hj. apply Forall_forall. intros x Hx. apply in_map_iff in Hx.
  destruct Hx as (i & <- & Hi). apply in_seq in Hi. unfold at2, at1.
  apply Forall_nth'; [|rewrite (shape2_row _ _ _ _ Hs) by lia; lia].
  unfold row. apply (Forall_nth' _ m i [] Hm). destruct Hs; lia.
Qed.

(** * counting *)
Lemma cnt_nil c : cnt c [] = 0%nat.
Proof. reflexivity. Qed.

Lemma cnt_cons c l ls : cnt c (l :: ls) = ((if c l then 1 else 0) + cnt c ls)%nat.
Proof. unfold cnt; simpl. destruct (c l); reflexivity. Qed.

Lemma cnt_app c l1 l2 : cnt c (l1 ++ l2) = (cnt c l1 + cnt c l2)%nat.
Proof. unfold cnt. rewrite filter_app, app_length. reflexivity. Qed.

Lemma cnt_ext c1 c2 ls : (forall i, In i ls -> c1 i = c2 i) -> cnt c1 ls = cnt c2 ls.
Proof.
  induction ls as [|l ls IH]; intros H; [reflexivity|]. rewrite !cnt_cons.
  rewrite (H l (or_introl eq_refl)). rewrite IH; [reflexivity|]. intros i Hi. apply H. right; exact Hi.
Qed.

Lemma cnt_le c ls : (cnt c ls <= List.length ls)%nat.
Proof. induction ls as [|l ls IH]; [reflexivity|]. rewrite cnt_cons. simpl. destruct (c l); lia. Qed.

Lemma cnt_zero c ls : cnt c ls = 0%nat <-> forall i, In i ls -> c i = false.
Proof.
  induction ls as [|l ls IH]; [simpl; split; [intros _ i []|reflexivity]|].
  rewrite cnt_cons. split.
  - intros H i [<-|Hi]; destruct (c l) eqn:E; try lia; try reflexivity. apply IH; [lia|exact Hi].
  - intros H. rewrite (H l (or_introl eq_refl)). apply IH. intros i Hi; apply H; right; exact Hi.
Qed.

Lemma cnt_full c ls : cnt c ls = List.length ls <-> forall i, In i ls -> c i = true.
Proof.
  induction ls as [|l ls IH]; [simpl; split; [intros _ i []|reflexivity]|].
  rewrite cnt_cons. simpl List.length. pose proof (cnt_le c ls) as Hle. split.
  - intros H i [<-|Hi]; destruct (c l) eqn:E; try lia; try reflexivity. apply IH; [lia|exact Hi].
  - intros H. rewrite (H l (or_introl eq_refl)).
    rewrite (proj2 IH); [reflexivity|]. intros i Hi; apply H; right; exact Hi.
Qed.

Lemma cnt_pos c ls : (0 < cnt c ls)%nat <-> exists i, In i ls /\ c i = true.
Proof.
  induction ls as [|l ls IH]; [simpl; split; [intros H; inversion H|intros (i & [] & _)]|].
  rewrite cnt_cons. split.
  - intros H. destruct (c l) eqn:E; [exists l; split; [left; reflexivity|exact E]|].
    destruct (proj1 IH) as (i & Hi & Hc); [lia|]. exists i; split; [right; exact Hi|exact Hc].
  - intros (i & [<-|Hi] & Hc); [rewrite Hc; lia|].
    assert (0 < cnt c ls)%nat by (apply IH; exists i; auto). lia.
Qed.

Lemma cnt_one c ls : NoDup ls ->
  (cnt c ls = 1%nat <-> exists i, (In i ls /\ c i = true) /\ forall j, In j ls -> c j = true -> j = i).
Proof.
  induction ls as [|l ls IH]; intros Hnd.
  - simpl; split; [discriminate|intros (i & [[] _] & _)].
  - inversion Hnd as [|? ? Hnin Hnd']; subst. rewrite cnt_cons. split.
    + intros H. destruct (c l) eqn:E.
      * exists l. split; [split; [left; reflexivity|exact E]|].
        intros j [<-|Hj] Hc; [reflexivity|].
        assert (H0 : cnt c ls = 0%nat) by lia. rewrite (proj1 (cnt_zero c ls) H0 j Hj) in Hc. discriminate.
      * destruct (proj1 (IH Hnd')) as (i & [Hi Hc] & Hu); [lia|].
        exists i. split; [split; [right; exact Hi|exact Hc]|].
        intros j [<-|Hj] Hcj; [congruence|]. apply Hu; assumption.
    + intros (i & [[<-|Hi] Hc] & Hu).
      * rewrite Hc. assert (H0 : cnt c ls = 0%nat); [|lia]. apply cnt_zero. intros j Hj.
        destruct (c j) eqn:E; [|reflexivity]. exfalso. apply Hnin. rewrite <- (Hu j (or_intror Hj) E). exact Hj.
      * destruct (c l) eqn:E.
        { exfalso. apply Hnin. rewrite (Hu l (or_introl eq_refl) E). exact Hi. }
        simpl. apply IH; [exact Hnd'|]. exists i. split; [split; assumption|].
        intros j Hj Hcj. apply Hu; [right; exact Hj|exact Hcj].
Qed.

(** Counting with one index singled out. *)
Lemma cnt_split c l ls : NoDup ls -> In l ls ->
  cnt c ls = ((if c l then 1 else 0) + cnt (fun i => c i && negb (Nat.eqb i l)) ls)%nat.
Proof.
  induction ls as [|a ls IH]; intros Hnd Hin; [destruct Hin|].
  inversion Hnd as [|? ? Hnin Hnd']; subst. rewrite !cnt_cons. destruct Hin as [->|Hin].
  - rewrite Nat.eqb_refl, andb_false_r. simpl.
    rewrite (cnt_ext (fun i => c i && negb (i =? l)%nat) c); [reflexivity|].
    intros i Hi. destruct (Nat.eqb_spec i l) as [->|]; [contradiction|]. rewrite andb_true_r. reflexivity.
  - destruct (Nat.eqb_spec a l) as [->|Hne]; [contradiction|]. rewrite andb_true_r.
    rewrite (IH Hnd' Hin). lia.
Qed.

Lemma in_seq0 i n : In i (seq 0 n) <-> (i < n)%nat.
Proof. rewrite in_seq. lia. Qed.

(** * sums *)
Lemma Zsum_ext f g ls : (forall i, In i ls -> f i = g i) -> Zsum f ls = Zsum g ls.
Proof.
  induction ls as [|l ls IH]; intros H; [reflexivity|]. simpl.
  rewrite (H l (or_introl eq_refl)). fold (Zsum f ls). fold (Zsum g ls).
  rewrite IH; [reflexivity|]. intros i Hi; apply H; right; exact Hi.
Qed.

Lemma Zsum_cons f l ls : Zsum f (l :: ls) = f l + Zsum f ls.
Proof. reflexivity. Qed.

Lemma Zsum_app f l1 l2 : Zsum f (l1 ++ l2) = Zsum f l1 + Zsum f l2.
Proof. induction l1 as [|a l1 IH]; [reflexivity|]. simpl app. rewrite !Zsum_cons, IH. lia. Qed.

Lemma Zsum_scale k f ls : Zsum (fun i => k * f i) ls = k * Zsum f ls.
Proof. induction ls as [|a ls IH]; [simpl; lia|]. rewrite !Zsum_cons, IH. lia. Qed.

Lemma Zsum_add f g ls : Zsum (fun i => f i + g i) ls = Zsum f ls + Zsum g ls.
Proof. induction ls as [|a ls IH]; [reflexivity|]. rewrite !Zsum_cons, IH. lia. Qed.

Lemma Zsum_opp f ls : Zsum (fun i => - f i) ls = - Zsum f ls.
Proof. induction ls as [|a ls IH]; [reflexivity|]. rewrite !Zsum_cons, IH. lia. Qed.

Lemma Zsum_zero f ls : (forall i, In i ls -> f i = 0) -> Zsum f ls = 0.
Proof.
  induction ls as [|a ls IH]; intros H; [reflexivity|]. rewrite Zsum_cons, (H a (or_introl eq_refl)), IH; [lia|].
  intros i Hi; apply H; right; exact Hi.
Qed.

Lemma Zsum_abs_bound f ls b : (forall i, In i ls -> Z.abs (f i) <= b) ->
  Z.abs (Zsum f ls) <= b * Z.of_nat (List.length ls).
Proof.
  induction ls as [|a ls IH]; intros H; [simpl; lia|]. rewrite Zsum_cons.
  pose proof (H a (or_introl eq_refl)). assert (Z.abs (Zsum f ls) <= b * Z.of_nat (List.length ls)).
  { apply IH. intros i Hi; apply H; right; exact Hi. }
  simpl List.length. lia.
Qed.

Lemma Zsum_cnt (c : nat -> bool) ls : Zsum (fun i => if c i then 1 else 0) ls = Z.of_nat (cnt c ls).
Proof. induction ls as [|a ls IH]; [reflexivity|]. rewrite Zsum_cons, cnt_cons, IH. destruct (c a); lia. Qed.

(** * wrap *)
Lemma wrap_id b x : 0 < b -> - 2 ^ (b - 1) <= x < 2 ^ (b - 1) -> wrap b x = x.
Proof.
  intros Hb Hx. unfold wrap.
  assert (E : 2 ^ b = 2 * 2 ^ (b - 1)).
  { replace b with (1 + (b - 1)) at 1 by lia. rewrite Z.pow_add_r by lia. reflexivity. }
  rewrite Z.mod_small; lia.
Qed.

Lemma wrap_range b x : 0 < b -> - 2 ^ (b - 1) <= wrap b x < 2 ^ (b - 1).
Proof.
  intros Hb. unfold wrap.
  assert (E : 2 ^ b = 2 * 2 ^ (b - 1)).
  { replace b with (1 + (b - 1)) at 1 by lia. rewrite Z.pow_add_r by lia. reflexivity. }
  assert (0 < 2 ^ (b - 1)) by (apply Z.pow_pos_nonneg; lia).
  pose proof (Z.mod_pos_bound (x + 2 ^ (b - 1)) (2 ^ b)). lia.
Qed.

Lemma wrap16_id x : -32768 <= x < 32768 -> wrap16 x = x.
Proof. intros H. apply wrap_id; [lia|exact H]. Qed.

(** Concrete arrays: shapes and entries. *)
Ltac bin_tac :=
  unfold bin3, bin2, bin1, tern3, tern2, tern1; repeat first [apply Forall_nil | apply Forall_cons];
  unfold pm1, tern; auto.
Ltac shape_tac :=
  unfold has_shape3, has_shape2;
  repeat first [split | apply Forall_nil | apply Forall_cons | reflexivity].
