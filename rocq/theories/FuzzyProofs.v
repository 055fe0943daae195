(** Proofs for C19, C20, C21. *)
From Coq Require Import String Lra.
From Verif Require Import Base BaseLemmas BaseR BaseRLemmas Spec Outputs OutputsProofs Lops LopsProofs SpecF Fuzzy.
Local Open Scope R_scope.

Definition b2r (b : bool) : R := if b then 1 else 0.
Definition lopb (o : lop) : list bool -> bool :=
  match o with OR => lop_fn_OR | NOR => lop_fn_NOR | AND => lop_fn_AND | NAND => lop_fn_NAND
  | XOR => lop_fn_XOR | NXOR => lop_fn_NXOR end.
Definition flop (o : lop) : rvec -> R :=
  match o with OR => fuzzy_fn_OR | NOR => fuzzy_fn_NOR | AND => fuzzy_fn_AND | NAND => fuzzy_fn_NAND
  | XOR => fuzzy_fn_XOR | NXOR => fuzzy_fn_NXOR end.

Lemma lopb_holds o bs P : (forall k, (k < List.length bs)%nat -> (P k <-> nth k bs false = true)) ->
  (lop_holds o (List.length bs) P <-> lopb o bs = true).
Proof.
  intros H. rewrite (lop_holds_cnt o (List.length bs) P (fun k => nth k bs false)) by (intros k Hk; symmetry; exact (H k Hk)).
  destruct (lop_name_get o) as (f & Ef & Hf).
  assert (E : f = lopb o) by (destruct o; injection Ef as <-; reflexivity). subst f.
  rewrite <- Hf. assert (E : map (fun k => nth k bs false) (seq 0 (List.length bs)) = bs).
  { symmetry. apply (list_ext _ _ false); [rewrite map_length, seq_length; reflexivity|].
    intros i Hi. rewrite nth_map_seq by exact Hi. reflexivity. }
  rewrite E. reflexivity.
Qed.

(** Expectation over independent bits. *)
Fixpoint Ebl (x : list R) (G : list bool -> R) : R :=
  match x with
  | [] => G []
  | a :: x' => a * Ebl x' (fun bs => G (true :: bs)) + (1 - a) * Ebl x' (fun bs => G (false :: bs))
  end.
Lemma Ebl_ext x G H : (forall bs, List.length bs = List.length x -> G bs = H bs) -> Ebl x G = Ebl x H.
Proof.
  revert G H. induction x as [|a x IH]; intros G H E; [apply E; reflexivity|]. cbn [Ebl].
  rewrite (IH (fun bs => G (true :: bs)) (fun bs => H (true :: bs))), (IH (fun bs => G (false :: bs)) (fun bs => H (false :: bs)));
    [reflexivity| |]; intros bs Hb; apply E; cbn [List.length]; congruence.
Qed.
Lemma Ebl_lin x G a b : Ebl x (fun bs => a * G bs + b) = a * Ebl x G + b.
Proof. revert G. induction x as [|c x IH]; intros G; [reflexivity|]. cbn [Ebl]. rewrite !IH. ring. Qed.
Lemma Ebl_const x k : Ebl x (fun _ => k) = k.
Proof. induction x as [|c x IH]; [reflexivity|]. cbn [Ebl]. rewrite !IH. ring. Qed.
Lemma Ebl_bool x (f : list bool -> bool) H :
  Ebl x (fun bs => H (f bs)) = Ebl x (fun bs => b2r (f bs)) * H true + (1 - Ebl x (fun bs => b2r (f bs))) * H false.
Proof.
  rewrite (Ebl_ext x _ (fun bs => (H true - H false) * b2r (f bs) + H false)).
  - rewrite Ebl_lin. ring.
  - intros bs _. unfold b2r. destruct (f bs); ring.
Qed.
Lemma Ebl_range x G lo hi : probs x -> (forall bs, lo <= G bs <= hi) -> lo <= Ebl x G <= hi.
Proof.
  intros Hx. revert G. induction Hx as [|a x Ha Hx IH]; intros G HG; [apply HG|]. cbn [Ebl].
  destruct (IH (fun bs => G (true :: bs)) (fun bs => HG _)) as [A1 A2].
  destruct (IH (fun bs => G (false :: bs)) (fun bs => HG _)) as [B1 B2]. simpl in Ha.
  pose proof (Rmult_le_compat_l a _ _ (proj1 Ha) A1). pose proof (Rmult_le_compat_l a _ _ (proj1 Ha) A2).
  assert (Hb : 0 <= 1 - a) by lra.
  pose proof (Rmult_le_compat_l (1 - a) _ _ Hb B1). pose proof (Rmult_le_compat_l (1 - a) _ _ Hb B2). lra.
Qed.
Lemma Ebl_certain (bs : list bool) G : Ebl (map b2r bs) G = G bs.
Proof.
  revert G. induction bs as [|b bs IH]; intros G; [reflexivity|]. cbn [map Ebl]. rewrite !IH. destruct b; unfold b2r; ring.
Qed.

(** The fuzzy operators are the probabilities of the operators. *)
Lemma seq_S n : seq 0 (S n) = 0%nat :: map S (seq 0 n).
Proof. simpl. rewrite seq_shift. reflexivity. Qed.
Lemma filter_none_idx n : filter (fun i => negb (Nat.eqb i 0)) (map S (seq 0 n)) = map S (seq 0 n).
Proof. induction (seq 0 n) as [|a l IH]; [reflexivity|]. cbn [map filter Nat.eqb negb]. rewrite IH. reflexivity. Qed.
Lemma filter_S j l : filter (fun i => negb (Nat.eqb i (S j))) (map S l) = map S (filter (fun i => negb (Nat.eqb i j)) l).
Proof. induction l as [|a l IH]; [reflexivity|]. cbn [map filter Nat.eqb]. destruct (Nat.eqb a j); cbn [negb]; rewrite IH; reflexivity. Qed.
Lemma map_rat x : map (fun i => rat x i) (seq 0 (List.length x)) = x.
Proof.
  symmetry. apply (list_ext _ _ 0); [rewrite map_length, seq_length; reflexivity|].
  intros i Hi. rewrite nth_map_seq by exact Hi. reflexivity.
Qed.
Lemma xor_cons a x : fuzzy_fn_XOR (a :: x) = a * Rprod (fun b => 1 - b) x + (1 - a) * fuzzy_fn_XOR x.
Proof.
  unfold fuzzy_fn_XOR. cbn [List.length]. rewrite seq_S, Rsum_cons, Rsum_map. f_equal.
  - assert (F : Rprod (fun b => 1 - b) x = Rprod (fun i => 1 - rat x i) (seq 0 (List.length x))).
    { rewrite <- (Rprod_map (fun i => rat x i) (fun b => 1 - b)), map_rat. reflexivity. }
    rewrite F. cbn [filter Nat.eqb negb]. rewrite filter_none_idx, Rprod_app, map_map, Rprod_map.
    rewrite (Rprod_ext _ (fun i => 1 - rat x i)) by (intros; reflexivity). rewrite Rprod_cons.
    change (rat (a :: x) 0) with a. cbn [Rprod fold_right]. ring.
  - rewrite <- Rsum_scale. apply Rsum_ext. intros j _. cbn [filter Nat.eqb negb]. rewrite filter_S. cbn [map].
    rewrite map_map. cbn [app]. rewrite Rprod_cons. change (rat (a :: x) 0) with a. f_equal.
Qed.
Lemma Ebl_none x : Ebl x (fun bs => b2r (negb (existsb (fun b => b) bs))) = Rprod (fun b => 1 - b) x.
Proof.
  induction x as [|a x IH]; [reflexivity|]. cbn [Ebl existsb orb negb]. rewrite IH.
  change (b2r false) with 0. rewrite Ebl_const, Rprod_cons. ring.
Qed.
Lemma Ebl_all x : Ebl x (fun bs => b2r (forallb (fun b => b) bs)) = Rprod (fun b => b) x.
Proof.
  induction x as [|a x IH]; [reflexivity|]. cbn [Ebl forallb andb]. rewrite IH.
  change (b2r false) with 0. rewrite Ebl_const, Rprod_cons. ring.
Qed.
Lemma zero_none bs : Nat.eqb (List.length (filter (fun b : bool => b) bs)) 0 = negb (existsb (fun b => b) bs).
Proof. induction bs as [|b bs IH]; [reflexivity|]. cbn [filter existsb]. destruct b; [reflexivity|exact IH]. Qed.
Lemma Ebl_one x : Ebl x (fun bs => b2r (Nat.eqb (List.length (filter (fun b => b) bs)) 1)) = fuzzy_fn_XOR x.
Proof.
  induction x as [|a x IH]; [reflexivity|]. cbn [Ebl filter]. rewrite IH, xor_cons. f_equal. f_equal.
  rewrite <- Ebl_none. apply Ebl_ext. intros bs _. cbn [List.length Nat.eqb]. rewrite zero_none. reflexivity.
Qed.
Lemma Ebl_negb x f : Ebl x (fun bs => b2r (negb (f bs))) = 1 - Ebl x (fun bs => b2r (f bs)).
Proof. rewrite (Ebl_bool x f (fun b => b2r (negb b))). cbn [negb]. unfold b2r at 2 4. ring. Qed.
Lemma Ebl_lop o x : Ebl x (fun bs => b2r (lopb o bs)) = flop o x.
Proof.
  destruct o; cbn [lopb flop]; unfold lop_fn_OR, lop_fn_NOR, lop_fn_AND, lop_fn_NAND, lop_fn_XOR, lop_fn_NXOR.
  - rewrite <- (Ebl_ext x (fun bs => b2r (negb (negb (existsb (fun b => b) bs)))))
      by (intros; rewrite negb_involutive; reflexivity).
    rewrite Ebl_negb, Ebl_none. reflexivity.
  - apply Ebl_none.
  - apply Ebl_all.
  - rewrite Ebl_negb, Ebl_all. reflexivity.
  - apply Ebl_one.
  - rewrite Ebl_negb, Ebl_one. reflexivity.
Qed.

(** * Sums over bits and tables *)
Lemma Rprod_seq_S f n : Rprod f (seq 0 (S n)) = f 0%nat * Rprod (fun k => f (S k)) (seq 0 n).
Proof. rewrite seq_S, Rprod_cons, Rprod_map. reflexivity. Qed.
Lemma bools_sum K q G :
  Rsum (fun c => Rprod (fun k => if nth k c false then q k else 1 - q k) (seq 0 K) * G c) (bools K) =
  Ebl (map q (seq 0 K)) G.
Proof.
  revert q G. induction K as [|K IH]; intros q G; [cbn; ring|].
  cbn [bools]. rewrite Rsum_flat_map. rewrite seq_S. cbn [map Ebl]. rewrite map_map.
  rewrite <- !IH, <- !Rsum_scale, <- Rsum_add. apply Rsum_ext. intros c _. rewrite !Rsum_cons.
  rewrite <- seq_S, !Rprod_seq_S. cbn [nth Rsum fold_right]. ring.
Qed.
Lemma bools_length K c : In c (bools K) -> List.length c = K.
Proof.
  revert c. induction K as [|K IH]; intros c H; [destruct H as [<-|[]]; reflexivity|].
  cbn [bools] in H. apply in_flat_map in H. destruct H as (d & Hd & [<-|[<-|[]]]); cbn [List.length]; rewrite (IH d Hd); reflexivity.
Qed.
Lemma tables_shape K L t : In t (tables K L) -> List.length t = L /\ Forall (fun c => List.length c = K) t.
Proof.
  revert t. induction L as [|L IH]; intros t H; [destruct H as [<-|[]]; split; [reflexivity|constructor]|].
  cbn [tables] in H. apply in_flat_map in H. destruct H as (s & Hs & H). apply in_map_iff in H. destruct H as (c & <- & Hc).
  destruct (IH s Hs) as [I1 I2]. split; [cbn [List.length]; congruence|]. constructor; [apply bools_length, Hc|exact I2].
Qed.
Lemma tables_sum K L p (inner : list bool -> bool) G :
  Rsum (fun t => table_weight K L p t * G (map inner t)) (tables K L) =
  Ebl (map (fun l => Ebl (map (fun k => p k l) (seq 0 K)) (fun c => b2r (inner c))) (seq 0 L)) G.
Proof.
  revert p G. induction L as [|L IH]; intros p G; [cbn; ring|].
  cbn [tables]. rewrite Rsum_flat_map, seq_S. cbn [map Ebl]. rewrite map_map.
  rewrite (Rsum_ext _ (fun t => Ebl (map (fun k => p k 0%nat) (seq 0 K))
     (fun c => table_weight K L (fun k l => p k (S l)) t * G (inner c :: map inner t)))).
  - rewrite (Rsum_ext _ (fun t =>
      Ebl (map (fun k => p k 0%nat) (seq 0 K)) (fun c => b2r (inner c)) * (table_weight K L (fun k l => p k (S l)) t * G (true :: map inner t)) +
      (1 - Ebl (map (fun k => p k 0%nat) (seq 0 K)) (fun c => b2r (inner c))) * (table_weight K L (fun k l => p k (S l)) t * G (false :: map inner t)))).
    + rewrite Rsum_add, !Rsum_scale.
      rewrite (IH (fun k l => p k (S l)) (fun bs => G (true :: bs))), (IH (fun k l => p k (S l)) (fun bs => G (false :: bs))). reflexivity.
    + intros t _. apply (Ebl_bool _ inner (fun b => table_weight K L (fun k l => p k (S l)) t * G (b :: map inner t))).
  - intros t _. rewrite Rsum_map. rewrite <- bools_sum. apply Rsum_ext. intros c _.
    unfold table_weight at 1. rewrite Rprod_seq_S. cbn [nth map]. unfold table_weight. ring.
Qed.

Lemma table_holds_b o i K L t : In t (tables K L) -> (table_holds o i K L t <-> lopb o (map (lopb i) t) = true).
Proof.
  intros Ht. destruct (tables_shape K L t Ht) as [HL HK]. unfold table_holds.
  rewrite <- (lopb_holds o (map (lopb i) t) (fun l => lop_holds i K (fun k => nth k (nth l t []) false = true))).
  - rewrite map_length, HL. reflexivity.
  - intros l Hl. rewrite map_length in Hl. pose proof (Forall_nth' _ t l [] HK Hl) as E. simpl in E.
    rewrite <- E. rewrite (lopb_holds i (nth l t []) (fun k => nth k (nth l t []) false = true)) by (intros; reflexivity).
    rewrite nth_indep with (d' := lopb i []) by (rewrite map_length; exact Hl). rewrite map_nth. reflexivity.
Qed.

(** The generic formula. *)
Definition fuzz (o i : lop) (K L : nat) (p : nat -> nat -> R) : R :=
  flop o (map (fun l => flop i (map (fun k => p k l) (seq 0 K))) (seq 0 L)).
Lemma expect_fuzz o i K L p hi lo : is_expect o i K L p hi lo (fuzz o i K L p * hi + (1 - fuzz o i K L p) * lo).
Proof.
  intros val Hval.
  rewrite (Rsum_ext _ (fun t => table_weight K L p t * (if lopb o (map (lopb i) t) then hi else lo))).
  - rewrite (tables_sum K L p (lopb i) (fun bs => if lopb o bs then hi else lo)).
    rewrite (Ebl_bool _ (lopb o) (fun b => if b then hi else lo)), Ebl_lop. unfold fuzz.
    rewrite (map_ext _ (fun l => flop i (map (fun k => p k l) (seq 0 K)))) by (intros; apply Ebl_lop). reflexivity.
  - intros t Ht. f_equal. pose proof (table_holds_b o i K L t Ht) as H. destruct (Hval t) as [H1 H2].
    destruct (lopb o (map (lopb i) t)); [apply H1, H; reflexivity|apply H2]. intros C. apply H in C. discriminate.
Qed.
Lemma prob_fuzz o i K L p : is_prob o i K L p (fuzz o i K L p).
Proof.
  pose proof (expect_fuzz o i K L p 1 0) as H.
  replace (fuzz o i K L p * 1 + (1 - fuzz o i K L p) * 0) with (fuzz o i K L p) in H by ring. exact H.
Qed.
Lemma flop_range o x : probs x -> 0 <= flop o x <= 1.
Proof. intros H. rewrite <- Ebl_lop. apply Ebl_range; [exact H|]. intros bs. unfold b2r. destruct (lopb o bs); lra. Qed.
Lemma fuzz_range o i K L p : (forall k l, (k < K)%nat -> (l < L)%nat -> 0 <= p k l <= 1) -> 0 <= fuzz o i K L p <= 1.
Proof.
  intros H. apply flop_range. apply Forall_forall. intros x Hx. apply in_map_iff in Hx. destruct Hx as (l & <- & Hl).
  apply flop_range. apply Forall_forall. intros y Hy. apply in_map_iff in Hy. destruct Hy as (k & <- & Hk).
  apply in_seq in Hl, Hk. apply H; lia.
Qed.
Lemma flop_certain o (bs : list bool) : flop o (map b2r bs) = b2r (lopb o bs).
Proof. rewrite <- Ebl_lop. apply Ebl_certain. Qed.
Lemma fuzz_certain o i K L (b : nat -> nat -> bool) :
  fuzz o i K L (fun k l => b2r (b k l)) = b2r (lopb o (map (fun l => lopb i (map (fun k => b k l) (seq 0 K))) (seq 0 L))).
Proof.
  unfold fuzz. rewrite <- flop_certain, map_map. f_equal. apply map_ext. intros l. rewrite <- flop_certain, map_map. reflexivity.
Qed.

(** * The loops *)
Lemma prod_loop_Rprod g L : prod_loop g L = Rprod g (seq 0 L).
Proof.
  unfold prod_loop. rewrite <- (Rmult_1_l (Rprod g (seq 0 L))). generalize 1. induction (seq 0 L) as [|l ls IH]; intros a; [simpl; ring|].
  cbn [fold_left]. rewrite IH, Rprod_cons. ring.
Qed.
Lemma sum_loop_Rsum g L : sum_loop g L = Rsum g (seq 0 L).
Proof.
  unfold sum_loop. rewrite <- (Rplus_0_l (Rsum g (seq 0 L))). generalize 0. induction (seq 0 L) as [|l ls IH]; intros a; [simpl; ring|].
  cbn [fold_left]. rewrite IH, Rsum_cons. ring.
Qed.
Lemma skip_loop_Rprod g L l : skip_loop g L l = Rprod g (filter (fun i => negb (Nat.eqb i l)) (seq 0 L)).
Proof.
  unfold skip_loop. rewrite <- (Rmult_1_l (Rprod g _)). generalize 1. induction (seq 0 L) as [|a ls IH]; intros x; [simpl; ring|].
  cbn [fold_left filter]. rewrite IH. rewrite (Nat.eqb_sym l a). destruct (Nat.eqb a l); cbn [negb]; [ring|]. rewrite Rprod_cons. ring.
Qed.
Lemma flop_XOR_map (h : nat -> R) L :
  fuzzy_fn_XOR (map h (seq 0 L)) = Rsum (fun j => Rprod (fun i => 1 - h i) (filter (fun i => negb (Nat.eqb i j)) (seq 0 L)) * h j) (seq 0 L).
Proof.
  unfold fuzzy_fn_XOR. rewrite map_length, seq_length. apply Rsum_ext. intros j Hj. apply in_seq in Hj.
  assert (E : forall i, (i < L)%nat -> rat (map h (seq 0 L)) i = h i) by (intros i Hi; apply (nth_map_seq h L i 0 Hi)).
  rewrite Rprod_app, Rprod_map. cbn [Rprod fold_right]. rewrite (E j) by lia. rewrite Rmult_1_r. f_equal.
  apply Rprod_ext. intros i Hi. apply filter_In in Hi. destruct Hi as [Hi _]. apply in_seq in Hi. rewrite E by lia. reflexivity.
Qed.
Lemma xor_form (a b h : nat -> R) L (g : nat -> R) :
  (forall l, h l = a l) -> (forall l, 1 - h l = b l) ->
  (forall l, g l = skip_loop b L l * a l) ->
  sum_loop g L = fuzzy_fn_XOR (map h (seq 0 L)).
Proof.
  intros Ha Hb Hg. rewrite sum_loop_Rsum, flop_XOR_map. apply Rsum_ext. intros j _. rewrite Hg, skip_loop_Rprod, Ha. f_equal.
  apply Rprod_ext. intros. symmetry. apply Hb.
Qed.

Definition p2 (z u : rvec) (k l : nat) : R := nth l (nth k [z; u] []) 0.
Definition p3 (z u v : rvec) (k l : nat) : R := nth l (nth k [z; u; v] []) 0.

Lemma or_form (h b : nat -> R) L : (forall l, 1 - h l = b l) -> 1 - prod_loop b L = fuzzy_fn_OR (map h (seq 0 L)).
Proof. intros H. unfold fuzzy_fn_OR. rewrite prod_loop_Rprod, Rprod_map. f_equal. apply Rprod_ext. intros. rewrite H. reflexivity. Qed.
Lemma nand_form (h b : nat -> R) L : (forall l, h l = b l) -> 1 - prod_loop b L = fuzzy_fn_NAND (map h (seq 0 L)).
Proof. intros H. unfold fuzzy_fn_NAND. rewrite prod_loop_Rprod, Rprod_map. f_equal. apply Rprod_ext. intros. rewrite H. reflexivity. Qed.

Ltac inner := intros; unfold p2, p3, rat, p_XOR_fuzzy_3d; cbn [flop fuzzy_fn_AND fuzzy_fn_NAND fuzzy_fn_XOR fuzzy_fn_NXOR
  seq map nth List.length filter Nat.eqb negb app]; unfold fuzzy_fn_AND, fuzzy_fn_NAND, fuzzy_fn_XOR, fuzzy_fn_NXOR, rat;
  cbn [seq map nth List.length filter Nat.eqb negb app Rprod Rsum fold_right]; ring.

Lemma fuzzy2 o i : In (o, i) implemented -> exists f, get_scalar_output_function_2d_fuzzy (model_name o i) = Some f /\
  forall z u, f z u = fuzz o i 2 (List.length z) (p2 z u).
Proof.
  intros H. cbn [implemented In] in H.
  repeat (destruct H as [H|H]; [injection H as <- <-|]); try contradiction; (eexists; split; [reflexivity|]); intros z u; unfold fuzz; cbn [flop].
  - unfold OR_AND_product_fuzzy. apply or_form. inner.
  - unfold OR_NAND_product_fuzzy. apply or_form. inner.
  - unfold OR_XOR_product_fuzzy. apply or_form. inner.
  - unfold NAND_XOR_product_fuzzy. apply nand_form. inner.
  - unfold XOR_AND_product_fuzzy. eapply xor_form with (a := fun l => rat z l * rat u l) (b := fun l' => 1 - rat z l' * rat u l');
      [inner|inner|intros; ring].
  - unfold XOR_XOR_product_fuzzy. eapply xor_form with (a := fun l => (1 - rat z l) * rat u l + (1 - rat u l) * rat z l)
      (b := fun l' => rat z l' * rat u l' + (1 - rat z l') * (1 - rat u l')); [inner|inner|intros; ring].
  - unfold XOR_NXOR_product_fuzzy. eapply xor_form with (a := fun l => (rat z l * rat u l) + (1 - rat u l) * (1 - rat z l))
      (b := fun l' => rat z l' * (1 - rat u l') + (1 - rat z l') * rat u l'); [inner|inner|intros; ring].
  - unfold XOR_NAND_product_fuzzy. eapply xor_form with (a := fun l => 1 - rat z l * rat u l) (b := fun l' => rat z l' * rat u l');
      [inner|inner|intros; ring].
Qed.
Lemma fuzzy3 o i : In (o, i) implemented -> (o, i) <> (OR, XOR) -> exists f, get_scalar_output_function_3d_fuzzy (model_name o i) = Some f /\
  forall z u v, f z u v = fuzz o i 3 (List.length z) (p3 z u v).
Proof.
  intros H Hne. cbn [implemented In] in H.
  repeat (destruct H as [H|H]; [injection H as <- <-|]); try contradiction; (eexists; split; [reflexivity|]); intros z u v; unfold fuzz; cbn [flop].
  - unfold OR_AND_product_fuzzy_3d. apply or_form. inner.
  - unfold OR_NAND_product_fuzzy_3d. apply or_form. inner.
  - unfold NAND_XOR_product_fuzzy_3d. apply nand_form. inner.
  - unfold XOR_AND_product_fuzzy_3d. eapply xor_form with (a := fun l => rat z l * rat u l * rat v l) (b := fun l' => 1 - rat z l' * rat u l' * rat v l');
      [inner|inner|intros; ring].
  - unfold XOR_XOR_product_fuzzy_3d. eapply xor_form with (a := fun l => p_XOR_fuzzy_3d (rat z l) (rat u l) (rat v l))
      (b := fun l' => 1 - p_XOR_fuzzy_3d (rat z l') (rat u l') (rat v l')); [inner|inner|intros; ring].
  - unfold XOR_NXOR_product_fuzzy_3d. eapply xor_form with (a := fun l => 1 - p_XOR_fuzzy_3d (rat z l) (rat u l) (rat v l))
      (b := fun l' => p_XOR_fuzzy_3d (rat z l') (rat u l') (rat v l')); [inner|inner|intros; ring].
  - unfold XOR_NAND_product_fuzzy_3d. eapply xor_form with (a := fun l => 1 - rat z l * rat u l * rat v l) (b := fun l' => rat z l' * rat u l' * rat v l');
      [inner|inner|intros; ring].
Qed.

(** * Theorems *)
Lemma nth_probs v l : probs v -> (l < List.length v)%nat -> 0 <= nth l v 0 <= 1.
Proof. intros H Hl. apply (Forall_nth' _ v l 0 H Hl). Qed.
Lemma certain_nth v l : (l < List.length v)%nat -> nth l (certain v) 0 = b2r (nth l v 0 =? 1)%Z.
Proof.
  intros H. unfold certain. exact (map_nth (fun x => if (x =? 1)%Z then 1 else 0) v 0%Z l).
Qed.
Lemma certain_length v : List.length (certain v) = List.length v.
Proof. apply map_length. Qed.
Lemma fuzz_ext o i K L p q : (forall k l, (k < K)%nat -> (l < L)%nat -> p k l = q k l) -> fuzz o i K L p = fuzz o i K L q.
Proof.
  intros H. unfold fuzz. f_equal. apply map_ext_seq. intros l Hl. f_equal. apply map_ext_seq. intros k Hk. apply H; lia.
Qed.
Lemma fuzz_lom o i rows L (p : nat -> nat -> R) x : lom_output o i rows L x ->
  (forall k l, (k < List.length rows)%nat -> (l < L)%nat -> p k l = b2r (nth l (nth k rows []) 0 =? 1)%Z) ->
  fuzz o i (List.length rows) L p = (1 + IZR x) / 2.
Proof.
  intros Hx Hp. rewrite (fuzz_ext _ _ _ _ _ _ Hp), fuzz_certain.
  set (bs := map (fun l => lopb i (map (fun k => (nth l (nth k rows []) 0 =? 1)%Z) (seq 0 (List.length rows)))) (seq 0 L)).
  assert (E : lom_true o i rows L <-> lopb o bs = true).
  { unfold lom_true. rewrite <- (lopb_holds o bs (fun l => lop_holds i (List.length rows) (fun k => nth l (nth k rows []) 0%Z = 1%Z))).
    - unfold bs. rewrite map_length, seq_length. reflexivity.
    - intros l Hl. unfold bs in *. rewrite map_length, seq_length in Hl. rewrite nth_map_seq by exact Hl.
      rewrite <- (lopb_holds i _ (fun k => nth l (nth k rows []) 0%Z = 1%Z)).
      + rewrite map_length, seq_length. reflexivity.
      + intros k Hk. rewrite map_length, seq_length in Hk. rewrite nth_map_seq by exact Hk. rewrite Z.eqb_eq. reflexivity. }
  destruct Hx as [[-> Ht]|[-> Ht]].
  - apply E in Ht. rewrite Ht. unfold b2r. lra.
  - destruct (lopb o bs); [exfalso; apply Ht, E; reflexivity|]. unfold b2r. lra.
Qed.

Lemma C19_lemma : forall o i, In (o, i) implemented ->
  exists f, get_scalar_output_function_2d_fuzzy (model_name o i) = Some f /\
    (forall z u L, List.length z = L -> List.length u = L ->
       is_prob o i 2 L (fun k l => nth l (nth k [z; u] []) 0) (f z u) /\
       (probs z -> probs u -> 0 <= f z u <= 1)) /\
    (forall a b L x, List.length a = L -> List.length b = L -> lom_output o i [a; b] L x ->
       f (certain a) (certain b) = (1 + IZR x) / 2).
Proof.
  intros o i Hin. destruct (fuzzy2 o i Hin) as (f & Ef & Hf). exists f. split; [exact Ef|]. split.
  - intros z u L Hz Hu. rewrite Hf, Hz. split; [apply prob_fuzz|]. intros Pz Pu. apply fuzz_range.
    intros k l Hk Hl. unfold p2. destruct k as [|[|k]]; [| |lia]; cbn [nth]; apply nth_probs; try assumption; lia.
  - intros a b L x Ha Hb Hx. rewrite Hf, certain_length, Ha. apply (fuzz_lom o i [a; b] L _ x Hx).
    intros k l Hk Hl. unfold p2. cbn [List.length] in Hk. destruct k as [|[|k]]; [| |lia]; cbn [nth]; apply certain_nth; lia.
Qed.
Lemma C20_lemma : forall o i, In (o, i) implemented -> (o, i) <> (OR, XOR) ->
  exists f, get_scalar_output_function_3d_fuzzy (model_name o i) = Some f /\
    (forall z u v L, List.length z = L -> List.length u = L -> List.length v = L ->
       is_prob o i 3 L (fun k l => nth l (nth k [z; u; v] []) 0) (f z u v) /\
       (probs z -> probs u -> probs v -> 0 <= f z u v <= 1)) /\
    (forall a b c L x, List.length a = L -> List.length b = L -> List.length c = L -> lom_output o i [a; b; c] L x ->
       f (certain a) (certain b) (certain c) = (1 + IZR x) / 2).
Proof.
  intros o i Hin Hne. destruct (fuzzy3 o i Hin Hne) as (f & Ef & Hf). exists f. split; [exact Ef|]. split.
  - intros z u v L Hz Hu Hv. rewrite Hf, Hz. split; [apply prob_fuzz|]. intros Pz Pu Pv. apply fuzz_range.
    intros k l Hk Hl. unfold p3. destruct k as [|[|[|k]]]; [| | |lia]; cbn [nth]; apply nth_probs; try assumption; lia.
  - intros a b c L x Ha Hb Hc Hx. rewrite Hf, certain_length, Ha. apply (fuzz_lom o i [a; b; c] L _ x Hx).
    intros k l Hk Hl. unfold p3. cbn [List.length] in Hk. destruct k as [|[|[|k]]]; [| | |lia]; cbn [nth]; apply certain_nth; lia.
Qed.
Lemma C20_refuted_lemma :
  exists f, get_scalar_output_function_3d_fuzzy "OR-XOR" = Some f /\
    probs [0] /\ probs [1] /\ f [0] [1] [0] = -1 /\
    is_prob OR XOR 3 1 (fun k l => nth l (nth k [[0]; [1]; [0]] []) 0) 1 /\
    ~ is_prob OR XOR 3 1 (fun k l => nth l (nth k [[0]; [1]; [0]] []) 0) (f [0] [1] [0]).
Proof.
  exists OR_XOR_product_fuzzy_3d. split; [reflexivity|].
  assert (E : OR_XOR_product_fuzzy_3d [0] [1] [0] = -1) by (unfold OR_XOR_product_fuzzy_3d, prod_loop, rat; cbn [List.length seq fold_left nth]; ring).
  assert (P : is_prob OR XOR 3 1 (fun k l => nth l (nth k [[0]; [1]; [0]] []) 0) 1).
  { pose proof (prob_fuzz OR XOR 3 1 (fun k l => nth l (nth k [[0]; [1]; [0]] []) 0)) as H.
    assert (F : fuzz OR XOR 3 1 (fun k l => nth l (nth k [[0]; [1]; [0]] []) 0) = 1).
    { unfold fuzz. cbn [seq map flop nth]. unfold fuzzy_fn_OR, fuzzy_fn_XOR, rat.
      cbn [List.length seq map filter Nat.eqb negb app Rsum Rprod fold_right nth]. ring. }
    rewrite F in H. exact H. }
  split; [repeat constructor; lra|]. split; [repeat constructor; lra|]. split; [exact E|]. split; [exact P|].
  intros C. rewrite E in C. set (val := fun t => b2r (lopb OR (map (lopb XOR) t))).
  assert (D : forall v, is_prob OR XOR 3 1 (fun k l => nth l (nth k [[0]; [1]; [0]] []) 0) v ->
     Rsum (fun t => table_weight 3 1 (fun k l => nth l (nth k [[0]; [1]; [0]] []) 0) t * val t) (tables 3 1) = v).
  { intros v Hv. set (val' := fun t => b2r (lopb OR (map (fun l => lopb XOR (map (fun k => nth k (nth l t []) false) (seq 0 3))) (seq 0 1)))).
    rewrite <- (Hv val').
    - apply Rsum_ext. intros t Ht. f_equal. destruct (tables_shape _ _ _ Ht) as [H1 H2].
      destruct t as [|c [|]]; try discriminate. inversion H2 as [|? ? H3 _]; subst. destruct c as [|a [|b [|d [|]]]]; try discriminate. reflexivity.
    - intros t. assert (G : table_holds OR XOR 3 1 t <-> lopb OR (map (fun l => lopb XOR (map (fun k => nth k (nth l t []) false) (seq 0 3))) (seq 0 1)) = true).
      { unfold table_holds. rewrite <- (lopb_holds OR _ (fun l => lop_holds XOR 3 (fun k => nth k (nth l t []) false = true))); [reflexivity|].
        intros l Hl. rewrite map_length, seq_length in Hl. rewrite nth_map_seq by exact Hl.
        rewrite <- (lopb_holds XOR _ (fun k => nth k (nth l t []) false = true)); [reflexivity|].
        intros k Hk. rewrite map_length, seq_length in Hk. rewrite nth_map_seq by exact Hk. reflexivity. }
      split; intros Hh; unfold val'; [apply G in Hh; rewrite Hh; reflexivity|].
      destruct (lopb OR _); [exfalso; apply Hh, G; reflexivity|reflexivity]. }
  pose proof (D _ P). pose proof (D _ C). lra.
Qed.

(** Generic generation. *)
Lemma flop_get o : get_fuzzy_lop (lop_name o) = Ok (flop o).
Proof. destruct o; reflexivity. Qed.
Lemma ndR_build_shape shape f : ndR_has_shape (ndR_build shape f) shape.
Proof.
  revert f; induction shape as [|n shape IH]; intros f; simpl.
  - exists (f []); reflexivity.
  - eexists. split; [reflexivity|]. rewrite map_length, seq_length. split; [reflexivity|].
    apply Forall_forall. intros b Hb. apply in_map_iff in Hb. destruct Hb as (i & <- & _). apply IH.
Qed.
Lemma ndR_build_get shape f idx : Forall2 lt idx shape -> ndR_get (ndR_build shape f) idx = Some (f idx).
Proof.
  intros H. revert f; induction H as [|i n idx shape Hi H IH]; intros f; simpl; [reflexivity|].
  rewrite nth_error_map_seq by exact Hi. apply IH.
Qed.
Lemma C21_lemma : forall o i (factors : list (list (list R))) L,
  factors <> [] -> Forall (fun f => f <> [] /\ Forall (fun r => List.length r = L) f) factors ->
  exists out, lom_generate_data_fuzzy factors (model_name o i) = Ok out /\
    ndR_has_shape out (map (fun f => List.length f) factors) /\
    forall index, Forall2 lt index (map (fun f => List.length f) factors) ->
      exists x, ndR_get out index = Some x /\
        is_expect o i (List.length factors) L
          (fun k l => (1 + nth l (nth (nth k index 0%nat) (nth k factors []) []) 0) / 2) 1 (-1) x /\
        (Forall (Forall (Forall (fun m => -1 <= m <= 1))) factors -> -1 <= x <= 1).
Proof.
  intros o i factors L Hne Hs. destruct factors as [|f0 fs] eqn:E; [contradiction|]. unfold lom_generate_data_fuzzy.
  rewrite split_model_name, !flop_get. cbn [bind].
  assert (HL : ncols f0 = L).
  { inversion Hs as [|? ? [H1 H2] _]; subst. unfold ncols. destruct f0 as [|r f0]; [contradiction|]. inversion H2; subst. reflexivity. }
  rewrite HL. rewrite <- E in *. eexists. split; [reflexivity|]. split; [apply ndR_build_shape|].
  intros index Hi. eexists. split; [apply ndR_build_get; exact Hi|].
  set (p := fun k l => (1 + nth l (nth (nth k index 0%nat) (nth k factors []) []) 0) / 2).
  assert (F : fuzzy_entry (flop o) (flop i) factors L index = fuzz o i (List.length factors) L p).
  { unfold fuzzy_entry, fuzz. f_equal. apply map_ext. intros l. f_equal. apply map_ext. intros k. unfold p, rat, rmat, rvec. lra. }
  rewrite F. split.
  - replace (2 * fuzz o i (List.length factors) L p - 1) with (fuzz o i (List.length factors) L p * 1 + (1 - fuzz o i (List.length factors) L p) * -1) by ring.
    apply expect_fuzz.
  - intros Hr. assert (0 <= fuzz o i (List.length factors) L p <= 1); [|lra]. apply fuzz_range. intros k l Hk Hl. unfold p.
    pose proof (Forall_nth' _ factors k [] Hr Hk) as H1. pose proof (Forall_nth' _ factors k [] Hs Hk) as [_ H2]. simpl in H2.
    assert (Hn : (nth k index 0 < List.length (nth k factors []))%nat).
    { clear - Hi Hk. revert index k Hi Hk. induction factors as [|f fs IH]; intros index k Hi Hk; [simpl in Hk; lia|].
      cbn [map] in Hi. inversion Hi as [|a b idx ls Ha Hr']; subst. destruct k as [|k]; [exact Ha|]. cbn [nth]. apply IH; [exact Hr'|simpl in Hk; lia]. }
    pose proof (Forall_nth' _ _ _ [] H1 Hn) as H3. pose proof (Forall_nth' _ _ _ [] H2 Hn) as H4. simpl in H4.
    pose proof (Forall_nth' _ _ l 0 H3) as H5. rewrite H4 in H5. specialize (H5 Hl). simpl in H5. lra.
Qed.
Lemma C21_errors_lemma : forall model factors,
  (factors = [] -> lom_generate_data_fuzzy factors model = Err IndexError) /\
  (factors <> [] -> (forall o i, split_dash model <> [lop_name o; lop_name i]) -> lom_generate_data_fuzzy factors model = Err ValueError).
Proof.
  intros model factors. split; [intros ->; reflexivity|]. intros Hne Hm. destruct factors as [|f0 fs]; [contradiction|].
  unfold lom_generate_data_fuzzy. destruct (split_dash model) as [|a [|b [|]]] eqn:E; try reflexivity.
  assert (G : forall name, (exists o, name = lop_name o) \/ get_fuzzy_lop name = Err ValueError).
  { intros name. unfold get_fuzzy_lop.
    destruct (String.eqb_spec "OR" name) as [<-|]; [left; exists OR; reflexivity|].
    destruct (String.eqb_spec "NOR" name) as [<-|]; [left; exists NOR; reflexivity|].
    destruct (String.eqb_spec "AND" name) as [<-|]; [left; exists AND; reflexivity|].
    destruct (String.eqb_spec "NAND" name) as [<-|]; [left; exists NAND; reflexivity|].
    destruct (String.eqb_spec "XOR" name) as [<-|]; [left; exists XOR; reflexivity|].
    destruct (String.eqb_spec "NXOR" name) as [<-|]; [left; exists NXOR; reflexivity|]. right; reflexivity. }
  destruct (G a) as [[o ->]| ->]; [|reflexivity]. rewrite flop_get. cbn [bind].
  destruct (G b) as [[i ->]| ->]; [|reflexivity]. exfalso. exact (Hm o i eq_refl).
Qed.

(** * Examples *)
Lemma C19_example_lemma :
  probs [1 / 2; 1 / 4] /\ probs [1; 1 / 3] /\
  exists f, get_scalar_output_function_2d_fuzzy "XOR-AND" = Some f /\ f [1 / 2; 1 / 4] [1; 1 / 3] = 1 / 2.
Proof.
  split; [repeat constructor; lra|]. split; [repeat constructor; lra|]. eexists. split; [reflexivity|].
  unfold XOR_AND_product_fuzzy, sum_loop, skip_loop, rat. cbn [List.length seq fold_left nth Nat.eqb negb]. lra.
Qed.
Lemma C20_example_lemma :
  probs [1 / 2] /\ probs [1 / 4] /\
  exists f, get_scalar_output_function_3d_fuzzy "NAND-XOR" = Some f /\ f [1 / 2] [1 / 4] [0] = 1 / 2.
Proof.
  split; [repeat constructor; lra|]. split; [repeat constructor; lra|]. eexists. split; [reflexivity|].
  unfold NAND_XOR_product_fuzzy_3d, prod_loop, rat. cbn [List.length seq fold_left nth Nat.eqb negb]. lra.
Qed.
Lemma C21_example_lemma :
  exists out, lom_generate_data_fuzzy [[[0; 1]; [1; -1]]; [[1; 0]]] "AND-NOR" = Ok out /\
    ndR_get out [0; 0]%nat = Some (-1) /\ ndR_get out [1; 0]%nat = Some (-1) /\
  exists out', lom_generate_data_fuzzy [[[0; 1]; [1; -1]]; [[1; 0]]] "XOR-AND" = Ok out' /\
    ndR_get out' [0; 0]%nat = Some 0.
Proof.
  eexists. split; [reflexivity|]. split; [|split]; [| |eexists; split; [reflexivity|]];
    cbn [ncols hd List.length map nrows ndR_build seq ndR_get nth_error]; f_equal;
    unfold fuzzy_entry, fuzzy_fn_AND, fuzzy_fn_NOR, fuzzy_fn_XOR, rat;
    cbn [List.length seq map nth filter Nat.eqb negb app Rprod Rsum fold_right]; lra.
Qed.
