(** Fuzzy outputs in double precision: exactness for certain factors, refutation for three factors; means of traces. *)
From Coq Require Import Lra Psatz String.
From Verif Require Import Base BaseR Spec SpecF Fuzzy FuzzyProofs FloatFuzzy FloatProofs FloatProofs2 FloatProofs3 FloatProofs4.
From Flocq Require Import Core.
Local Open Scope R_scope.

(** ** Certain factors *)
Definition bit (x : R) : Prop := x = 0 \/ x = 1.
Lemma bit_mul x y : bit x -> bit y -> bit (x * y).
Proof. intros [->| ->] [->| ->]; [left|left|left|right]; lra. Qed.
Lemma bit_rnd x : bit x -> rnd x = x.
Proof. intros [->| ->]; [apply rnd_0|apply rnd_1]. Qed.
Lemma prod_bits (g h : nat -> R) ls : (forall l, In l ls -> h l = g l /\ bit (g l)) -> forall x, bit x -> fold_left (fun o l => rnd (o * h l)) ls x = fold_left (fun o l => o * g l) ls x /\ bit (fold_left (fun o l => o * g l) ls x).
Proof.
  induction ls as [|l ls IH]; intros H x Hx; [split; [reflexivity|exact Hx]|]. cbn [fold_left]. destruct (H l (or_introl eq_refl)) as (-> & B). pose proof (bit_mul _ _ Hx B) as M. rewrite (bit_rnd _ M). apply IH; [intros j Hj; apply H; right; exact Hj|exact M].
Qed.
Lemma or_bits (g h : nat -> R) L : (forall l, (l < L)%nat -> h l = g l /\ bit (g l)) -> asub double 1 (a_prod double h L) = asub exact 1 (a_prod exact g L).
Proof.
  intros H. cbn [asub double exact]. unfold a_prod. cbn [amul double exact]. destruct (prod_bits g h (seq 0 L) ltac:(intros l Hl; apply in_seq in Hl; apply H; lia) 1 (or_intror eq_refl)) as (-> & B). destruct B as [->| ->]; [rewrite Rminus_0_r; apply rnd_1|rewrite Rminus_diag_eq by reflexivity; apply rnd_0].
Qed.
Lemma xor_bits (g h g' h' : nat -> R) L : (Z.of_nat L <= 2 ^ 20)%Z -> (forall l, (l < L)%nat -> h l = g l /\ bit (g l)) -> (forall l, (l < L)%nat -> h' l = g' l /\ bit (g' l)) ->
  a_sum double (fun l => amul double (h' l) (a_skip double h L l)) L = a_sum exact (fun l => amul exact (g' l) (a_skip exact g L l)) L.
Proof.
  intros HL H H'. unfold a_sum. cbn [aadd amul double exact].
  assert (S : forall l, a_skip double h L l = a_skip exact g L l /\ bit (a_skip exact g L l)).
  { intros l. unfold a_skip. cbn [amul double exact]. rewrite (skip_filter (fun t l' => rnd (t * h l'))), (skip_filter (fun t l' => t * g l')). apply prod_bits; [|right; reflexivity]. intros j Hj. apply filter_In in Hj. destruct Hj as (Hj & _). apply in_seq in Hj. apply H. lia. }
  assert (G : forall ls, (forall l, In l ls -> (l < L)%nat) -> forall n, (0 <= n)%Z -> (n + Z.of_nat (List.length ls) <= 2 ^ 20)%Z -> fold_left (fun o l => rnd (o + rnd (h' l * a_skip double h L l))) ls (IZR n) = fold_left (fun o l => o + g' l * a_skip exact g L l) ls (IZR n)).
  { induction ls as [|l ls IH]; intros HI n Hn HB; [reflexivity|]. cbn [fold_left]. destruct (S l) as (-> & B). destruct (H' l (HI l (or_introl eq_refl))) as (-> & B'). pose proof (bit_mul _ _ B' B) as M. rewrite (bit_rnd _ M). cbn [List.length] in HB.
    destruct M as [M|M]; rewrite M; [rewrite Rplus_0_r|rewrite <- (plus_IZR n 1)]; rewrite rnd_int by lia; apply IH; try lia; intros j Hj; apply HI; right; exact Hj. }
  apply (G (seq 0 L)); [intros l Hl; apply in_seq in Hl; lia|lia|rewrite seq_length; lia].
Qed.
Ltac rounds := repeat match goal with |- context [rnd ?x] => match x with context [rnd _] => fail 1 | _ => idtac end;
  first [replace x with (IZR 0) by lra; rewrite (rnd_int 0) by lia | replace x with (IZR 1) by lra; rewrite (rnd_int 1) by lia | replace x with (IZR 2) by lra; rewrite (rnd_int 2) by lia | replace x with (IZR 3) by lra; rewrite (rnd_int 3) by lia
  | replace x with (IZR 4) by lra; rewrite (rnd_int 4) by lia | replace x with (IZR 6) by lra; rewrite (rnd_int 6) by lia
  | replace x with (IZR (-1)) by lra; rewrite (rnd_int (-1)) by lia | replace x with (IZR (-2)) by lra; rewrite (rnd_int (-2)) by lia | replace x with (IZR (-3)) by lra; rewrite (rnd_int (-3)) by lia] end.
Ltac bitcase := split; [rounds; lra|first [left; lra|right; lra]].
Lemma b_and x y : bit x -> bit y -> rnd (x * y) = x * y /\ bit (x * y).
Proof. intros [->| ->] [->| ->]; bitcase. Qed.
Lemma b_nand x y : bit x -> bit y -> rnd (1 - rnd (x * y)) = 1 - x * y /\ bit (1 - x * y).
Proof. intros [->| ->] [->| ->]; bitcase. Qed.
Lemma b_xor x y : bit x -> bit y -> rnd (rnd (x * rnd (1 - y)) + rnd (y * rnd (1 - x))) = x * (1 - y) + y * (1 - x) /\ bit (x * (1 - y) + y * (1 - x)).
Proof. intros [->| ->] [->| ->]; bitcase. Qed.
Lemma b_nxor x y : bit x -> bit y -> rnd (rnd (x * y) + rnd (rnd (1 - x) * rnd (1 - y))) = x * y + (1 - x) * (1 - y) /\ bit (x * y + (1 - x) * (1 - y)).
Proof. intros [->| ->] [->| ->]; bitcase. Qed.
Lemma b_and3 x y w : bit x -> bit y -> bit w -> rnd (rnd (x * y) * w) = x * y * w /\ bit (x * y * w).
Proof. intros [->| ->] [->| ->] [->| ->]; bitcase. Qed.
Lemma b_nand3 x y w : bit x -> bit y -> bit w -> rnd (1 - rnd (rnd (x * y) * w)) = 1 - x * y * w /\ bit (1 - x * y * w).
Proof. intros [->| ->] [->| ->] [->| ->]; bitcase. Qed.
Lemma b_xor3 x y w : bit x -> bit y -> bit w ->
  rnd (rnd (rnd (rnd (x * rnd (1 - y)) * rnd (1 - w)) + rnd (rnd (w * rnd (1 - x)) * rnd (1 - y))) + rnd (rnd (y * rnd (1 - w)) * rnd (1 - x))) = x * (1 - y) * (1 - w) + w * (1 - x) * (1 - y) + y * (1 - w) * (1 - x) /\
  bit (x * (1 - y) * (1 - w) + w * (1 - x) * (1 - y) + y * (1 - w) * (1 - x)).
Proof. intros [->| ->] [->| ->] [->| ->]; bitcase. Qed.
Lemma b_pxor x y w : bit x -> bit y -> bit w -> a_p_XOR double x y w = a_p_XOR exact x y w /\ bit (a_p_XOR exact x y w).
Proof. intros [->| ->] [->| ->] [->| ->]; unfold a_p_XOR; cbn [aadd asub amul double exact]; bitcase. Qed.
Lemma b_pnxor x y w : bit x -> bit y -> bit w -> asub double 1 (a_p_XOR double x y w) = asub exact 1 (a_p_XOR exact x y w) /\ bit (asub exact 1 (a_p_XOR exact x y w)).
Proof. intros I J K. destruct (b_pxor x y w I J K) as (-> & [->| ->]); cbn [asub double exact]; bitcase. Qed.
Lemma certain_bit a l : (l < List.length a)%nat -> bit (rat (certain a) l).
Proof. intros H. unfold rat, certain. rewrite (nth_indep _ 0 (if (0 =? 1)%Z then 1 else 0)) by (rewrite map_length; exact H). rewrite (map_nth (fun x => if (x =? 1)%Z then 1 else 0)). destruct (nth l a 0%Z =? 1)%Z; [right|left]; reflexivity. Qed.
Lemma certain2 o i : In (o, i) implemented -> exists f, a_output_2d double (model_name o i) = Some f /\ exists f', get_scalar_output_function_2d_fuzzy (model_name o i) = Some f' /\
  forall a b L, List.length a = L -> List.length b = L -> (Z.of_nat L <= 2 ^ 20)%Z -> f (certain a) (certain b) = f' (certain a) (certain b).
Proof.
  intros H. assert (N1 : forall (a b : vec) l, (l < List.length (certain a))%nat -> List.length a = List.length b -> bit (rat (certain a) l) /\ bit (rat (certain b) l)).
  { intros a b l Hl E. unfold certain in Hl. rewrite map_length in Hl. split; apply certain_bit; [exact Hl|rewrite <- E; exact Hl]. }
  destruct H as [H|[H|[H|[H|[H|[H|[H|[H|[]]]]]]]]]; injection H as <- <-; eexists; (split; [reflexivity|]); eexists; (split; [reflexivity|]); intros a b L Ha Hb HL; rewrite <- Hb in Ha; assert (HZ : (Z.of_nat (List.length (certain a)) <= 2 ^ 20)%Z) by (unfold certain; rewrite map_length, Ha, Hb; exact HL); set (z := certain a) in *; set (u := certain b) in *.
  - apply (or_bits (fun l => 1 - rat z l * rat u l) (fun l => rnd (1 - rnd (rat z l * rat u l)))). intros l Hl. destruct (N1 a b l Hl Ha) as (I & J). apply b_nand; assumption.
  - apply (or_bits (fun l => rat z l * rat u l) (fun l => rnd (rat z l * rat u l))). intros l Hl. destruct (N1 a b l Hl Ha) as (I & J). apply b_and; assumption.
  - apply (or_bits (fun l => rat z l * rat u l + (1 - rat z l) * (1 - rat u l)) (fun l => rnd (rnd (rat z l * rat u l) + rnd (rnd (1 - rat z l) * rnd (1 - rat u l))))). intros l Hl. destruct (N1 a b l Hl Ha) as (I & J). apply b_nxor; assumption.
  - apply (or_bits (fun l => rat z l * (1 - rat u l) + rat u l * (1 - rat z l)) (fun l => rnd (rnd (rat z l * rnd (1 - rat u l)) + rnd (rat u l * rnd (1 - rat z l))))). intros l Hl. destruct (N1 a b l Hl Ha) as (I & J). apply b_xor; assumption.
  - apply (xor_bits (fun l => 1 - rat z l * rat u l) (fun l => rnd (1 - rnd (rat z l * rat u l))) (fun l => rat z l * rat u l) (fun l => rnd (rat z l * rat u l)) _ HZ); intros l Hl; destruct (N1 a b l Hl Ha) as (I & J); [apply b_nand|apply b_and]; assumption.
  - unfold a_XOR_XOR. rewrite (sum_comm double _ _ _ double_comm). change (XOR_XOR_product_fuzzy z u) with (a_XOR_XOR exact z u). unfold a_XOR_XOR. rewrite (sum_comm exact _ _ _ exact_comm).
    apply (xor_bits (fun l => rat z l * rat u l + (1 - rat z l) * (1 - rat u l)) (fun l => rnd (rnd (rat z l * rat u l) + rnd (rnd (1 - rat z l) * rnd (1 - rat u l))))
      (fun l => (1 - rat z l) * rat u l + (1 - rat u l) * rat z l) (fun l => rnd (rnd (rnd (1 - rat z l) * rat u l) + rnd (rnd (1 - rat u l) * rat z l))) _ HZ); intros l Hl; destruct (N1 a b l Hl Ha) as (I & J); [apply b_nxor; assumption|].
    rewrite !(Rmult_comm (rnd (1 - _))), !(Rmult_comm (1 - _)). rewrite (Rplus_comm (rnd _)), (Rplus_comm (rat u l * _)). apply b_xor; assumption.
  - unfold a_XOR_NXOR. rewrite (sum_comm double _ _ _ double_comm). change (XOR_NXOR_product_fuzzy z u) with (a_XOR_NXOR exact z u). unfold a_XOR_NXOR. rewrite (sum_comm exact _ _ _ exact_comm).
    apply (xor_bits (fun l => rat z l * (1 - rat u l) + (1 - rat z l) * rat u l) (fun l => rnd (rnd (rat z l * rnd (1 - rat u l)) + rnd (rnd (1 - rat z l) * rat u l)))
      (fun l => rat z l * rat u l + (1 - rat u l) * (1 - rat z l)) (fun l => rnd (rnd (rat z l * rat u l) + rnd (rnd (1 - rat u l) * rnd (1 - rat z l)))) _ HZ); intros l Hl; destruct (N1 a b l Hl Ha) as (I & J).
    + rewrite (Rmult_comm (rnd (1 - rat z l))), (Rmult_comm (1 - rat z l)). apply b_xor; assumption.
    + rewrite (Rmult_comm (rnd (1 - rat u l))), (Rmult_comm (1 - rat u l)). apply b_nxor; assumption.
  - apply (xor_bits (fun l => rat z l * rat u l) (fun l => rnd (rat z l * rat u l)) (fun l => 1 - rat z l * rat u l) (fun l => rnd (1 - rnd (rat z l * rat u l))) _ HZ); intros l Hl; destruct (N1 a b l Hl Ha) as (I & J); [apply b_and|apply b_nand]; assumption.
Qed.
Lemma certain3 o i : In (o, i) implemented -> (o, i) <> (OR, XOR) -> exists f, a_output_3d double (model_name o i) = Some f /\ exists f', get_scalar_output_function_3d_fuzzy (model_name o i) = Some f' /\
  forall a b c L, List.length a = L -> List.length b = L -> List.length c = L -> (Z.of_nat L <= 2 ^ 20)%Z -> f (certain a) (certain b) (certain c) = f' (certain a) (certain b) (certain c).
Proof.
  intros H NE. assert (N1 : forall (a b c : vec) l, (l < List.length (certain a))%nat -> List.length a = List.length b -> List.length a = List.length c -> bit (rat (certain a) l) /\ bit (rat (certain b) l) /\ bit (rat (certain c) l)).
  { intros a b c l Hl E E'. unfold certain in Hl. rewrite map_length in Hl. split; [|split]; apply certain_bit; [exact Hl|rewrite <- E; exact Hl|rewrite <- E'; exact Hl]. }
  destruct H as [H|[H|[H|[H|[H|[H|[H|[H|[]]]]]]]]]; injection H as <- <-; try (exfalso; apply NE; reflexivity); eexists; (split; [reflexivity|]); eexists; (split; [reflexivity|]); intros a b c L Ha Hb Hc HL; rewrite <- Ha in Hb, Hc; symmetry in Hb, Hc; assert (HZ : (Z.of_nat (List.length (certain a)) <= 2 ^ 20)%Z) by (unfold certain; rewrite map_length, Ha; exact HL); set (z := certain a) in *; set (u := certain b) in *; set (v := certain c) in *.
  - apply (or_bits (fun l => 1 - rat z l * rat u l * rat v l) (fun l => rnd (1 - rnd (rnd (rat z l * rat u l) * rat v l)))). intros l Hl. destruct (N1 a b c l Hl Hb Hc) as (I & J & K). apply b_nand3; assumption.
  - apply (or_bits (fun l => rat z l * rat u l * rat v l) (fun l => rnd (rnd (rat z l * rat u l) * rat v l))). intros l Hl. destruct (N1 a b c l Hl Hb Hc) as (I & J & K). apply b_and3; assumption.
  - apply (or_bits (fun l => rat z l * (1 - rat u l) * (1 - rat v l) + rat v l * (1 - rat z l) * (1 - rat u l) + rat u l * (1 - rat v l) * (1 - rat z l))
      (fun l => rnd (rnd (rnd (rnd (rat z l * rnd (1 - rat u l)) * rnd (1 - rat v l)) + rnd (rnd (rat v l * rnd (1 - rat z l)) * rnd (1 - rat u l))) + rnd (rnd (rat u l * rnd (1 - rat v l)) * rnd (1 - rat z l))))). intros l Hl. destruct (N1 a b c l Hl Hb Hc) as (I & J & K). apply b_xor3; assumption.
  - apply (xor_bits (fun l => 1 - rat z l * rat u l * rat v l) (fun l => rnd (1 - rnd (rnd (rat z l * rat u l) * rat v l))) (fun l => rat z l * rat u l * rat v l) (fun l => rnd (rnd (rat z l * rat u l) * rat v l)) _ HZ); intros l Hl; destruct (N1 a b c l Hl Hb Hc) as (I & J & K); [apply b_nand3|apply b_and3]; assumption.
  - unfold a_XOR_XOR_3d. rewrite (sum_comm double _ _ _ double_comm). change (XOR_XOR_product_fuzzy_3d z u v) with (a_XOR_XOR_3d exact z u v). unfold a_XOR_XOR_3d. rewrite (sum_comm exact _ _ _ exact_comm).
    apply (xor_bits (fun l => asub exact 1 (a_p_XOR exact (rat z l) (rat u l) (rat v l))) (fun l => asub double 1 (a_p_XOR double (rat z l) (rat u l) (rat v l)))
      (fun l => a_p_XOR exact (rat z l) (rat u l) (rat v l)) (fun l => a_p_XOR double (rat z l) (rat u l) (rat v l)) _ HZ); intros l Hl; destruct (N1 a b c l Hl Hb Hc) as (I & J & K); [apply b_pnxor|apply b_pxor]; assumption.
  - unfold a_XOR_NXOR_3d. rewrite (sum_comm double _ _ _ double_comm). change (XOR_NXOR_product_fuzzy_3d z u v) with (a_XOR_NXOR_3d exact z u v). unfold a_XOR_NXOR_3d. rewrite (sum_comm exact _ _ _ exact_comm).
    apply (xor_bits (fun l => a_p_XOR exact (rat z l) (rat u l) (rat v l)) (fun l => a_p_XOR double (rat z l) (rat u l) (rat v l))
      (fun l => asub exact 1 (a_p_XOR exact (rat z l) (rat u l) (rat v l))) (fun l => asub double 1 (a_p_XOR double (rat z l) (rat u l) (rat v l))) _ HZ); intros l Hl; destruct (N1 a b c l Hl Hb Hc) as (I & J & K); [apply b_pxor|apply b_pnxor]; assumption.
  - apply (xor_bits (fun l => rat z l * rat u l * rat v l) (fun l => rnd (rnd (rat z l * rat u l) * rat v l)) (fun l => 1 - rat z l * rat u l * rat v l) (fun l => rnd (1 - rnd (rnd (rat z l * rat u l) * rat v l))) _ HZ); intros l Hl; destruct (N1 a b c l Hl Hb Hc) as (I & J & K); [apply b_and3|apply b_nand3]; assumption.
Qed.

(** ** Means of traces *)
Definition zsum (xs : list Z) : Z := fold_right Z.add 0%Z xs.
Lemma zsum_bound xs : Forall (fun x => x = 1 \/ x = -1)%Z xs -> (Z.abs (zsum xs) <= Z.of_nat (List.length xs))%Z.
Proof. induction 1 as [|x xs H _ IH]; cbn [zsum fold_right List.length]; [lia|]. fold (zsum xs). lia. Qed.
Lemma double_sum_exact xs : Forall (fun x => x = 1 \/ x = -1)%Z xs -> (Z.of_nat (List.length xs) <= 2 ^ 53)%Z -> double_sum xs = IZR (zsum xs).
Proof.
  intros H HL. unfold double_sum. assert (G : forall n, (Z.abs n + Z.of_nat (List.length xs) <= 2 ^ 53)%Z -> fold_left (fun s x => rnd (s + IZR x)) xs (IZR n) = IZR (n + zsum xs)).
  { clear HL. induction H as [|x xs Hx _ IH]; intros n Hn; cbn [fold_left zsum fold_right List.length] in *; [rewrite Z.add_0_r; reflexivity|]. fold (zsum xs). rewrite <- plus_IZR, rnd_int by lia. rewrite IH by lia. f_equal. ring. }
  exact (G 0%Z ltac:(lia)).
Qed.
