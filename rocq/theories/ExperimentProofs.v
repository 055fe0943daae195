(** Proofs for experiments: translated models, masked entries. *)
From Coq Require Import String Lra Lia.
From Verif Require Import Base BaseLemmas BaseR BaseRLemmas Spec SpecF SpecOut Canon Fuzzy FuzzyProofs DensityProofs Machine LayerOutput Experiments SpecExperiments.
Local Open Scope R_scope.

(** * The probability of a requested model from that of the model it is translated to *)
Lemma flop_dual o x : match o with
  | OR => flop OR (map (fun a => 1 - a) x) = 1 - flop AND x
  | AND => flop AND (map (fun a => 1 - a) x) = 1 - flop OR x
  | NAND => flop NAND (map (fun a => 1 - a) x) = flop OR x
  | NOR => flop NOR (map (fun a => 1 - a) x) = flop AND x
  | _ => True end.
Proof.
  destruct o; cbn [flop]; try exact I; unfold fuzzy_fn_OR, fuzzy_fn_AND, fuzzy_fn_NAND, fuzzy_fn_NOR; rewrite Rprod_map; try (rewrite (Rprod_ext _ (fun a => a)) by (intros; ring)); ring.
Qed.
Definition negated (f : bool) (p : nat -> nat -> R) (k l : nat) : R := if f then 1 - p k l else p k l.
Lemma fuzz_outer o i i' K L p p' g h : (forall l, flop i (map (fun k => p k l) (seq 0 K)) = g (flop i' (map (fun k => p' k l) (seq 0 K)))) -> (forall x, flop o (map g x) = h x) -> fuzz o i K L p = h (map (fun l => flop i' (map (fun k => p' k l) (seq 0 K))) (seq 0 L)).
Proof. intros H1 H2. unfold fuzz. rewrite <- H2, map_map. f_equal. apply map_ext. exact H1. Qed.
Lemma flop_neg (x : rvec) : flop NAND x = 1 - flop AND x /\ flop NOR x = 1 - flop OR x /\ flop NXOR x = 1 - flop XOR x.
Proof. cbn [flop]. unfold fuzzy_fn_NAND, fuzzy_fn_AND, fuzzy_fn_NOR, fuzzy_fn_OR, fuzzy_fn_NXOR, fuzzy_fn_XOR. repeat split; ring. Qed.
Lemma fuzz_canon o i o' i' d f K L p : canonise_name (model_name o i) = Ok (model_name o' i', d, f) ->
  fuzz o i K L p = if d : bool then 1 - fuzz o' i' K L (negated f p) else fuzz o' i' K L (negated f p).
Proof.
  intros H. set (C := fun l => map (fun k => p k l) (seq 0 K)).
  assert (IN : forall i t, map (fun l => flop i (map (fun k => 1 - p k l) (seq 0 K))) t = map (fun l => flop i (map (fun a => 1 - a) (C l))) t) by (intros; apply map_ext; intros l; unfold C; rewrite map_map; reflexivity).
  assert (IC : forall i t, map (fun l => flop i (map (fun k => p k l) (seq 0 K))) t = map (fun l => flop i (C l)) t) by reflexivity.
  assert (D1 := flop_dual OR). assert (D2 := flop_dual AND). assert (D3 := flop_dual NAND). assert (D4 := flop_dual NOR). cbv beta iota in D1, D2, D3, D4.
  assert (I1 : forall t, map (fun l => flop OR (map (fun a => 1 - a) (C l))) t = map (fun a => 1 - a) (map (fun l => flop AND (C l)) t)) by (intros; rewrite map_map; apply map_ext; intros; apply D1).
  assert (I2 : forall t, map (fun l => flop AND (map (fun a => 1 - a) (C l))) t = map (fun a => 1 - a) (map (fun l => flop OR (C l)) t)) by (intros; rewrite map_map; apply map_ext; intros; apply D2).
  assert (I3 : forall t, map (fun l => flop NAND (map (fun a => 1 - a) (C l))) t = map (fun l => flop OR (C l)) t) by (intros; apply map_ext; intros; apply D3).
  assert (I4 : forall t, map (fun l => flop NOR (map (fun a => 1 - a) (C l))) t = map (fun l => flop AND (C l)) t) by (intros; apply map_ext; intros; apply D4).
  assert (J1 : forall t, map (fun l => flop NAND (C l)) t = map (fun a => 1 - a) (map (fun l => flop AND (C l)) t)) by (intros; rewrite map_map; apply map_ext; intros; apply flop_neg).
  assert (J2 : forall t, map (fun l => flop NOR (C l)) t = map (fun a => 1 - a) (map (fun l => flop OR (C l)) t)) by (intros; rewrite map_map; apply map_ext; intros; apply flop_neg).
  assert (J3 : forall t, map (fun l => flop NXOR (C l)) t = map (fun a => 1 - a) (map (fun l => flop XOR (C l)) t)) by (intros; rewrite map_map; apply map_ext; intros; apply flop_neg).
  assert (N : forall x, flop NAND x = 1 - flop AND x) by (intros; apply flop_neg). assert (N2 : forall x, flop NOR x = 1 - flop OR x) by (intros; apply flop_neg). assert (N3 : forall x, flop NXOR x = 1 - flop XOR x) by (intros; apply flop_neg).
  destruct o, i; vm_compute in H; injection H as H <- <-; destruct o', i'; try discriminate H; clear H; unfold fuzz, negated; cbv beta iota.
  all: rewrite ?IN, ?IC, ?I1, ?I2, ?I3, ?I4, ?J1, ?J2, ?J3, ?N, ?N2, ?N3, ?D1, ?D2; try reflexivity; unfold C; ring.
Qed.
Lemma prob_canon o i o' i' d f K L p v : canonise_name (model_name o i) = Ok (model_name o' i', d, f) -> is_prob o' i' K L (negated f p) v -> is_prob o i K L p (if d : bool then 1 - v else v).
Proof.
  intros H P. rewrite (prob_unique _ _ _ _ _ _ _ P (prob_fuzz o' i' K L (negated f p))). rewrite <- (fuzz_canon o i o' i' d f K L p H). apply prob_fuzz.
Qed.

(** * Entries by index *)
Lemma positions_seq shape : map (position shape) (indices shape) = seq 0 (fold_right Nat.mul 1%nat shape).
Proof.
  induction shape as [|n sh IH]; [reflexivity|]. cbn [indices fold_right]. set (M := fold_right Nat.mul 1%nat sh) in *.
  assert (G : forall k a, map (position (n :: sh)) (flat_map (fun i => map (cons i) (indices sh)) (seq a k)) = seq (a * M) (k * M)).
  { induction k as [|k IHk]; intros a; [reflexivity|]. cbn [seq flat_map Nat.mul]. rewrite map_app, IHk, map_map. cbn [position]. fold M.
    rewrite seq_app. f_equal; [|f_equal; lia]. rewrite <- (map_map (position sh) (fun j => (a * M + j)%nat)), IH. apply list_ext with (d := 0%nat); [rewrite map_length, !seq_length; reflexivity|]. intros i Hi. rewrite map_length, seq_length in Hi. rewrite nth_map_seq by exact Hi. rewrite seq_nth by exact Hi. reflexivity. }
  apply (G n 0%nat).
Qed.
Lemma indices_lt shape idx : In idx (indices shape) <-> Forall2 lt idx shape.
Proof.
  revert idx. induction shape as [|n sh IH]; intros idx; cbn [indices].
  - split; [intros [<-|[]]; constructor|intros H; inversion H; left; reflexivity].
  - rewrite in_flat_map. split.
    + intros (i & Hi & H). apply in_map_iff in H. destruct H as (ix & <- & H). apply in_seq in Hi. constructor; [lia|apply IH; exact H].
    + intros H. inversion H as [|i ? ix ? Hi Hix]; subst. exists i. split; [apply in_seq; lia|]. apply in_map, IH. exact Hix.
Qed.
Lemma entries_get shape : forall a, ndR_has_shape a shape -> ndR_entries a = map (fun idx => match ndR_get a idx with Some x => x | None => 0 end) (indices shape).
Proof.
  induction shape as [|n sh IH]; intros a H.
  - destruct H as (x & ->). reflexivity.
  - destruct H as (l & -> & <- & H). cbn [ndR_entries indices].
    assert (G : forall pre l', Forall (fun b => ndR_has_shape b sh) l' -> flat_map ndR_entries l' = map (fun idx => match ndR_get (NodeR (pre ++ l')) idx with Some x => x | None => 0 end) (flat_map (fun i => map (cons i) (indices sh)) (seq (List.length pre) (List.length l')))).
    { intros pre l'. revert pre. induction l' as [|b l' IHl]; intros pre Hl; [reflexivity|]. inversion Hl as [|? ? Hb Hl']; subst. cbn [flat_map seq List.length]. rewrite map_app. f_equal.
      - rewrite (IH b Hb), map_map. apply map_ext. intros ix. cbn [ndR_get]. rewrite nth_error_app2, Nat.sub_diag by lia. reflexivity.
      - specialize (IHl (pre ++ [b]) Hl'). rewrite app_length, Nat.add_1_r, <- app_assoc in IHl. exact IHl. }
    apply (G [] l H).
Qed.
Lemma filter_fst_map {A B} (f : A -> bool) (g : A -> B) l : map snd (filter fst (map (fun x => (f x, g x)) l)) = map g (filter f l).
Proof. induction l as [|x l IH]; [reflexivity|]. cbn. destruct (f x); cbn; rewrite IH; reflexivity. Qed.
Lemma combine_map_both {A B C} (f : A -> B) (g : A -> C) l : combine (map f l) (map g l) = map (fun x => (f x, g x)) l.
Proof. induction l as [|x l IH]; [reflexivity|]. cbn. rewrite IH. reflexivity. Qed.
Lemma masked_map {B} shape mask (g : list nat -> B) : List.length mask = fold_right Nat.mul 1%nat shape -> masked mask (map g (indices shape)) = Ok (map g (filter (fun idx => nth (position shape idx) mask false) (indices shape))).
Proof.
  intros H. unfold masked. assert (LI : List.length (indices shape) = fold_right Nat.mul 1%nat shape) by (rewrite <- (map_length (position shape)), positions_seq, seq_length; reflexivity).
  rewrite map_length, LI, H, Nat.eqb_refl. f_equal.
  assert (EM : mask = map (fun idx => nth (position shape idx) mask false) (indices shape)) by (rewrite <- (map_map (position shape) (fun j => nth j mask false)), positions_seq, <- H; apply list_ext with (d := false); [rewrite map_length, seq_length; reflexivity|intros i Hi; rewrite nth_map_seq by exact Hi; reflexivity]).
  rewrite EM at 1. rewrite combine_map_both. apply filter_fst_map.
Qed.
Lemma vec_by_index shape (v : vec) : List.length v = fold_right Nat.mul 1%nat shape -> v = map (fun idx => at1 v (position shape idx)) (indices shape).
Proof.
  intros H. rewrite <- (map_map (position shape) (fun j => at1 v j)), positions_seq, <- H. apply list_ext with (d := 0%Z); [rewrite map_length, seq_length; reflexivity|intros i Hi; rewrite nth_map_seq by exact Hi; reflexivity].
Qed.
Lemma filter_eqb_map {A} (f g : A -> bool) l : List.length (filter (fun x => x) (map (fun p => Bool.eqb (fst p) (snd p)) (combine (map f l) (map g l)))) = List.length (filter (fun x => Bool.eqb (f x) (g x)) l).
Proof. induction l as [|x l IH]; [reflexivity|]. cbn [map combine filter fst snd]. destruct (Bool.eqb (f x) (g x)); cbn [List.length]; rewrite IH; reflexivity. Qed.
