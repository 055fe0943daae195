(** Proofs for C52. *)
From Coq Require Import String Lra Lia.
From Verif Require Import Base BaseLemmas BaseR BaseRLemmas Spec SpecF Fuzzy FuzzyProofs Canon Density.
Local Open Scope R_scope.

Lemma lop_eq_dec (a b : lop) : {a = b} + {a <> b}. Proof. decide equality. Qed.
(** Value of an operator on n independent bits with the same probability. *)
Definition dens (o : lop) (n : nat) (h : R) : R :=
  match o with
  | AND => h ^ n | NAND => 1 - h ^ n | OR => 1 - (1 - h) ^ n | NOR => (1 - h) ^ n
  | XOR => INR n * h * (1 - h) ^ (n - 1) | NXOR => 1 - INR n * h * (1 - h) ^ (n - 1)
  end.
Lemma Rprod_repeat n (h : R) (g : R -> R) : Rprod g (repeat h n) = g h ^ n.
Proof. induction n as [|n IH]; [reflexivity|]. cbn [repeat]. rewrite Rprod_cons, IH. reflexivity. Qed.
Lemma xor_repeat n h : fuzzy_fn_XOR (repeat h n) = INR n * h * (1 - h) ^ (n - 1).
Proof.
  induction n as [|n IH].
  - cbn. lra.
  - cbn [repeat]. rewrite xor_cons, IH, Rprod_repeat. replace (S n - 1)%nat with n by lia. rewrite S_INR.
    destruct n as [|n]; [cbn; ring|]. replace (S n - 1)%nat with n by lia. cbn [pow]. ring.
Qed.
Lemma flop_repeat o n h : flop o (repeat h n) = dens o n h.
Proof.
  destruct o; unfold flop, dens, fuzzy_fn_OR, fuzzy_fn_NOR, fuzzy_fn_AND, fuzzy_fn_NAND, fuzzy_fn_NXOR;
    rewrite ?xor_repeat, ?(Rprod_repeat n h (fun b => 1 - b)), ?(Rprod_repeat n h (fun b => b)); try reflexivity; try ring.
  change (1 - fuzzy_fn_XOR (repeat h n) = 1 - INR n * h * (1 - h) ^ (n - 1)). rewrite xor_repeat. reflexivity.
Qed.
Lemma map_const_seq {A} (x : A) n : map (fun _ => x) (seq 0 n) = repeat x n.
Proof. rewrite <- (seq_length n 0) at 2. generalize (seq 0 n). induction l; cbn; congruence. Qed.
Lemma fuzz_const o i K L f : fuzz o i K L (fun _ _ => f) = dens o L (dens i K f).
Proof. unfold fuzz. rewrite !map_const_seq, !flop_repeat. reflexivity. Qed.

Lemma prob_unique o i K L p v w : is_prob o i K L p v -> is_prob o i K L p w -> v = w.
Proof.
  intros Hv Hw.
  set (val := fun t => b2r (lopb o (map (fun l => lopb i (map (fun k => nth k (nth l t []) false) (seq 0 K))) (seq 0 L)))).
  assert (H : forall t, (table_holds o i K L t -> val t = 1) /\ (~ table_holds o i K L t -> val t = 0)).
  { intros t. assert (G : table_holds o i K L t <-> lopb o (map (fun l => lopb i (map (fun k => nth k (nth l t []) false) (seq 0 K))) (seq 0 L)) = true).
    { unfold table_holds. rewrite <- (lopb_holds o _ (fun l => lop_holds i K (fun k => nth k (nth l t []) false = true))).
      - rewrite map_length, seq_length. reflexivity.
      - intros l Hl. rewrite map_length, seq_length in Hl. rewrite nth_map_seq by exact Hl.
        rewrite <- (lopb_holds i _ (fun k => nth k (nth l t []) false = true)).
        + rewrite map_length, seq_length. reflexivity.
        + intros k Hk. rewrite map_length, seq_length in Hk. rewrite nth_map_seq by exact Hk. reflexivity. }
    split; intros Hh; unfold val; [apply G in Hh; rewrite Hh; reflexivity|].
    destruct (lopb o _); [exfalso; apply Hh, G; reflexivity|reflexivity]. }
  rewrite <- (Hv val H). exact (Hw val H).
Qed.

(** The code's closed form per model. *)
Lemma density_value o i K L f : (1 <= L)%nat -> (1 <= K)%nat ->
  exists v, expected_density (model_name o i) L K f = Ok v /\
    (~ ((o = XOR \/ o = NXOR) /\ i = XOR) -> v = dens o L (dens i K f)) /\
    (i = XOR -> (o = XOR -> v = INR L * (dens XOR K f * (f ^ K + (1 - f) ^ K) ^ (L - 1))) /\
                (o = NXOR -> v = 1 - INR L * (dens XOR K f * (f ^ K + (1 - f) ^ K) ^ (L - 1)))).
Proof.
  intros HL HK. destruct o, i; (eexists; split; [reflexivity|]); (split; [intros Hn|intros Hi; (split; intros Ho)]);
    try discriminate; try (exfalso; apply Hn; split; [solve [auto]|reflexivity]);
    unfold inv_fn, invert, identity, dens; rewrite ?Rminus_0_r;
    repeat match goal with |- context [1 - (1 - ?x)] => replace (1 - (1 - x)) with x by ring end; try reflexivity; try ring; cbn [String.eqb model_name lop_name append Ascii.eqb Bool.eqb]; ring.
Qed.

Lemma K2_identity f : f ^ 2 + (1 - f) ^ 2 = 1 - dens XOR 2 f.
Proof. unfold dens. cbn. ring. Qed.

Lemma C52_lemma o i K L f : (1 <= L)%nat -> (1 <= K)%nat -> ((o = XOR \/ o = NXOR) /\ i = XOR -> K = 2%nat \/ L = 1%nat) ->
  exists v, expected_density (model_name o i) L K f = Ok v /\ is_prob o i K L (fun _ _ => f) v.
Proof.
  intros HL HK HX. destruct (density_value o i K L f HL HK) as (v & Ev & H1 & H2). exists v. split; [exact Ev|].
  assert (E : v = dens o L (dens i K f)).
  { destruct (lop_eq_dec i XOR) as [->|Hi]; [|apply H1; tauto]. destruct (H2 eq_refl) as [A B].
    destruct (lop_eq_dec o XOR) as [->|Ho]; [|destruct (lop_eq_dec o NXOR) as [->|Ho']; [|apply H1; tauto]].
    - rewrite (A eq_refl). destruct HX as [-> | ->]; [tauto| |]; [rewrite K2_identity|]; cbn [dens]; cbn; ring.
    - rewrite (B eq_refl). destruct HX as [-> | ->]; [tauto| |]; [rewrite K2_identity|]; cbn [dens]; cbn; ring. }
  rewrite E, <- fuzz_const. apply prob_fuzz.
Qed.

Lemma three_terms K f : 0 < f < 1 -> (3 <= K)%nat -> f ^ K + (1 - f) ^ K + dens XOR K f < 1.
Proof.
  intros Hf HK. induction HK as [|K HK IH].
  - assert (0 < f * f * (1 - f)) by (repeat apply Rmult_lt_0_compat; lra).
    replace (f ^ 3 + (1 - f) ^ 3 + dens XOR 3 f) with (1 - 3 * (f * f * (1 - f))) by (unfold dens; cbn; ring). lra.
  - assert (E : f ^ S K + (1 - f) ^ S K + dens XOR (S K) f = f ^ K + (1 - f) ^ K + dens XOR K f - f ^ K * (1 - f) - INR K * f * f * (1 - f) ^ (K - 1)).
    { unfold dens. rewrite S_INR. replace (S K - 1)%nat with (S (K - 1)) by lia. destruct K as [|K']; [lia|]. replace (S K' - 1)%nat with K' by lia. cbn [pow]. ring. }
    rewrite E. assert (0 < f ^ K * (1 - f)) by (apply Rmult_lt_0_compat; [apply pow_lt|]; lra).
    assert (0 <= INR K * f * f * (1 - f) ^ (K - 1)).
    { repeat apply Rmult_le_pos; try lra; [apply pos_INR|apply pow_le; lra]. }
    lra.
Qed.

Lemma pow_lt_compat a b n : 0 <= a < b -> (1 <= n)%nat -> a ^ n < b ^ n.
Proof.
  intros H Hn. induction Hn as [|n Hn IH]; [cbn; lra|]. cbn [pow].
  assert (0 <= a ^ n) by (apply pow_le; lra). nra.
Qed.

(** With K = 1 or K >= 3 the value is wrong for every 0 < f < 1 and L >= 2. *)
Lemma C52_refuted_lemma o K L f : o = XOR \/ o = NXOR -> (1 <= K)%nat -> K <> 2%nat -> (2 <= L)%nat -> 0 < f < 1 ->
  exists v, expected_density (model_name o XOR) L K f = Ok v /\ ~ is_prob o XOR K L (fun _ _ => f) v.
Proof.
  intros Ho HK HK2 HL Hf. destruct (density_value o XOR K L f) as (v & Ev & _ & H2); [lia|lia|]. exists v. split; [exact Ev|]. intros Hp.
  assert (E : v = dens o L (dens XOR K f)).
  { apply (prob_unique o XOR K L (fun _ _ => f)); [exact Hp|]. rewrite <- fuzz_const. apply prob_fuzz. }
  set (h := dens XOR K f) in *.
  assert (Hh : 0 < h).
  { unfold h, dens. repeat apply Rmult_lt_0_compat; try lra; [apply lt_0_INR; lia|apply pow_lt; lra]. }
  assert (HLp : 0 < INR L) by (apply lt_0_INR; lia).
  assert (Hne : (f ^ K + (1 - f) ^ K) ^ (L - 1) <> (1 - h) ^ (L - 1)).
  { assert (C : K = 1%nat \/ (3 <= K)%nat) by lia. destruct C as [->|H3].
    - assert (h = f) by (unfold h, dens; cbn; ring). rewrite H. replace (f ^ 1 + (1 - f) ^ 1) with 1 by (cbn; ring).
      assert ((1 - f) ^ (L - 1) < 1 ^ (L - 1)) by (apply pow_lt_compat; [lra|lia]). lra.
    - pose proof (three_terms K f Hf H3) as T. fold h in T.
      assert (0 < f ^ K) by (apply pow_lt; lra). assert (0 < (1 - f) ^ K) by (apply pow_lt; lra).
      assert ((f ^ K + (1 - f) ^ K) ^ (L - 1) < (1 - h) ^ (L - 1)) by (apply pow_lt_compat; [lra|lia]). lra. }
  apply Hne. destruct (H2 eq_refl) as [A B]. apply (Rmult_eq_reg_l (INR L * h)); [|apply Rgt_not_eq, Rmult_lt_0_compat; assumption].
  destruct Ho as [-> | ->]; [rewrite (A eq_refl) in E|rewrite (B eq_refl) in E]; cbn [dens] in E; lra.
Qed.
Lemma C52_refuted_example : exists v, expected_density "XOR-XOR" 2 1 1 = Ok v /\ v = 2.
Proof. eexists. split; [reflexivity|]. unfold inv_fn, identity, invert. cbn. ring. Qed.
Lemma C52_unknown model : (forall o i, model <> model_name o i) -> forall L K f, expected_density model L K f = Err UnboundLocalError.
Proof.
  intros H L K f. unfold expected_density.
  destruct (String.eqb_spec model "XOR-NXOR") as [->|]; [exfalso; exact (H XOR NXOR eq_refl)|].
  destruct (String.eqb_spec model "NXOR-NXOR") as [->|]; [exfalso; exact (H NXOR NXOR eq_refl)|]. cbn [orb].
  replace (get_lom_class model) with (@Err (string * (bool * bool * bool)) UnboundLocalError); [reflexivity|].
  unfold get_lom_class. cbv zeta.
  repeat match goal with |- context [String.eqb model ?s] =>
    let o := fresh in destruct (String.eqb_spec model s) as [o|o];
    [exfalso; revert o; first [exact (H AND AND)|exact (H NOR NAND)|exact (H AND NOR)|exact (H NOR OR)|exact (H OR NAND)|exact (H NAND AND)
     |exact (H OR OR)|exact (H NAND NOR)|exact (H AND NAND)|exact (H NOR AND)|exact (H AND OR)|exact (H NOR NOR)|exact (H OR AND)|exact (H NAND NAND)
     |exact (H OR NOR)|exact (H NAND OR)|exact (H XOR AND)|exact (H XOR NOR)|exact (H NXOR AND)|exact (H NXOR NOR)|exact (H XOR NAND)|exact (H XOR OR)
     |exact (H NXOR NAND)|exact (H NXOR OR)|exact (H AND XOR)|exact (H NOR NXOR)|exact (H OR NXOR)|exact (H NAND XOR)|exact (H AND NXOR)|exact (H NOR XOR)
     |exact (H OR XOR)|exact (H NAND NXOR)|exact (H XOR XOR)|exact (H NXOR XOR)|exact (H XOR NXOR)|exact (H NXOR NXOR)]|clear o] end.
  reflexivity.
Qed.
