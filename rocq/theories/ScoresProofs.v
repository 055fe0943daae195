(** Lemmas for C07, C08, C09. *)
From Coq Require Import String ZifyBool.
From Verif Require Import Base BaseLemmas Spec Outputs OutputsProofs Scores.
Local Open Scope Z_scope.
Local Open Scope bool_scope.

(** * Loops *)
Lemma flag_loop_cnt c ls : flag_loop c ls = Nat.ltb 0 (cnt c ls).
Proof.
  induction ls as [|l ls IH]; [reflexivity|]. simpl flag_loop. rewrite cnt_cons.
  destruct (c l); [reflexivity|exact IH].
Qed.

Lemma count_in_loop_cnt c ls k : 0 <= k <= 1 ->
  count_in_loop c ls k = Z.min 2 (k + Z.of_nat (cnt c ls)).
Proof.
  revert k; induction ls as [|l ls IH]; intros k Hk; [simpl; lia|].
  simpl count_in_loop. rewrite cnt_cons. destruct (c l).
  - destruct (Z.gtb_spec (k + 1) 1); [lia|]. rewrite IH by lia. lia.
  - rewrite IH by lia. lia.
Qed.

Lemma count_out_loop_cnt c ls k : 0 <= k <= 1 ->
  count_out_loop c ls k = Z.min 2 (k + Z.of_nat (cnt c ls)).
Proof.
  revert k; induction ls as [|l ls IH]; intros k Hk; [simpl; lia|].
  simpl count_out_loop. rewrite cnt_cons. destruct (c l).
  - destruct (Z.gtb_spec (k + 1) 1); [lia|]. rewrite IH by lia. lia.
  - destruct (Z.gtb_spec k 1); [lia|]. rewrite IH by lia. lia.
Qed.

Lemma fold_left_sum (body : Z -> nat -> Z) g ls s :
  (forall s d, In d ls -> body s d = s + g d) -> fold_left body ls s = s + Zsum g ls.
Proof.
  revert s; induction ls as [|a ls IH]; intros s H; [simpl; lia|].
  simpl fold_left. rewrite IH by (intros s' d Hd; apply H; right; exact Hd).
  rewrite (H s a (or_introl eq_refl)), Zsum_cons. lia.
Qed.

Lemma for_d_sum D body g :
  (forall s d, (d < D)%nat -> body s d = s + g d) -> for_d D body = Zsum g (seq 0 D).
Proof.
  intros H. unfold for_d. rewrite (fold_left_sum body g) by (intros s d Hd; apply H, in_seq0, Hd). lia.
Qed.

Lemma for_dm_sum D M body g :
  (forall s d m, (d < D)%nat -> (m < M)%nat -> body s d m = s + g d m) ->
  for_dm D M body = Zsum (fun d => Zsum (g d) (seq 0 M)) (seq 0 D).
Proof.
  intros H. unfold for_dm.
  rewrite (fold_left_sum _ (fun d => Zsum (g d) (seq 0 M))); [lia|].
  intros s d Hd. apply fold_left_sum. intros s' m Hm. apply H; apply in_seq0; assumption.
Qed.

(** * Output with one entry of the first factor replaced *)
Definition in2 (i : lop) (a b : Z) : bool := lop_cnt i 2 (b2n (a =? 1) + b2n (b =? 1)).
Definition in3 (i : lop) (a b c : Z) : bool := lop_cnt i 3 (b2n (a =? 1) + b2n (b =? 1) + b2n (c =? 1)).

Lemma lom_b_upd2 o i z u l v L : List.length z = L -> (l < L)%nat ->
  lom_b o i [upd z l v; u] L =
  lop_cnt o L (b2n (in2 i v (at1 u l)) +
               cnt (fun l' => in2 i (at1 z l') (at1 u l') && negb (Nat.eqb l' l)) (seq 0 L)).
Proof.
  intros Hz Hl. unfold lom_b. f_equal.
  rewrite (cnt_split _ l) by (try apply seq_NoDup; apply in_seq0; exact Hl).
  rewrite inner_b_2. rewrite at1_upd, Nat.eqb_refl. unfold vec in *. rewrite Hz.
  destruct (Nat.ltb_spec l L); [|lia]. simpl andb. cbv iota. f_equal.
  apply cnt_ext. intros l' Hl'. rewrite inner_b_2, at1_upd.
  destruct (Nat.eqb_spec l' l); [rewrite !andb_false_r; reflexivity|]. reflexivity.
Qed.

Lemma lom_b_upd3 o i z u w l v L : List.length z = L -> (l < L)%nat ->
  lom_b o i [upd z l v; u; w] L =
  lop_cnt o L (b2n (in3 i v (at1 u l) (at1 w l)) +
               cnt (fun l' => in3 i (at1 z l') (at1 u l') (at1 w l') && negb (Nat.eqb l' l)) (seq 0 L)).
Proof.
  intros Hz Hl. unfold lom_b. f_equal.
  rewrite (cnt_split _ l) by (try apply seq_NoDup; apply in_seq0; exact Hl).
  rewrite inner_b_3. rewrite at1_upd, Nat.eqb_refl. unfold vec in *. rewrite Hz.
  destruct (Nat.ltb_spec l L); [|lia]. simpl andb. cbv iota. f_equal.
  apply cnt_ext. intros l' Hl'. rewrite inner_b_3, at1_upd.
  destruct (Nat.eqb_spec l' l); [rewrite !andb_false_r; reflexivity|]. reflexivity.
Qed.

Lemma cnt_except_negb c l L : (l < L)%nat ->
  (cnt (fun i => c i && negb (Nat.eqb i l)) (seq 0 L) +
   cnt (fun i => negb (c i) && negb (Nat.eqb i l)) (seq 0 L) + 1 = L)%nat.
Proof.
  intros Hl.
  pose proof (cnt_split c l (seq 0 L) (seq_NoDup L 0) (proj2 (in_seq0 l L) Hl)) as E1.
  pose proof (cnt_split (fun i => negb (c i)) l (seq 0 L) (seq_NoDup L 0) (proj2 (in_seq0 l L) Hl)) as E2.
  assert (E3 : (cnt (fun i => negb (c i)) (seq 0 L) + cnt c (seq 0 L) = L)%nat).
  { transitivity (List.length (seq 0 L)); [|apply seq_length]. clear.
    induction (seq 0 L) as [|a ls IH]; [reflexivity|]. rewrite !cnt_cons. simpl List.length.
    destruct (c a); simpl; lia. }
  simpl in E2. destruct (c l); simpl in *; lia.
Qed.

(** * Per-data-point contributions *)
Definition sgn (b : bool) : Z := if b then 1 else -1.

(** What one data point contributes, as a function of the number of other active dimensions. *)
Definition gain2 (o i : lop) (L k : nat) (u x : Z) : Z :=
  x * (sgn (lop_cnt o L (b2n (in2 i 1 u) + k)) - sgn (lop_cnt o L (b2n (in2 i (-1) u) + k))).
Definition gain3 (o i : lop) (L k : nat) (u w x : Z) : Z :=
  x * (sgn (lop_cnt o L (b2n (in3 i 1 u w) + k)) - sgn (lop_cnt o L (b2n (in3 i (-1) u w) + k))).

(** The exact (unwrapped) score. *)
Definition exact2 (o i : lop) (Z_n : vec) (U : mat) (X_n : vec) (l : nat) : Z :=
  Zsum (fun d => Z.div (gain2 o i (ncols U)
          (cnt (fun l' => in2 i (at1 Z_n l') (at2 U d l') && negb (Nat.eqb l' l)) (seq 0 (ncols U)))
          (at2 U d l) (at1 X_n d)) 2) (seq 0 (nrows U)).
Definition exact3 (o i : lop) (Z_n : vec) (U V : mat) (X_n : mat) (l : nat) : Z :=
  Zsum (fun d => Zsum (fun m => Z.div (gain3 o i (ncols U)
          (cnt (fun l' => in3 i (at1 Z_n l') (at2 U d l') (at2 V m l') && negb (Nat.eqb l' l)) (seq 0 (ncols U)))
          (at2 U d l) (at2 V m l) (at2 X_n d m)) 2) (seq 0 (nrows V))) (seq 0 (nrows U)).

Lemma gain2_even o i L k u x : exists h, gain2 o i L k u x = 2 * h.
Proof.
  unfold gain2, sgn.
  destruct (lop_cnt o L (b2n (in2 i 1 u) + k)), (lop_cnt o L (b2n (in2 i (-1) u) + k));
    [exists 0|exists x|exists (-x)|exists 0]; lia.
Qed.
Lemma gain3_even o i L k u w x : exists h, gain3 o i L k u w x = 2 * h.
Proof.
  unfold gain3, sgn.
  destruct (lop_cnt o L (b2n (in3 i 1 u w) + k)), (lop_cnt o L (b2n (in3 i (-1) u w) + k));
    [exists 0|exists x|exists (-x)|exists 0]; lia.
Qed.
Lemma gain2_half o i L k u x : 2 * Z.div (gain2 o i L k u x) 2 = gain2 o i L k u x.
Proof. destruct (gain2_even o i L k u x) as [h ->]. rewrite Z.mul_comm at 1. rewrite (Z.mul_comm 2 h), Z.div_mul; lia. Qed.
Lemma gain3_half o i L k u w x : 2 * Z.div (gain3 o i L k u w x) 2 = gain3 o i L k u w x.
Proof. destruct (gain3_even o i L k u w x) as [h ->]. rewrite Z.mul_comm at 1. rewrite (Z.mul_comm 2 h), Z.div_mul; lia. Qed.

Lemma half_eq a b : a = 2 * b -> b = Z.div a 2.
Proof. intros ->. rewrite Z.mul_comm, Z.div_mul; lia. Qed.

Section TwoFactor.
  Variables (Z_n : vec) (U : mat) (X_n : vec) (l D L : nat).
  Hypothesis HU : has_shape2 U D L.
  Hypothesis bU : bin2 U.
  Hypothesis bZ : bin1 Z_n.
  Hypothesis HZ : List.length Z_n = L.
  Hypothesis Hl : (l < L)%nat.

  Lemma pmU d l' : (d < D)%nat -> (l' < L)%nat -> pm1 (at2 U d l').
  Proof. intros. eapply bin2_at; eassumption. Qed.
  Lemma pmZ l' : (l' < L)%nat -> pm1 (at1 Z_n l').
  Proof. intros. apply bin1_at; [exact bZ|]. unfold vec in *; lia. Qed.

  Lemma cols d : (d < D)%nat -> ncols U = L.
  Proof. intros Hd. apply (shape2_ncols U D L HU). lia. Qed.

  (** The code's condition on another dimension, when it is the inner operator or its negation. *)
  Lemma cnt_cond i d c : (d < D)%nat ->
    (forall l', (l' < L)%nat -> c l' = in2 i (at1 Z_n l') (at2 U d l') && negb (Nat.eqb l' l)) ->
    cnt c (seq 0 L) =
    cnt (fun l' => in2 i (at1 Z_n l') (at2 U d l') && negb (Nat.eqb l' l)) (seq 0 L).
  Proof. intros Hd H. apply cnt_ext. intros l' Hl'. apply H, in_seq0, Hl'. Qed.

  Lemma cnt_cond_neg i d c : (d < D)%nat ->
    (forall l', (l' < L)%nat -> c l' = negb (in2 i (at1 Z_n l') (at2 U d l')) && negb (Nat.eqb l' l)) ->
    (cnt c (seq 0 L) + cnt (fun l' => in2 i (at1 Z_n l') (at2 U d l') && negb (Nat.eqb l' l)) (seq 0 L) + 1
     = L)%nat.
  Proof.
    intros Hd H.
    rewrite (cnt_ext c (fun l' => negb (in2 i (at1 Z_n l') (at2 U d l')) && negb (Nat.eqb l' l)))
      by (intros l' Hl'; apply H, in_seq0, Hl').
    pose proof (cnt_except_negb (fun l' => in2 i (at1 Z_n l') (at2 U d l')) l L Hl). lia.
  Qed.

  Ltac cond_tac :=
    intros l' Hl'; destruct (pmZ l' Hl') as [->| ->];
    match goal with Hd : (?d < D)%nat |- _ => destruct (pmU d l' Hd Hl') as [->| ->] end;
    reflexivity.

  Ltac start :=
    unfold posterior_score_OR_AND_2D, posterior_score_OR_NAND_2D, posterior_score_OR_XOR_2D,
      posterior_score_NAND_XOR_2D, posterior_score_XOR_AND_2D, posterior_score_XOR_XOR_2D,
      posterior_score_XOR_NXOR_2D, posterior_score_XOR_NAND_2D, exact2;
    rewrite (shape2_nrows _ _ _ HU); f_equal.

  (** Sum with the sign of the final negation absorbed. *)
  Lemma for_d_gain (sg : Z) body g :
    sg = 1 \/ sg = -1 ->
    (forall s d, (d < D)%nat -> body s d = s + sg * g d) ->
    sg * for_d D body = Zsum g (seq 0 D).
  Proof.
    intros Hs H. rewrite (for_d_sum D body (fun d => sg * g d)) by exact H.
    rewrite Zsum_scale. destruct Hs as [->| ->]; lia.
  Qed.

  Ltac pos := match goal with |- for_d ?D ?b = _ => replace (for_d D b) with (1 * for_d D b) by lia end;
    apply for_d_gain; [left; reflexivity|]; intros s d Hd.
  Ltac neg := match goal with |- - for_d ?D ?b = _ => replace (- for_d D b) with (-1 * for_d D b) by lia end;
    apply for_d_gain; [right; reflexivity|]; intros s d Hd.

  Ltac solve_gain Hd :=
    match goal with |- context [at1 X_n ?d] => generalize (at1 X_n d) end; intros x;
    match goal with |- context [at2 U ?d l] => destruct (pmU d l Hd Hl) as [->| ->] end;
    match goal with |- context [Z.div ?a 2] =>
      let Hh := fresh "Hh" in pose proof (gain2_half _ _ _ _ _ _ : 2 * Z.div a 2 = a) as Hh;
      revert Hh; generalize (Z.div a 2) end;
    intros h; unfold gain2, in2, sgn, b2n, lop_cnt; cbn [Z.eqb Pos.eqb andb orb negb]; cbv iota; intros Hh;
    repeat match goal with
           | |- context [if ?b then _ else _] => destruct b eqn:?
           | H : context [if ?b then _ else _] |- _ => destruct b eqn:?
           end; lia.

  Ltac direct i d Hd :=
    rewrite (cols _ Hd), ?flag_loop_cnt, ?count_in_loop_cnt, ?count_out_loop_cnt by lia;
    rewrite (cnt_cond i d) by (try exact Hd; cond_tac);
    generalize (cnt (fun l' => in2 i (at1 Z_n l') (at2 U d l') && negb (Nat.eqb l' l)) (seq 0 L));
    intros k; solve_gain Hd.

  Lemma score_OR_AND_2D : posterior_score_OR_AND_2D Z_n U X_n l = wrap16 (exact2 OR AND Z_n U X_n l).
  Proof. start. pos. direct AND d Hd. Qed.
  Lemma score_OR_NAND_2D : posterior_score_OR_NAND_2D Z_n U X_n l = wrap16 (exact2 OR NAND Z_n U X_n l).
  Proof. start. neg. direct NAND d Hd. Qed.
  Lemma score_OR_XOR_2D : posterior_score_OR_XOR_2D Z_n U X_n l = wrap16 (exact2 OR XOR Z_n U X_n l).
  Proof. start. neg. direct XOR d Hd. Qed.
  Lemma score_XOR_AND_2D : posterior_score_XOR_AND_2D Z_n U X_n l = wrap16 (exact2 XOR AND Z_n U X_n l).
  Proof. start. pos. direct AND d Hd. Qed.
  Lemma score_XOR_XOR_2D : posterior_score_XOR_XOR_2D Z_n U X_n l = wrap16 (exact2 XOR XOR Z_n U X_n l).
  Proof. start. pos. direct XOR d Hd. Qed.
  Lemma score_XOR_NXOR_2D : posterior_score_XOR_NXOR_2D Z_n U X_n l = wrap16 (exact2 XOR NXOR Z_n U X_n l).
  Proof. start. pos. direct NXOR d Hd. Qed.
  Lemma score_XOR_NAND_2D : posterior_score_XOR_NAND_2D Z_n U X_n l = wrap16 (exact2 XOR NAND Z_n U X_n l).
  Proof. start. neg. direct NAND d Hd. Qed.
  Lemma score_NAND_XOR_2D : posterior_score_NAND_XOR_2D Z_n U X_n l = wrap16 (exact2 NAND XOR Z_n U X_n l).
  Proof.
    start. pos. rewrite (cols _ Hd), flag_loop_cnt.
    match goal with |- context [cnt ?c (seq 0 L)] =>
      lazymatch c with
      | context [in2] => fail
      | _ => pose proof (cnt_cond_neg XOR d c Hd) as E end end.
    match type of E with ?A -> _ => assert (HA : A) by cond_tac; specialize (E HA); clear HA end.
    revert E. match goal with |- (cnt ?c ?s + _ + _)%nat = _ -> _ => generalize (cnt c s) end. intros k1.
    generalize (cnt (fun l' => in2 XOR (at1 Z_n l') (at2 U d l') && negb (Nat.eqb l' l)) (seq 0 L)).
    intros k E. solve_gain Hd.
  Qed.
End TwoFactor.

Section ThreeFactor.
  Variables (Z_n : vec) (U V : mat) (X_n : mat) (l D M L : nat).
  Hypothesis HU : has_shape2 U D L.
  Hypothesis HV : has_shape2 V M L.
  Hypothesis bU : bin2 U.
  Hypothesis bV : bin2 V.
  Hypothesis bZ : bin1 Z_n.
  Hypothesis HZ : List.length Z_n = L.
  Hypothesis Hl : (l < L)%nat.

  Let pmU3 d l' : (d < D)%nat -> (l' < L)%nat -> pm1 (at2 U d l').
  Proof. intros. eapply bin2_at; eassumption. Qed.
  Let pmV3 d l' : (d < M)%nat -> (l' < L)%nat -> pm1 (at2 V d l').
  Proof. intros. eapply bin2_at; eassumption. Qed.
  Let pmZ3 l' : (l' < L)%nat -> pm1 (at1 Z_n l').
  Proof. intros. apply bin1_at; [exact bZ|]. unfold vec in *; lia. Qed.
  Let cols3 d : (d < D)%nat -> ncols U = L.
  Proof. intros Hd. apply (shape2_ncols U D L HU). lia. Qed.

  Let incond i d m l' := in3 i (at1 Z_n l') (at2 U d l') (at2 V m l').

  Lemma cnt_cond3 i d m c : (d < D)%nat -> (m < M)%nat ->
    (forall l', (l' < L)%nat -> c l' = incond i d m l' && negb (Nat.eqb l' l)) ->
    cnt c (seq 0 L) = cnt (fun l' => incond i d m l' && negb (Nat.eqb l' l)) (seq 0 L).
  Proof. intros Hd Hm H. apply cnt_ext. intros l' Hl'. apply H, in_seq0, Hl'. Qed.

  Lemma cnt_cond3_neg i d m c : (d < D)%nat -> (m < M)%nat ->
    (forall l', (l' < L)%nat -> c l' = negb (incond i d m l') && negb (Nat.eqb l' l)) ->
    (cnt c (seq 0 L) + cnt (fun l' => incond i d m l' && negb (Nat.eqb l' l)) (seq 0 L) + 1 = L)%nat.
  Proof.
    intros Hd Hm H.
    rewrite (cnt_ext c (fun l' => negb (incond i d m l') && negb (Nat.eqb l' l)))
      by (intros l' Hl'; apply H, in_seq0, Hl').
    pose proof (cnt_except_negb (fun l' => incond i d m l') l L Hl). lia.
  Qed.

  Lemma for_dm_gain (sg : Z) body g :
    sg = 1 \/ sg = -1 ->
    (forall s d m, (d < D)%nat -> (m < M)%nat -> body s d m = s + sg * g d m) ->
    sg * for_dm D M body = Zsum (fun d => Zsum (g d) (seq 0 M)) (seq 0 D).
  Proof.
    intros Hs H. rewrite (for_dm_sum D M body (fun d m => sg * g d m)) by exact H.
    rewrite (Zsum_ext _ (fun d => sg * Zsum (g d) (seq 0 M))) by (intros; apply Zsum_scale).
    rewrite Zsum_scale. destruct Hs as [->| ->]; lia.
  Qed.

  Ltac cond_tac :=
    intros l' Hl'; unfold incond; destruct (pmZ3 l' Hl') as [->| ->];
    match goal with Hd : (?d < D)%nat, Hm : (?m < M)%nat |- _ =>
      destruct (pmU3 d l' Hd Hl') as [->| ->]; destruct (pmV3 m l' Hm Hl') as [->| ->] end;
    reflexivity.
  Ltac start :=
    unfold posterior_score_OR_AND_3D, posterior_score_OR_NAND_3D, posterior_score_OR_XOR_3D,
      posterior_score_NAND_XOR_3D, posterior_score_XOR_AND_3D, posterior_score_XOR_XOR_3D,
      posterior_score_XOR_NXOR_3D, posterior_score_XOR_NAND_3D, exact3;
    rewrite (shape2_nrows _ _ _ HU), (shape2_nrows _ _ _ HV).
  Ltac pos := match goal with |- for_dm ?D ?M ?b = _ => replace (for_dm D M b) with (1 * for_dm D M b) by lia end;
    apply for_dm_gain; [left; reflexivity|]; intros s d m Hd Hm.
  Ltac neg := match goal with |- - for_dm ?D ?M ?b = _ => replace (- for_dm D M b) with (-1 * for_dm D M b) by lia end;
    apply for_dm_gain; [right; reflexivity|]; intros s d m Hd Hm.
  Ltac solve_gain Hd Hm :=
    match goal with |- context [at2 X_n ?d ?m] => generalize (at2 X_n d m) end; intros x;
    match goal with |- context [at2 U ?d l] => destruct (pmU3 d l Hd Hl) as [->| ->] end;
    match goal with |- context [at2 V ?m l] => destruct (pmV3 m l Hm Hl) as [->| ->] end;
    match goal with |- context [Z.div ?a 2] =>
      let Hh := fresh "Hh" in pose proof (gain3_half _ _ _ _ _ _ _ : 2 * Z.div a 2 = a) as Hh;
      revert Hh; generalize (Z.div a 2) end;
    intros h; unfold gain3, in3, sgn, b2n, lop_cnt; cbn [Z.eqb Pos.eqb andb orb negb]; cbv iota; intros Hh;
    repeat match goal with
           | |- context [if ?b then _ else _] => destruct b eqn:?
           | H : context [if ?b then _ else _] |- _ => destruct b eqn:?
           end; lia.
  Ltac direct i d m Hd Hm :=
    rewrite (cols3 _ Hd), ?flag_loop_cnt, ?count_in_loop_cnt, ?count_out_loop_cnt by lia;
    rewrite (cnt_cond3 i d m) by (try exact Hd; try exact Hm; cond_tac);
    change (fun l' => in3 i (at1 Z_n l') (at2 U d l') (at2 V m l') && negb (Nat.eqb l' l))
      with (fun l' => incond i d m l' && negb (Nat.eqb l' l));
    generalize (cnt (fun l' => incond i d m l' && negb (Nat.eqb l' l)) (seq 0 L));
    intros k; solve_gain Hd Hm.

  Lemma score_OR_AND_3D : posterior_score_OR_AND_3D Z_n U V X_n l = exact3 OR AND Z_n U V X_n l.
  Proof. start. pos. direct AND d m Hd Hm. Qed.
  Lemma score_OR_NAND_3D : posterior_score_OR_NAND_3D Z_n U V X_n l = exact3 OR NAND Z_n U V X_n l.
  Proof. start. neg. direct NAND d m Hd Hm. Qed.
  Lemma score_OR_XOR_3D : posterior_score_OR_XOR_3D Z_n U V X_n l = exact3 OR XOR Z_n U V X_n l.
  Proof. start. pos. direct XOR d m Hd Hm. Qed.
  Lemma score_XOR_AND_3D : posterior_score_XOR_AND_3D Z_n U V X_n l = exact3 XOR AND Z_n U V X_n l.
  Proof. start. pos. direct AND d m Hd Hm. Qed.
  Lemma score_XOR_XOR_3D : posterior_score_XOR_XOR_3D Z_n U V X_n l = exact3 XOR XOR Z_n U V X_n l.
  Proof. start. pos. direct XOR d m Hd Hm. Qed.
  Lemma score_XOR_NXOR_3D : posterior_score_XOR_NXOR_3D Z_n U V X_n l = exact3 XOR NXOR Z_n U V X_n l.
  Proof. start. pos. direct NXOR d m Hd Hm. Qed.
  Lemma score_XOR_NAND_3D : posterior_score_XOR_NAND_3D Z_n U V X_n l = exact3 XOR NAND Z_n U V X_n l.
  Proof. start. neg. direct NAND d m Hd Hm. Qed.
  Lemma score_NAND_XOR_3D : posterior_score_NAND_XOR_3D Z_n U V X_n l = exact3 NAND XOR Z_n U V X_n l.
  Proof.
    start. neg. rewrite (cols3 _ Hd), flag_loop_cnt.
    match goal with |- context [Nat.ltb 0 (cnt ?c (seq 0 L))] =>
      pose proof (cnt_cond3_neg XOR d m c Hd Hm) as E end.
    match type of E with ?A -> _ => assert (HA : A) by cond_tac; specialize (E HA); clear HA end.
    change (fun l' => in3 XOR (at1 Z_n l') (at2 U d l') (at2 V m l') && negb (Nat.eqb l' l))
      with (fun l' => incond XOR d m l' && negb (Nat.eqb l' l)).
    revert E. match goal with |- (cnt ?c ?s + _ + _)%nat = _ -> _ => generalize (cnt c s) end. intros k1.
    generalize (cnt (fun l' => incond XOR d m l' && negb (Nat.eqb l' l)) (seq 0 L)).
    intros k E. solve_gain Hd Hm.
  Qed.
End ThreeFactor.

(** * Against the specification *)
Lemma explained2_exact o i z U x l D L :
  has_shape2 U D L -> List.length z = L -> (l < L)%nat ->
  explained2 o i z U x l D L (exact2 o i z U x l).
Proof.
  intros HU Hz Hl.
  exists (fun d => sgn (lom_b o i [upd z l 1; row U d] L)), (fun d => sgn (lom_b o i [upd z l (-1); row U d] L)).
  split.
  - intros d Hd. split; apply lom_output_b; reflexivity.
  - unfold exact2. rewrite <- Zsum_scale, (shape2_nrows _ _ _ HU). apply Zsum_ext. intros d Hd. apply in_seq0 in Hd.
    rewrite gain2_half. rewrite (shape2_ncols U D L HU) by lia. unfold gain2.
    rewrite !lom_b_upd2 by assumption. reflexivity.
Qed.

Lemma explained3_exact o i z U V x l D M L :
  has_shape2 U D L -> has_shape2 V M L -> List.length z = L -> (l < L)%nat ->
  explained3 o i z U V x l D M L (exact3 o i z U V x l).
Proof.
  intros HU HV Hz Hl.
  exists (fun d m => sgn (lom_b o i [upd z l 1; row U d; row V m] L)),
         (fun d m => sgn (lom_b o i [upd z l (-1); row U d; row V m] L)).
  split.
  - intros d m Hd Hm. split; apply lom_output_b; reflexivity.
  - unfold exact3. rewrite <- Zsum_scale, (shape2_nrows _ _ _ HU), (shape2_nrows _ _ _ HV).
    apply Zsum_ext. intros d Hd. apply in_seq0 in Hd. rewrite <- Zsum_scale.
    apply Zsum_ext. intros m Hm. rewrite gain3_half. rewrite (shape2_ncols U D L HU) by lia. unfold gain3.
    rewrite !lom_b_upd3 by assumption. reflexivity.
Qed.

Lemma explained2_unique o i z U x l D L s s' :
  explained2 o i z U x l D L s -> explained2 o i z U x l D L s' -> s = s'.
Proof.
  intros (u & v & H & E) (u' & v' & H' & E').
  assert (2 * s = 2 * s'); [|lia]. rewrite E, E'. apply Zsum_ext. intros d Hd. apply in_seq0 in Hd.
  destruct (H d Hd) as [A B]. destruct (H' d Hd) as [A' B'].
  rewrite (lom_output_unique _ _ _ _ _ _ A A'), (lom_output_unique _ _ _ _ _ _ B B'). reflexivity.
Qed.

Lemma explained2_bound o i z U x l D L s :
  explained2 o i z U x l D L s -> tern1 x -> Z.abs s <= Z.of_nat D.
Proof.
  intros (u & v & H & E) Hx.
  assert (Z.abs (2 * s) <= 2 * Z.of_nat D); [|lia]. rewrite E.
  transitivity (2 * Z.of_nat (List.length (seq 0 D))); [|rewrite seq_length; lia].
  apply Zsum_abs_bound. intros d Hd. apply in_seq0 in Hd.
  destruct (H d Hd) as [A B]. rewrite lom_output_b in A, B. rewrite A, B.
  assert (T : tern (nth d x 0)).
  { destruct (Nat.lt_ge_cases d (List.length x)).
    - apply (proj1 (Forall_forall tern x) Hx). apply nth_In. exact H0.
    - rewrite nth_overflow by exact H0. unfold tern; auto. }
  unfold tern in T. destruct (lom_b o i [upd z l 1; row U d] L), (lom_b o i [upd z l (-1); row U d] L); lia.
Qed.

Lemma C07_lemma : forall o i, In (o, i) implemented ->
  exists f, get_posterior_score_fct_2d (model_tag (model_name o i) "2") = Ok f /\
    forall z U x l D L,
      has_shape2 U D L -> bin2 U -> bin1 z -> List.length z = L -> (l < L)%nat ->
      exists s, explained2 o i z U x l D L s /\ f z U x l = wrap16 s /\
        (tern1 x -> Z.of_nat D <= 32767 -> f z U x l = s).
Proof.
  intros o i Hin.
  assert (G : forall f, (forall z U x l D L, has_shape2 U D L -> bin2 U -> bin1 z -> List.length z = L ->
                          (l < L)%nat -> f z U x l = wrap16 (exact2 o i z U x l)) ->
     forall z U x l D L,
      has_shape2 U D L -> bin2 U -> bin1 z -> List.length z = L -> (l < L)%nat ->
      exists s, explained2 o i z U x l D L s /\ f z U x l = wrap16 s /\
        (tern1 x -> Z.of_nat D <= 32767 -> f z U x l = s)).
  { intros f Hf z U x l D L HU bU bz Hz Hl. exists (exact2 o i z U x l).
    pose proof (explained2_exact o i z U x l D L HU Hz Hl) as HE.
    split; [exact HE|]. rewrite (Hf z U x l D L) by assumption. split; [reflexivity|].
    intros Hx HD. apply wrap16_id. pose proof (explained2_bound _ _ _ _ _ _ _ _ _ HE Hx). lia. }
  simpl in Hin.
  repeat (destruct Hin as [Hin|Hin];
    [inversion Hin; subst; clear Hin; eexists; split; [reflexivity|]; apply G; intros;
     eauto using score_OR_AND_2D, score_OR_NAND_2D, score_OR_XOR_2D, score_NAND_XOR_2D,
       score_XOR_AND_2D, score_XOR_XOR_2D, score_XOR_NXOR_2D, score_XOR_NAND_2D|]).
  contradiction.
Qed.

Lemma C08_lemma : forall o i, In (o, i) implemented ->
  exists f, get_posterior_score_fct_3d (model_tag (model_name o i) "3") = Ok f /\
    forall z U V x l D M L,
      has_shape2 U D L -> has_shape2 V M L -> bin2 U -> bin2 V -> bin1 z -> List.length z = L -> (l < L)%nat ->
      explained3 o i z U V x l D M L (f z U V x l).
Proof.
  intros o i Hin.
  assert (G : forall f, (forall z U V x l D M L, has_shape2 U D L -> has_shape2 V M L -> bin2 U -> bin2 V ->
                bin1 z -> List.length z = L -> (l < L)%nat -> f z U V x l = exact3 o i z U V x l) ->
     forall z U V x l D M L,
      has_shape2 U D L -> has_shape2 V M L -> bin2 U -> bin2 V -> bin1 z -> List.length z = L -> (l < L)%nat ->
      explained3 o i z U V x l D M L (f z U V x l)).
  { intros f Hf z U V x l D M L HU HV bU bV bz Hz Hl. rewrite (Hf z U V x l D M L) by assumption.
    apply explained3_exact; assumption. }
  simpl in Hin.
  repeat (destruct Hin as [Hin|Hin];
    [inversion Hin; subst; clear Hin; eexists; split; [reflexivity|]; apply G; intros;
     eauto using score_OR_AND_3D, score_OR_NAND_3D, score_OR_XOR_3D, score_NAND_XOR_3D,
       score_XOR_AND_3D, score_XOR_XOR_3D, score_XOR_NXOR_3D, score_XOR_NAND_3D|]).
  contradiction.
Qed.

(** 32768 identical data points in one latent dimension. *)
Lemma repeat_shape2 (r : vec) D : has_shape2 (repeat r D) D (List.length r).
Proof. split; [apply repeat_length|]. apply Forall_forall. intros y Hy. apply repeat_spec in Hy. subst; reflexivity. Qed.

Lemma C09_lemma : forall o i, In (o, i) implemented ->
  exists f, get_posterior_score_fct_2d (model_tag (model_name o i) "2") = Ok f /\
    exists z U x l D L,
      has_shape2 U D L /\ bin2 U /\ bin1 z /\ List.length z = L /\ (l < L)%nat /\
      bin1 x /\ List.length x = D /\ Z.of_nat D = 32768 /\
      explained2 o i z U x l D L 32768 /\ f z U x l = -32768.
Proof.
  intros o i Hin. destruct (C07_lemma o i Hin) as (f & Hf & H). exists f. split; [exact Hf|].
  set (D := Z.to_nat 32768).
  assert (HD : Z.of_nat D = 32768) by (apply Z2Nat.id; lia).
  set (c := if lop_cnt o 1 (b2n (in2 i 1 1)) then 1 else -1).
  assert (Hc : c = 1 \/ c = -1) by (unfold c; destruct (lop_cnt _ _ _); auto).
  clearbody D.
  exists [1], (repeat [1] D), (repeat c D), 0%nat, D, 1%nat.
  assert (HU : has_shape2 (repeat [1] D) D 1) by apply repeat_shape2.
  assert (bU : bin2 (repeat [1] D)).
  { apply Forall_forall. intros y Hy. apply repeat_spec in Hy. subst. bin_tac. }
  assert (bz : bin1 [1]) by bin_tac.
  split; [exact HU|]. split; [exact bU|]. split; [exact bz|]. split; [reflexivity|]. split; [lia|].
  split; [apply Forall_forall; intros y Hy; apply repeat_spec in Hy; subst; exact Hc|].
  split; [apply repeat_length|]. split; [exact HD|].
  destruct (H [1] (repeat [1] D) (repeat c D) 0%nat D 1%nat HU bU bz eq_refl Nat.lt_0_1) as (s & Hs & E & _).
  assert (s = 32768).
  { clear E. destruct Hs as (u & v & Ho & Es).
    assert (2 * s = 2 * 32768); [|lia]. rewrite Es, <- HD.
    transitivity (Zsum (fun _ => 2 * 1) (seq 0 D)).
    - apply Zsum_ext. intros d Hd. apply in_seq0 in Hd. destruct (Ho d Hd) as [A B].
      rewrite lom_output_b in A, B. rewrite A, B.
      assert (R : row (repeat [1] D) d = [1]).
      { unfold row. apply (repeat_spec D [1]). apply nth_In. rewrite repeat_length. exact Hd. }
      rewrite R. assert (X : nth d (repeat c D) 0 = c).
      { apply (repeat_spec D c). apply nth_In. rewrite repeat_length. exact Hd. }
      rewrite X. unfold c. clear - Hin. simpl in Hin.
      repeat (destruct Hin as [Hin|Hin]; [inversion Hin; subst; reflexivity|]). contradiction.
    - rewrite Zsum_scale. f_equal. clear. transitivity (Z.of_nat (List.length (seq 0 D))); [|rewrite seq_length; reflexivity].
      induction (seq 0 D) as [|a ls IH]; [reflexivity|]. rewrite Zsum_cons, IH. simpl List.length. lia. }
  subst s. split; [exact Hs|]. rewrite E. reflexivity.
Qed.

Lemma C07_example_lemma :
  In (XOR, AND) implemented /\ has_shape2 [[1; 1; -1]; [1; -1; 1]; [-1; 1; 1]; [1; 1; 1]] 4 3 /\
  bin2 [[1; 1; -1]; [1; -1; 1]; [-1; 1; 1]; [1; 1; 1]] /\ bin1 [1; 1; -1] /\ tern1 [1; -1; 1; 0] /\
  posterior_score_XOR_AND_2D [1; 1; -1] [[1; 1; -1]; [1; -1; 1]; [-1; 1; 1]; [1; 1; 1]] [1; -1; 1; 0] 0 = -2 /\
  explained2 XOR AND [1; 1; -1] [[1; 1; -1]; [1; -1; 1]; [-1; 1; 1]; [1; 1; 1]] [1; -1; 1; 0] 0 4 3 (-2).
Proof.
  assert (S : has_shape2 [[1; 1; -1]; [1; -1; 1]; [-1; 1; 1]; [1; 1; 1]] 4 3) by shape_tac.
  split; [simpl; auto 10|]. split; [exact S|]. split; [bin_tac|]. split; [bin_tac|]. split; [bin_tac|].
  split; [reflexivity|]. change (-2) with (exact2 XOR AND [1; 1; -1] [[1; 1; -1]; [1; -1; 1]; [-1; 1; 1]; [1; 1; 1]] [1; -1; 1; 0] 0).
  apply explained2_exact; [exact S|reflexivity|lia].
Qed.

Lemma C08_example_lemma :
  In (NAND, XOR) implemented /\ has_shape2 [[1; -1]; [-1; -1]] 2 2 /\ has_shape2 [[-1; 1]; [-1; -1]; [1; -1]] 3 2 /\
  posterior_score_NAND_XOR_3D [-1; 1] [[1; -1]; [-1; -1]] [[-1; 1]; [-1; -1]; [1; -1]] [[1; -1; 0]; [1; 1; -1]] 0 = -3 /\
  explained3 NAND XOR [-1; 1] [[1; -1]; [-1; -1]] [[-1; 1]; [-1; -1]; [1; -1]] [[1; -1; 0]; [1; 1; -1]] 0 2 3 2 (-3).
Proof.
  assert (S : has_shape2 [[1; -1]; [-1; -1]] 2 2) by shape_tac.
  assert (S2 : has_shape2 [[-1; 1]; [-1; -1]; [1; -1]] 3 2) by shape_tac.
  split; [simpl; auto 10|]. split; [exact S|]. split; [exact S2|].
  split; [vm_compute; reflexivity|].
  change (-3) with (exact3 NAND XOR [-1; 1] [[1; -1]; [-1; -1]] [[-1; 1]; [-1; -1]; [1; -1]] [[1; -1; 0]; [1; 1; -1]] 0).
  apply explained3_exact; [exact S|exact S2|reflexivity|lia].
Qed.
