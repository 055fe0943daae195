(** Counting characterisations of the operators and of the output loops; lemmas for C01, C02. *)
From Coq Require Import String ZifyBool.
From Verif Require Import Base BaseLemmas Spec Outputs.
Local Open Scope Z_scope.
Local Open Scope bool_scope.

(** An operator applied to n propositions depends only on how many of them hold. *)
Definition lop_cnt (o : lop) (n k : nat) : bool :=
  match o with
  | OR => Nat.ltb 0 k | NOR => negb (Nat.ltb 0 k)
  | AND => Nat.eqb k n | NAND => negb (Nat.eqb k n)
  | XOR => Nat.eqb k 1 | NXOR => negb (Nat.eqb k 1)
  end.

Lemma lop_holds_cnt o n P c :
  (forall i, (i < n)%nat -> (c i = true <-> P i)) ->
  (lop_holds o n P <-> lop_cnt o n (cnt c (seq 0 n)) = true).
Proof.
  intros H.
  assert (HO : (exists i, (i < n)%nat /\ P i) <-> (0 < cnt c (seq 0 n))%nat).
  { rewrite cnt_pos. split; intros (i & Hi & Hp); exists i.
    - split; [apply in_seq0; exact Hi|apply H; assumption].
    - apply in_seq0 in Hi. split; [exact Hi|apply H; assumption]. }
  assert (HA : (forall i, (i < n)%nat -> P i) <-> cnt c (seq 0 n) = n).
  { transitivity (cnt c (seq 0 n) = List.length (seq 0 n)); [|rewrite seq_length; reflexivity].
    rewrite cnt_full. split; intros Hf i Hi.
    - apply in_seq0 in Hi. apply H; auto.
    - apply H; [exact Hi|]. apply Hf. apply in_seq0; exact Hi. }
  assert (HX : (exists i, ((i < n)%nat /\ P i) /\ forall j, (j < n)%nat -> P j -> j = i)
               <-> cnt c (seq 0 n) = 1%nat).
  { rewrite cnt_one by apply seq_NoDup. split; intros (i & [Hi Hp] & Hu); exists i.
    - split; [split; [apply in_seq0; exact Hi|apply H; assumption]|].
      intros j Hj Hc. apply in_seq0 in Hj. apply Hu; [exact Hj|apply H; assumption].
    - apply in_seq0 in Hi. split; [split; [exact Hi|apply H; assumption]|].
      intros j Hj Hc. apply Hu; [apply in_seq0; exact Hj|apply H; assumption]. }
  destruct o; simpl; rewrite ?HO, ?HA, ?HX, ?Nat.ltb_lt, ?Nat.eqb_eq, ?negb_true_iff,
    ?Nat.ltb_nlt, ?Nat.eqb_neq; reflexivity.
Qed.

(** The machine as a computation. *)
Definition inner_b (inner : lop) (rows : list vec) (l : nat) : bool :=
  lop_cnt inner (List.length rows)
    (cnt (fun k => nth l (nth k rows []) 0 =? 1) (seq 0 (List.length rows))).
Definition lom_b (outer inner : lop) (rows : list vec) (L : nat) : bool :=
  lop_cnt outer L (cnt (inner_b inner rows) (seq 0 L)).

Lemma lom_true_b outer inner rows L :
  lom_true outer inner rows L <-> lom_b outer inner rows L = true.
Proof.
  unfold lom_true, lom_b. apply lop_holds_cnt. intros l _. symmetry.
  apply lop_holds_cnt. intros k _. apply Z.eqb_eq.
Qed.

Lemma lom_output_b outer inner rows L x :
  lom_output outer inner rows L x <-> x = (if lom_b outer inner rows L then 1 else -1).
Proof.
  unfold lom_output. rewrite lom_true_b. destruct (lom_b outer inner rows L).
  - split; [intros [[H _]|[_ H]]; [exact H|congruence]|intros ->; left; split; reflexivity].
  - split; [intros [[_ H]|[H _]]; [congruence|exact H]|intros ->; right; split; [reflexivity|congruence]].
Qed.

Lemma lom_output_unique outer inner rows L x y :
  lom_output outer inner rows L x -> lom_output outer inner rows L y -> x = y.
Proof. rewrite !lom_output_b. congruence. Qed.

(** The loops. *)
Lemma any_loop_cnt c ls : any_loop c ls = if Nat.ltb 0 (cnt c ls) then 1 else -1.
Proof.
  induction ls as [|l ls IH]; [reflexivity|]. simpl any_loop. rewrite cnt_cons.
  destruct (c l); [reflexivity|exact IH].
Qed.

Lemma xor_loop_cnt c ls k : 0 <= k <= 1 ->
  xor_loop c ls k = if k + Z.of_nat (cnt c ls) =? 1 then 1 else -1.
Proof.
  revert k; induction ls as [|l ls IH]; intros k Hk.
  - simpl. rewrite Z.add_0_r. reflexivity.
  - simpl xor_loop. rewrite cnt_cons. destruct (c l).
    + destruct (Z.gtb_spec (k + 1) 1).
      * destruct (Z.eqb_spec (k + Z.of_nat (1 + cnt c ls)) 1); [lia|reflexivity].
      * rewrite IH by lia. replace (k + Z.of_nat (1 + cnt c ls)) with (k + 1 + Z.of_nat (cnt c ls)) by lia.
        reflexivity.
    + destruct (Z.gtb_spec k 1); [lia|]. rewrite IH by lia. reflexivity.
Qed.

Lemma xor_loop_cnt0 c ls : xor_loop c ls 0 = if Nat.eqb (cnt c ls) 1 then 1 else -1.
Proof.
  rewrite xor_loop_cnt by lia.
  destruct (Nat.eqb_spec (cnt c ls) 1), (Z.eqb_spec (0 + Z.of_nat (cnt c ls)) 1); try reflexivity; lia.
Qed.

(** The inner operator on two and three entries. *)
Definition b2n (b : bool) : nat := if b then 1 else 0.

Lemma inner_b_2 i u z l :
  inner_b i [u; z] l = lop_cnt i 2 (b2n (at1 u l =? 1) + b2n (at1 z l =? 1)).
Proof. unfold inner_b, cnt, b2n, at1. simpl. destruct (nth l u 0 =? 1), (nth l z 0 =? 1); reflexivity. Qed.

Lemma inner_b_3 i u z v l :
  inner_b i [u; z; v] l =
  lop_cnt i 3 (b2n (at1 u l =? 1) + b2n (at1 z l =? 1) + b2n (at1 v l =? 1)).
Proof.
  unfold inner_b, cnt, b2n, at1. simpl.
  destruct (nth l u 0 =? 1), (nth l z 0 =? 1), (nth l v 0 =? 1); reflexivity.
Qed.

Lemma any_loop_lom o i rows L c :
  (o = OR /\ forall l, (l < L)%nat -> c l = inner_b i rows l) ->
  any_loop c (seq 0 L) = if lom_b o i rows L then 1 else -1.
Proof.
  intros [-> H]. rewrite any_loop_cnt. unfold lom_b, lop_cnt.
  rewrite (cnt_ext c (inner_b i rows)); [reflexivity|]. intros l Hl; apply H, in_seq0, Hl.
Qed.

Lemma any_loop_lom_nand i rows L c :
  (forall l, (l < L)%nat -> c l = negb (inner_b i rows l)) ->
  any_loop c (seq 0 L) = if lom_b NAND i rows L then 1 else -1.
Proof.
  intros H. rewrite any_loop_cnt. unfold lom_b, lop_cnt.
  replace (0 <? cnt c (seq 0 L))%nat with (negb (cnt (inner_b i rows) (seq 0 L) =? L)%nat); [reflexivity|].
  assert (E : (cnt (inner_b i rows) (seq 0 L) + cnt c (seq 0 L) = L)%nat).
  { transitivity (List.length (seq 0 L)); [|apply seq_length].
    assert (H' : forall l, In l (seq 0 L) -> c l = negb (inner_b i rows l)).
    { intros l Hl; apply H, in_seq0, Hl. }
    revert H'. generalize (seq 0 L). induction l as [|a ls IH]; intros H'; [reflexivity|].
    rewrite !cnt_cons. simpl List.length. rewrite (H' a (or_introl eq_refl)).
    rewrite <- IH by (intros l Hl; apply H'; right; exact Hl).
    destruct (inner_b i rows a); simpl; lia. }
  destruct (Nat.eqb_spec (cnt (inner_b i rows) (seq 0 L)) L), (Nat.ltb_spec 0 (cnt c (seq 0 L)));
    simpl; try reflexivity; lia.
Qed.

Lemma xor_loop_lom o i rows L c :
  (o = XOR /\ forall l, (l < L)%nat -> c l = inner_b i rows l) ->
  xor_loop c (seq 0 L) 0 = if lom_b o i rows L then 1 else -1.
Proof.
  intros [-> H]. rewrite xor_loop_cnt0. unfold lom_b, lop_cnt.
  rewrite (cnt_ext c (inner_b i rows)); [reflexivity|]. intros l Hl; apply H, in_seq0, Hl.
Qed.

Lemma output_2d_lemma o i :
  In (o, i) implemented ->
  exists f, get_scalar_output_function_2d (model_name o i) = Some f /\
    forall u z : vec, bin1 u -> bin1 z -> List.length u = List.length z ->
      lom_output o i [u; z] (List.length u) (f u z).
Proof.
  intros Hin. simpl in Hin.
  repeat (destruct Hin as [Heq|Hin];
    [injection Heq as <- <-; eexists; split; [reflexivity|];
     intros u z Hu Hz Hlen; apply lom_output_b;
     first [ apply any_loop_lom; split; [reflexivity|]
           | apply any_loop_lom_nand
           | apply xor_loop_lom; split; [reflexivity|] ];
     intros l Hl; rewrite inner_b_2;
     assert (Hzl : (l < List.length z)%nat) by lia;
     destruct (bin1_at u l Hu Hl) as [->| ->]; destruct (bin1_at z l Hz Hzl) as [->| ->]; reflexivity|]).
  destruct Hin.
Qed.

Lemma output_3d_lemma o i :
  In (o, i) implemented ->
  exists f, get_scalar_output_function_3d (model_name o i) = Some f /\
    forall u z v : vec, bin1 u -> bin1 z -> bin1 v ->
      List.length u = List.length z -> List.length u = List.length v ->
      lom_output o i [u; z; v] (List.length u) (f u z v).
Proof.
  intros Hin. simpl in Hin.
  repeat (destruct Hin as [Heq|Hin];
    [injection Heq as <- <-; eexists; split; [reflexivity|];
     intros u z v Hu Hz Hv Hlen Hlen2; apply lom_output_b;
     first [ apply any_loop_lom; split; [reflexivity|]
           | apply any_loop_lom_nand
           | apply xor_loop_lom; split; [reflexivity|] ];
     intros l Hl; rewrite inner_b_3;
     assert (Hzl : (l < List.length z)%nat) by lia;
     assert (Hvl : (l < List.length v)%nat) by lia;
     destruct (bin1_at u l Hu Hl) as [->| ->]; destruct (bin1_at z l Hz Hzl) as [->| ->];
     destruct (bin1_at v l Hv Hvl) as [->| ->]; reflexivity|]).
  destruct Hin.
Qed.

(** Whole matrices. *)
Lemma at2_map (f : nat -> nat -> Z) n d a b :
  (a < n)%nat -> (b < d)%nat ->
  at2 (map (fun i => map (fun j => f i j) (seq 0 d)) (seq 0 n)) a b = f a b.
Proof.
  intros Ha Hb. unfold at2, row, at1. rewrite nth_map_seq by exact Ha. apply nth_map_seq; exact Hb.
Qed.

Lemma map_shape2 (f : nat -> nat -> Z) n d :
  has_shape2 (map (fun i => map (fun j => f i j) (seq 0 d)) (seq 0 n)) n d.
Proof.
  split; [apply map_seq_length|]. apply Forall_forall. intros r Hr. apply in_map_iff in Hr.
  destruct Hr as (i & <- & _). apply map_seq_length.
Qed.

Lemma output_function_2d_lemma o i :
  In (o, i) implemented ->
  exists f, get_scalar_output_function_2d (model_name o i) = Some f /\
    forall (Z_ U : mat) N D L, has_shape2 Z_ N L -> has_shape2 U D L -> bin2 Z_ -> bin2 U ->
      has_shape2 (output_function_2d f Z_ U) N D /\
      forall n d, (n < N)%nat -> (d < D)%nat ->
        lom_output o i [row Z_ n; row U d] L (at2 (output_function_2d f Z_ U) n d).
Proof.
  intros Hin. destruct (output_2d_lemma o i Hin) as (f & Hf & Hspec). exists f. split; [exact Hf|].
  intros Z_ U N D L HZ HU bZ bU. unfold output_function_2d.
  rewrite (shape2_nrows _ _ _ HZ), (shape2_nrows _ _ _ HU). split; [apply map_shape2|].
  intros n d Hn Hd. rewrite (at2_map (fun n d => f (row Z_ n) (row U d))) by assumption.
  pose proof (shape2_row _ _ _ _ HZ Hn) as E1. pose proof (shape2_row _ _ _ _ HU Hd) as E2.
  rewrite <- E1. apply Hspec; [apply bin2_row; exact bZ|apply bin2_row; exact bU|congruence].
Qed.

Lemma output_function_3d_lemma o i :
  In (o, i) implemented ->
  exists f, get_scalar_output_function_3d (model_name o i) = Some f /\
    forall (Z_ U V : mat) N D M L,
      has_shape2 Z_ N L -> has_shape2 U D L -> has_shape2 V M L -> bin2 Z_ -> bin2 U -> bin2 V ->
      has_shape3 (output_function_3d f Z_ U V) N D M /\
      forall n d m, (n < N)%nat -> (d < D)%nat -> (m < M)%nat ->
        lom_output o i [row Z_ n; row U d; row V m] L (at3 (output_function_3d f Z_ U V) n d m).
Proof.
  intros Hin. destruct (output_3d_lemma o i Hin) as (f & Hf & Hspec). exists f. split; [exact Hf|].
  intros Z_ U V N D M L HZ HU HV bZ bU bV. unfold output_function_3d.
  rewrite (shape2_nrows _ _ _ HZ), (shape2_nrows _ _ _ HU), (shape2_nrows _ _ _ HV). split.
  - split; [apply map_seq_length|]. apply Forall_forall. intros r Hr. apply in_map_iff in Hr.
    destruct Hr as (n & <- & _). apply map_shape2.
  - intros n d m Hn Hd Hm. unfold at3, slab. rewrite nth_map_seq by exact Hn.
    rewrite (at2_map (fun d m => f (row Z_ n) (row U d) (row V m))) by assumption.
    pose proof (shape2_row _ _ _ _ HZ Hn) as E1. pose proof (shape2_row _ _ _ _ HU Hd) as E2.
    pose proof (shape2_row _ _ _ _ HV Hm) as E3.
    rewrite <- E1. apply Hspec; try (apply bin2_row; assumption); congruence.
Qed.

Lemma C01_lemma o i : In (o, i) implemented ->
  exists f, get_scalar_output_function_2d (model_name o i) = Some f /\
    (forall u z : vec, bin1 u -> bin1 z -> List.length u = List.length z ->
      lom_output o i [u; z] (List.length u) (f u z)) /\
    (forall (Z_ U : mat) N D L, has_shape2 Z_ N L -> has_shape2 U D L -> bin2 Z_ -> bin2 U ->
      has_shape2 (output_function_2d f Z_ U) N D /\
      forall n d, (n < N)%nat -> (d < D)%nat ->
        lom_output o i [row Z_ n; row U d] L (at2 (output_function_2d f Z_ U) n d)).
Proof.
  intros H. destruct (output_2d_lemma o i H) as (f & Hf & H1).
  destruct (output_function_2d_lemma o i H) as (f' & Hf' & H2).
  exists f. rewrite Hf in Hf'. injection Hf' as <-. auto.
Qed.

Lemma C02_lemma o i : In (o, i) implemented ->
  exists f, get_scalar_output_function_3d (model_name o i) = Some f /\
    (forall u z v : vec, bin1 u -> bin1 z -> bin1 v ->
      List.length u = List.length z -> List.length u = List.length v ->
      lom_output o i [u; z; v] (List.length u) (f u z v)) /\
    (forall (Z_ U V : mat) N D M L,
      has_shape2 Z_ N L -> has_shape2 U D L -> has_shape2 V M L -> bin2 Z_ -> bin2 U -> bin2 V ->
      has_shape3 (output_function_3d f Z_ U V) N D M /\
      forall n d m, (n < N)%nat -> (d < D)%nat -> (m < M)%nat ->
        lom_output o i [row Z_ n; row U d; row V m] L (at3 (output_function_3d f Z_ U V) n d m)).
Proof.
  intros H. destruct (output_3d_lemma o i H) as (f & Hf & H1).
  destruct (output_function_3d_lemma o i H) as (f' & Hf' & H2).
  exists f. rewrite Hf in Hf'. injection Hf' as <-. auto.
Qed.

Lemma C01_example_lemma :
  In (XOR, NAND) implemented /\ bin1 [1; -1; 1] /\ bin1 [1; 1; 1] /\
  (exists f, get_scalar_output_function_2d "XOR-NAND" = Some f /\
     f [1; -1; 1] [1; 1; 1] = 1 /\ f [1; -1; 1] [-1; 1; 1] = -1) /\
  lom_true XOR NAND [[1; -1; 1]; [1; 1; 1]] 3.
Proof.
  split; [simpl; tauto|]. split; [bin_tac|]. split; [bin_tac|]. split.
  - eexists. split; [reflexivity|]. split; reflexivity.
  - apply lom_true_b. reflexivity.
Qed.

Lemma C02_example_lemma :
  In (NAND, XOR) implemented /\ bin1 [1; 1] /\ bin1 [-1; 1] /\ bin1 [-1; -1] /\
  (exists f, get_scalar_output_function_3d "NAND-XOR" = Some f /\
     f [1; 1] [-1; 1] [-1; -1] = 1 /\ f [1; 1] [-1; -1] [-1; -1] = -1) /\
  lom_true NAND XOR [[1; 1]; [-1; 1]; [-1; -1]] 2.
Proof.
  split; [simpl; tauto|]. split; [bin_tac|]. split; [bin_tac|]. split; [bin_tac|]. split.
  - eexists. split; [reflexivity|]. split; reflexivity.
  - apply lom_true_b. reflexivity.
Qed.
