(** Lemmas for C05, C53. *)
From Coq Require Import String ZifyBool.
From Verif Require Import Base BaseLemmas Spec Outputs OutputsProofs Canon.
Local Open Scope Z_scope.
Local Open Scope bool_scope.

Lemma cnt_negb c ls : (cnt (fun k => negb (c k)) ls + cnt c ls = List.length ls)%nat.
Proof. induction ls as [|a ls IH]; [reflexivity|]. rewrite !cnt_cons. simpl List.length. destruct (c a); simpl; lia. Qed.

Definition neg_rows (rows : list vec) : list vec := map (map Z.opp) rows.

Lemma pm1_opp_eqb x : pm1 x -> (- x =? 1) = negb (x =? 1).
Proof. intros [->| ->]; reflexivity. Qed.

Lemma neg_rows_cnt rows L l :
  Forall (fun r => bin1 r /\ List.length r = L) rows -> (l < L)%nat ->
  cnt (fun k => nth l (nth k (neg_rows rows) []) 0 =? 1) (seq 0 (List.length rows)) =
  cnt (fun k => negb (nth l (nth k rows []) 0 =? 1)) (seq 0 (List.length rows)).
Proof.
  intros H Hl. apply cnt_ext. intros k Hk. apply in_seq0 in Hk.
  destruct (Forall_nth' _ rows k [] H Hk) as [Hb Hlen].
  unfold neg_rows. rewrite (nth_indep _ [] (map Z.opp [])) by (rewrite map_length; exact Hk).
  rewrite map_nth. rewrite (nth_indep _ 0 (Z.opp 0)) by (rewrite map_length; unfold vec in *; lia).
  rewrite map_nth. apply pm1_opp_eqb. apply bin1_at; [exact Hb|]. unfold vec in *; lia.
Qed.

(** The inner operator on negated factors. *)
Lemma inner_b_neg i rows L l :
  Forall (fun r => bin1 r /\ List.length r = L) rows -> (l < L)%nat ->
  exists k, (k <= List.length rows)%nat /\
    (forall i', inner_b i' rows l = lop_cnt i' (List.length rows) k) /\
    inner_b i (neg_rows rows) l = lop_cnt i (List.length rows) (List.length rows - k).
Proof.
  intros H Hl.
  exists (cnt (fun k => nth l (nth k rows []) 0 =? 1) (seq 0 (List.length rows))).
  pose proof (cnt_le (fun k => nth l (nth k rows []) 0 =? 1) (seq 0 (List.length rows))) as Hle.
  rewrite seq_length in Hle. split; [exact Hle|]. split; [intros i'; reflexivity|].
  unfold inner_b. replace (List.length (neg_rows rows)) with (List.length rows)
    by (unfold neg_rows; rewrite map_length; reflexivity).
  f_equal. rewrite (neg_rows_cnt rows L l H Hl).
  pose proof (cnt_negb (fun k => nth l (nth k rows []) 0 =? 1) (seq 0 (List.length rows))) as E.
  rewrite seq_length in E. lia.
Qed.

Lemma lom_b_same o i o' i' rows rows' L :
  (forall l, (l < L)%nat -> inner_b i rows l = inner_b i' rows' l) ->
  exists k, (k <= L)%nat /\ lom_b o i rows L = lop_cnt o L k /\ lom_b o' i' rows' L = lop_cnt o' L k.
Proof.
  intros H. exists (cnt (inner_b i rows) (seq 0 L)).
  pose proof (cnt_le (inner_b i rows) (seq 0 L)) as Hle. rewrite seq_length in Hle.
  split; [exact Hle|]. split; [reflexivity|]. unfold lom_b. f_equal. apply cnt_ext.
  intros l Hl. symmetry. apply H, in_seq0, Hl.
Qed.

Lemma lom_b_opp o i o' i' rows rows' L :
  (forall l, (l < L)%nat -> inner_b i rows l = negb (inner_b i' rows' l)) ->
  exists k, (k <= L)%nat /\ lom_b o i rows L = lop_cnt o L k /\
            lom_b o' i' rows' L = lop_cnt o' L (L - k).
Proof.
  intros H. exists (cnt (inner_b i rows) (seq 0 L)).
  pose proof (cnt_le (inner_b i rows) (seq 0 L)) as Hle. rewrite seq_length in Hle.
  split; [exact Hle|]. split; [reflexivity|]. unfold lom_b. f_equal.
  pose proof (cnt_negb (inner_b i' rows') (seq 0 L)) as E. rewrite seq_length in E.
  rewrite (cnt_ext (inner_b i rows) (fun l => negb (inner_b i' rows' l))); [lia|].
  intros l Hl. apply H, in_seq0, Hl.
Qed.

(** Solves the boolean identities between operators of counts. *)
Ltac lop_tac := unfold lop_cnt in *; lia.

Lemma canon_keep o i o' i' d rows L :
  (forall n k, (k <= n)%nat -> lop_cnt i n k = lop_cnt i' n k) ->
  (forall n k, (k <= n)%nat -> lop_cnt o n k = xorb d (lop_cnt o' n k)) ->
  lom_b o i rows L = xorb d (lom_b o' i' rows L).
Proof.
  intros Hi Ho. destruct (lom_b_same o i o' i' rows rows L) as (k & Hk & -> & ->); [|apply Ho; exact Hk].
  intros l _. unfold inner_b. apply Hi.
  pose proof (cnt_le (fun k => nth l (nth k rows []) 0 =? 1) (seq 0 (List.length rows))) as Hle.
  rewrite seq_length in Hle. exact Hle.
Qed.

Lemma canon_keep_opp o i o' i' d rows L :
  (forall n k, (k <= n)%nat -> lop_cnt i n k = negb (lop_cnt i' n k)) ->
  (forall n k, (k <= n)%nat -> lop_cnt o n k = xorb d (lop_cnt o' n (n - k))) ->
  lom_b o i rows L = xorb d (lom_b o' i' rows L).
Proof.
  intros Hi Ho. destruct (lom_b_opp o i o' i' rows rows L) as (k & Hk & -> & ->); [|apply Ho; exact Hk].
  intros l _. unfold inner_b. apply Hi.
  pose proof (cnt_le (fun k => nth l (nth k rows []) 0 =? 1) (seq 0 (List.length rows))) as Hle.
  rewrite seq_length in Hle. exact Hle.
Qed.

Lemma canon_neg o i o' i' d rows L :
  Forall (fun r => bin1 r /\ List.length r = L) rows ->
  (forall n k, (k <= n)%nat -> lop_cnt i n k = lop_cnt i' n (n - k)) ->
  (forall n k, (k <= n)%nat -> lop_cnt o n k = xorb d (lop_cnt o' n k)) ->
  lom_b o i rows L = xorb d (lom_b o' i' (neg_rows rows) L).
Proof.
  intros Hr Hi Ho.
  destruct (lom_b_same o i o' i' rows (neg_rows rows) L) as (k & Hk & -> & ->); [|apply Ho; exact Hk].
  intros l Hl. destruct (inner_b_neg i' rows L l Hr Hl) as (k & Hk & E1 & E2). rewrite E1, E2. apply Hi; exact Hk.
Qed.

Lemma canon_neg_opp o i o' i' d rows L :
  Forall (fun r => bin1 r /\ List.length r = L) rows ->
  (forall n k, (k <= n)%nat -> lop_cnt i n k = negb (lop_cnt i' n (n - k))) ->
  (forall n k, (k <= n)%nat -> lop_cnt o n k = xorb d (lop_cnt o' n (n - k))) ->
  lom_b o i rows L = xorb d (lom_b o' i' (neg_rows rows) L).
Proof.
  intros Hr Hi Ho.
  destruct (lom_b_opp o i o' i' rows (neg_rows rows) L) as (k & Hk & -> & ->); [|apply Ho; exact Hk].
  intros l Hl. destruct (inner_b_neg i' rows L l Hr Hl) as (k & Hk & E1 & E2). rewrite E1, E2. apply Hi; exact Hk.
Qed.

Lemma canon_b o i :
  exists o' i' d f,
    canonise_name (model_name o i) = Ok (model_name o' i', d, f) /\ In (o', i') implemented /\
    forall rows L, Forall (fun r => bin1 r /\ List.length r = L) rows ->
      lom_b o i rows L = xorb d (lom_b o' i' (if f : bool then neg_rows rows else rows) L).
Proof.
  assert (Hfind : forall m d f, canonise_name (model_name o i) = Ok (m, d, f) ->
    forall o' i', m = model_name o' i' -> canonise_name (model_name o i) = Ok (model_name o' i', d, f)).
  { intros m d f H o' i' ->. exact H. }
  destruct o, i;
  match goal with Hf : forall m d f, ?c = _ -> _ |- _ =>
    let v := eval vm_compute in c in
    match v with
    | Ok (?m, ?d, ?f) =>
       first [ exists OR, AND, d, f; split; [reflexivity|]
             | exists OR, NAND, d, f; split; [reflexivity|]
             | exists OR, XOR, d, f; split; [reflexivity|]
             | exists NAND, XOR, d, f; split; [reflexivity|]
             | exists XOR, AND, d, f; split; [reflexivity|]
             | exists XOR, XOR, d, f; split; [reflexivity|]
             | exists XOR, NXOR, d, f; split; [reflexivity|]
             | exists XOR, NAND, d, f; split; [reflexivity|] ]
    end
  end;
  (split; [simpl; tauto|]); intros rows L Hr; cbv iota;
  first [ apply canon_keep; intros n k Hk; lop_tac
        | apply canon_keep_opp; intros n k Hk; lop_tac
        | apply canon_neg; [exact Hr| |]; intros n k Hk; lop_tac
        | apply canon_neg_opp; [exact Hr| |]; intros n k Hk; lop_tac ].
Qed.

Lemma C05_lemma o i :
  exists o' i' invert_data invert_factors,
    canonise_name (model_name o i) = Ok (model_name o' i', invert_data, invert_factors) /\
    In (o', i') implemented /\
    forall rows L, Forall (fun r => bin1 r /\ List.length r = L) rows ->
    forall y_requested y_canonical,
      lom_output o i rows L y_requested ->
      lom_output o' i' (if invert_factors : bool then map (map Z.opp) rows else rows) L y_canonical ->
      y_requested = (if invert_data : bool then - y_canonical else y_canonical) /\
      forall x, ((if invert_data then - x else x) = y_canonical <-> x = y_requested).
Proof.
  destruct (canon_b o i) as (o' & i' & d & f & H1 & H2 & H3). exists o', i', d, f.
  split; [exact H1|]. split; [exact H2|]. intros rows L Hr y y' Hy Hy'.
  apply lom_output_b in Hy. apply lom_output_b in Hy'. fold (neg_rows rows) in Hy'.
  rewrite (H3 rows L Hr) in Hy.
  destruct (lom_b o' i' (if f then neg_rows rows else rows) L), d; simpl in Hy; subst y y'; split;
    try reflexivity; intros x; lia.
Qed.

(** * get_lom_class *)

Lemma lop_holds_ext o n P Q : (forall i, (i < n)%nat -> (P i <-> Q i)) -> (lop_holds o n P <-> lop_holds o n Q).
Proof.
  intros H. destruct o; simpl.
  - split; intros (i & Hi & Hp); exists i; split; auto; apply H; auto.
  - split; intros Hn (i & Hi & Hp); apply Hn; exists i; split; auto; apply H; auto.
  - split; intros Ha i Hi; apply H; auto.
  - split; intros Hn Ha; apply Hn; intros i Hi; apply H; auto.
  - split; intros (i & (Hi & Hp) & Hu); exists i; (split; [split; [exact Hi|apply H; auto]|]);
      intros j Hj Hq; apply Hu; auto; apply H; auto.
  - split; intros Hn (i & (Hi & Hp) & Hu); apply Hn; exists i; (split; [split; [exact Hi|apply H; auto]|]);
      intros j Hj Hq; apply Hu; auto; apply H; auto.
Qed.

Lemma flagged_b (f : bool) P b : (b = true <-> P) -> (xorb f b = true <-> flagged f P).
Proof.
  unfold flagged. destruct f, b; simpl; intuition congruence.
Qed.

Lemma C53_lemma o i :
  exists o' i' i_outer i_hidden i_inner,
    get_lom_class (model_name o i) = Ok (model_name o' i', (i_outer, i_hidden, i_inner)) /\
    In (o', i') [(AND, AND); (XOR, AND); (AND, XOR); (XOR, XOR)] /\
    forall rows L,
      lom_true o i rows L <->
      flagged i_outer (lop_holds o' L (fun l =>
        flagged i_hidden (lop_holds i' (List.length rows) (fun k =>
          flagged i_inner (nth l (nth k rows []) 0 = 1))))).
Proof.
  assert (Hgen : forall o' i' f0 f1 f2,
    (forall n k, (k <= n)%nat -> lop_cnt i n k = xorb f1 (lop_cnt i' n (if f2 : bool then n - k else k))) ->
    (forall n k, (k <= n)%nat -> lop_cnt o n k = xorb f0 (lop_cnt o' n k)) ->
    forall rows L, lom_true o i rows L <->
      flagged f0 (lop_holds o' L (fun l => flagged f1 (lop_holds i' (List.length rows) (fun k =>
          flagged f2 (nth l (nth k rows []) 0 = 1)))))).
  { intros o' i' f0 f1 f2 Hi Ho rows L. rewrite lom_true_b.
    transitivity (xorb f0 (lop_cnt o' L (cnt (inner_b i rows) (seq 0 L))) = true).
    { unfold lom_b. rewrite Ho; [reflexivity|].
      pose proof (cnt_le (inner_b i rows) (seq 0 L)) as H. rewrite seq_length in H. exact H. }
    apply flagged_b. symmetry. apply lop_holds_cnt. intros l Hl.
    transitivity (xorb f1 (lop_cnt i' (List.length rows)
       (cnt (fun k => xorb f2 (nth l (nth k rows []) 0 =? 1)) (seq 0 (List.length rows)))) = true).
    { unfold inner_b. pose proof (cnt_le (fun k => nth l (nth k rows []) 0 =? 1) (seq 0 (List.length rows))) as Hle.
      rewrite seq_length in Hle. rewrite Hi by exact Hle. destruct f2.
      - pose proof (cnt_negb (fun k => nth l (nth k rows []) 0 =? 1) (seq 0 (List.length rows))) as E.
        rewrite seq_length in E.
        rewrite (cnt_ext (fun k => xorb true (nth l (nth k rows []) 0 =? 1))
                         (fun k => negb (nth l (nth k rows []) 0 =? 1))) by reflexivity.
        match goal with |- xorb _ (lop_cnt _ _ ?a) = true <-> xorb _ (lop_cnt _ _ ?b) = true =>
          replace a with b by lia end. reflexivity.
      - rewrite (cnt_ext (fun k => xorb false (nth l (nth k rows []) 0 =? 1))
                         (fun k => nth l (nth k rows []) 0 =? 1)) by (intros; apply xorb_false_l).
        reflexivity. }
    apply flagged_b. symmetry. apply lop_holds_cnt. intros k Hk. apply flagged_b. apply Z.eqb_eq. }
  assert (Hgen2 : forall o' i' f0 f1 f2,
    (forall n k, (k <= n)%nat -> lop_cnt i n k = xorb (negb f1) (lop_cnt i' n (if f2 : bool then n - k else k))) ->
    (forall n k, (k <= n)%nat -> lop_cnt o n (n - k) = xorb f0 (lop_cnt o' n k)) ->
    forall rows L, lom_true o i rows L <->
      flagged f0 (lop_holds o' L (fun l => flagged f1 (lop_holds i' (List.length rows) (fun k =>
          flagged f2 (nth l (nth k rows []) 0 = 1)))))).
  { intros o' i' f0 f1 f2 Hi Ho rows L. rewrite lom_true_b.
    transitivity (xorb f0 (lop_cnt o' L (cnt (fun l => negb (inner_b i rows l)) (seq 0 L))) = true).
    { unfold lom_b. pose proof (cnt_negb (inner_b i rows) (seq 0 L)) as E. rewrite seq_length in E.
      rewrite <- Ho by lia.
      replace (L - cnt (fun l => negb (inner_b i rows l)) (seq 0 L))%nat with (cnt (inner_b i rows) (seq 0 L)) by lia.
      reflexivity. }
    apply flagged_b. symmetry. apply lop_holds_cnt. intros l Hl.
    transitivity (xorb f1 (lop_cnt i' (List.length rows)
       (cnt (fun k => xorb f2 (nth l (nth k rows []) 0 =? 1)) (seq 0 (List.length rows)))) = true).
    { unfold inner_b. pose proof (cnt_le (fun k => nth l (nth k rows []) 0 =? 1) (seq 0 (List.length rows))) as Hle.
      rewrite seq_length in Hle. rewrite Hi by exact Hle.
      assert (Ex : forall b, negb (xorb (negb f1) b) = xorb f1 b) by (intros []; destruct f1; reflexivity).
      rewrite Ex. destruct f2.
      - pose proof (cnt_negb (fun k => nth l (nth k rows []) 0 =? 1) (seq 0 (List.length rows))) as E.
        rewrite seq_length in E.
        rewrite (cnt_ext (fun k => xorb true (nth l (nth k rows []) 0 =? 1))
                         (fun k => negb (nth l (nth k rows []) 0 =? 1))) by reflexivity.
        match goal with |- xorb _ (lop_cnt _ _ ?a) = true <-> xorb _ (lop_cnt _ _ ?b) = true =>
          replace a with b by lia end. reflexivity.
      - rewrite (cnt_ext (fun k => xorb false (nth l (nth k rows []) 0 =? 1))
                         (fun k => nth l (nth k rows []) 0 =? 1)) by (intros; apply xorb_false_l).
        reflexivity. }
    apply flagged_b. symmetry. apply lop_holds_cnt. intros k Hk. apply flagged_b. apply Z.eqb_eq. }
  destruct o, i;
  match goal with |- exists o' i' f0 f1 f2, ?c = _ /\ _ =>
    let v := eval vm_compute in c in
    match v with
    | Ok (?m, (?a, ?b, ?c)) =>
       first [ exists AND, AND, a, b, c; split; [reflexivity|]
             | exists XOR, AND, a, b, c; split; [reflexivity|]
             | exists AND, XOR, a, b, c; split; [reflexivity|]
             | exists XOR, XOR, a, b, c; split; [reflexivity|] ]
    end
  end;
  (split; [simpl; tauto|]);
  first [ apply Hgen; intros n k Hk; lop_tac
        | apply Hgen2; intros n k Hk; lop_tac ].
Qed.

(** * canonical_loms *)

Lemma same_up_to_b d f o i o' i' :
  same_up_to d f o i o' i' <->
  forall rows L, Forall (fun r => bin1 r /\ List.length r = L) rows ->
    lom_b o i rows L = xorb d (lom_b o' i' (if f then neg_rows rows else rows) L).
Proof.
  unfold same_up_to. split; intros H rows L Hr; specialize (H rows L Hr).
  - rewrite lom_true_b in H.
    pose proof (flagged_b d _ _ (iff_sym (lom_true_b o' i' (if f then neg_rows rows else rows) L))) as Hf.
    unfold neg_rows in *.
    destruct (lom_b o i rows L), (xorb d (lom_b o' i' (if f then map (map Z.opp) rows else rows) L));
      try reflexivity; exfalso.
    + assert (false = true) by (apply Hf, H; reflexivity). discriminate.
    + assert (false = true) by (apply H, Hf; reflexivity). discriminate.
  - rewrite lom_true_b, H. apply flagged_b. symmetry. apply lom_true_b.
Qed.

Fixpoint all_vecs (L : nat) : list vec :=
  match L with O => [[]] | S L' => flat_map (fun v => [1 :: v; -1 :: v]) (all_vecs L') end.

Lemma all_vecs_ok L v : In v (all_vecs L) -> bin1 v /\ List.length v = L.
Proof.
  revert v; induction L as [|L IH]; intros v Hv; simpl in Hv.
  - destruct Hv as [<-|[]]. split; [constructor|reflexivity].
  - apply in_flat_map in Hv. destruct Hv as (w & Hw & Hv). destruct (IH w Hw) as [Hb Hl].
    simpl in Hv. destruct Hv as [<-|[<-|[]]]; (split; [constructor; [unfold pm1; auto|exact Hb]|simpl; congruence]).
Qed.

(** A finite test refuting equivalence: two factors, three latent dimensions. *)
Definition same_test (d f : bool) (o i o' i' : lop) : bool :=
  forallb (fun u => forallb (fun v =>
    Bool.eqb (lom_b o i [u; v] 3) (xorb d (lom_b o' i' (if f then neg_rows [u; v] else [u; v]) 3)))
    (all_vecs 3)) (all_vecs 3).

Lemma same_up_to_test d f o i o' i' : same_up_to d f o i o' i' -> same_test d f o i o' i' = true.
Proof.
  intros H. apply forallb_forall. intros u Hu. apply forallb_forall. intros v Hv.
  apply Bool.eqb_true_iff. apply (proj1 (same_up_to_b d f o i o' i') H).
  apply Forall_cons; [apply all_vecs_ok; exact Hu|]. apply Forall_cons; [apply all_vecs_ok; exact Hv|]. apply Forall_nil.
Qed.

Definition all_lops : list lop := [OR; NOR; AND; NAND; XOR; NXOR].
Lemma all_lops_in o : In o all_lops.
Proof. destruct o; simpl; tauto. Qed.

Definition pairs_of_names (names : list string) : list (lop * lop) :=
  filter (fun p => existsb (String.eqb (model_name (fst p) (snd p))) names)
         (list_prod all_lops all_lops).

Lemma pairs_of_names_in names o i : In (model_name o i) names -> In (o, i) (pairs_of_names names).
Proof.
  intros H. apply filter_In. split.
  - apply in_prod; apply all_lops_in.
  - apply existsb_exists. exists (model_name o i). split; [exact H|apply String.eqb_refl].
Qed.

Lemma same_keep d o i o' i' :
  (forall n k, (k <= n)%nat -> lop_cnt i n k = lop_cnt i' n k) ->
  (forall n k, (k <= n)%nat -> lop_cnt o n k = xorb d (lop_cnt o' n k)) -> same_up_to d false o i o' i'.
Proof. intros H1 H2. apply same_up_to_b. intros rows L _. apply canon_keep; assumption. Qed.
Lemma same_keep_opp d o i o' i' :
  (forall n k, (k <= n)%nat -> lop_cnt i n k = negb (lop_cnt i' n k)) ->
  (forall n k, (k <= n)%nat -> lop_cnt o n k = xorb d (lop_cnt o' n (n - k))) -> same_up_to d false o i o' i'.
Proof. intros H1 H2. apply same_up_to_b. intros rows L _. apply canon_keep_opp; assumption. Qed.
Lemma same_neg d o i o' i' :
  (forall n k, (k <= n)%nat -> lop_cnt i n k = lop_cnt i' n (n - k)) ->
  (forall n k, (k <= n)%nat -> lop_cnt o n k = xorb d (lop_cnt o' n k)) -> same_up_to d true o i o' i'.
Proof. intros H1 H2. apply same_up_to_b. intros rows L Hr. apply canon_neg; assumption. Qed.
Lemma same_neg_opp d o i o' i' :
  (forall n k, (k <= n)%nat -> lop_cnt i n k = negb (lop_cnt i' n (n - k))) ->
  (forall n k, (k <= n)%nat -> lop_cnt o n k = xorb d (lop_cnt o' n (n - k))) -> same_up_to d true o i o' i'.
Proof. intros H1 H2. apply same_up_to_b. intros rows L Hr. apply canon_neg_opp; assumption. Qed.

(** The unique class of a machine, with data inversion allowed iff [dd]. *)
Definition test_any (dd : bool) (o i : lop) (p : lop * lop) : bool :=
  existsb (fun d => existsb (fun f => same_test d f o i (fst p) (snd p)) [true; false])
          (if dd then [true; false] else [false]).

Lemma test_any_ok (dd d f : bool) o i o' i' :
  (dd = false -> d = false) -> same_up_to d f o i o' i' -> test_any dd o i (o', i') = true.
Proof.
  intros Hd H. apply same_up_to_test in H. unfold test_any. apply existsb_exists. exists d. split.
  - destruct dd, d; simpl; auto. specialize (Hd eq_refl). discriminate.
  - apply existsb_exists. exists f. split; [destruct f; simpl; auto|exact H].
Qed.

Lemma unique_class (dd : bool) names o i o' i' d f :
  (dd = false -> d = false) ->
  same_up_to d f o i o' i' ->
  existsb (String.eqb (model_name o' i')) names = true ->
  filter (test_any dd o i) (pairs_of_names names) = [(o', i')] ->
  exists o' i', In (model_name o' i') names /\
    (exists d f, (dd = false -> d = false) /\ same_up_to d f o i o' i') /\
    forall o2 i2, In (model_name o2 i2) names ->
      (exists d f, (dd = false -> d = false) /\ same_up_to d f o i o2 i2) -> o2 = o' /\ i2 = i'.
Proof.
  intros Hd Hs Hin Hu. exists o', i'. split.
  { apply existsb_exists in Hin. destruct Hin as (s & Hs1 & E). apply String.eqb_eq in E. rewrite E. exact Hs1. }
  split; [exists d, f; split; assumption|].
  intros o2 i2 Hin2 (d2 & f2 & Hd2 & Hs2).
  assert (H : In (o2, i2) (filter (test_any dd o i) (pairs_of_names names))).
  { apply filter_In. split; [apply pairs_of_names_in; exact Hin2|]. eapply test_any_ok; eassumption. }
  rewrite Hu in H. destruct H as [H|[]]. injection H as <- <-. auto.
Qed.

Ltac class_tac dd names o i :=
  let v := eval vm_compute in (filter (test_any dd o i) (pairs_of_names names)) in
  match v with
  | [(?o', ?i')] =>
    let go d f :=
      (apply (unique_class dd names o i o' i' d f);
       [ first [ discriminate | reflexivity ]
       | first [ apply same_keep; intros n k Hk; lop_tac
               | apply same_keep_opp; intros n k Hk; lop_tac
               | apply same_neg; intros n k Hk; lop_tac
               | apply same_neg_opp; intros n k Hk; lop_tac ]
       | reflexivity | vm_compute; reflexivity ]) in
    first [ go false false | go false true | go true false | go true true ]
  end.

Lemma class_unique (dd : bool) (mode : string) (names : list string) o i :
  (mode = "implemented" \/ mode = "canonical")%string ->
  canonical_loms (if dd then "clans" else "families") mode = Ok names ->
  exists o' i', In (model_name o' i') names /\
    (exists d f, (dd = false -> d = false) /\ same_up_to d f o i o' i') /\
    forall o2 i2, In (model_name o2 i2) names ->
      (exists d f, (dd = false -> d = false) /\ same_up_to d f o i o2 i2) -> o2 = o' /\ i2 = i'.
Proof.
  intros [->| ->] Hn; destruct dd; cbv in Hn; injection Hn as <-;
  destruct o, i;
  match goal with |- exists o' i', In _ ?names /\ (exists d f, (?dd = _ -> _) /\ same_up_to _ _ ?o ?i _ _) /\ _ =>
    class_tac dd names o i end.
Qed.

Lemma C05_example_lemma :
  canonise_name "AND-NOR" = Ok ("OR-NAND"%string, true, true) /\
  Forall (fun r => bin1 r /\ List.length r = 2%nat) [[-1; 1]; [-1; -1]] /\
  lom_output AND NOR [[-1; 1]; [-1; -1]] 2 (-1) /\
  lom_output OR NAND [[1; -1]; [1; 1]] 2 1.
Proof.
  split; [reflexivity|]. split; [repeat apply Forall_cons; try apply Forall_nil; (split; [bin_tac|reflexivity])|].
  split; apply lom_output_b; reflexivity.
Qed.

Lemma C53_example_lemma :
  get_lom_class "NAND-OR" = Ok ("AND-AND"%string, (true, true, true)) /\
  lom_true NAND OR [[1; -1]; [1; -1]; [-1; -1]] 2 /\ ~ lom_true NAND OR [[1; -1]; [1; 1]; [-1; -1]] 2.
Proof.
  split; [reflexivity|]. split.
  - apply lom_true_b. reflexivity.
  - rewrite lom_true_b. vm_compute. discriminate.
Qed.
Lemma loms_unknown level mode : (level <> "clans" /\ level <> "families" \/ mode <> "implemented" /\ mode <> "canonical")%string -> canonical_loms level mode = Err ValueError.
Proof.
  intros H. unfold canonical_loms. assert (N : forall a b : string, a <> b -> String.eqb a b = false) by (intros a b; apply String.eqb_neq). destruct H as [(H1 & H2)|(H1 & H2)].
  - rewrite (N _ _ H1), (N _ _ H2). destruct (String.eqb mode "implemented"), (String.eqb mode "canonical"); reflexivity.
  - rewrite (N _ _ H1), (N _ _ H2). reflexivity.
Qed.
