(** Proofs for C39, C40, C41. *)
From Coq Require Import Lra Permutation Sorted.
From Verif Require Import Base BaseLemmas BaseR BaseRLemmas Spec SpecR SpecMax Outputs Sampling SamplingProofs
  Lambda LambdaProofs Fuzzy MaxMachine OutputsProofs.
Local Open Scope R_scope.

Lemma rat2_build N D f n d : (n < N)%nat -> (d < D)%nat -> rat2 (rmat_build N D f) n d = f n d.
Proof.
  intros Hn Hd. unfold rat2, rmat_build, rat.
  assert (E : nth n (map (fun n => map (f n) (seq 0 D)) (seq 0 N)) [] = map (f n) (seq 0 D)) by (apply (nth_map_seq (fun n => map (f n) (seq 0 D))); assumption).
  transitivity (nth d (map (f n) (seq 0 D)) 0); [exact (f_equal (fun r => nth d r 0) E)|]. apply nth_map_seq. assumption.
Qed.
Lemma col_at m l n : at1 (col m l) n = at2 m n l.
Proof.
  unfold col, at2, row, at1. revert n. induction m as [|r m IH]; intros [|n]; cbn; try reflexivity; try (destruct l; reflexivity). apply IH.
Qed.
Lemma at1_nil l : at1 [] l = 0%Z. Proof. destruct l; reflexivity. Qed.
Lemma expand_at A B n d l : (n < List.length A)%nat -> (d < List.length B)%nat ->
  at2 (OR_AND_product_expand (col A l) (col B l)) n d = if explains A B n d l then 1%Z else 0%Z.
Proof.
  intros Hn Hd. unfold OR_AND_product_expand.
  rewrite (at2_map (fun n d => if ((at1 (col B l) d =? 1) && (at1 (col A l) n =? 1))%Z%bool then 1%Z else 0%Z)).
  - rewrite !col_at. unfold explains. rewrite andb_comm. reflexivity.
  - unfold col. rewrite map_length. assumption.
  - unfold col. rewrite map_length. assumption.
Qed.

(** * C39 *)
Lemma max2d_find argsort A B lam n d :
  (n < List.length A)%nat -> (d < List.length B)%nat ->
  (forall l, In l (argsort (butlast lam)) -> rat lam l <> 0) ->
  rat2 (MAX_AND_product_2d argsort A B lam) n d =
  match find (explains A B n d) (argsort (butlast lam)) with Some l => rat lam l | None => 0 end.
Proof.
  intros Hn Hd. unfold MAX_AND_product_2d.
  set (ord := argsort (butlast lam)). clearbody ord.
  set (step := fun out l_idx => _).
  assert (E : forall out ls, (forall l, In l ls -> rat lam l <> 0) ->
    rat2 (fold_left step ls out) n d =
    if Req_EM_T (rat2 out n d) 0 then match find (explains A B n d) ls with Some l => rat lam l | None => rat2 out n d end else rat2 out n d).
  { intros out ls. revert out. induction ls as [|l ls IH]; intros out HL.
    - cbn [fold_left find]. destruct (Req_EM_T _ 0); auto.
    - cbn [fold_left find]. rewrite IH by (intros; apply HL; right; assumption).
      assert (S1 : rat2 (step out l) n d =
        if Req_EM_T (rat2 out n d) 0 then (if explains A B n d l then rat lam l else 0) else rat2 out n d).
      { unfold step, fill_zeros, nrows. rewrite !rat2_build by assumption. rewrite expand_at by assumption.
        destruct (Req_EM_T (rat2 out n d) 0); [|reflexivity]. destruct (explains A B n d l); lra. }
      rewrite S1. destruct (Req_EM_T (rat2 out n d) 0) as [E0|E0].
      + destruct (explains A B n d l).
        * destruct (Req_EM_T (rat lam l) 0) as [E1|E1]; [|reflexivity]. exfalso. exact (HL l (or_introl eq_refl) E1).
        * destruct (Req_EM_T 0 0); [|lra]. destruct (find _ ls); [reflexivity|]. symmetry. exact E0.
      + destruct (Req_EM_T (rat2 out n d) 0); [contradiction|reflexivity]. }
  intros HL. rewrite E by assumption. unfold nrows. rewrite rat2_build by assumption.
  destruct (Req_EM_T 0 0); [reflexivity|lra].
Qed.

Lemma explains_active A B n d l : explains A B n d l = true <-> active (row A n) (row B d) l.
Proof. unfold explains, active, at2, at1. rewrite andb_true_iff, !Z.eqb_eq. reflexivity. Qed.

Lemma butlast_nth (lam : rvec) L l : List.length lam = S L -> (l < L)%nat -> nth l (butlast lam) 0 = nth l lam 0.
Proof.
  intros H Hl. unfold butlast. destruct (exists_last (l := lam)) as (a & x & ->); [intros ->; discriminate|].
  rewrite removelast_last. rewrite app_length in H. cbn in H. rewrite app_nth1 by lia. reflexivity.
Qed.
Lemma butlast_length (lam : rvec) L : List.length lam = S L -> List.length (butlast lam) = L.
Proof.
  intros H. unfold butlast. destruct (exists_last (l := lam)) as (a & x & ->); [intros ->; discriminate|].
  rewrite removelast_last. rewrite app_length in H. cbn in H. lia.
Qed.
Lemma argsort_in v ord l : is_argsort v ord -> In l ord <-> (l < List.length v)%nat.
Proof. intros [H _]. rewrite <- in_seq0. split; apply Permutation_in; [|symmetry]; assumption. Qed.
Lemma argsort_length v ord : is_argsort v ord -> List.length ord = List.length v.
Proof. intros [H _]. rewrite (Permutation_length H), seq_length. reflexivity. Qed.

Lemma find_nth {A} (c : A -> bool) ls x d : find c ls = Some x ->
  exists k, (k < List.length ls)%nat /\ nth k ls d = x /\ c x = true /\ forall j, (j < k)%nat -> c (nth j ls d) = false.
Proof.
  revert x. induction ls as [|a ls IH]; intros x H; [discriminate|]. cbn [find] in H.
  destruct (c a) eqn:E.
  - injection H as <-. exists 0%nat. repeat split; [cbn; lia|assumption|]. intros j Hj. lia.
  - destruct (IH x H) as (k & H1 & H2 & H3 & H4). exists (S k). repeat split; [cbn; lia|assumption|assumption|].
    intros [|j] Hj; [assumption|]. cbn. apply H4. lia.
Qed.

Lemma C39_min_lemma argsort A B lam N D L :
  (forall v, is_argsort v (argsort v)) -> has_shape2 A N L -> has_shape2 B D L -> List.length lam = S L ->
  (forall l, (l < L)%nat -> 0 < nth l lam 0) -> forall n d, (n < N)%nat -> (d < D)%nat ->
  min_active lam (row A n) (row B d) L (rat2 (MAX_AND_product_2d argsort A B lam) n d) \/
  (none_active (row A n) (row B d) L /\ rat2 (MAX_AND_product_2d argsort A B lam) n d = 0).
Proof.
  intros HS HA HB HL Hpos n d Hn Hd.
  pose proof (HS (butlast lam)) as HO. pose proof (butlast_length lam L HL) as HBL.
  assert (Hin : forall l, In l (argsort (butlast lam)) <-> (l < L)%nat).
  { intros l. rewrite (argsort_in _ _ l HO), HBL. reflexivity. }
  rewrite max2d_find.
  - destruct (find _ _) as [l|] eqn:EF.
    + left. destruct (find_nth _ _ _ 0%nat EF) as (k & H1 & H2 & H3 & H4).
      assert (Hl : (l < L)%nat) by (apply Hin; rewrite <- H2; apply nth_In; assumption).
      split; [exists l; split; [assumption|split; [apply (explains_active A B n d l), H3|reflexivity]]|].
      intros l' Hl' Ha. apply (explains_active A B n d l') in Ha.
      destruct (In_nth _ _ 0%nat (proj2 (Hin l') Hl')) as (k' & K1 & K2).
      assert (K3 : (k <= k')%nat).
      { destruct (Nat.le_gt_cases k k') as [|G]; [assumption|]. specialize (H4 k' G). rewrite K2 in H4. congruence. }
      destruct (Nat.eq_dec k k') as [->|Ne]; [rewrite H2 in K2; subst; unfold rat; lra|].
      destruct HO as [_ HO]. specialize (HO k k' ltac:(lia)). rewrite H2, K2 in HO.
      rewrite !(butlast_nth lam L) in HO by assumption. exact HO.
    + right. split; [|reflexivity]. intros l Hl Ha. apply (explains_active A B n d l) in Ha.
      pose proof (find_none _ _ EF l (proj2 (Hin l) Hl)) as K. congruence.
  - destruct HA as [-> _]. assumption.
  - destruct HB as [-> _]. assumption.
  - intros l Hl. apply Hin in Hl. specialize (Hpos l Hl). unfold rat. lra.
Qed.

Lemma C39_refuted_lemma argsort A B lam N D L :
  (forall v, is_argsort v (argsort v)) -> has_shape2 A N L -> has_shape2 B D L -> List.length lam = S L ->
  (forall l, (l <= L)%nat -> 0 < nth l lam 0) -> forall n d, (n < N)%nat -> (d < D)%nat ->
  (exists l1 l2, (l1 < L)%nat /\ (l2 < L)%nat /\ active (row A n) (row B d) l1 /\ active (row A n) (row B d) l2 /\
     nth l1 lam 0 <> nth l2 lam 0) \/ none_active (row A n) (row B d) L ->
  forall p, max_output lam (row A n) (row B d) L p -> rat2 (MAX_AND_product_2d argsort A B lam) n d < p.
Proof.
  intros HS HA HB HL Hpos n d Hn Hd Hcase p Hp.
  destruct (C39_min_lemma argsort A B lam N D L HS HA HB HL (fun l H => Hpos l (Nat.lt_le_incl _ _ H)) n d Hn Hd) as [[_ M]|[Nn E]].
  - destruct Hcase as [(l1 & l2 & H1 & H2 & A1 & A2 & Ne)|Nn].
    + pose proof (M l1 H1 A1) as M1. pose proof (M l2 H2 A2) as M2. destruct Hp as [[_ Hp]|[Hp _]].
      * pose proof (Hp l1 H1 A1). pose proof (Hp l2 H2 A2). lra.
      * exfalso. exact (Hp l1 H1 A1).
    + destruct (C39_min_lemma argsort A B lam N D L HS HA HB HL (fun l H => Hpos l (Nat.lt_le_incl _ _ H)) n d Hn Hd) as [[(l & K1 & K2 & _) _]|[_ ->]].
      * exfalso. exact (Nn l K1 K2).
      * destruct Hp as [[(l & K1 & K2 & _) _]|[_ ->]]; [exfalso; exact (Nn l K1 K2)|]. apply Hpos. lia.
  - rewrite E. destruct Hp as [[(l & K1 & K2 & _) _]|[_ ->]]; [exfalso; exact (Nn l K1 K2)|]. apply Hpos. lia.
Qed.

(** * C40: counting *)
Lemma count_nonzero_cells N D b : count_nonzero N D b = Z.of_nat (count_cells N D b).
Proof. unfold count_nonzero. rewrite count2. unfold count_cells. f_equal. apply filter_length_ext. intros [n d] _. reflexivity. Qed.
Lemma count_cells_ext N D b c : (forall n d, (n < N)%nat -> (d < D)%nat -> b n d = c n d) -> count_cells N D b = count_cells N D c.
Proof. intros H. apply filter_length_ext. intros [n d] K. apply in_cells2 in K. apply H; apply K. Qed.
Lemma count_cells_split N D b c :
  (count_cells N D b = count_cells N D (fun n d => b n d && c n d) + count_cells N D (fun n d => b n d && negb (c n d)))%nat.
Proof.
  unfold count_cells. induction (cells N D) as [|[n d] ls IH]; [reflexivity|]. cbn [filter fst snd] in *.
  destruct (b n d), (c n d); cbn [andb negb List.length]; lia.
Qed.
Lemma pp_rate_laplace a b : pp_rate (Z.of_nat a) (Z.of_nat b) = laplace a b.
Proof. unfold pp_rate, laplace. rewrite plus_IZR, <- !INR_IZR_INZ. reflexivity. Qed.
Lemma laplace_range a b : 0 < laplace a b < 1.
Proof.
  unfold laplace. pose proof (pos_INR a). pose proof (pos_INR b). split; [apply Rdiv_lt_0_compat; lra|].
  apply (Rmult_lt_reg_r (INR a + INR b + 2)); [lra|]. unfold Rdiv. rewrite Rmult_assoc, Rinv_l, Rmult_1_r, Rmult_1_l by lra. lra.
Qed.

Lemma argmax_gen v : forall ls best, (best < List.length v)%nat -> (forall i, In i ls -> (i < List.length v)%nat) ->
  let r := fold_left (fun best i => if Rltb (rat v best) (rat v i) then i else best) ls best in
  (r < List.length v)%nat /\ rat v best <= rat v r /\ forall i, In i ls -> rat v i <= rat v r.
Proof.
  induction ls as [|i ls IH]; intros best Hb Hl.
  - cbn. repeat split; [assumption|lra|contradiction].
  - cbn [fold_left]. set (best' := if Rltb (rat v best) (rat v i) then i else best).
    assert (HB : (best' < List.length v)%nat /\ rat v best <= rat v best' /\ rat v i <= rat v best').
    { unfold best'. destruct (Rltb_spec (rat v best) (rat v i)).
      - split; [apply Hl; left; reflexivity|]. split; lra.
      - split; [assumption|]. split; lra. }
    destruct HB as (B1 & B2 & B3). destruct (IH best' B1 (fun j Hj => Hl j (or_intror Hj))) as (I1 & I2 & I3).
    cbv zeta in *. repeat split; [exact I1|lra|]. intros j [<-|Hj]; [lra|apply I3; assumption].
Qed.
Lemma argmax_spec v : v <> [] -> (argmax v < List.length v)%nat /\ forall i, (i < List.length v)%nat -> rat v i <= rat v (argmax v).
Proof.
  intros Hv. destruct (argmax_gen v (seq 0 (List.length v)) 0%nat) as (H1 & _ & H3).
  - destruct v; [congruence|cbn; lia].
  - intros i Hi. apply in_seq0. exact Hi.
  - split; [exact H1|]. intros i Hi. apply H3. apply in_seq0. exact Hi.
Qed.

Definition rm {A} (k : nat) (l : list A) : list A := firstn k l ++ skipn (S k) l.
Lemma rm_nth {A} k (l : list A) j d : (k < List.length l)%nat -> nth j (rm k l) d = nth (j + (if Nat.leb k j then 1 else 0)) l d.
Proof.
  revert l j. induction k as [|k IH]; intros [|a l] j H; cbn [List.length] in H; try lia.
  - cbn. rewrite Nat.add_1_r. reflexivity.
  - unfold rm. cbn [firstn app]. destruct j as [|j]; [reflexivity|]. cbn [nth Nat.add Nat.leb]. apply (IH l j). lia.
Qed.
Lemma rm_length {A} k (l : list A) : (k < List.length l)%nat -> List.length (rm k l) = (List.length l - 1)%nat.
Proof. intros H. unfold rm. rewrite app_length, firstn_length, skipn_length. lia. Qed.
Lemma rm_filter {A} k (l : list A) d :
  map (fun i => nth i l d) (filter (fun i => negb (Nat.eqb i k)) (seq 0 (List.length l))) = rm k l.
Proof.
  revert k. induction l as [|a l IH]; intros k; [unfold rm; destruct k; reflexivity|].
  cbn [List.length seq]. rewrite <- seq_shift. cbn [filter]. destruct k as [|k].
  - cbn [Nat.eqb negb]. unfold rm. cbn [firstn app skipn].
    transitivity (map (fun i => nth i (a :: l) d) (map S (seq 0 (List.length l)))).
    + f_equal. clear IH. induction (seq 0 (List.length l)) as [|i ls IHl]; [reflexivity|]. cbn [map filter Nat.eqb negb]. f_equal. exact IHl.
    + rewrite map_map. cbn [nth]. symmetry. apply list_as_map.
  - cbn [Nat.eqb negb map]. unfold rm. cbn [firstn app]. change (skipn (S (S k)) (a :: l)) with (skipn (S k) l).
    f_equal. etransitivity; [|exact (IH k)]. clear IH.
    induction (seq 0 (List.length l)) as [|i ls IHl]; [reflexivity|]. cbn [map filter Nat.eqb].
    destruct (Nat.eqb i k); cbn [negb map]; [|f_equal]; exact IHl.
Qed.
Lemma rm_perm {A} k (l : list A) d : (k < List.length l)%nat -> Permutation (nth k l d :: rm k l) l.
Proof.
  intros H. unfold rm. rewrite <- (firstn_skipn k l) at 4.
  assert (E : skipn k l = nth k l d :: skipn (S k) l).
  { revert l H. induction k as [|k IH]; intros [|a l] H; cbn [List.length] in H; try lia; [reflexivity|]. cbn. apply IH. lia. }
  rewrite E. apply Permutation_middle.
Qed.

Section Update.
  Variables (A B X : mat) (N D L : nat).
  Hypotheses (HA : has_shape2 A N L) (HB : has_shape2 B D L).
  Let preds := map (fun l n d => (at2 (OR_AND_product_expand (col A l) (col B l)) n d =? 1)%Z) (seq 0 L).
  Let expl := explained_after A B X N D.
  Let prec := precision A B X N D.

  Definition minv (s : mstate) (pi : list nat) : Prop :=
    Permutation (pi ++ m_list s) (seq 0 L) /\
    m_TP s = map (fun l => Z.of_nat (expl pi l 1)) (m_list s) /\
    m_FP s = map (fun l => Z.of_nat (expl pi l (-1))) (m_list s) /\
    (forall n d, (n < N)%nat -> (d < D)%nat -> m_mask s n d = existsb (explains A B n d) pi) /\
    List.length (m_parm s) = S L /\
    (forall k, (k < List.length pi)%nat -> nth (nth k pi 0%nat) (m_parm s) 0 = prec (firstn k pi) (nth k pi 0%nat)) /\
    (forall k l, (k < List.length pi)%nat -> In l (skipn k pi ++ m_list s) -> prec (firstn k pi) l <= prec (firstn k pi) (nth k pi 0%nat)).

  Lemma preds_at l n d : (l < L)%nat -> (n < N)%nat -> (d < D)%nat -> nth l preds (fun _ _ => false) n d = explains A B n d l.
  Proof.
    intros Hl Hn Hd. unfold preds.
    rewrite (nth_map_seq (fun l n d => (at2 (OR_AND_product_expand (col A l) (col B l)) n d =? 1)%Z)) by assumption.
    destruct HA as [<- _]. destruct HB as [<- _]. rewrite expand_at by assumption. destruct (explains A B n d l); reflexivity.
  Qed.

  Lemma expl_snoc pi m l v : 
    (expl (pi ++ [m]) l v + count_cells N D (fun n d => (at2 X n d =? v)%Z && explains A B n d l && negb (existsb (explains A B n d) pi) && explains A B n d m) = expl pi l v)%nat.
  Proof.
    unfold expl, explained_after. symmetry.
    rewrite (count_cells_split N D (fun n d => (at2 X n d =? v)%Z && explains A B n d l && negb (existsb (explains A B n d) pi)) (fun n d => explains A B n d m)).
    rewrite Nat.add_comm. f_equal. apply count_cells_ext. intros n d _ _.
    rewrite existsb_app. cbn [existsb]. rewrite orb_false_r, negb_orb. rewrite !andb_assoc. reflexivity.
  Qed.

  Lemma step_inv s pi : minv s pi -> m_list s <> [] ->
    exists m, minv (lbda_MAX_AND_step N D X preds s) (pi ++ [m]) /\
      List.length (m_list (lbda_MAX_AND_step N D X preds s)) = (List.length (m_list s) - 1)%nat.
  Proof.
    intros (HP & HTP & HFP & HM & HLn & HV & HG) Hne.
    set (rates := map (fun '(tp, fp) => pp_rate tp fp) (combine (m_TP s) (m_FP s))).
    assert (Hr : rates = map (fun l => prec pi l) (m_list s)).
    { unfold rates. rewrite HTP, HFP. clear. induction (m_list s) as [|l ls IH]; [reflexivity|].
      cbn [map combine]. rewrite pp_rate_laplace. f_equal. exact IH. }
    assert (Hrl : List.length rates = List.length (m_list s)) by (rewrite Hr, map_length; reflexivity).
    set (k := argmax rates). destruct (argmax_spec rates) as [K1 K2].
    { intros E. rewrite E in Hrl. destruct (m_list s); [congruence|discriminate]. }
    fold k in K1, K2. rewrite Hrl in K1, K2.
    set (m := nth k (m_list s) 0%nat).
    assert (Hrat : forall i, (i < List.length (m_list s))%nat -> rat rates i = prec pi (nth i (m_list s) 0%nat)).
    { intros i Hi. unfold rat. rewrite Hr. rewrite (nth_indep _ 0 (prec pi 0%nat)) by (rewrite map_length; assumption).
      exact (map_nth (fun l => prec pi l) (m_list s) 0%nat i). }
    assert (Hall : forall l, In l (m_list s) -> (l < L)%nat).
    { intros l Hl. apply in_seq0. apply (Permutation_in _ HP). apply in_or_app. right. assumption. }
    assert (Hm : In m (m_list s)) by (apply nth_In; assumption).
    assert (HmL := Hall m Hm).
    assert (ND : NoDup (pi ++ m_list s)) by (apply (Permutation_NoDup (l := seq 0 L)); [symmetry; assumption|apply seq_NoDup]).
    assert (Hpi : ~ In m pi).
    { intros Hin. clear - ND Hin Hm. induction pi as [|a pi IH]; [contradiction|]. cbn [app] in ND. inversion ND as [|? ? N1 N2]; subst.
      destruct Hin as [->|Hin]; [apply N1; apply in_or_app; right; assumption|]. exact (IH N2 Hin). }
    exists m.
    assert (Elist : m_list (lbda_MAX_AND_step N D X preds s) = rm k (m_list s)).
    { unfold lbda_MAX_AND_step. cbn [m_list]. apply rm_filter. }
    assert (Hrm : forall l, In l (rm k (m_list s)) -> In l (m_list s)).
    { intros l Hl. apply (Permutation_in _ (rm_perm k (m_list s) 0%nat K1)). right. assumption. }
    assert (Ecounts : forall C v (t : nat -> nat -> bool),
      C = map (fun l => Z.of_nat (expl pi l v)) (m_list s) ->
      (forall n d, (n < N)%nat -> (d < D)%nat -> t n d = nth m preds (fun _ _ => false) n d && negb (m_mask s n d) && (at2 X n d =? v)%Z) ->
      map (fun l => (nth (l + (if Nat.leb k l then 1 else 0)) C 0 -
                     count_nonzero N D (fun n d => t n d && nth (nth l (rm k (m_list s)) 0%nat) preds (fun _ _ => false) n d))%Z)
          (seq 0 (List.length (rm k (m_list s)))) = map (fun l => Z.of_nat (expl (pi ++ [m]) l v)) (rm k (m_list s))).
    { intros C v t HC Ht. transitivity (map (fun i => Z.of_nat (expl (pi ++ [m]) (nth i (rm k (m_list s)) 0%nat) v)) (seq 0 (List.length (rm k (m_list s))))).
      - apply map_ext_in. intros j Hj. apply in_seq0 in Hj.
        assert (Hj' : In (nth j (rm k (m_list s)) 0%nat) (rm k (m_list s))) by (apply nth_In; assumption).
        rewrite <- (rm_nth k C j 0%Z) by (rewrite HC, map_length; assumption).
        assert (EC : rm k C = map (fun l => Z.of_nat (expl pi l v)) (rm k (m_list s))).
        { rewrite HC. unfold rm. rewrite firstn_map, skipn_map, <- map_app. reflexivity. }
        rewrite EC. rewrite (nth_indep _ 0%Z (Z.of_nat (expl pi 0%nat v))) by (rewrite map_length; assumption).
        rewrite (map_nth (fun l => Z.of_nat (expl pi l v))).
        rewrite count_nonzero_cells. set (lj := nth j (rm k (m_list s)) 0%nat) in *.
        rewrite (count_cells_ext N D _ (fun n d => (at2 X n d =? v)%Z && explains A B n d lj && negb (existsb (explains A B n d) pi) && explains A B n d m)); [rewrite <- (expl_snoc pi m lj v); lia|].
        intros n d Hn Hd. rewrite (Ht n d Hn Hd), (HM n d Hn Hd). rewrite !preds_at; auto.
        destruct (explains A B n d m), (explains A B n d lj), (existsb (explains A B n d) pi), (at2 X n d =? v)%Z; reflexivity.
      - rewrite <- (map_map (fun i => nth i (rm k (m_list s)) 0%nat) (fun l => Z.of_nat (expl (pi ++ [m]) l v))).
        f_equal. symmetry. apply list_as_map. }
    split; [|rewrite Elist; apply rm_length; assumption].
    split; [|split; [|split; [|split; [|split; [|split]]]]].
    - rewrite Elist. rewrite <- app_assoc. cbn [app]. eapply Permutation_trans; [|exact HP].
      apply Permutation_app_head. apply rm_perm. assumption.
    - rewrite Elist. unfold lbda_MAX_AND_step. cbn [m_TP]. fold rates. fold k.
      rewrite rm_filter. fold m. apply Ecounts; [exact HTP|]. intros n d _ _. reflexivity.
    - rewrite Elist. unfold lbda_MAX_AND_step. cbn [m_FP]. fold rates. fold k.
      rewrite rm_filter. fold m. apply Ecounts; [exact HFP|]. intros n d _ _. reflexivity.
    - intros n d Hn Hd. unfold lbda_MAX_AND_step. cbn [m_mask]. fold rates. fold k. fold m.
      rewrite HM by assumption. rewrite preds_at by assumption. rewrite existsb_app. cbn [existsb]. rewrite orb_false_r. reflexivity.
    - unfold lbda_MAX_AND_step. cbn [m_parm]. rewrite upd_length. exact HLn.
    - intros j Hj. rewrite app_length in Hj. cbn [List.length] in Hj. unfold lbda_MAX_AND_step. cbn [m_parm]. fold rates. fold k. fold m.
      destruct (Nat.eq_dec j (List.length pi)) as [->|Nj].
      + rewrite firstn_app, Nat.sub_diag, firstn_all. cbn [firstn]. rewrite app_nil_r.
        rewrite app_nth2, Nat.sub_diag by lia. cbn [nth]. rewrite nth_upd_same by (rewrite HLn; lia).
        apply Hrat. assumption.
      + rewrite firstn_app. replace (j - List.length pi)%nat with 0%nat by lia. cbn [firstn]. rewrite app_nil_r.
        rewrite app_nth1 by lia. rewrite nth_upd_other; [apply HV; lia|].
        intros E. apply Hpi. rewrite <- E. apply nth_In. lia.
    - intros j l Hj Hin. rewrite app_length in Hj. cbn [List.length] in Hj. rewrite Elist in Hin.
      destruct (Nat.eq_dec j (List.length pi)) as [->|Nj].
      + rewrite firstn_app, Nat.sub_diag, firstn_all. cbn [firstn]. rewrite app_nil_r.
        rewrite app_nth2, Nat.sub_diag by lia. cbn [nth].
        rewrite skipn_app, Nat.sub_diag, skipn_all in Hin. cbn [skipn app] in Hin.
        assert (Hin' : In l (m_list s)) by (destruct Hin as [<-|Hin]; [assumption|apply Hrm; assumption]).
        destruct (In_nth _ _ 0%nat Hin') as (i & I1 & I2). specialize (K2 i I1). rewrite !Hrat in K2 by assumption.
        rewrite I2 in K2. exact K2.
      + rewrite firstn_app. replace (j - List.length pi)%nat with 0%nat by lia. cbn [firstn]. rewrite app_nil_r.
        rewrite app_nth1 by lia. apply HG; [lia|]. rewrite skipn_app in Hin.
        replace (j - List.length pi)%nat with 0%nat in Hin by lia. cbn [skipn] in Hin.
        apply in_app_or in Hin. apply in_or_app. destruct Hin as [Hin|Hin].
        * apply in_app_or in Hin. destruct Hin as [Hin|[<-|[]]]; [left; assumption|right; assumption].
        * right. apply Hrm. assumption.
  Qed.

  Variable parm : rvec.
  Hypothesis Hparm : List.length parm = S L.
  Let s0 := {| m_list := seq 0 L;
               m_TP := map (fun l => count_nonzero N D (fun n d => nth l preds (fun _ _ => false) n d && (at2 X n d =? 1)%Z)) (seq 0 L);
               m_FP := map (fun l => count_nonzero N D (fun n d => nth l preds (fun _ _ => false) n d && (at2 X n d =? -1)%Z)) (seq 0 L);
               m_mask := fun _ _ => false; m_parm := parm |}.
  Lemma init_inv : minv s0 [].
  Proof.
    assert (E : forall v, map (fun l => count_nonzero N D (fun n d => nth l preds (fun _ _ => false) n d && (at2 X n d =? v)%Z)) (seq 0 L) =
      map (fun l => Z.of_nat (expl [] l v)) (seq 0 L)).
    { intros v. apply map_ext_in. intros l Hl. apply in_seq0 in Hl. rewrite count_nonzero_cells. f_equal.
      apply count_cells_ext. intros n d Hn Hd. rewrite preds_at by assumption. cbn [existsb negb]. rewrite andb_true_r. apply andb_comm. }
    split; [apply Permutation_refl|]. split; [apply E|]. split; [apply E|]. split; [reflexivity|]. split; [exact Hparm|].
    split; intros k; cbn; lia.
  Qed.
  Lemma iter_inv j : (j <= L)%nat -> exists pi, List.length pi = j /\ minv (Nat.iter j (lbda_MAX_AND_step N D X preds) s0) pi /\
    List.length (m_list (Nat.iter j (lbda_MAX_AND_step N D X preds) s0)) = (L - j)%nat.
  Proof.
    induction j as [|j IH]; intros Hj.
    - exists []. split; [reflexivity|]. split; [apply init_inv|]. cbn. rewrite seq_length. lia.
    - destruct IH as (pi & P1 & P2 & P3); [lia|]. cbn [Nat.iter nat_rect].
      set (s := Nat.iter j (lbda_MAX_AND_step N D X preds) s0) in *.
      destruct (step_inv s pi P2) as (m & M1 & M2).
      + intros E. rewrite E in P3. cbn in P3. lia.
      + exists (pi ++ [m]). split; [rewrite app_length; cbn; lia|]. split; [exact M1|]. etransitivity; [exact M2|]. lia.
  Qed.
End Update.

Lemma rmin_spec v : v <> [] -> In (rmin v) v /\ forall x, In x v -> rmin v <= x.
Proof.
  intros Hv. destruct v as [|a v]; [congruence|]. unfold rmin. cbn [hd fold_right].
  assert (E : forall (w : list R), (fold_right Rmin a w = a \/ In (fold_right Rmin a w) w) /\ fold_right Rmin a w <= a /\ forall x, In x w -> fold_right Rmin a w <= x).
  { induction w as [|b w (I1 & I2 & I3)]; [cbn; split; [left; reflexivity|split; [lra|contradiction]]|].
    cbn [fold_right]. destruct (Rle_dec b (fold_right Rmin a w)) as [G|G]; [rewrite Rmin_left by lra|rewrite Rmin_right by lra].
    - split; [right; left; reflexivity|]. split; [lra|]. intros x [<-|Hx]; [lra|]. specialize (I3 x Hx). lra.
    - split; [destruct I1 as [I1|I1]; [left; exact I1|right; right; exact I1]|]. split; [lra|]. intros x [<-|Hx]; [lra|]. apply I3. exact Hx. }
  destruct (E v) as (E1 & E2 & E3). destruct (Rle_dec a (fold_right Rmin a v)) as [G|G]; [rewrite Rmin_left by lra|rewrite Rmin_right by lra].
  - split; [left; reflexivity|]. intros x [<-|Hx]; [lra|]. specialize (E3 x Hx). lra.
  - split; [right; destruct E1 as [E1|E1]; [lra|exact E1]|]. intros x [<-|Hx]; [lra|]. apply E3. exact Hx.
Qed.

Lemma C40_lemma A B X parm N D L :
  has_shape2 A N L -> has_shape2 B D L -> has_shape2 X N D -> (0 < N)%nat -> List.length parm = S L ->
  exists new pi, lbda_MAX_AND_K 2 A B X parm = Ok new /\ List.length new = S L /\
    Forall (fun p => 0 < p < 1) new /\
    Permutation pi (seq 0 L) /\
    (forall k, (k < L)%nat ->
       nth (nth k pi 0%nat) new 0 = precision A B X N D (firstn k pi) (nth k pi 0%nat) /\
       forall j, (k <= j < L)%nat ->
         precision A B X N D (firstn k pi) (nth j pi 0%nat) <= precision A B X N D (firstn k pi) (nth k pi 0%nat)) /\
    (forall l, (l <= L)%nat -> nth L new 0 <= nth l new 0) /\
    (let rest := laplace (unexplained A B X N D (seq 0 L) 1) (unexplained A B X N D (seq 0 L) (-1)) in
     nth L new 0 <= rest /\ (nth L new 0 = rest \/ exists l, (l < L)%nat /\ nth L new 0 = nth l new 0)).
Proof.
  intros HA HB HX HN Hp. unfold lbda_MAX_AND_K. cbn [Nat.eqb].
  destruct (iter_inv A B X N D L HA HB parm Hp L (Nat.le_refl L)) as (pi & P1 & P2 & P3).
  eexists. exists pi. split; [reflexivity|]. unfold lbda_MAX_AND.
  rewrite (shape2_nrows _ _ _ HA), (shape2_nrows _ _ _ HB), (shape2_ncols _ _ _ HA HN).
  set (s := Nat.iter L _ _) in *. destruct P2 as (Q1 & Q2 & Q3 & Q4 & Q5 & Q6 & Q7).
  assert (El : m_list s = []) by (destruct (m_list s); [reflexivity|cbn in P3; lia]).
  rewrite El, app_nil_r in Q1.
  assert (Eun : forall v, count_nonzero N D (fun n d => negb (m_mask s n d) && (at2 X n d =? v)%Z) = Z.of_nat (unexplained A B X N D (seq 0 L) v)).
  { intros v. rewrite count_nonzero_cells. f_equal. apply count_cells_ext. intros n d Hn Hd. rewrite (Q4 n d Hn Hd).
    rewrite andb_comm. f_equal. f_equal. apply eq_true_iff_eq. rewrite !existsb_exists.
    split; intros (l & K1 & K2); exists l; (split; [|assumption]); [apply (Permutation_in _ Q1)|apply (Permutation_in _ (Permutation_sym Q1))]; assumption. }
  rewrite !Eun, pp_rate_laplace. set (rest := laplace _ _).
  set (p1 := set_last (m_parm s) rest).
  assert (L1 : List.length p1 = S L) by (unfold p1, set_last; rewrite upd_length; assumption).
  assert (E1 : forall l, (l < L)%nat -> nth l p1 0 = nth l (m_parm s) 0).
  { intros l Hl. unfold p1, set_last. rewrite Q5. rewrite nth_upd_other by lia. reflexivity. }
  assert (E2 : nth L p1 0 = rest).
  { unfold p1, set_last. rewrite Q5. replace (S L - 1)%nat with L by lia. rewrite nth_upd_same by (rewrite Q5; lia). reflexivity. }
  destruct (rmin_spec p1) as [R1 R2]; [intros E; rewrite E in L1; discriminate|].
  set (new := if Req_EM_T _ _ then _ else _).
  assert (N0 : List.length new = S L /\ (forall l, (l < L)%nat -> nth l new 0 = nth l p1 0) /\ nth L new 0 = rmin p1).
  { unfold new. rewrite L1. replace (S L - 1)%nat with L by lia. destruct (Req_EM_T (rat p1 L) (rmin p1)) as [E|E].
    - split; [assumption|]. split; [reflexivity|exact E].
    - unfold set_last. rewrite upd_length, L1. replace (S L - 1)%nat with L by lia. split; [reflexivity|].
      split; [intros l Hl; rewrite nth_upd_other by lia; reflexivity|]. rewrite nth_upd_same by lia. reflexivity. }
  destruct N0 as (N1 & N2 & N3).
  assert (HV : forall k, (k < L)%nat -> nth (nth k pi 0%nat) new 0 = precision A B X N D (firstn k pi) (nth k pi 0%nat)).
  { intros k Hk. assert (Hl : (nth k pi 0 < L)%nat) by (apply in_seq0, (Permutation_in _ Q1), nth_In; lia).
    rewrite N2, E1 by assumption. apply Q6. lia. }
  assert (Hpos : forall l, (l < L)%nat -> 0 < nth l new 0 < 1).
  { intros l Hl. assert (Hin : In l pi) by (apply (Permutation_in _ (Permutation_sym Q1)), in_seq0, Hl).
    destruct (In_nth _ _ 0%nat Hin) as (k & K1 & K2). rewrite <- K2, HV by lia. apply laplace_range. }
  assert (Hlast : nth L new 0 = rest \/ exists l, (l < L)%nat /\ nth L new 0 = nth l new 0).
  { rewrite N3. destruct (In_nth _ _ 0 R1) as (l & K1 & K2). rewrite L1 in K1.
    destruct (Nat.eq_dec l L) as [->|Ne]; [left; congruence|]. right. exists l. split; [lia|]. rewrite N2 by lia. congruence. }
  assert (Hmin : forall l, (l <= L)%nat -> nth L new 0 <= nth l new 0).
  { intros l Hl. destruct (Nat.eq_dec l L) as [->|Ne]; [lra|]. rewrite N3, N2 by lia. apply R2. apply nth_In. lia. }
  split; [exact N1|]. split.
  { apply Forall_nth. intros i d Hi. rewrite (nth_indep _ d 0) by assumption. rewrite N1 in Hi.
    destruct (Nat.eq_dec i L) as [->|Ne]; [|apply Hpos; lia].
    destruct Hlast as [->|(l & K1 & ->)]; [apply laplace_range|apply Hpos; assumption]. }
  split; [exact Q1|]. split.
  { intros k Hk. split; [apply HV; assumption|]. intros j Hj. apply Q7; [lia|]. apply in_or_app. left.
    replace j with (k + (j - k))%nat by lia. rewrite <- (firstn_skipn k pi) at 1. rewrite app_nth2; rewrite firstn_length_le by lia; [|lia].
    replace (k + (j - k) - k)%nat with (j - k)%nat by lia. apply nth_In. rewrite skipn_length. lia. }
  split; [exact Hmin|]. split; [|exact Hlast]. rewrite N3. rewrite <- E2. apply R2. apply nth_In. lia.
Qed.

(** * Ratio tables *)
Definition rsq (m : rmat) (K : nat) : Prop := List.length m = K /\ forall i, (i < K)%nat -> List.length (nth i m []) = K.
Lemma rmat_build_sq K f : rsq (rmat_build K K f) K.
Proof.
  unfold rsq, rmat_build. rewrite map_seq_length. split; [reflexivity|]. intros i Hi.
  assert (E : nth i (map (fun n => map (f n) (seq 0 K)) (seq 0 K)) [] = map (f i) (seq 0 K)).
  { apply (nth_map_seq (fun n => map (f n) (seq 0 K))). assumption. }
  etransitivity; [exact (f_equal (@List.length R) E)|]. apply map_seq_length.
Qed.
Lemma rset2_sq m K i j x : rsq m K -> rsq (rset2 m i j x) K.
Proof.
  intros [H1 H2]. unfold rset2. split; [rewrite upd_length; assumption|]. intros a Ha. rewrite nth_upd.
  destruct (_ && _)%bool eqn:E; [|apply H2; assumption]. rewrite upd_length. apply H2.
  apply andb_true_iff in E. destruct E as [E _]. apply Nat.eqb_eq in E. subst. assumption.
Qed.
Lemma rat2_rset2 m K i j x a b : rsq m K -> (i < K)%nat -> (j < K)%nat ->
  rat2 (rset2 m i j x) a b = if (Nat.eqb a i && Nat.eqb b j)%bool then x else rat2 m a b.
Proof.
  intros [H1 H2] Hi Hj. unfold rat2, rset2, rat. destruct (Nat.eqb_spec a i) as [->|Ne].
  - rewrite nth_upd_same by lia. destruct (Nat.eqb_spec b j) as [->|Nb].
    + cbn [andb]. apply nth_upd_same. rewrite H2 by assumption. assumption.
    + cbn [andb]. apply nth_upd_other. assumption.
  - cbn [andb]. rewrite nth_upd_other by assumption. reflexivity.
Qed.

Section Table.
  Variables (g : nat -> nat -> R) (K : nat).
  Hypothesis anti : forall i j, (i < K)%nat -> (j < K)%nat -> g j i = - g i j.
  Let put (t : rmat) (l1 l2 : nat) : rmat := rset2 (rset2 t l1 l2 (g l1 l2)) l2 l1 (- g l1 l2).
  Definition tab_row (t : rmat) (l1 : nat) (ls : list nat) : rmat := fold_left (fun t l2 => put t l1 l2) ls t.
  Definition good (t : rmat) (i j : nat) : Prop := rat2 t i j = g i j /\ rat2 t j i = g j i.
  Lemma put_good t l1 l2 : rsq t K -> (l1 < K)%nat -> (l2 < K)%nat ->
    rsq (put t l1 l2) K /\ good (put t l1 l2) l1 l2 /\ forall i j, good t i j -> good (put t l1 l2) i j.
  Proof.
    intros Ht H1 H2. unfold put. assert (Ht2 := rset2_sq t K l1 l2 (g l1 l2) Ht).
    split; [apply rset2_sq; assumption|].
    assert (E : forall a b, rat2 t a b = g a b \/ (a = l1 /\ b = l2) \/ (a = l2 /\ b = l1) ->
      rat2 (rset2 (rset2 t l1 l2 (g l1 l2)) l2 l1 (- g l1 l2)) a b = g a b).
    { intros a b Hab. rewrite (rat2_rset2 _ K) by assumption. rewrite (rat2_rset2 _ K) by assumption.
      destruct (Nat.eqb_spec a l2), (Nat.eqb_spec b l1), (Nat.eqb_spec a l1), (Nat.eqb_spec b l2); subst; cbn [andb];
        try (rewrite anti by assumption; ring); try (symmetry; apply anti; assumption); try reflexivity;
        destruct Hab as [Hab|[[? ?]|[? ?]]]; congruence || assumption. }
    split; [split; apply E; tauto|]. intros i j [G1 G2]. split; apply E; tauto.
  Qed.
  Lemma tab_row_good ls : forall t l1, rsq t K -> (l1 < K)%nat -> (forall l, In l ls -> (l < K)%nat) ->
    rsq (tab_row t l1 ls) K /\ (forall l, In l ls -> good (tab_row t l1 ls) l1 l) /\ forall i j, good t i j -> good (tab_row t l1 ls) i j.
  Proof.
    induction ls as [|l ls IH]; intros t l1 Ht H1 Hl; [cbn; split; [exact Ht|split; [contradiction|tauto]]|].
    unfold tab_row. cbn [fold_left]. destruct (put_good t l1 l Ht H1 (Hl l (or_introl eq_refl))) as (P1 & P2 & P3).
    destruct (IH (put t l1 l) l1 P1 H1 (fun a Ha => Hl a (or_intror Ha))) as (I1 & I2 & I3).
    split; [exact I1|]. split; [intros a [<-|Ha]; [apply I3; exact P2|apply I2; assumption]|]. intros i j G. apply I3, P3, G.
  Qed.
  Lemma tab_good t0 : rsq t0 K -> forall J, (J <= K)%nat ->
    let t := fold_left (fun t l1 => tab_row t l1 (seq 0 (S l1))) (seq 0 J) t0 in
    rsq t K /\ forall i j, (j <= i < J)%nat -> good t i j.
  Proof.
    intros H0. induction J as [|J IH]; intros HJ; [split; [exact H0|lia]|].
    destruct IH as [I1 I2]; [lia|]. cbv zeta in *. rewrite seq_S, fold_left_app. cbn [fold_left].
    destruct (tab_row_good (seq 0 (S J)) _ J I1 ltac:(lia)) as (T1 & T2 & T3).
    { intros l Hl. apply in_seq0 in Hl. lia. }
    split; [exact T1|]. intros i j Hij. destruct (Nat.eq_dec i J) as [->|Ne]; [apply T2, in_seq0; lia|]. apply T3, I2. lia.
  Qed.
End Table.

Lemma ratios_split L lbda : compute_lbda_ratios L lbda =
  (fold_left (fun t l1 => tab_row (fun a b => ln (rat lbda a / rat lbda b)) t l1 (seq 0 (S l1))) (seq 0 (S L)) (rmat_build (S L) (S L) (fun _ _ => 0)),
   fold_left (fun t l1 => tab_row (fun a b => ln ((1 - rat lbda a) / (1 - rat lbda b))) t l1 (seq 0 (S l1))) (seq 0 (S L)) (rmat_build (S L) (S L) (fun _ _ => 0))).
Proof.
  unfold compute_lbda_ratios. generalize (rmat_build (S L) (S L) (fun _ _ => 0)) at 1 3 as a.
  generalize (rmat_build (S L) (S L) (fun _ _ => 0)) as b. intros b a. revert a b.
  induction (seq 0 (S L)) as [|l1 ls IH]; intros a b; [reflexivity|]. cbn [fold_left]. rewrite <- IH. f_equal.
  unfold tab_row. generalize (seq 0 (S l1)) as qs. intros qs. revert a b. induction qs as [|q qs IHq]; intros a b; [reflexivity|].
  cbn [fold_left]. apply IHq.
Qed.

Lemma ratio_tables L lbda : (forall l, (l <= L)%nat -> 0 < nth l lbda 0 < 1) ->
  forall i j, (i <= L)%nat -> (j <= L)%nat ->
  rat2 (fst (compute_lbda_ratios L lbda)) i j = ln (nth i lbda 0) - ln (nth j lbda 0) /\
  rat2 (snd (compute_lbda_ratios L lbda)) i j = ln (1 - nth i lbda 0) - ln (1 - nth j lbda 0).
Proof.
  intros H. rewrite ratios_split. cbn [fst snd].
  assert (G : forall (w : nat -> R), (forall l, (l <= L)%nat -> 0 < w l) -> forall i j, (i <= L)%nat -> (j <= L)%nat ->
    rat2 (fold_left (fun t l1 => tab_row (fun a b => ln (w a / w b)) t l1 (seq 0 (S l1))) (seq 0 (S L)) (rmat_build (S L) (S L) (fun _ _ => 0))) i j
    = ln (w i) - ln (w j)).
  { intros w Hw.
    destruct (tab_good (fun a b => ln (w a / w b)) (S L)) with (t0 := rmat_build (S L) (S L) (fun _ _ => 0)) (J := S L) as [_ T].
    - intros i j Hi Hj. rewrite !ln_div by (apply Hw; lia). ring.
    - apply rmat_build_sq.
    - lia.
    - intros i j Hi Hj. rewrite <- ln_div by (apply Hw; assumption).
      destruct (Nat.le_gt_cases j i); [destruct (T i j) as [T1 _]; [lia|exact T1]|destruct (T j i) as [_ T2]; [lia|exact T2]]. }
  intros i j Hi Hj. split.
  - apply (G (fun l => rat lbda l)); [|assumption|assumption]. intros l Hl. apply (H l Hl).
  - apply (G (fun l => 1 - rat lbda l)); [|assumption|assumption]. intros l Hl. pose proof (H l Hl). unfold rat. lra.
Qed.

Lemma C40_ratios_lemma L lbda : List.length lbda = S L -> Forall (fun p => 0 < p < 1) lbda ->
  forall i j, (i <= L)%nat -> (j <= L)%nat ->
  let (tp, tm) := compute_lbda_ratios L lbda in
  rat2 tp i j = ln (nth i lbda 0) - ln (nth j lbda 0) /\ rat2 tp i j = - rat2 tp j i /\
  rat2 tm i j = ln (1 - nth i lbda 0) - ln (1 - nth j lbda 0) /\ rat2 tm i j = - rat2 tm j i.
Proof.
  intros HL HF i j Hi Hj.
  assert (H : forall l, (l <= L)%nat -> 0 < nth l lbda 0 < 1) by (intros l Hl; apply (Forall_nth' (fun p => 0 < p < 1)); [assumption|lia]).
  pose proof (ratio_tables L lbda H i j Hi Hj) as T. pose proof (ratio_tables L lbda H j i Hj Hi) as T'.
  destruct (compute_lbda_ratios L lbda) as [tp tm]. cbn [fst snd] in *. destruct T as [T1 T2], T' as [T3 T4].
  rewrite T1, T2, T3, T4. repeat split; ring.
Qed.

(** * C41 *)
Lemma find_app' {A} (c : A -> bool) l1 l2 : find c (l1 ++ l2) = match find c l1 with Some x => Some x | None => find c l2 end.
Proof. induction l1 as [|a l1 IH]; [reflexivity|]. cbn. destruct (c a); [reflexivity|exact IH]. Qed.
Lemma find_existsb {A} (c : A -> bool) ls : existsb c ls = match find c ls with Some _ => true | None => false end.
Proof. induction ls as [|a ls IH]; [reflexivity|]. cbn. destruct (c a); [reflexivity|exact IH]. Qed.
Lemma find_ext {A} (c c' : A -> bool) ls : (forall a, In a ls -> c a = c' a) -> find c ls = find c' ls.
Proof.
  induction ls as [|a ls IH]; intros H; [reflexivity|]. cbn. rewrite (H a (or_introl eq_refl)).
  destruct (c' a); [reflexivity|]. apply IH. intros b Hb. apply H. right. assumption.
Qed.

Lemma strict_seq ord L : List.length ord = L -> (forall l, In l ord -> (l < L)%nat) ->
  (forall a b, (a < b < L)%nat -> (nth a ord 0 < nth b ord 0)%nat) -> ord = seq 0 L.
Proof.
  intros HL Hin Hs. apply (list_ext _ _ 0%nat); [rewrite seq_length; assumption|]. intros i Hi. rewrite HL in Hi. rewrite seq_nth by assumption.
  assert (Lo : forall i, (i < L)%nat -> (i <= nth i ord 0)%nat).
  { induction i0 as [|k IH]; intros Hk; [lia|]. specialize (IH ltac:(lia)). specialize (Hs k (S k) ltac:(lia)). lia. }
  assert (Hi2 : forall j, (j < L)%nat -> (nth (L - 1 - j) ord 0 <= L - 1 - j)%nat).
  { induction j as [|j IH]; intros Hj.
    - rewrite Nat.sub_0_r. assert (K : In (nth (L - 1) ord 0%nat) ord) by (apply nth_In; lia). specialize (Hin _ K). lia.
    - specialize (IH ltac:(lia)). specialize (Hs (L - 1 - S j)%nat (L - 1 - j)%nat ltac:(lia)). lia. }
  specialize (Lo i Hi). specialize (Hi2 (L - 1 - i)%nat ltac:(lia)). replace (L - 1 - (L - 1 - i))%nat with i in Hi2 by lia. lia.
Qed.
Lemma argsort_dec lam L ord : List.length lam = S L -> dec_sorted lam L -> is_argsort (map Ropp (butlast lam)) ord -> ord = seq 0 L.
Proof.
  intros HL HD HO. pose proof (argsort_length _ _ HO) as Hlen. rewrite map_length, (butlast_length lam L HL) in Hlen.
  assert (Hin : forall l, In l ord -> (l < L)%nat).
  { intros l Hl. apply (argsort_in _ _ l HO) in Hl. rewrite map_length, (butlast_length lam L HL) in Hl. assumption. }
  apply strict_seq; [assumption|assumption|]. intros a b Hab. destruct HO as [HP HS].
  assert (Ia : (nth a ord 0 < L)%nat) by (apply Hin, nth_In; lia). assert (Ib : (nth b ord 0 < L)%nat) by (apply Hin, nth_In; lia).
  specialize (HS a b ltac:(lia)).
  assert (E : forall k, (k < L)%nat -> nth k (map Ropp (butlast lam)) 0 = - nth k lam 0).
  { intros k Hk. rewrite (nth_indep _ 0 (Ropp 0)) by (rewrite map_length, (butlast_length lam L HL); assumption).
    rewrite map_nth. rewrite (butlast_nth lam L) by assumption. reflexivity. }
  rewrite !E in HS by assumption.
  destruct (Nat.lt_trichotomy (nth a ord 0%nat) (nth b ord 0%nat)) as [|[Eq|G]]; [assumption| |].
  - exfalso. assert (ND : NoDup ord) by (apply (Permutation_NoDup (l := seq 0 (List.length (map Ropp (butlast lam))))); [symmetry; assumption|apply seq_NoDup]).
    rewrite NoDup_nth in ND. specialize (ND a b ltac:(lia) ltac:(lia) Eq). lia.
  - specialize (HD _ _ (conj G Ia)). lra.
Qed.

Definition actb (z u : vec) (l : nat) : bool := ((nth l z 0 =? 1) && (nth l u 0 =? 1))%Z%bool.
Lemma actb_active z u l : actb z u l = true <-> active z u l.
Proof. unfold actb, active. rewrite andb_true_iff, !Z.eqb_eq. reflexivity. Qed.
Definition outp (lam : list R) (z u : vec) (L : nat) : R := match find (actb z u) (seq 0 L) with Some l => nth l lam 0 | None => nth L lam 0 end.
Lemma outp_max lam z u L : dec_sorted lam L -> max_output lam z u L (outp lam z u L).
Proof.
  intros HD. unfold outp. destruct (find _ _) as [l|] eqn:E.
  - left. destruct (find_nth _ _ _ 0%nat E) as (k & K1 & K2 & K3 & K4). rewrite seq_length in K1. rewrite seq_nth in K2 by assumption. cbn in K2. subst k.
    split; [exists l; split; [assumption|split; [apply actb_active; assumption|reflexivity]]|].
    intros l' Hl' Ha. apply actb_active in Ha. destruct (Nat.lt_trichotomy l l') as [G|[->|G]]; [|lra|].
    + specialize (HD l l' (conj G Hl')). lra.
    + specialize (K4 l' G). rewrite seq_nth in K4 by lia. cbn in K4. congruence.
  - right. split; [|reflexivity]. intros l Hl Ha. apply actb_active in Ha. pose proof (find_none _ _ E l ltac:(apply in_seq0; assumption)). congruence.
Qed.
Lemma max_output_unique lam z u L p q : max_output lam z u L p -> max_output lam z u L q -> p = q.
Proof.
  intros [[(l & H1 & H2 & H3) H4]|[H1 ->]] [[(l' & K1 & K2 & K3) K4]|[K1 ->]].
  - specialize (H4 l' K1 K2). specialize (K4 l H1 H2). lra.
  - exfalso. exact (K1 l H1 H2).
  - exfalso. exact (H1 l' K1 K2).
  - reflexivity.
Qed.
Lemma max_loglik_unique lam z U x D L v w : max_loglik lam z U x D L v -> max_loglik lam z U x D L w -> v = w.
Proof.
  intros (p & P1 & <-) (q & Q1 & <-). apply Rsum_ext. intros d Hd. apply in_seq0 in Hd. f_equal.
  apply (max_output_unique lam z (row U d) L); auto.
Qed.
Lemma max_log_odds_unique lam z U x D L l s t : max_log_odds lam z U x D L l s -> max_log_odds lam z U x D L l t -> s = t.
Proof.
  intros (v1 & v0 & H1 & H0 & ->) (w1 & w0 & K1 & K0 & ->).
  rewrite (max_loglik_unique _ _ _ _ _ _ _ _ H1 K1), (max_loglik_unique _ _ _ _ _ _ _ _ H0 K0). reflexivity.
Qed.

Lemma fold_sum (g : nat -> R) ls a : fold_left (fun s d => s + g d) ls a = a + Rsum g ls.
Proof. revert a. induction ls as [|d ls IH]; intros a; cbn [fold_left Rsum fold_right]; [lra|]. rewrite IH. unfold Rsum. lra. Qed.

Lemma C41_core lam z U x D L l : List.length lam = S L -> Forall (fun p => 0 < p < 1) lam -> dec_sorted lam L ->
  List.length z = L -> has_shape2 U D L -> (0 < D)%nat -> (l < L)%nat ->
  max_log_odds lam z U x D L l (score_MAX_AND_float z U x l (seq 0 L) (compute_lbda_ratios L lam)).
Proof.
  intros HL HF HD Hz HU HDp Hl.
  assert (Hpos : forall k, (k <= L)%nat -> 0 < nth k lam 0 < 1) by (intros k Hk; apply (Forall_nth' (fun p => 0 < p < 1)); [assumption|lia]).
  exists (Rsum (fun d => obs_loglik (nth d x 0%Z) (outp lam (upd z l 1%Z) (row U d) L)) (seq 0 D)),
         (Rsum (fun d => obs_loglik (nth d x 0%Z) (outp lam (upd z l (-1)%Z) (row U d) L)) (seq 0 D)).
  split; [exists (fun d => outp lam (upd z l 1%Z) (row U d) L); split; [intros d Hd; apply outp_max; assumption|reflexivity]|].
  split; [exists (fun d => outp lam (upd z l (-1)%Z) (row U d) L); split; [intros d Hd; apply outp_max; assumption|reflexivity]|].
  unfold score_MAX_AND_float. rewrite (shape2_nrows _ _ _ HU), (shape2_ncols _ _ _ HU HDp).
  set (g := fun d => obs_loglik (nth d x 0%Z) (outp lam (upd z l 1%Z) (row U d) L) - obs_loglik (nth d x 0%Z) (outp lam (upd z l (-1)%Z) (row U d) L)).
  transitivity (Rsum g (seq 0 D)).
  2:{ unfold g. clear. induction (seq 0 D) as [|d ls IH]; cbn [Rsum fold_right] in *; [lra|]. unfold Rsum in *. lra. }
  rewrite <- (Rplus_0_l (Rsum g (seq 0 D))). rewrite <- fold_sum.
  assert (Efold : forall (f h : R -> nat -> R) ls a, (forall s d, In d ls -> f s d = h s d) -> fold_left f ls a = fold_left h ls a).
  { intros f h ls. induction ls as [|d ls IH]; intros a H; [reflexivity|]. cbn [fold_left]. rewrite H by (left; reflexivity). apply IH. intros s e He. apply H. right. assumption. }
  apply Efold. intros s d Hd. apply in_seq0 in Hd. unfold g.
  pose proof (shape2_row _ _ _ d HU Hd) as Hrow.
  assert (Esrt : forall r, (r < L)%nat -> nth r (seq 0 L) 0%nat = r) by (intros r Hr; rewrite seq_nth by assumption; reflexivity).
  rewrite (Esrt l Hl).
  assert (Eseq : seq 0 L = seq 0 l ++ l :: seq (S l) (L - S l)).
  { replace L with (l + S (L - S l))%nat at 1 by lia. rewrite seq_app. reflexivity. }
  (* the off/on finds *)
  set (on := fun r => ((at1 z (nth r (seq 0 L) 0%nat) =? 1) && (at2 U d (nth r (seq 0 L) 0%nat) =? 1))%Z%bool).
  assert (Eon : forall y r, (r < L)%nat -> r <> l -> actb (upd z l y) (row U d) r = on r).
  { intros y r Hr Nr. unfold actb, on. rewrite (Esrt r Hr). rewrite nth_upd_other by assumption. reflexivity. }
  assert (Elo : forall y, find (actb (upd z l y) (row U d)) (seq 0 l) = find on (seq 0 l)).
  { intros y. apply find_ext. intros r Hr. apply in_seq0 in Hr. apply Eon; lia. }
  assert (Ehi : forall y, find (actb (upd z l y) (row U d)) (seq (S l) (L - S l)) = find on (seq (S l) (L - S l))).
  { intros y. apply find_ext. intros r Hr. apply in_seq in Hr. apply Eon; lia. }
  assert (Emid : forall y, actb (upd z l y) (row U d) l = ((y =? 1) && (at2 U d l =? 1))%Z%bool).
  { intros y. unfold actb. rewrite nth_upd_same by lia. reflexivity. }
  assert (Eout : forall y, outp lam (upd z l y) (row U d) L =
    match find on (seq 0 l) with Some r => nth r lam 0 | None =>
      if ((y =? 1) && (at2 U d l =? 1))%Z%bool then nth l lam 0
      else match find on (seq (S l) (L - S l)) with Some r => nth r lam 0 | None => nth L lam 0 end end).
  { intros y. unfold outp. rewrite Eseq. rewrite find_app'. rewrite Elo. destruct (find on (seq 0 l)); [reflexivity|].
    cbn [find]. rewrite Emid. destruct (_ && _)%bool; [reflexivity|]. rewrite Ehi. reflexivity. }
  rewrite !Eout. cbn [Z.eqb Pos.eqb andb]. rewrite find_existsb. unfold first_such. fold on.
  destruct (at2 U d l =? 1)%Z eqn:EU; cbn [negb andb].
  2:{ destruct (find on (seq 0 l)); [lra|]. destruct (find on _); lra. }
  destruct (find on (seq 0 l)) as [r0|] eqn:E0; [lra|].
  assert (Epick : forall k, (k <= L)%nat ->
    (if (at1 x d =? 1)%Z then rat2 (fst (compute_lbda_ratios L lam)) l k
     else if (at1 x d =? -1)%Z then rat2 (snd (compute_lbda_ratios L lam)) l k else 0) =
    obs_loglik (nth d x 0%Z) (nth l lam 0) - obs_loglik (nth d x 0%Z) (nth k lam 0)).
  { intros k Hk. destruct (ratio_tables L lam Hpos l k ltac:(lia) Hk) as [T1 T2]. rewrite T1, T2. unfold obs_loglik, at1.
    destruct (nth d x 0 =? 1)%Z; [reflexivity|]. destruct (nth d x 0 =? -1)%Z; lra. }
  destruct (find on (seq (S l) (L - S l))) as [r|] eqn:E1.
  - apply find_some in E1. destruct E1 as [E1 _]. apply in_seq in E1. rewrite (Esrt r) by lia. rewrite Epick by lia. reflexivity.
  - rewrite Epick by lia. reflexivity.
Qed.

Lemma C41_sorted_lemma argsort lam z U x D L l : (forall v, is_argsort v (argsort v)) -> List.length lam = S L ->
  Forall (fun p => 0 < p < 1) lam -> dec_sorted lam L ->
  List.length z = L -> has_shape2 U D L -> (0 < D)%nat -> (l < L)%nat ->
  max_log_odds lam z U x D L l
    (score_MAX_AND_float z U x l (argsort (map Ropp (butlast lam))) (compute_lbda_ratios L lam)).
Proof.
  intros HS HL HF HD Hz HU HDp Hl. rewrite (argsort_dec lam L _ HL HD (HS _)). apply C41_core; assumption.
Qed.

(** * An argsort, so that the hypothesis on [argsort] can be met *)
Fixpoint ins_idx (v : list R) (i : nat) (ls : list nat) : list nat :=
  match ls with
  | [] => [i]
  | j :: r => if Rle_dec (nth i v 0) (nth j v 0) then i :: ls else j :: ins_idx v i r
  end.
Definition isort (v : list R) : list nat := fold_right (ins_idx v) [] (seq 0 (List.length v)).
Definition le_idx (v : list R) (a b : nat) : Prop := nth a v 0 <= nth b v 0.
Lemma ins_perm v i ls : Permutation (ins_idx v i ls) (i :: ls).
Proof.
  induction ls as [|j ls IH]; [apply Permutation_refl|]. cbn. destruct (Rle_dec _ _); [apply Permutation_refl|].
  eapply Permutation_trans; [apply perm_skip, IH|apply perm_swap].
Qed.
Lemma ins_sorted v i ls : StronglySorted (le_idx v) ls -> StronglySorted (le_idx v) (ins_idx v i ls).
Proof.
  induction ls as [|j ls IH]; intros H; [repeat constructor|]. cbn. inversion H as [|? ? H1 H2]; subst.
  destruct (Rle_dec _ _) as [G|G].
  - constructor; [assumption|]. constructor; [exact G|]. eapply Forall_impl; [|exact H2]. intros a Ha. unfold le_idx in *. lra.
  - constructor; [apply IH; assumption|]. apply (Permutation_Forall (Permutation_sym (ins_perm v i ls))). constructor; [unfold le_idx; lra|assumption].
Qed.
Lemma ssorted_nth {A} (Rel : A -> A -> Prop) ls d : StronglySorted Rel ls -> forall a b, (a < b < List.length ls)%nat -> Rel (nth a ls d) (nth b ls d).
Proof.
  induction 1 as [|x ls H1 IH H2]; intros a b Hab; [cbn in Hab; lia|]. destruct b as [|b]; [lia|]. cbn [List.length] in Hab.
  destruct a as [|a]; cbn [nth]; [apply (Forall_nth' (Rel x)); [assumption|lia]|apply IH; lia].
Qed.
Lemma isort_argsort v : is_argsort v (isort v).
Proof.
  assert (E : Permutation (isort v) (seq 0 (List.length v)) /\ StronglySorted (le_idx v) (isort v)).
  { unfold isort. induction (seq 0 (List.length v)) as [|i ls [I1 I2]]; [split; [apply Permutation_refl|constructor]|].
    cbn [fold_right]. split; [eapply Permutation_trans; [apply ins_perm|apply perm_skip, I1]|apply ins_sorted, I2]. }
  split; [apply E|]. intros a b Hab. apply (ssorted_nth (le_idx v)); [apply E|exact Hab].
Qed.

(** * Truncation and the refutations of C41 *)
Lemma trunc_nonneg s : 0 <= s -> 0 <= IZR (trunc s) <= s /\ s < IZR (trunc s) + 1.
Proof.
  intros H. unfold trunc. destruct (Rleb_spec 0 s); [|lra]. destruct (base_Int_part s) as [B1 B2].
  split; [|lra]. split; [|assumption]. apply IZR_le. assert (IZR (-1) < IZR (Int_part s)) by lra. apply lt_IZR in H0. lia.
Qed.
Lemma trunc_neg s : s <= 0 -> s <= IZR (trunc s) <= 0 /\ IZR (trunc s) - 1 < s.
Proof.
  intros H. destruct (Req_dec s 0) as [->|Ne].
  - destruct (trunc_nonneg 0); [lra|]. lra.
  - assert (E : trunc s = (- trunc (- s))%Z).
    { unfold trunc. destruct (Rleb_spec 0 s); [lra|]. destruct (Rleb_spec 0 (- s)); [reflexivity|lra]. }
    destruct (trunc_nonneg (- s)) as [T1 T2]; [lra|]. rewrite E, opp_IZR. lra.
Qed.
Lemma C41_trunc_lemma argsort lam z U x D L l : (forall v, is_argsort v (argsort v)) -> List.length lam = S L ->
  Forall (fun p => 0 < p < 1) lam -> dec_sorted lam L ->
  List.length z = L -> has_shape2 U D L -> (0 < D)%nat -> (l < L)%nat ->
  let used := IZR (posterior_score_MAX_AND_2D z U x l (argsort (map Ropp (butlast lam))) (compute_lbda_ratios L lam)) in
  exists s, max_log_odds lam z U x D L l s /\ Rabs (used - s) < 1 /\ (0 <= s -> 0 <= used <= s) /\ (s <= 0 -> s <= used <= 0).
Proof.
  intros HS HL HF HD Hz HU HDp Hl used. eexists. split; [apply (C41_sorted_lemma argsort); assumption|].
  unfold used, posterior_score_MAX_AND_2D. set (s := score_MAX_AND_float _ _ _ _ _ _). clearbody s.
  pose proof (trunc_nonneg s). pose proof (trunc_neg s).
  split; [|split; intros; [apply H|apply H0]; assumption].
  destruct (Rle_dec 0 s) as [G|G]; [destruct (H G)|destruct (H0 ltac:(lra))]; apply Rabs_def1; lra.
Qed.

Lemma butlast2 (a b : R) : butlast [a; b] = [a]. Proof. reflexivity. Qed.
Lemma butlast3 (a b c : R) : butlast [a; b; c] = [a; b]. Proof. reflexivity. Qed.

Lemma C41_trunc_refuted_lemma :
  let lam := [1 / 2; 1 / 3] in
  dec_sorted lam 1 /\ forall argsort, (forall v, is_argsort v (argsort v)) ->
  posterior_score_MAX_AND_2D [1%Z] [[1%Z]] [1%Z] 0 (argsort (map Ropp (butlast lam))) (compute_lbda_ratios 1 lam) = 0%Z /\
  ~ max_log_odds lam [1%Z] [[1%Z]] [1%Z] 1 1 0 0 /\ max_log_odds lam [1%Z] [[1%Z]] [1%Z] 1 1 0 (ln (3 / 2)).
Proof.
  cbv zeta. assert (HD : dec_sorted [1 / 2; 1 / 3] 1) by (intros a b Hab; lia). split; [exact HD|]. intros argsort HS.
  assert (HF : Forall (fun p => 0 < p < 1) [1 / 2; 1 / 3]) by (repeat constructor; lra).
  assert (HU : has_shape2 [[1%Z]] 1 1) by (split; [reflexivity|repeat constructor]).
  pose proof (C41_sorted_lemma argsort [1 / 2; 1 / 3] [1%Z] [[1%Z]] [1%Z] 1 1 0 HS eq_refl HF HD eq_refl HU ltac:(lia) ltac:(lia)) as HO.
  assert (Hpos : forall k, (k <= 1)%nat -> 0 < nth k [1 / 2; 1 / 3] 0 < 1).
  { intros [|[|k]] Hk; cbn; try lra. lia. }
  assert (E : score_MAX_AND_float [1%Z] [[1%Z]] [1%Z] 0 (argsort (map Ropp (butlast [1 / 2; 1 / 3]))) (compute_lbda_ratios 1 [1 / 2; 1 / 3]) = ln (3 / 2)).
  { rewrite (argsort_dec [1 / 2; 1 / 3] 1 _ eq_refl HD (HS _)).
    unfold score_MAX_AND_float. cbn [nrows ncols List.length hd seq fold_left Nat.sub nth at2 at1 row].
    cbn [Z.eqb Pos.eqb negb existsb first_such find].
    destruct (ratio_tables 1 [1 / 2; 1 / 3] Hpos 0 1 ltac:(lia) ltac:(lia)) as [T _]. rewrite T. cbn [nth].
    rewrite <- ln_div by lra. rewrite Rplus_0_l. f_equal. field. }
  rewrite E in HO. unfold posterior_score_MAX_AND_2D. rewrite E.
  assert (Lp : 0 < ln (3 / 2) < 1).
  { split; [rewrite <- ln_1; apply ln_increasing; lra|].
    rewrite <- (ln_exp 1). apply ln_increasing; [lra|]. pose proof (exp_ineq1 1). lra. }
  split.
  - destruct (trunc_nonneg (ln (3 / 2))) as [T1 T2]; [lra|]. assert (IZR (trunc (ln (3 / 2))) < 1) by lra.
    assert (0 <= trunc (ln (3 / 2)))%Z by (apply le_IZR; lra). apply lt_IZR in H. lia.
  - split; [|exact HO]. intros H. pose proof (max_log_odds_unique _ _ _ _ _ _ _ _ _ H HO). lra.
Qed.

Lemma two_argsort a b ord : a < b -> is_argsort [a; b] ord -> ord = [0; 1]%nat.
Proof.
  intros Hab [HP HS]. cbn [List.length seq] in HP. apply Permutation_sym, Permutation_length_2_inv in HP. destruct HP as [->| ->]; [reflexivity|].
  specialize (HS 0%nat 1%nat ltac:(cbn; lia)). cbn in HS. lra.
Qed.
Lemma two_argsort' a b ord : b < a -> is_argsort [a; b] ord -> ord = [1; 0]%nat.
Proof.
  intros Hab [HP HS]. cbn [List.length seq] in HP. apply Permutation_sym, Permutation_length_2_inv in HP. destruct HP as [->| ->]; [|reflexivity].
  specialize (HS 0%nat 1%nat ltac:(cbn; lia)). cbn in HS. lra.
Qed.

Lemma C41_unsorted_refuted_lemma :
  let lam := [1 / 4; 1 / 2; 1 / 8] in
  Forall (fun p => 0 < p < 1) lam /\ forall argsort, (forall v, is_argsort v (argsort v)) ->
  score_MAX_AND_float [-1; -1]%Z [[1; -1]]%Z [1%Z] 0 (argsort (map Ropp (butlast lam))) (compute_lbda_ratios 2 lam) = ln 4 /\
  max_log_odds lam [-1; -1]%Z [[1; -1]]%Z [1%Z] 1 2 0 (ln 2) /\
  ~ max_log_odds lam [-1; -1]%Z [[1; -1]]%Z [1%Z] 1 2 0 (ln 4) /\
  posterior_score_MAX_AND_2D [-1; -1]%Z [[1; -1]]%Z [1%Z] 0 (argsort (map Ropp (butlast lam))) (compute_lbda_ratios 2 lam) = 1%Z /\
  trunc (ln 2) = 0%Z.
Proof.
  cbv zeta. split; [repeat constructor; lra|]. intros argsort HS.
  assert (Hpos : forall k, (k <= 2)%nat -> 0 < nth k [1 / 4; 1 / 2; 1 / 8] 0 < 1).
  { intros [|[|[|k]]] Hk; cbn; try lra. lia. }
  assert (EO : argsort (map Ropp (butlast [1 / 4; 1 / 2; 1 / 8])) = [1; 0]%nat).
  { apply (two_argsort' (- (1 / 4)) (- (1 / 2))); [lra|]. exact (HS (map Ropp (butlast [1 / 4; 1 / 2; 1 / 8]))). }
  assert (E : score_MAX_AND_float [-1; -1]%Z [[1; -1]]%Z [1%Z] 0 (argsort (map Ropp (butlast [1 / 4; 1 / 2; 1 / 8]))) (compute_lbda_ratios 2 [1 / 4; 1 / 2; 1 / 8]) = ln 4).
  { rewrite EO. unfold score_MAX_AND_float. cbn [nrows ncols List.length hd seq fold_left Nat.sub nth at2 at1 row].
    cbn [Z.eqb Pos.eqb negb existsb first_such find andb].
    destruct (ratio_tables 2 [1 / 4; 1 / 2; 1 / 8] Hpos 1 2 ltac:(lia) ltac:(lia)) as [T _]. rewrite T. cbn [nth].
    rewrite <- ln_div by lra. rewrite Rplus_0_l. f_equal. field. }
  assert (HO : max_log_odds [1 / 4; 1 / 2; 1 / 8] [-1; -1]%Z [[1; -1]]%Z [1%Z] 1 2 0 (ln 2)).
  { exists (ln (1 / 4)), (ln (1 / 8)). split; [|split].
    - exists (fun _ => 1 / 4). split; [|cbn; lra]. intros [|d] Hd; [|lia]. left. split.
      + exists 0%nat. split; [lia|]. split; [split; reflexivity|reflexivity].
      + intros [|[|l]] Hl [A1 A2]; cbn in *; [lra| |lia]. lia.
    - exists (fun _ => 1 / 8). split; [|cbn; lra]. intros [|d] Hd; [|lia]. right. split; [|reflexivity].
      intros [|[|l]] Hl [A1 A2]; cbn in *; lia.
    - rewrite <- ln_div by lra. f_equal. field. }
  assert (L4 : ln 4 = ln 2 + ln 2) by (rewrite <- ln_mult by lra; f_equal; lra).
  assert (L2 : 1 / 2 <= ln 2 < 1).
  { split; [|rewrite <- (ln_exp 1); apply ln_increasing; [lra|]; pose proof (exp_ineq1 1); lra].
    pose proof (ln_le_sub (1 / 2) ltac:(lra)) as K. replace (1 / 2) with (/ 2) in K by lra. rewrite ln_Rinv in K by lra. lra. }
  assert (T2 : trunc (ln 2) = 0%Z).
  { destruct (trunc_nonneg (ln 2)) as [T1 T2]; [lra|]. assert (K : IZR (trunc (ln 2)) < 1) by lra.
    assert (0 <= trunc (ln 2))%Z by (apply le_IZR; lra). apply lt_IZR in K. lia. }
  assert (T4 : trunc (ln 4) = 1%Z).
  { destruct (trunc_nonneg (ln 4)) as [T1 T3]; [lra|]. assert (K : IZR (trunc (ln 4)) < 2) by lra. apply lt_IZR in K.
    assert (K2 : 0 < IZR (trunc (ln 4))) by lra. apply lt_IZR in K2. lia. }
  split; [exact E|]. split; [exact HO|]. split.
  - intros H. pose proof (max_log_odds_unique _ _ _ _ _ _ _ _ _ H HO). lra.
  - split; [|exact T2]. unfold posterior_score_MAX_AND_2D. rewrite E. exact T4.
Qed.

(** * Examples *)
Lemma C39_example_lemma :
  (forall v, is_argsort v (isort v)) /\
  rat2 (MAX_AND_product_2d isort [[1; 1]; [-1; 1]]%Z [[1; 1]; [-1; -1]]%Z [1 / 2; 1 / 4; 1 / 8]) 0 0 = 1 / 4 /\
  rat2 (MAX_AND_product_2d isort [[1; 1]; [-1; 1]]%Z [[1; 1]; [-1; -1]]%Z [1 / 2; 1 / 4; 1 / 8]) 0 1 = 0 /\
  max_output [1 / 2; 1 / 4; 1 / 8] [1; 1]%Z [1; 1]%Z 2 (1 / 2).
Proof.
  assert (EO : isort (butlast [1 / 2; 1 / 4; 1 / 8]) = [1; 0]%nat).
  { apply (two_argsort' (1 / 2) (1 / 4)); [lra|]. exact (isort_argsort (butlast [1 / 2; 1 / 4; 1 / 8])). }
  split; [exact isort_argsort|].
  assert (HP : forall l, In l (isort (butlast [1 / 2; 1 / 4; 1 / 8])) -> rat [1 / 2; 1 / 4; 1 / 8] l <> 0).
  { rewrite EO. intros l [<-|[<-|[]]]; unfold rat; cbn; lra. }
  rewrite !max2d_find by (cbn; lia || exact HP). rewrite EO. split; [reflexivity|]. split; [reflexivity|].
  left. split; [exists 0%nat; split; [lia|split; [split; reflexivity|reflexivity]]|].
  intros [|[|l]] Hl _; cbn; lra || lia.
Qed.
(** Two latent dimensions; data 3 x 2, one missing. Dimension 1 (rate 3/4) is assigned before dimension 0 (rate 1/2). *)
Lemma C40_example_lemma :
  let A := [[1; -1]; [-1; 1]; [-1; -1]]%Z in let B := [[1; 1]; [1; 1]]%Z in let X := [[1; -1]; [1; 1]; [-1; 0]]%Z in
  has_shape2 A 3 2 /\ has_shape2 B 2 2 /\ has_shape2 X 3 2 /\
  precision A B X 3 2 [] 1 = 3 / 4 /\ precision A B X 3 2 [1%nat] 0 = 1 / 2 /\
  laplace (unexplained A B X 3 2 (seq 0 2) 1) (unexplained A B X 3 2 (seq 0 2) (-1)) = 1 / 3.
Proof.
  cbv zeta. split; [split; [reflexivity|repeat constructor]|]. split; [split; [reflexivity|repeat constructor]|].
  split; [split; [reflexivity|repeat constructor]|].
  unfold precision. repeat split; unfold laplace;
    match goal with |- (INR ?a + 1) / (INR ?a + INR ?b + 2) = _ =>
      let a' := eval vm_compute in a in let b' := eval vm_compute in b in
      change a with a'; change b with b' end; cbn [INR]; lra.
Qed.
Lemma C41_example_lemma :
  Forall (fun p => 0 < p < 1) [1 / 2; 1 / 4; 1 / 8] /\ dec_sorted [1 / 2; 1 / 4; 1 / 8] 2 /\
  max_log_odds [1 / 2; 1 / 4; 1 / 8] [-1; 1]%Z [[1; 1]; [1; -1]; [-1; 1]]%Z [1; -1; 1]%Z 3 2 0 (ln 2 + ln (4 / 7)).
Proof.
  split; [repeat constructor; lra|].
  assert (HD : dec_sorted [1 / 2; 1 / 4; 1 / 8] 2).
  { intros a b Hab. assert (a = 0%nat /\ b = 1%nat) as [-> ->] by lia. cbn. lra. }
  split; [exact HD|].
  assert (HU : has_shape2 [[1; 1]; [1; -1]; [-1; 1]]%Z 3 2) by (split; [reflexivity|repeat constructor]).
  assert (HF : Forall (fun p => 0 < p < 1) [1 / 2; 1 / 4; 1 / 8]) by (repeat constructor; lra).
  pose proof (C41_core [1 / 2; 1 / 4; 1 / 8] [-1; 1]%Z _ [1; -1; 1]%Z 3 2 0 eq_refl HF HD eq_refl HU ltac:(lia) ltac:(lia)) as K.
  assert (Hpos : forall k, (k <= 2)%nat -> 0 < nth k [1 / 2; 1 / 4; 1 / 8] 0 < 1).
  { intros [|[|[|k]]] Hk; cbn; try lra. lia. }
  assert (E : score_MAX_AND_float [-1; 1]%Z [[1; 1]; [1; -1]; [-1; 1]]%Z [1; -1; 1]%Z 0 (seq 0 2) (compute_lbda_ratios 2 [1 / 2; 1 / 4; 1 / 8]) = ln 2 + ln (4 / 7)).
  { unfold score_MAX_AND_float. cbn [nrows ncols List.length hd seq fold_left Nat.sub nth at2 at1 row].
    cbn [Z.eqb Pos.eqb negb existsb first_such find andb].
    destruct (ratio_tables 2 [1 / 2; 1 / 4; 1 / 8] Hpos 0 1 ltac:(lia) ltac:(lia)) as [T1 _].
    destruct (ratio_tables 2 [1 / 2; 1 / 4; 1 / 8] Hpos 0 2 ltac:(lia) ltac:(lia)) as [_ T2].
    rewrite T1, T2. cbn [nth]. rewrite <- !ln_div by lra. rewrite Rplus_0_l. f_equal; f_equal; field. }
  rewrite E in K. exact K.
Qed.
