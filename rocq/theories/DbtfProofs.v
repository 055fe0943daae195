(** Proofs about the interface to dbtf. *)
From Verif Require Import Base BaseLemmas Helpers HelpersProofs Dbtf SpecDbtf.
Local Open Scope Z_scope.

(** * The tensor file *)
Lemma sparse_in X N D M n d m : In (n, d, m) (sparse X N D M) <-> (n < N)%nat /\ (d < D)%nat /\ (m < M)%nat /\ at3 X n d m = 1.
Proof.
  unfold sparse. rewrite in_flat_map. split.
  - intros (a & Ha & K). apply in_flat_map in K. destruct K as (b & Hb & K). apply in_flat_map in K. destruct K as (c & Hc & K).
    apply in_seq in Ha, Hb, Hc. destruct (Z.eqb_spec (at3 X a b c) 1) as [E|E]; [|destruct K]. destruct K as [K|[]]. injection K as <- <- <-.
    split; [lia|]. split; [lia|]. split; [lia|exact E].
  - intros (Hn & Hd & Hm & E). exists n. split; [apply in_seq; lia|]. apply in_flat_map. exists d. split; [apply in_seq; lia|].
    apply in_flat_map. exists m. split; [apply in_seq; lia|]. rewrite E. left. reflexivity.
Qed.
(** Lists whose entries are pairwise in order. *)
Inductive chain {A} (R : A -> A -> Prop) : list A -> Prop :=
| chain_nil : chain R []
| chain_cons a l : (forall b, In b l -> R a b) -> chain R l -> chain R (a :: l).
Lemma chain_app {A} (R : A -> A -> Prop) p q : chain R p -> chain R q -> (forall a b, In a p -> In b q -> R a b) -> chain R (p ++ q).
Proof.
  intros Hp Hq H. induction Hp as [|a p Ha Hp IH]; [exact Hq|]. cbn [app]. constructor.
  - intros b Hb. apply in_app_or in Hb. destruct Hb as [Hb|Hb]; [auto|apply H; [left; reflexivity|assumption]].
  - apply IH. intros x y Hx Hy. apply H; [right; assumption|assumption].
Qed.
Lemma chain_flat {A} (R : A -> A -> Prop) (f : nat -> list A) n s :
  (forall i, chain R (f i)) -> (forall i j a b, (i < j)%nat -> In a (f i) -> In b (f j) -> R a b) -> chain R (flat_map f (seq s n)).
Proof.
  intros H1 H2. revert s. induction n as [|n IH]; intros s; [constructor|]. cbn [seq flat_map]. apply chain_app; [apply H1|apply IH|].
  intros a b Ha Hb. apply in_flat_map in Hb. destruct Hb as (j & Hj & Hb). apply in_seq in Hj. apply (H2 s j); [lia|assumption|assumption].
Qed.
Lemma chain_nth {A} (R : A -> A -> Prop) l : chain R l -> forall i j a b, (i < j)%nat -> nth_error l i = Some a -> nth_error l j = Some b -> R a b.
Proof.
  induction 1 as [|x l Hx _ IH]; intros i j a b Hij Ha Hb; [destruct i; discriminate|].
  destruct j as [|j]; [lia|]. cbn [nth_error] in Hb. destruct i as [|i].
  - cbn in Ha. injection Ha as <-. apply Hx. eapply nth_error_In; eassumption.
  - cbn in Ha. apply (IH i j); [lia|assumption|assumption].
Qed.
Lemma C109_written_lemma X N D M : lists_ones X N D M (sparse X N D M).
Proof.
  split; [intros n d m; apply sparse_in|]. apply chain_nth. unfold sparse. apply chain_flat.
  - intros n. apply chain_flat.
    + intros d. apply chain_flat.
      * intros m. destruct (at3 X n d m =? 1); [constructor; [intros b []|constructor]|constructor].
      * intros i j a b Hij Ha Hb. destruct (at3 X n d i =? 1), (at3 X n d j =? 1); try contradiction.
        destruct Ha as [<-|[]], Hb as [<-|[]]. cbn. lia.
    + intros i j a b Hij Ha Hb. apply in_flat_map in Ha, Hb. destruct Ha as (m & _ & Ha), Hb as (m' & _ & Hb).
      destruct (at3 X n i m =? 1), (at3 X n j m' =? 1); try contradiction. destruct Ha as [<-|[]], Hb as [<-|[]]. cbn. lia.
  - intros i j a b Hij Ha Hb. apply in_flat_map in Ha, Hb. destruct Ha as (d & _ & Ha), Hb as (d' & _ & Hb).
    apply in_flat_map in Ha, Hb. destruct Ha as (m & _ & Ha), Hb as (m' & _ & Hb).
    destruct (at3 X i d m =? 1), (at3 X j d' m' =? 1); try contradiction. destruct Ha as [<-|[]], Hb as [<-|[]]. cbn. lia.
Qed.

(** * Dense factors *)
Lemma np_index_in dim i : 0 <= i < Z.of_nat dim -> np_index dim i = Ok (Z.to_nat i).
Proof. intros H. unfold np_index. destruct (Z.leb_spec 0 i), (Z.ltb_spec i (Z.of_nat dim)); cbn [andb]; try lia. reflexivity. Qed.
Lemma np_index_out dim i : i < - Z.of_nat dim \/ Z.of_nat dim <= i -> np_index dim i = Err IndexError.
Proof.
  intros H. unfold np_index. destruct (Z.leb_spec 0 i), (Z.ltb_spec i (Z.of_nat dim)); cbn [andb]; try lia;
  destruct (Z.leb_spec (- Z.of_nat dim) i), (Z.ltb_spec i 0); cbn [andb]; try lia; reflexivity.
Qed.
Lemma np_index_neg dim i : - Z.of_nat dim <= i < 0 -> np_index dim i = Ok (Z.to_nat (i + Z.of_nat dim)).
Proof.
  intros H. unfold np_index. destruct (Z.leb_spec 0 i); [lia|]. cbn [andb].
  destruct (Z.leb_spec (- Z.of_nat dim) i), (Z.ltb_spec i 0); cbn [andb]; try lia. reflexivity.
Qed.
Definition shaped (F : list (list bool)) (dim L : nat) : Prop := List.length F = dim /\ Forall (fun r => List.length r = L) F.
Lemma shaped_row F dim L a : shaped F dim L -> (a < dim)%nat -> List.length (nth a F []) = L.
Proof. intros (E & H) Ha. rewrite Forall_forall in H. apply H. apply nth_In. lia. Qed.
Lemma shaped_upd F dim L a b : shaped F dim L -> (a < dim)%nat -> shaped (upd F a (upd (nth a F []) b true)) dim L.
Proof.
  intros HF Ha. split; [rewrite upd_length; apply HF|]. apply Forall_forall. intros r Hr. destruct (In_nth _ _ [] Hr) as (k & Hk & <-).
  rewrite upd_length in Hk. destruct HF as (E & H). destruct (Nat.eq_dec k a) as [->|Hn].
  - rewrite nth_upd_same by lia. rewrite upd_length. apply (shaped_row F dim L); [split; assumption|assumption].
  - rewrite nth_upd_other by assumption. apply (shaped_row F dim L); [split; assumption|lia].
Qed.
Lemma upd_entry F dim L a b i j : shaped F dim L -> (a < dim)%nat -> (b < L)%nat ->
  nth j (nth i (upd F a (upd (nth a F []) b true)) []) false = true <-> (i = a /\ j = b) \/ nth j (nth i F []) false = true.
Proof.
  intros HF Ha Hb. assert (E : List.length F = dim) by apply HF. pose proof (shaped_row F dim L a HF Ha) as ER. destruct (Nat.eq_dec i a) as [->|Hi].
  - rewrite nth_upd_same by lia. destruct (Nat.eq_dec j b) as [->|Hj].
    + rewrite nth_upd_same by lia. tauto.
    + rewrite nth_upd_other by assumption. split; [tauto|]. intros [(_ & K)|K]; [contradiction|assumption].
  - rewrite nth_upd_other by assumption. split; [tauto|]. intros [(K & _)|K]; [contradiction|assumption].
Qed.
Lemma set_pairs_spec dim L p : within p dim L -> forall F, shaped F dim L ->
  exists F', set_pairs F dim L p = Ok F' /\ shaped F' dim L /\
  forall i j, (i < dim)%nat -> (j < L)%nat -> (nth j (nth i F' []) false = true <-> nth j (nth i F []) false = true \/ In (Z.of_nat i, Z.of_nat j) p).
Proof.
  induction p as [|[a b] p IH]; intros H F HF.
  - exists F. split; [reflexivity|]. split; [assumption|]. intros i j _ _. cbn [In]. tauto.
  - destruct (H a b (or_introl eq_refl)) as (Ha & Hb). cbn [set_pairs]. rewrite (np_index_in dim a Ha), (np_index_in L b Hb). cbn [bind].
    destruct (IH (fun i j K => H i j (or_intror K)) (upd F (Z.to_nat a) (upd (nth (Z.to_nat a) F []) (Z.to_nat b) true))) as (F' & E & HF' & K).
    { apply shaped_upd; [assumption|lia]. }
    exists F'. split; [exact E|]. split; [assumption|]. intros i j Hi Hj. rewrite (K i j Hi Hj), (upd_entry F dim L) by (try assumption; lia).
    cbn [In]. split.
    + intros [[(-> & ->)|Q]|Q]; [right; left; rewrite !Z2Nat.id by lia; reflexivity|tauto|tauto].
    + intros [Q|[Q|Q]]; [tauto| |tauto]. injection Q as -> ->. left. left. rewrite !Nat2Z.id. split; reflexivity.
Qed.
Lemma nth_repeat_any {A} (x : A) n i d : (i < n)%nat -> nth i (repeat x n) d = x.
Proof. revert i. induction n as [|n IH]; intros [|i] H; try lia; [reflexivity|]. cbn. apply IH. lia. Qed.
Lemma zeros_shaped dim L : shaped (repeat (repeat false L) dim) dim L.
Proof. split; [apply repeat_length|]. apply Forall_forall. intros r Hr. apply repeat_spec in Hr. subst r. apply repeat_length. Qed.
Lemma zeros_entry dim L i j : (i < dim)%nat -> (j < L)%nat -> nth j (nth i (repeat (repeat false L) dim) []) false = false.
Proof. intros Hi Hj. rewrite nth_repeat_any by assumption. apply nth_repeat_any. assumption. Qed.
Lemma dense_spec lines dim L : List.length lines <> 1%nat -> within lines dim L ->
  exists F, dense (loadtxt lines) dim L = Ok F /\ indicator_of F dim L lines.
Proof.
  intros H1 HW. destruct (set_pairs_spec dim L lines HW _ (zeros_shaped dim L)) as (F & E & (S1 & S2) & K).
  exists F. split.
  - destruct lines as [|[a b] [|q r]]; [|cbn in H1; lia|exact E]. cbn in E |- *. exact E.
  - split; [exact S1|]. split; [exact S2|]. intros i j Hi Hj. rewrite (K i j Hi Hj), zeros_entry by assumption. split; [intros [Q|Q]; [discriminate|assumption]|tauto].
Qed.

(** * The whole function *)
Section Call.
  Context (prog : program) (fs : files) (X : ten) (N D M L : nat) (f1 f2 f3 : list (Z * Z)).
  Context (HP : prog (N, D, M) L (TensorFile (N, D, M) 0 (sparse X N D M)) fs = (f1, f2, f3)).

  Lemma C109_product_lemma : within f1 N L -> within f2 D L -> within f3 M L ->
    List.length f1 <> 1%nat -> List.length f2 <> 1%nat -> List.length f3 <> 1%nat ->
    exists Y Z_ U V, dbtf_reconstruct prog fs X N D M L true = ((f1, f2, f3), Ok (Some Y, [Z_; U; V])) /\
      dbtf_reconstruct prog fs X N D M L false = ((f1, f2, f3), Ok (None, [Z_; U; V])) /\
      indicator_of Z_ N L f1 /\ indicator_of U D L f2 /\ indicator_of V M L f3 /\ sum_of_blocks Y N D M L f1 f2 f3.
  Proof.
    intros W1 W2 W3 L1 L2 L3. destruct (dense_spec f1 N L L1 W1) as (Z_ & E1 & I1). destruct (dense_spec f2 D L L2 W2) as (U & E2 & I2).
    destruct (dense_spec f3 M L L3 W3) as (V & E3 & I3). destruct (proj1 (C51_lemma Z_ U V L L L) eq_refl eq_refl) as (Y & EY & S1 & S2 & K).
    exists Y, Z_, U, V. unfold dbtf_reconstruct. rewrite HP, E1, E2, E3. cbn [bind]. rewrite EY. cbn [bind].
    split; [reflexivity|]. split; [reflexivity|]. split; [exact I1|]. split; [exact I2|]. split; [exact I3|].
    destruct I1 as (A1 & _ & B1), I2 as (A2 & _ & B2), I3 as (A3 & _ & B3). split; [congruence|]. split; [rewrite A2, A3 in S2; exact S2|].
    intros n d m Hn Hd Hm. rewrite <- A1 in Hn. rewrite <- A2 in Hd. rewrite <- A3 in Hm. destruct (K n d m Hn Hd Hm) as (K1 & _). cbv zeta in K1. rewrite K1.
    rewrite A1 in Hn. rewrite A2 in Hd. rewrite A3 in Hm. split.
    - intros (l & Hl & Q1 & Q2 & Q3). exists (Z.of_nat l). split; [lia|]. split; [apply B1; assumption|]. split; [apply B2; assumption|apply B3; assumption].
    - intros (l & Hl & Q1 & Q2 & Q3). exists (Z.to_nat l). split; [lia|].
      assert (E : l = Z.of_nat (Z.to_nat l)) by lia. rewrite E in Q1, Q2, Q3.
      split; [apply B1; [assumption|lia|assumption]|]. split; [apply B2; [assumption|lia|assumption]|apply B3; [assumption|lia|assumption]].
  Qed.

  (** A file with exactly one line is loaded as two numbers. *)
  Lemma dense_single lines dim : List.length lines = 1%nat -> dense (loadtxt lines) dim L = Err TypeError.
  Proof. destruct lines as [|[a b] [|q r]]; cbn; intros H; try lia. reflexivity. Qed.
  Lemma C109_single_lemma co : within f1 N L -> within f2 D L -> within f3 M L ->
    List.length f1 = 1%nat \/ List.length f2 = 1%nat \/ List.length f3 = 1%nat ->
    dbtf_reconstruct prog fs X N D M L co = ((f1, f2, f3), Err TypeError).
  Proof.
    intros W1 W2 W3 H. unfold dbtf_reconstruct. rewrite HP. f_equal.
    destruct (Nat.eq_dec (List.length f1) 1) as [E1|E1]; [rewrite (dense_single f1 N E1); reflexivity|].
    destruct (dense_spec f1 N L E1 W1) as (Z_ & Q1 & _). rewrite Q1. cbn [bind].
    destruct (Nat.eq_dec (List.length f2) 1) as [E2|E2]; [rewrite (dense_single f2 D E2); reflexivity|].
    destruct (dense_spec f2 D L E2 W2) as (U & Q2 & _). rewrite Q2. cbn [bind].
    destruct (Nat.eq_dec (List.length f3) 1) as [E3|E3]; [rewrite (dense_single f3 M E3); reflexivity|]. lia.
  Qed.
End Call.

(** An index past the end, such as those of a program that counts from 1, raises IndexError; a negative one is taken from the end. *)
Lemma set_pairs_out dim L p : (exists i j, In (i, j) p /\ (Z.of_nat dim <= i \/ Z.of_nat L <= j)) ->
  (forall i j, In (i, j) p -> 0 <= i /\ 0 <= j) -> forall F, set_pairs F dim L p = Err IndexError.
Proof.
  induction p as [|[a b] p IH]; intros (i & j & HI & HO) HP F; [destruct HI|]. destruct (HP a b (or_introl eq_refl)) as (Pa & Pb). cbn [set_pairs].
  destruct (Z_lt_le_dec a (Z.of_nat dim)) as [Ha|Ha]; [|rewrite np_index_out by (right; exact Ha); reflexivity].
  rewrite (np_index_in dim a) by lia. cbn [bind].
  destruct (Z_lt_le_dec b (Z.of_nat L)) as [Hb|Hb]; [|rewrite np_index_out by (right; exact Hb); reflexivity].
  rewrite (np_index_in L b) by lia. cbn [bind]. apply IH; [|intros x y K; apply (HP x y); right; exact K].
  destruct HI as [HI|HI]; [|exists i, j; split; assumption]. injection HI as -> ->. lia.
Qed.
Lemma C109_range_lemma prog fs X N D M L f1 f2 f3 co : prog (N, D, M) L (TensorFile (N, D, M) 0 (sparse X N D M)) fs = (f1, f2, f3) ->
  List.length f1 <> 1%nat -> (forall i j, In (i, j) f1 -> 0 <= i /\ 0 <= j) -> ~ within f1 N L ->
  dbtf_reconstruct prog fs X N D M L co = ((f1, f2, f3), Err IndexError).
Proof.
  intros HP HL HN HW. unfold dbtf_reconstruct. rewrite HP. f_equal.
  assert (HE : exists i j, In (i, j) f1 /\ (Z.of_nat N <= i \/ Z.of_nat L <= j)).
  { clear HP HL. assert (HD : forall p, (exists i j, In (i, j) p /\ (Z.of_nat N <= i \/ Z.of_nat L <= j)) \/ (forall i j, In (i, j) p -> i < Z.of_nat N /\ j < Z.of_nat L)).
    { induction p as [|[a b] p [(i & j & HI & HO)|IH]]; [right; intros i j []|left; exists i, j; split; [right; exact HI|exact HO]|].
      destruct (Z_lt_le_dec a (Z.of_nat N)) as [Ha|Ha]; [|left; exists a, b; split; [left; reflexivity|left; exact Ha]].
      destruct (Z_lt_le_dec b (Z.of_nat L)) as [Hb|Hb]; [|left; exists a, b; split; [left; reflexivity|right; exact Hb]].
      right. intros i j [K|K]; [injection K as <- <-; auto|apply IH; exact K]. }
    destruct (HD f1) as [K|K]; [exact K|]. exfalso. apply HW. intros i j HI. destruct (K i j HI), (HN i j HI). lia. }
  assert (E : dense (loadtxt f1) N L = Err IndexError).
  { destruct f1 as [|[a b] [|q r]]; [destruct HE as (i & j & [] & _)|cbn in HL; lia|]. unfold loadtxt, dense. apply set_pairs_out; assumption. }
  rewrite E. reflexivity.
Qed.

(** A program that fails leaves the files of an earlier run, and these are what is read. *)
Lemma C109_stale_lemma prog fs X X' N D M L co : (forall a l t, prog a l t fs = fs) ->
  dbtf_reconstruct prog fs X N D M L co = dbtf_reconstruct prog fs X' N D M L co.
Proof. intros H. unfold dbtf_reconstruct. rewrite !H. reflexivity. Qed.
