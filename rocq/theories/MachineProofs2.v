(** C06, C57: adding layers. *)
From Coq Require Import String Permutation.
From Verif Require Import Base BaseR BaseLemmas Spec SpecR HelpersProofs Canon Sampling MaxMachine Machine Inference SpecMachine MachineProofs.
Local Open Scope R_scope.

Lemma wrap8_opp x : tern x -> wrap8 (- x) = (- x)%Z.
Proof. intros [->|[->| ->]]; reflexivity. Qed.
Lemma nth_map_0 (f : Z -> Z) v i : f 0%Z = 0%Z -> nth i (map f v) 0%Z = f (nth i v 0%Z).
Proof. intros H. rewrite <- H at 1. apply map_nth. Qed.
Lemma neg_row v : tern1 v -> forall j, at1 (map (fun x => wrap8 (- x)) v) j = (- at1 v j)%Z.
Proof.
  intros Hv j. unfold at1. rewrite nth_map_0 by reflexivity. apply wrap8_opp.
  destruct (nth_in_or_default j v 0%Z) as [H| ->]; [exact (proj1 (Forall_forall _ _) Hv _ H)|right; right; reflexivity].
Qed.
Lemma neg_mat m : tern2 m -> forall i j, at2 (map (map (fun x => wrap8 (- x))) m) i j = (- at2 m i j)%Z.
Proof.
  intros Hm i j. unfold at2, row. etransitivity; [exact (f_equal (fun r => at1 r j) (map_nth (map (fun x => wrap8 (- x))) m [] i))|].
  apply neg_row. destruct (nth_in_or_default i m []) as [H| ->]; [exact (proj1 (Forall_forall _ _) Hm _ H)|constructor].
Qed.
Lemma hd_map_len {A B} (f : list A -> list B) l : (forall x, List.length (f x) = List.length x) -> List.length (hd [] (map f l)) = List.length (hd [] l).
Proof. intros H. destruct l; cbn; auto. Qed.
Lemma neg_shape a : shape_of (neg_arr a) = shape_of a.
Proof.
  destruct a as [m|t]; unfold neg_arr, shape_of, nrows, ncols.
  - rewrite map_length, hd_map_len by (intros; apply map_length). reflexivity.
  - rewrite map_length. destruct t as [|m t]; [reflexivity|]. cbn [hd map]. rewrite map_length, hd_map_len by (intros; apply map_length). reflexivity.
Qed.
Lemma neg_opposite a : ternary a -> opposite a (neg_arr a).
Proof.
  intros H. split; [apply neg_shape|]. destruct a as [m|t]; intros i j k; cbn [neg_arr entry].
  - apply neg_mat, H.
  - unfold at3, slab. etransitivity; [exact (f_equal (fun r => at2 r j k) (map_nth (map (map (fun x => wrap8 (- x)))) t [] i))|].
    apply neg_mat. destruct (nth_in_or_default i t []) as [E| ->]; [exact (proj1 (Forall_forall _ _) H _ E)|constructor].
Qed.
Lemma random_binary r n l : binary_matrix n l (random_arr r [n; l]).
Proof.
  eexists. split; [reflexivity|]. split; [split|].
  - rewrite map_length, seq_length. reflexivity.
  - apply Forall_forall. intros v Hv. apply in_map_iff in Hv. destruct Hv as (i & <- & _). rewrite map_length, seq_length. reflexivity.
  - apply Forall_forall. intros v Hv. apply in_map_iff in Hv. destruct Hv as (i & <- & _).
    apply Forall_forall. intros x Hx. apply in_map_iff in Hx. destruct Hx as (j & <- & _). destruct (Rltb _ _); [left|right]; reflexivity.
Qed.

Lemma stored_val w j : stored w -> (j < List.length (mats w))%nat -> (val (get_mat w j) < List.length (arrays w))%nat.
Proof. intros H Hj. apply (proj1 (Forall_forall _ _) H). apply nth_In, Hj. Qed.
Lemma get_arr_write w a b x : (b < List.length (arrays w))%nat -> get_arr (write w b x) a = if Nat.eqb a b then x else get_arr w a.
Proof.
  intros Hb. unfold get_arr, write, set_arrays. cbn [arrays]. destruct (Nat.eqb_spec a b) as [->|H]; [apply nth_upd_same; exact Hb|apply nth_upd_other; exact H].
Qed.
Lemma stored_write w a x : stored w -> stored (write w a x).
Proof. unfold stored, write, set_arrays. cbn [arrays mats]. rewrite upd_length. auto. Qed.
Lemma combine_nth_seq n sh k : List.length sh = n -> (k < n)%nat ->
  nth k (combine (seq 0 n) (combine (seq 0 n) sh)) (0, (0, 0))%nat = (k, (k, nth k sh 0))%nat.
Proof.
  intros Hs Hk. rewrite combine_nth by (rewrite combine_length, seq_length; lia). rewrite seq_nth by exact Hk.
  rewrite combine_nth by (rewrite seq_length; lia). rewrite seq_nth by exact Hk. reflexivity.
Qed.

(** The common part of both ways of adding a layer: factors are appended, then the layer is made. *)
Lemma add_layer_core o w sh K c m inv invf : stored w -> (c < List.length (mats w))%nat ->
  let n0 := List.length (mats w) in let n := List.length sh in
  let w' := new_layer o (add_factors o K (combine (seq 0 n) sh) w) (seq n0 n) c m K inv invf in
  exists lay, layers w' = (layers w ++ [lay])%list /\ child lay = c /\ model lay = m /\ invert_data lay = inv /\ invert_factors lay = invf /\
  factors lay = seq n0 n /\ free w' = free w /\
  q lay = (if String.eqb m "qL-AND" then Some (n0 + n)%nat else None) /\
  List.length (mats w') = (n0 + n + (if String.eqb m "qL-AND" then 1 else 0))%nat /\
  (forall j, (j < n0)%nat -> value w' j = value w j /\ let m0 := get_mat w j in let m1 := get_mat w' j in
     val m1 = val m0 /\ axis m1 = axis m0 /\ fixed m1 = fixed m0 /\ fixed_entries m1 = fixed_entries m0 /\ bprior m1 = bprior m0 /\ sfct m1 = sfct m0 /\
     layer_of m1 = layer_of m0 /\ parents m1 = (if Nat.eqb j c then parents m0 ++ [List.length (layers w)] else parents m0)%list) /\
  (forall k, (k < n)%nat -> let f := (n0 + k)%nat in axis (get_mat w' f) = Some k /\ layer_of (get_mat w' f) = Some (List.length (layers w)) /\
     fixed (get_mat w' f) = FBool false /\ val (get_mat w' f) = (List.length (arrays w) + k)%nat /\ binary_matrix (nth k sh 0%nat) K (value w' f)).
Proof.
  intros Hs Hc n0 n w'.
  destruct (add_factors_spec o K (combine (seq 0 n) sh) w) as (A1 & A2' & A3 & A4 & A5). cbv zeta in *.
  set (wf := add_factors o K (combine (seq 0 n) sh) w) in *.
  assert (Lc : List.length (combine (seq 0 n) sh) = n) by (rewrite combine_length, seq_length; fold n; lia).
  rewrite Lc in A1, A2'.
  assert (Lm : List.length (mats wf) = (n0 + n)%nat).
  { rewrite A2', app_length, map_length, combine_length, seq_length, Lc. fold n0. lia. }
  destruct (new_layer_spec o wf (seq n0 n) c m K inv invf) as (xs & ms & lay & B1 & B2 & B3 & B4 & B5 & B6 & B7 & B8 & B9 & B10 & _ & B11); [rewrite Lm; unfold n0; lia|].
  cbv zeta in *. fold wf w' in B1, B2, B3, B10, B11 |- *. rewrite A3 in B2, B11. rewrite Lm in *. fold n0 n wf w'. clearbody w'.
  exists lay. split; [exact B2|]. split; [exact B5|]. split; [exact B6|]. split; [exact B7|]. split; [exact B8|]. split; [exact B4|]. split; [rewrite B3; exact A4|].
  split; [exact B9|]. split; [exact B10|].
  assert (NI : forall j, existsb (Nat.eqb j) (seq n0 n) = Nat.leb n0 j && Nat.ltb j (n0 + n)).
  { intros j. destruct (existsb _ _) eqn:E.
    - apply existsb_exists in E. destruct E as (x & Hx & E). apply Nat.eqb_eq in E. subst x. apply in_seq in Hx.
      rewrite (proj2 (Nat.leb_le _ _)), (proj2 (Nat.ltb_lt _ _)) by lia. reflexivity.
    - destruct (Nat.leb_spec n0 j), (Nat.ltb_spec j (n0 + n)); cbn; auto. assert (existsb (Nat.eqb j) (seq n0 n) = true); [|congruence].
      apply existsb_exists. exists j. rewrite Nat.eqb_refl. split; auto. apply in_seq. lia. }
  split.
  - intros j Hj. destruct (B11 j) as (C1 & C2 & C3 & C4 & C5 & C6 & C7 & C8); [lia|].
    rewrite NI in C7. rewrite (proj2 (Nat.leb_gt n0 j)) in C7 by exact Hj. cbn [andb] in C7.
    assert (E : get_mat wf j = get_mat w j) by (eapply get_mat_app; [exact A2'|exact Hj]).
    rewrite E in *. split; [|repeat split; assumption].
    unfold value. rewrite C1. pose proof (stored_val w j Hs Hj) as Hv.
    etransitivity; [eapply (get_arr_app wf); [exact B1|rewrite A1, app_length; lia]|]. eapply get_arr_app; [exact A1|exact Hv].
  - intros k Hk. cbv zeta. destruct (B11 (n0 + k)%nat) as (C1 & C2 & C3 & C4 & C5 & C6 & C7 & C8); [lia|].
    rewrite NI, (proj2 (Nat.leb_le _ _)), (proj2 (Nat.ltb_lt _ _)) in C7 by lia. cbn [andb] in C7.
    assert (E : get_mat wf (n0 + k) = Mat (List.length (arrays w) + k) (Some k) (FBool false)
       (zeros_like (random_arr (o_init o (clock w + k)) [nth k sh 0%nat; K])) (1/2) None [] None).
    { unfold get_mat. rewrite A2', app_nth2 by (unfold n0; lia). fold n0. replace (n0 + k - n0)%nat with k by lia.
      rewrite (nth_map_lt _ _ k (0, (0, 0))%nat no_matrix) by (rewrite combine_length, seq_length, Lc; lia).
      rewrite (combine_nth_seq n sh k eq_refl Hk). reflexivity. }
    rewrite E in *. cbn [axis fixed val] in *. repeat split; auto.
    unfold value. rewrite C1.
    assert (G : get_arr wf (List.length (arrays w) + k) = random_arr (o_init o (clock w + k)) [nth k sh 0%nat; K]).
    { unfold get_arr. rewrite A1, app_nth2 by lia. replace (List.length (arrays w) + k - List.length (arrays w))%nat with k by lia.
      rewrite (nth_map_lt _ _ k (0, (0, 0))%nat (A2 [])) by (rewrite combine_length, seq_length, Lc; lia).
      rewrite (combine_nth_seq n sh k eq_refl Hk). reflexivity. }
    rewrite (get_arr_app wf _ xs _ B1), G; [apply random_binary|].
    rewrite A1, app_length, map_length, combine_length, seq_length, Lc. lia.
Qed.

(** What a successful call on an existing child does. *)
Lemma C06_lemma o w K c m w' : stored w -> (c < List.length (mats w))%nat -> ternary (value w c) ->
  add_layer o w K (Some c) None m = (w', Ok tt) ->
  exists lay, layers w' = (layers w ++ [lay])%list /\ child lay = c /\ canonise_name m = Ok (model lay, invert_data lay, invert_factors lay) /\
  (invert_data lay = false -> value w' c = value w c) /\
  (invert_data lay = true -> opposite (value w c) (value w' c)) /\
  (forall j, (j < List.length (mats w))%nat -> invert_data lay = false \/ val (get_mat w j) <> val (get_mat w c) -> value w' j = value w j) /\
  factors lay = seq (List.length (mats w)) (List.length (shape_of (value w c))) /\
  forall k, (k < List.length (shape_of (value w c)))%nat -> let f := (List.length (mats w) + k)%nat in
    axis (get_mat w' f) = Some k /\ layer_of (get_mat w' f) = Some (List.length (layers w)) /\ binary_matrix (nth k (shape_of (value w c)) 0%nat) K (value w' f).
Proof.
  intros Hs Hc Ht H. unfold add_layer, canonise_model in H. destruct (canonise_name m) as [[[m' inv] invf]|e] eqn:Em; [|discriminate].
  set (w0 := if inv then write w (val (get_mat w c)) (neg_arr (value w c)) else w).
  assert (H' : new_layer o (add_factors o K (combine (seq 0 (List.length (shape_of (value w0 c)))) (shape_of (value w0 c))) w0)
      (seq (List.length (mats w0)) (List.length (shape_of (value w0 c)))) c m' K inv invf = w').
  { unfold w0. destruct inv; injection H as H; exact H. }
  assert (Hs0 : stored w0) by (unfold w0; destruct inv; [apply stored_write|]; exact Hs).
  assert (M0 : mats w0 = mats w) by (unfold w0; destruct inv; reflexivity).
  assert (L0 : layers w0 = layers w) by (unfold w0; destruct inv; reflexivity).
  pose proof (stored_val w c Hs Hc) as Hv.
  assert (V0 : forall j, value w0 j = if inv && Nat.eqb (val (get_mat w j)) (val (get_mat w c)) then neg_arr (value w c) else value w j).
  { intros j. unfold w0. destruct inv; cbn [andb]; [|reflexivity]. unfold value at 1. change (get_mat (write _ _ _) j) with (get_mat w j).
    rewrite get_arr_write by exact Hv. reflexivity. }
  assert (Sh : shape_of (value w0 c) = shape_of (value w c)).
  { rewrite V0, Nat.eqb_refl, andb_true_r. destruct inv; [apply neg_shape|reflexivity]. }
  rewrite Sh, M0 in H'.
  destruct (add_layer_core o w0 (shape_of (value w c)) K c m' inv invf Hs0) as (lay & A1 & A2' & A3 & A4 & A5 & A6 & _ & _ & _ & A7 & A8); [rewrite M0; exact Hc|].
  cbv zeta in *. rewrite M0, L0, H' in *.
  exists lay. split; [exact A1|]. split; [exact A2'|]. split; [rewrite A3, A4, A5; reflexivity|].
  rewrite A4.
  destruct (A7 c Hc) as (Ec & _). rewrite V0, Nat.eqb_refl, andb_true_r in Ec.
  split; [intros ->; exact Ec|]. split; [intros ->; rewrite Ec; apply neg_opposite, Ht|].
  split.
  - intros j Hj Hd. destruct (A7 j Hj) as (E & _). rewrite E, V0. destruct Hd as [->|Hd]; [reflexivity|].
    rewrite (proj2 (Nat.eqb_neq _ _) Hd), andb_false_r. reflexivity.
  - split; [exact A6|]. intros k Hk. destruct (A8 k Hk) as (E1 & E2 & _ & _ & E3). auto.
Qed.

(** Another matrix made from the same array changes as well. *)
Lemma C06_refuted_lemma o w K c j m w' : stored w -> (c < List.length (mats w))%nat -> (j < List.length (mats w))%nat -> ternary (value w c) ->
  add_layer o w K (Some c) None m = (w', Ok tt) -> val (get_mat w j) = val (get_mat w c) ->
  (exists m' invf, canonise_name m = Ok (m', true, invf)) -> opposite (value w j) (value w' j).
Proof.
  intros Hs Hc Hj Ht H Ev (m' & invf & Em). unfold add_layer, canonise_model in H. rewrite Em in H.
  set (w0 := write w (val (get_mat w c)) (neg_arr (value w c))) in *. injection H as H.
  assert (Hs0 : stored w0) by (apply stored_write; exact Hs).
  destruct (add_layer_core o w0 (shape_of (value w0 c)) K c m' true invf Hs0 Hc) as (lay & _ & _ & _ & _ & _ & _ & _ & _ & _ & A7 & _).
  cbv zeta in *. unfold add_factors in A7. change (mats w0) with (mats w) in A7. rewrite H in A7. destruct (A7 j Hj) as (E & _). rewrite E.
  unfold value at 2. change (get_mat w0 j) with (get_mat w j). unfold w0. rewrite get_arr_write by (apply stored_val; assumption).
  rewrite Ev, Nat.eqb_refl. replace (value w j) with (value w c) by (unfold value; rewrite Ev; reflexivity). apply neg_opposite, Ht.
Qed.

(** A failed call. *)
Lemma C57_partial_lemma o w K c shape m w' e : add_layer o w K c shape m = (w', Err e) ->
  (forall m' invf, canonise_name m <> Ok (m', true, invf)) \/ c = None \/ shape = None -> w' = w.
Proof.
  unfold add_layer, canonise_model. destruct (canonise_name m) as [[[m' inv] invf]|e0] eqn:Em; [|intros H _; injection H as <- _; reflexivity].
  destruct inv.
  - destruct c as [c|]; [|intros H _; injection H as <- _; reflexivity].
    destruct shape as [sh|]; [|intros H; discriminate H]. intros H [Hn|[Hn|Hn]]; try discriminate. exfalso. exact (Hn m' invf eq_refl).
  - destruct c, shape; intros H _; try discriminate H; injection H as <- _; reflexivity.
Qed.
Lemma C57_refuted_lemma o w K c sh m m' invf : stored w -> (c < List.length (mats w))%nat -> ternary (value w c) ->
  canonise_name m = Ok (m', true, invf) ->
  (exists w', add_layer o w K (Some c) (Some sh) m = (w', Err ValueError) /\ opposite (value w c) (value w' c)) /\
  (forall sh', add_layer o w K None (Some sh') m = (w, Err AttributeError)).
Proof.
  intros Hs Hc Ht Em. unfold add_layer, canonise_model. rewrite Em. split; [|reflexivity].
  eexists. split; [reflexivity|]. unfold value at 2. change (get_mat (write _ _ _) c) with (get_mat w c).
  rewrite get_arr_write, Nat.eqb_refl by (apply stored_val; assumption). apply neg_opposite, Ht.
Qed.
(** A layer from a shape is made for every model that does not invert the data. *)
Lemma C57_shape_lemma o w K sh m m' invf : canonise_name m = Ok (m', false, invf) ->
  exists w', add_layer o w K None (Some sh) m = (w', Ok tt).
Proof. intros Em. unfold add_layer, canonise_model. rewrite Em. eexists. reflexivity. Qed.
