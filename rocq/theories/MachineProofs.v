(** Proofs about building machines: add_matrix, add_layer. *)
From Coq Require Import String Permutation.
From Verif Require Import Base BaseR BaseLemmas Spec SpecR Canon Sampling MaxMachine Machine Inference SpecMachine.
Local Open Scope R_scope.

Lemma get_mat_app w1 w2 ms i : mats w2 = (mats w1 ++ ms)%list -> (i < List.length (mats w1))%nat -> get_mat w2 i = get_mat w1 i.
Proof. intros H Hi. unfold get_mat. rewrite H. apply app_nth1. exact Hi. Qed.
Lemma get_arr_app w1 w2 xs a : arrays w2 = (arrays w1 ++ xs)%list -> (a < List.length (arrays w1))%nat -> get_arr w2 a = get_arr w1 a.
Proof. intros H Hi. unfold get_arr. rewrite H. apply app_nth1. exact Hi. Qed.
Lemma get_mat_set w i j m : get_mat (set_mat w i m) j = if Nat.eqb j i && Nat.ltb i (List.length (mats w)) then m else get_mat w j.
Proof.
  unfold get_mat, set_mat, set_mats. cbn [mats].
  destruct (Nat.eqb_spec j i) as [->|Hj]; cbn [andb]; [|apply nth_upd_other; exact Hj].
  destruct (Nat.ltb_spec i (List.length (mats w))); [apply nth_upd_same; assumption|rewrite upd_oob by lia; reflexivity].
Qed.

(** The factors made for a child. *)
Definition add_factors (o : oracle) (K : nat) (l : list (nat * nat)) (w : world) : world :=
  fold_left (fun w' '(ax, n) => new_random_matrix o w' [n; K] (Some ax)) l w.
Lemma add_factors_spec o K l : forall w, let w' := add_factors o K l w in
  arrays w' = (arrays w ++ map (fun '(k, (_, n)) => random_arr (o_init o (clock w + k)) [n; K]) (combine (seq 0 (List.length l)) l))%list /\
  mats w' = (mats w ++ map (fun '(k, (ax, n)) => Mat (List.length (arrays w) + k) (Some ax) (FBool false)
     (zeros_like (random_arr (o_init o (clock w + k)) [n; K])) (1/2) None [] None) (combine (seq 0 (List.length l)) l))%list /\
  layers w' = layers w /\ free w' = free w /\ anneal w' = anneal w.
Proof.
  induction l as [|[ax n] l IH]; intros w.
  - cbn. rewrite !app_nil_r. auto.
  - cbv zeta. cbn [add_factors fold_left]. change (fold_left _ l ?w0) with (add_factors o K l w0).
    destruct (IH (new_random_matrix o w [n; K] (Some ax))) as (H1 & H2 & H3 & H4 & H5). cbv zeta in *.
    assert (Es : combine (seq 0 (List.length ((ax, n) :: l))) ((ax, n) :: l) = (0%nat, (ax, n)) :: map (fun '(k, p) => (S k, p)) (combine (seq 0 (List.length l)) l)).
    { cbn [List.length seq combine]. f_equal. rewrite <- seq_shift. generalize (seq 0 (List.length l)). clear.
      intros s. revert l. induction s as [|x s IH]; intros [|y l]; cbn; auto. f_equal. apply IH. }
    rewrite Es. cbn [map]. rewrite !map_map.
    assert (Ea : arrays (new_random_matrix o w [n; K] (Some ax)) = (arrays w ++ [random_arr (o_init o (clock w)) [n; K]])%list) by reflexivity.
    assert (Ec : clock (new_random_matrix o w [n; K] (Some ax)) = S (clock w)) by reflexivity.
    split; [|split; [|split; [|split]]].
    + rewrite H1, Ea, <- app_assoc. cbn [app]. rewrite Nat.add_0_r. do 2 f_equal. apply map_ext. intros [k [a b]].
      rewrite Ec. replace (S (clock w) + k)%nat with (clock w + S k)%nat by lia. reflexivity.
    + rewrite H2. cbn [new_random_matrix new_matrix set_mats mats]. cbn [tick set_arrays mats]. rewrite <- app_assoc. cbn [app].
      f_equal. f_equal.
      * rewrite !Nat.add_0_r. f_equal. unfold get_arr. cbn [arrays set_arrays tick]. rewrite app_nth2, Nat.sub_diag by lia. reflexivity.
      * apply map_ext. intros [k [a b]]. rewrite Ec, Ea, app_length. cbn [List.length].
        replace (S (clock w) + k)%nat with (clock w + S k)%nat by lia. replace (List.length (arrays w) + 1 + k)%nat with (List.length (arrays w) + S k)%nat by lia. reflexivity.
    + rewrite H3. reflexivity.
    + rewrite H4. reflexivity.
    + rewrite H5. reflexivity.
Qed.

(** new_layer changes attributes of matrices only as far as [layer] and [parents], and appends at most one matrix. *)
Definition fold_layer (l : nat) (fs : list nat) (w : world) : world :=
  fold_left (fun w' f => set_mat w' f (with_layer (get_mat w' f) l)) fs w.
Lemma fold_layer_frame l fs : forall w, let w' := fold_layer l fs w in
  arrays w' = arrays w /\ layers w' = layers w /\ free w' = free w /\ anneal w' = anneal w /\ List.length (mats w') = List.length (mats w) /\
  forall j, get_mat w' j = if existsb (Nat.eqb j) fs && Nat.ltb j (List.length (mats w)) then with_layer (get_mat w j) l else get_mat w j.
Proof.
  induction fs as [|f fs IH]; intros w; cbv zeta.
  - cbn. repeat split.
  - cbn [fold_layer fold_left]. change (fold_left _ fs ?w0) with (fold_layer l fs w0).
    set (w1 := set_mat w f (with_layer (get_mat w f) l)).
    assert (El : List.length (mats w1) = List.length (mats w)) by (unfold w1, set_mat, set_mats; cbn [mats]; apply upd_length).
    destruct (IH w1) as (H1 & H2 & H3 & H4 & H5 & H6). cbv zeta in *.
    rewrite H1, H2, H3, H4, H5, El. repeat split. intros j. rewrite H6, El.
    cbn [existsb]. unfold w1. rewrite get_mat_set.
    destruct (Nat.eqb_spec j f) as [->|Hj]; cbn [orb andb]; auto.
    destruct (Nat.ltb_spec f (List.length (mats w))); cbn [andb]; rewrite ?andb_false_r; auto.
    rewrite andb_true_r. destruct (existsb (Nat.eqb f) fs); auto.
Qed.

Lemma new_layer_spec o w fs c m K inv invf : (c < List.length (mats w))%nat -> 
  let w' := new_layer o w fs c m K inv invf in
  exists xs ms lay, arrays w' = (arrays w ++ xs)%list /\ layers w' = (layers w ++ [lay])%list /\ free w' = free w /\
   factors lay = fs /\ child lay = c /\ model lay = m /\ invert_data lay = inv /\ invert_factors lay = invf /\
   q lay = (if String.eqb m "qL-AND" then Some (List.length (mats w)) else None) /\
   List.length (mats w') = (List.length (mats w) + (if String.eqb m "qL-AND" then 1 else 0))%nat /\ ms = mats w' /\
   forall j, (j < List.length (mats w))%nat -> let m0 := get_mat w j in let m1 := get_mat w' j in
     val m1 = val m0 /\ axis m1 = axis m0 /\ fixed m1 = fixed m0 /\ fixed_entries m1 = fixed_entries m0 /\ bprior m1 = bprior m0 /\ sfct m1 = sfct m0 /\
     layer_of m1 = (if existsb (Nat.eqb j) fs then Some (List.length (layers w)) else layer_of m0) /\
     parents m1 = (if Nat.eqb j c then parents m0 ++ [List.length (layers w)] else parents m0)%list.
Proof.
  intros Hc w'. unfold w', new_layer. cbv zeta.
  set (lay := Lay fs c m _ _ _ _ _ _ _ _ _). set (w1 := set_layers w (layers w ++ [lay])).
  set (w2 := set_mat w1 c (with_parent (get_mat w1 c) (List.length (layers w)))).
  change (fold_left _ fs w2) with (fold_layer (List.length (layers w)) fs w2).
  destruct (fold_layer_frame (List.length (layers w)) fs w2) as (H1 & H2 & H3 & H4 & H5 & H6). cbv zeta in *.
  set (w3 := fold_layer (List.length (layers w)) fs w2) in *.
  assert (E5 : List.length (mats w3) = List.length (mats w)) by (rewrite H5; unfold w2, set_mat, set_mats; cbn [mats]; rewrite upd_length; reflexivity).
  assert (Lw2 : List.length (mats w2) = List.length (mats w)) by (unfold w2, set_mat, set_mats; cbn [mats]; rewrite upd_length; reflexivity).
  assert (G : forall j, (j < List.length (mats w))%nat -> get_mat w3 j =
    let m0 := (if Nat.eqb j c then with_parent (get_mat w j) (List.length (layers w)) else get_mat w j) in
    if existsb (Nat.eqb j) fs then with_layer m0 (List.length (layers w)) else m0).
  { intros j Hj. rewrite H6, Lw2, (proj2 (Nat.ltb_lt j _) Hj), andb_true_r. cbv zeta.
    assert (E : get_mat w2 j = if Nat.eqb j c then with_parent (get_mat w j) (List.length (layers w)) else get_mat w j).
    { unfold w2. rewrite get_mat_set. change (List.length (mats w1)) with (List.length (mats w)). rewrite (proj2 (Nat.ltb_lt c _) Hc), andb_true_r.
      destruct (Nat.eqb_spec j c) as [->|]; reflexivity. }
    rewrite E. reflexivity. }
  assert (A : forall j, (j < List.length (mats w))%nat -> let m0 := get_mat w j in let m1 := get_mat w3 j in
     val m1 = val m0 /\ axis m1 = axis m0 /\ fixed m1 = fixed m0 /\ fixed_entries m1 = fixed_entries m0 /\ bprior m1 = bprior m0 /\ sfct m1 = sfct m0 /\
     layer_of m1 = (if existsb (Nat.eqb j) fs then Some (List.length (layers w)) else layer_of m0) /\
     parents m1 = (if Nat.eqb j c then parents m0 ++ [List.length (layers w)] else parents m0)%list).
  { intros j Hj. cbv zeta. rewrite (G j Hj). cbv zeta. destruct (existsb (Nat.eqb j) fs), (Nat.eqb j c); repeat split. }
  destruct (String.eqb m "qL-AND") eqn:Eq.
  - eexists _, _, lay. cbn [set_mat set_mats new_matrix arrays layers free tick set_arrays mats].
    split; [rewrite H1; reflexivity|]. split; [rewrite H2; reflexivity|]. split; [rewrite H3; reflexivity|].
    split; [reflexivity|]. split; [reflexivity|]. split; [reflexivity|]. split; [reflexivity|]. split; [reflexivity|]. split; [unfold lay; cbn [q]; rewrite ?Eq; reflexivity|].
    split; [rewrite upd_length, app_length, E5; reflexivity|]. split; [reflexivity|].
    intros j Hj. cbv zeta. match goal with |- val (get_mat ?W j) = _ /\ _ => assert (E : get_mat W j = get_mat w3 j) end.
    { unfold get_mat. cbn [mats set_mat set_mats new_matrix tick set_arrays]. rewrite nth_upd_other by lia. apply app_nth1. lia. }
    rewrite E. apply (A j Hj).
  - exists [], (mats w3), lay. rewrite app_nil_r.
    split; [rewrite H1; reflexivity|]. split; [rewrite H2; reflexivity|]. split; [rewrite H3; reflexivity|].
    split; [reflexivity|]. split; [reflexivity|]. split; [reflexivity|]. split; [reflexivity|]. split; [reflexivity|]. split; [unfold lay; cbn [q]; rewrite ?Eq; reflexivity|].
    split; [rewrite E5; lia|]. split; [reflexivity|]. exact A.
Qed.
