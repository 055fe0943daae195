(** Lemmas for C03, C04. *)
From Coq Require Import String Ascii ZifyBool.
From Verif Require Import Base BaseLemmas Spec Outputs OutputsProofs Lops.
Local Open Scope Z_scope.
Local Open Scope bool_scope.

(** * Trees *)
Lemma nd_ind' (P : nd -> Prop) :
  (forall x, P (Leaf x)) -> (forall l, Forall P l -> P (Node l)) -> forall a, P a.
Proof.
  intros HL HN. fix IH 1. intros [x|l]; [apply HL|]. apply HN.
  induction l as [|b l IHl]; constructor; [apply IH|exact IHl].
Qed.

Lemma nd_build_shape shape f : nd_has_shape (nd_build shape f) shape.
Proof.
  revert f; induction shape as [|n shape IH]; intros f; simpl.
  - exists (f []); reflexivity.
  - eexists. split; [reflexivity|]. rewrite map_length, seq_length. split; [reflexivity|].
    apply Forall_forall. intros b Hb. apply in_map_iff in Hb. destruct Hb as (i & <- & _). apply IH.
Qed.

Lemma nth_error_map_seq {A} (f : nat -> A) n i : (i < n)%nat -> nth_error (map f (seq 0 n)) i = Some (f i).
Proof.
  intros H. rewrite nth_error_map. rewrite (nth_error_nth' _ 0%nat) by (rewrite seq_length; exact H).
  rewrite seq_nth by exact H. reflexivity.
Qed.

Lemma nd_build_get shape f idx :
  Forall2 lt idx shape -> nd_get (nd_build shape f) idx = Some (f idx).
Proof.
  intros H. revert f; induction H as [|i n idx shape Hi H IH]; intros f; simpl; [reflexivity|].
  rewrite nth_error_map_seq by exact Hi. apply IH.
Qed.

(** [nd_build] only looks at in-range indices. *)
Lemma nd_build_ext shape f g :
  (forall idx, Forall2 lt idx shape -> f idx = g idx) -> nd_build shape f = nd_build shape g.
Proof.
  revert f g; induction shape as [|n shape IH]; intros f g H; simpl.
  - rewrite (H []) by constructor. reflexivity.
  - f_equal. apply map_ext_seq. intros i Hi. apply IH. intros idx Hidx. apply H. constructor; [lia|exact Hidx].
Qed.

(** * Operators *)
Lemma lop_name_get o :
  exists f, get_lop (lop_name o) = Ok f /\
    forall n (c : nat -> bool), f (map c (seq 0 n)) = lop_cnt o n (cnt c (seq 0 n)).
Proof.
  assert (HE : forall (c : nat -> bool) ls, existsb (fun b => b) (map c ls) = Nat.ltb 0 (cnt c ls)).
  { intros c ls; induction ls as [|a ls IH]; [reflexivity|]. simpl map. simpl existsb. rewrite cnt_cons, IH.
    destruct (c a); reflexivity. }
  assert (HF : forall (c : nat -> bool) ls, forallb (fun b => b) (map c ls) = Nat.eqb (cnt c ls) (List.length ls)).
  { intros c ls; induction ls as [|a ls IH]; [reflexivity|]. simpl map. simpl forallb. rewrite cnt_cons, IH.
    pose proof (cnt_le c ls). destruct (c a); simpl; [reflexivity|].
    symmetry; apply Nat.eqb_neq; simpl; lia. }
  assert (HX : forall (c : nat -> bool) ls, List.length (filter (fun b => b) (map c ls)) = cnt c ls).
  { intros c ls; induction ls as [|a ls IH]; [reflexivity|]. simpl map. simpl filter. rewrite cnt_cons.
    destruct (c a); simpl; rewrite IH; reflexivity. }
  destruct o; (eexists; split; [reflexivity|]); intros n c;
    unfold lop_fn_OR, lop_fn_NOR, lop_fn_AND, lop_fn_NAND, lop_fn_XOR, lop_fn_NXOR, lop_cnt;
    rewrite ?HE, ?HF, ?HX, ?seq_length; reflexivity.
Qed.

Lemma split_model_name o i : split_dash (model_name o i) = [lop_name o; lop_name i].
Proof. destruct o, i; reflexivity. Qed.

(** Rows of the factors selected by an index. *)
Definition rows_at (factors : list mat) (index : list nat) : list vec :=
  map (fun k => row (nth k factors []) (nth k index 0%nat)) (seq 0 (List.length factors)).

Lemma generate_entry_lom o i fo fi factors L index :
  (forall n c, fo (map c (seq 0 n)) = lop_cnt o n (cnt c (seq 0 n))) ->
  (forall n c, fi (map c (seq 0 n)) = lop_cnt i n (cnt c (seq 0 n))) ->
  generate_entry fo fi factors L index = if lom_b o i (rows_at factors index) L then 1 else -1.
Proof.
  intros Ho Hi. unfold generate_entry.
  assert (E : fo (map (fun l => fi (map (fun k => at2 (nth k factors []) (nth k index 0%nat) l =? 1)
                 (seq 0 (List.length factors)))) (seq 0 L)) = lom_b o i (rows_at factors index) L).
  { rewrite (Ho L (fun l => fi (map (fun k => at2 (nth k factors []) (nth k index 0%nat) l =? 1)
                 (seq 0 (List.length factors))))).
    unfold lom_b. f_equal. apply cnt_ext. intros l Hl. rewrite Hi. unfold inner_b, rows_at.
    rewrite map_seq_length. f_equal. apply cnt_ext. intros k Hk. apply in_seq0 in Hk.
    rewrite nth_map_seq by exact Hk. reflexivity. }
  rewrite E. destruct (lom_b o i (rows_at factors index) L); reflexivity.
Qed.

(** The rows selected by an index list, as a relation, for the statement of C03. *)
Lemma rows_at_rel factors index rows :
  List.length index = List.length factors ->
  rows = rows_at factors index <->
  (List.length rows = List.length factors /\
   forall k, (k < List.length factors)%nat ->
     nth k rows [] = nth (nth k index 0%nat) (nth k factors []) []).
Proof.
  intros Hlen. split.
  - intros ->. split; [apply map_seq_length|]. intros k Hk. unfold rows_at. rewrite nth_map_seq by exact Hk.
    reflexivity.
  - intros [H1 H2]. apply (list_ext _ _ []); [unfold rows_at; rewrite map_seq_length; exact H1|].
    intros k Hk. unfold vec in *. rewrite H1 in Hk. rewrite H2 by exact Hk. unfold rows_at. rewrite nth_map_seq by exact Hk.
    reflexivity.
Qed.

Lemma lom_generate_ok factors o i :
  factors <> [] ->
  lom_generate_data factors (model_name o i) =
  Ok (nd_build (map nrows factors) (fun index =>
        if lom_b o i (rows_at factors index) (ncols (hd [] factors)) then 1 else -1)).
Proof.
  intros Hne. destruct factors as [|f0 fs]; [contradiction|].
  unfold lom_generate_data. rewrite split_model_name.
  destruct (lop_name_get o) as (fo & -> & Ho). destruct (lop_name_get i) as (fi & -> & Hi).
  cbv beta iota delta [bind]. f_equal. apply nd_build_ext. intros idx _.
  rewrite (generate_entry_lom o i) by assumption. reflexivity.
Qed.

Lemma shape_cols m n L : has_shape2 m n L -> has_cols m L.
Proof. intros [_ H]; exact H. Qed.

Lemma C03_lemma o i factors L :
  factors <> [] -> Forall (fun f => has_cols f L) factors ->
  exists out, lom_generate_data factors (model_name o i) = Ok out /\
    nd_has_shape out (map (fun f => List.length f) factors) /\
    forall index rows,
      Forall2 lt index (map (fun f : mat => List.length f) factors) ->
      Forall2 (fun (p : mat * nat) (r : vec) => r = nth (snd p) (fst p) []) (combine factors index) rows ->
      exists x, nd_get out index = Some x /\ lom_output o i rows L x.
Proof.
  intros Hne HL. eexists. split; [apply lom_generate_ok; exact Hne|]. split; [apply nd_build_shape|].
  intros index rows Hidx Hrows. eexists. split; [apply nd_build_get; exact Hidx|].
  apply lom_output_b.
  assert (Hlen : List.length index = List.length factors).
  { apply Forall2_length in Hidx. rewrite map_length in Hidx. exact Hidx. }
  assert (Er : rows = rows_at factors index).
  { apply rows_at_rel; [exact Hlen|].
    assert (Hl : List.length rows = List.length factors).
    { apply Forall2_length in Hrows. rewrite combine_length in Hrows. lia. }
    split; [exact Hl|]. intros k Hk.
    assert (forall (l1 : list mat) (l2 : list nat) (l3 : list vec),
        Forall2 (fun (p : mat * nat) (r : vec) => r = nth (snd p) (fst p) []) (combine l1 l2) l3 ->
        List.length l1 = List.length l2 -> forall j, (j < List.length l1)%nat ->
        nth j l3 [] = nth (nth j l2 0%nat) (nth j l1 []) []) as HH.
    { clear. induction l1 as [|a l1 IH]; intros [|b l2] l3 H Hl j Hj; simpl in *; try lia.
      inversion H as [|? ? ? ? Hr Hrest]; subst. destruct j as [|j]; simpl.
      - reflexivity.
      - apply IH; [assumption|lia|lia]. }
    apply HH; [exact Hrows|symmetry; exact Hlen|exact Hk]. }
  subst rows.
  (* the number of columns is read off the first factor; if it has no row there is no index *)
  assert (Ec : ncols (hd [] factors) = L); [|rewrite Ec; reflexivity].
  destruct factors as [|f0 fs]; [contradiction|]. simpl in Hidx. inversion Hidx as [|a b l l' Hlt Hrest]; subst.
  inversion HL as [|? ? Hf0 _]; subst. simpl. destruct f0 as [|r0 f0]; [simpl in Hlt; lia|].
  unfold has_cols in Hf0. inversion Hf0; subst; reflexivity.
Qed.

(** * fast = generic *)
Lemma wrap8_pm1 x : pm1 x -> wrap8 x = x.
Proof. intros [->| ->]; reflexivity. Qed.

Lemma as_int8_bin m : bin2 m -> as_int8 m = m.
Proof.
  intros H. unfold as_int8. rewrite <- (map_id m) at 2. apply map_ext_in. intros r Hr.
  rewrite <- (map_id r) at 2. apply map_ext_in. intros x Hx. apply wrap8_pm1.
  apply (proj1 (Forall_forall _ _) (proj1 (Forall_forall _ _) H r Hr) x Hx).
Qed.

Lemma implemented_names model :
  existsb (String.eqb model) implemented_loms = true ->
  exists o i, In (o, i) implemented /\ model = model_name o i.
Proof.
  intros H. apply existsb_exists in H. destruct H as (s & Hs & E). apply String.eqb_eq in E. subst s.
  simpl in Hs. repeat (destruct Hs as [<-|Hs]).
  - exists OR, AND; simpl; tauto.
  - exists OR, NAND; simpl; tauto.
  - exists OR, XOR; simpl; tauto.
  - exists NAND, XOR; simpl; tauto.
  - exists XOR, AND; simpl; tauto.
  - exists XOR, XOR; simpl; tauto.
  - exists XOR, NXOR; simpl; tauto.
  - exists XOR, NAND; simpl; tauto.
  - destruct Hs.
Qed.

Lemma nd_of_mat_build n d (f : nat -> nat -> Z) :
  nd_of_mat (map (fun i => map (fun j => f i j) (seq 0 d)) (seq 0 n)) =
  nd_build [n; d] (fun idx => f (nth 0 idx 0%nat) (nth 1 idx 0%nat)).
Proof.
  unfold nd_of_mat, nd_of_vec. simpl. f_equal. rewrite map_map. apply map_ext. intros i. f_equal.
  rewrite map_map. reflexivity.
Qed.

Lemma nd_of_ten_build n d m (f : nat -> nat -> nat -> Z) :
  nd_of_ten (map (fun i => map (fun j => map (fun k => f i j k) (seq 0 m)) (seq 0 d)) (seq 0 n)) =
  nd_build [n; d; m] (fun idx => f (nth 0 idx 0%nat) (nth 1 idx 0%nat) (nth 2 idx 0%nat)).
Proof.
  unfold nd_of_ten, nd_of_mat, nd_of_vec. simpl. f_equal. rewrite map_map. apply map_ext. intros i.
  f_equal. rewrite map_map. apply map_ext. intros j. f_equal. rewrite map_map. reflexivity.
Qed.

Lemma C04_lemma model factors L :
  Forall (fun f => has_cols f L) factors -> Forall bin2 factors ->
  lom_generate_data_fast factors model = lom_generate_data factors model.
Proof.
  intros HL Hb. unfold lom_generate_data_fast.
  destruct (existsb (String.eqb model) implemented_loms) eqn:E; simpl negb; [|reflexivity]. cbv iota.
  destruct (implemented_names model E) as (o & i & Hin & ->).
  destruct factors as [|f0 [|f1 [|f2 [|f3 fs]]]]; try reflexivity.
  - (* two factors *)
    inversion HL as [|? ? H0 HL']; subst. inversion HL' as [|? ? H1 _]; subst.
    inversion Hb as [|? ? B0 Hb']; subst. inversion Hb' as [|? ? B1 _]; subst.
    destruct (output_2d_lemma o i Hin) as (f & -> & Hf).
    rewrite lom_generate_ok by discriminate. f_equal. rewrite !as_int8_bin by assumption.
    unfold output_function_2d. rewrite nd_of_mat_build. apply nd_build_ext. intros idx Hidx.
    inversion Hidx as [|a ? idx1 ? Ha Hidx1]; subst. inversion Hidx1 as [|b ? idx2 ? Hb2 Hidx2]; subst.
    inversion Hidx2; subst. simpl nth. unfold rows_at. simpl.
    assert (La : List.length (row f0 a) = L) by (apply (Forall_nth' _ f0 a [] H0 Ha)).
    assert (Lb : List.length (row f1 b) = L) by (apply (Forall_nth' _ f1 b [] H1 Hb2)).
    pose proof (Hf (row f0 a) (row f1 b) (bin2_row _ _ B0) (bin2_row _ _ B1) (eq_trans La (eq_sym Lb))) as Hs.
    apply lom_output_b in Hs. rewrite Hs, La.
    replace (ncols f0) with L; [reflexivity|].
    destruct f0 as [|r f0]; [inversion Ha|]. inversion H0 as [|? ? Hr _]. unfold ncols; simpl; congruence.
  - (* three factors *)
    destruct (String.eqb_spec (model_name o i) "OR-AND") as [Em|_]; [|reflexivity].
    inversion HL as [|? ? H0 HL']; subst. inversion HL' as [|? ? H1 HL'']; subst.
    inversion HL'' as [|? ? H2 _]; subst.
    inversion Hb as [|? ? B0 Hb']; subst. inversion Hb' as [|? ? B1 Hb'']; subst.
    inversion Hb'' as [|? ? B2 _]; subst.
    destruct (output_3d_lemma o i Hin) as (f & -> & Hf).
    rewrite lom_generate_ok by discriminate. f_equal. rewrite !as_int8_bin by assumption.
    unfold output_function_3d. rewrite nd_of_ten_build. apply nd_build_ext. intros idx Hidx.
    inversion Hidx as [|a ? idx1 ? Ha Hidx1]; subst. inversion Hidx1 as [|b ? idx2 ? Hb2 Hidx2]; subst.
    inversion Hidx2 as [|c ? idx3 ? Hc Hidx3]; subst. inversion Hidx3; subst. simpl nth. unfold rows_at. simpl.
    assert (La : List.length (row f0 a) = L) by (apply (Forall_nth' _ f0 a [] H0 Ha)).
    assert (Lb : List.length (row f1 b) = L) by (apply (Forall_nth' _ f1 b [] H1 Hb2)).
    assert (Lc : List.length (row f2 c) = L) by (apply (Forall_nth' _ f2 c [] H2 Hc)).
    pose proof (Hf (row f0 a) (row f1 b) (row f2 c) (bin2_row _ _ B0) (bin2_row _ _ B1) (bin2_row _ _ B2)
                   (eq_trans La (eq_sym Lb)) (eq_trans La (eq_sym Lc))) as Hs.
    apply lom_output_b in Hs. rewrite Hs, La.
    replace (ncols f0) with L; [reflexivity|].
    destruct f0 as [|r f0]; [inversion Ha|]. inversion H0 as [|? ? Hr _]. unfold ncols; simpl; congruence.
Qed.

Lemma C03_example_lemma :
  Forall (fun f => has_cols f 2) [[[1; -1]; [1; 1]]; [[-1; -1]]; [[1; 1]; [-1; 1]; [0; 1]]] /\
  exists out,
    lom_generate_data [[[1; -1]; [1; 1]]; [[-1; -1]]; [[1; 1]; [-1; 1]; [0; 1]]] "AND-NXOR" = Ok out /\
    nd_get out [1; 0; 0]%nat = Some 1 /\ nd_get out [0; 0; 1]%nat = Some (-1) /\
    lom_true AND NXOR [[1; 1]; [-1; -1]; [1; 1]] 2.
Proof.
  split.
  - repeat constructor.
  - eexists. split; [vm_compute; reflexivity|]. split; [reflexivity|]. split; [reflexivity|].
    apply lom_true_b. reflexivity.
Qed.

Lemma C04_example_lemma :
  Forall (fun f => has_cols f 2) [[[1; -1]; [1; 1]]; [[-1; 1]; [1; 1]]] /\
  Forall bin2 [[[1; -1]; [1; 1]]; [[-1; 1]; [1; 1]]] /\
  lom_generate_data_fast [[[1; -1]; [1; 1]]; [[-1; 1]; [1; 1]]] "XOR-AND"
    = Ok (nd_of_mat [[-1; 1]; [1; -1]]).
Proof. split; [repeat constructor|]. split; [|reflexivity]. repeat apply Forall_cons; try apply Forall_nil; bin_tac. Qed.
