(** The machine an experiment sets up. *)
From Coq Require Import String Lra Lia.
From Verif Require Import Base BaseLemmas BaseR BaseRLemmas Spec SpecR SpecF SpecOut Canon Machine Dispatch Inference LayerOutput Predict SpecMachine SpecOrdinary MachineProofs MachineProofs2 BuiltProofs PlainProofs OrdinaryProofs OrdinaryProofs2 OrdinaryProofs3 OrdinaryProofs7 Experiments SpecExperiments ExperimentProofs.
Local Open Scope R_scope.

Lemma start_ordinary o arrs clk : ordinary o (World arrs [] [] [] false clk).
Proof.
  assert (H : ordinary o (World arrs [] [] [] false 0)).
  { induction arrs as [|a arrs IH] using rev_ind; [apply ord_new|]. exact (ord_array o _ a IH). }
  apply (ord_adjust o _ (World arrs [] [] [] false clk) H). unfold adjusted, edited, is_factor. cbn [mats layers free get_lay List.length]. repeat split; try (intros; lia); try contradiction; try constructor. intros i (l & Hl & _). lia.
Qed.
Definition train_index (arrs : list arr) (s : source) : nat := match s with Given a => a | _ => List.length arrs end.
Definition stored_arrays (arrs : list arr) (s : source) : list arr := match s with Convert x => arrs ++ [x] | _ => arrs end.
Lemma train_stored arrs s X : training_data arrs s X -> (train_index arrs s < List.length (stored_arrays arrs s))%nat /\ nth (train_index arrs s) (stored_arrays arrs s) (A2 []) = X.
Proof.
  destruct s as [a|x|sh]; cbn; intros H; [|subst x|contradiction].
  - assert (N := H). apply nth_error_nth with (d := A2 []) in N. split; [apply nth_error_Some; congruence|exact N].
  - rewrite app_length, nth_middle. cbn. split; [lia|reflexivity].
Qed.
Lemma add_factors_arrays o K axs w : exists fs, arrays (add_factors o K axs w) = arrays w ++ fs /\ List.length fs = List.length axs.
Proof. destruct (add_factors_spec o K axs w) as (A1 & _). cbv zeta in A1. rewrite A1. eexists. split; [reflexivity|]. rewrite map_length, combine_length, seq_length. lia. Qed.
(** After add_matrix and add_layer. *)
Lemma set_up o arrs clk s K m m' inv invf X : training_data arrs s X -> data_ok X -> (matrix2 X -> small X) -> canonise_name m = Ok (m', inv, invf) -> In m' standard_models ->
  let n := List.length (shape_of X) in
  exists w1 w2, add_matrix o (World arrs [] [] [] false clk) s None (FBool true) = Ok w1 /\ add_layer o w1 K (Some 0%nat) None m = (w2, Ok tt) /\ ordinary o w2 /\
    layers w2 = [Lay (seq 1 n) 0 m' (Par (LS (5 / 100)) false (1, 1) None) None None None 1 false false inv invf] /\ anneal w2 = false /\ free w2 = [0%nat] /\
    value w2 0 = (if inv then neg_arr X else X) /\ List.length (mats w2) = Datatypes.S n /\
    (exists fs, arrays w2 = (if inv then upd (stored_arrays arrs s) (train_index arrs s) (neg_arr X) else stored_arrays arrs s) ++ fs /\ List.length fs = n) /\
    fixed (get_mat w2 0) = FBool true /\ bprior (get_mat w2 0) = 1 / 2 /\ val (get_mat w2 0) = train_index arrs s /\
    forall k, (k < n)%nat -> fixed (get_mat w2 (1 + k)) = FBool false /\ bprior (get_mat w2 (1 + k)) = 1 / 2 /\ val (get_mat w2 (1 + k)) = (List.length (stored_arrays arrs s) + k)%nat /\ sfct (get_mat w2 (1 + k)) = None /\
      binary_matrix (nth k (shape_of X) 0%nat) K (value w2 (1 + k)).
Proof.
  intros HT HD Hsm EC Hm n. destruct (train_stored _ _ _ HT) as (T1 & T2). set (a := train_index arrs s) in *. set (st := stored_arrays arrs s) in *.
  set (w0 := World arrs [] [] [] false clk). pose proof (start_ordinary o arrs clk) as O0. fold w0 in O0.
  set (w1 := World st [Mat a None (FBool true) (zeros_like X) (1 / 2) None [] None] [] [0%nat] false clk).
  assert (E1 : add_matrix o w0 s None (FBool true) = Ok w1).
  { unfold add_matrix, w1, st, a. destruct s as [b|x|sh]; [| |contradiction HT]; cbn; do 4 f_equal; unfold get_arr; cbn; (rewrite <- T2; reflexivity). }
  assert (V1 : value w1 0 = X) by exact T2.
  assert (O1 : ordinary o w1).
  { eapply ord_data; [exact O0| |exact E1|]; [|cbn [w0 mats List.length]; rewrite V1; exact HD]. intros b ->. cbn in T1. split; [exact T1|]. intros i (l & Hl & _). cbn in Hl. lia. }
  set (w1' := if inv then write w1 a (neg_arr X) else w1).
  assert (SH : shape_of (value w1' 0) = shape_of X).
  { unfold w1'. destruct inv; [|rewrite V1; reflexivity]. unfold value. change (get_mat (write _ _ _) 0) with (get_mat w1 0). cbn [w1 get_mat mats nth val]. rewrite get_arr_write, Nat.eqb_refl by exact T1. apply neg_shape. }
  set (w2 := new_layer o (add_factors o K (combine (seq 0 n) (shape_of X)) w1') (seq 1 n) 0 m' K inv invf).
  assert (E2 : add_layer o w1 K (Some 0%nat) None m = (w2, Ok tt)).
  { unfold add_layer, canonise_model. rewrite EC. rewrite V1. change (val (get_mat w1 0)) with a.
    assert (Q : (let '(w0', r) := (w1', Ok (m', inv, invf) : res (string * bool * bool)) in match r with Err e => (w0', Err e) | Ok (m', inv, invf) => (new_layer o (fold_left (fun w' '(ax, K0) => new_random_matrix o w' [K0; K] (Some ax)) (combine (seq 0 (List.length (shape_of (value w0' 0)))) (shape_of (value w0' 0))) w0') (seq (List.length (mats w0')) (List.length (shape_of (value w0' 0)))) 0 m' K inv invf, Ok tt) end) = (w2, Ok tt)).
    { cbv beta iota. rewrite SH. unfold w2. assert (EM : List.length (mats w1') = 1%nat) by (unfold w1'; destruct inv; reflexivity). rewrite EM. reflexivity. }
    rewrite <- Q. unfold w1'. destruct inv; reflexivity. }
  assert (O2 : ordinary o w2).
  { eapply ord_layer; [exact O1|exact EC|exact Hm| |exact E2]. split; [cbn; lia|]. rewrite V1. split; [exact Hsm|]. left. cbn. auto. }
  exists w1, w2. split; [exact E1|]. split; [exact E2|]. split; [exact O2|].
  assert (M1 : mats w1' = mats w1 /\ layers w1' = [] /\ anneal w1' = false /\ free w1' = [0%nat] /\ arrays w1' = (if inv then upd st a (neg_arr X) else st) /\ List.length (arrays w1') = List.length st /\ value w1' 0 = (if inv then neg_arr X else X)).
  { unfold w1'. destruct inv; (split; [reflexivity|]); (split; [reflexivity|]); (split; [reflexivity|]); (split; [reflexivity|]); (split; [reflexivity|]).
    - split; [cbn; apply upd_length|]. unfold value. change (get_mat (write _ _ _) 0) with (get_mat w1 0). cbn [w1 get_mat mats nth val]. rewrite get_arr_write, Nat.eqb_refl by exact T1. reflexivity.
    - split; [reflexivity|exact V1]. }
  destruct M1 as (M1 & M2 & M3 & M4 & M5 & M6 & M7). clearbody w1'.
  assert (LM : List.length (mats w1') = 1%nat) by (rewrite M1; reflexivity).
  assert (S1 : stored w1'). { unfold stored. rewrite M1, M6. constructor; [exact T1|constructor]. }
  assert (C0 : (0 < List.length (mats w1'))%nat) by lia.
  destruct (add_layer_core o w1' (shape_of X) K 0 m' inv invf S1 C0) as (lay & L1 & _ & _ & _ & _ & _ & L6 & _ & L8 & L9 & L10).
  destruct (add_layer_factors o w1' (shape_of X) K 0 m' inv invf Hm S1 C0) as (F1 & F2 & F3 & F4 & F5). cbv zeta in *. rewrite LM in *. fold n in L1, L6, L8, L9, L10, F1, F2, F3, F4, F5 |- *. fold w2 in L1, L6, L8, L9, L10, F1, F2, F3, F4, F5.
  clear L1 lay. destruct (standard_names m' Hm) as (Q1 & _). rewrite Q1, Nat.add_0_r in L8. destruct (L9 0%nat ltac:(lia)) as (G1 & G2 & _ & G3 & _ & G4 & _).
  split; [rewrite F4, M2; reflexivity|]. split; [rewrite F3; exact M3|]. split; [rewrite L6; exact M4|]. split; [rewrite G1; exact M7|]. split; [rewrite L8; reflexivity|]. split.
  { rewrite F1, <- M5. destruct (add_factors_arrays o K (combine (seq 0 n) (shape_of X)) w1') as (fs & A1 & A2). exists fs. split; [exact A1|]. rewrite A2, combine_length, seq_length. unfold n. lia. }
  assert (GM : get_mat w1' 0 = get_mat w1 0) by (unfold get_mat; rewrite M1; reflexivity).
  split; [rewrite G3, GM; reflexivity|]. split; [rewrite G4, GM; reflexivity|]. split; [rewrite G2, GM; reflexivity|].
  intros k Hk. destruct (L10 k Hk) as (_ & _ & H3 & H4 & H5). destruct (F5 k Hk) as (_ & H6 & H7 & _). split; [exact H3|]. split; [exact H6|]. split; [rewrite H4, M6; reflexivity|]. split; [exact H7|exact H5].
Qed.
