(** Building ordinary machines. *)
From Coq Require Import String Permutation Lra.
From Verif Require Import Base BaseR BaseLemmas Spec SpecR HelpersProofs Canon Outputs Fuzzy Scores Sampling Lambda MaxMachine Clean Machine Dispatch Inference SpecMachine SpecOrdinary MachineProofs MachineProofs2 BuiltProofs InferenceProofs InferenceProofs2 PlainProofs OrdinaryProofs.
Local Open Scope R_scope.

Lemma standard_names m : In m standard_models -> String.eqb m "qL-AND" = false /\ String.eqb m "MAX-AND" = false /\ contains "BALANCED" m = false.
Proof. unfold standard_models. intros H. repeat (destruct H as [<-|H]; [repeat split; reflexivity|]). contradiction. Qed.
(** The layer made, and the anneal flag. *)
Lemma new_layer_standard o w fs c m K inv invf : In m standard_models -> let w' := new_layer o w fs c m K inv invf in
  layers w' = (layers w ++ [Lay fs c m (Par (LS (5 / 100)) false (1, 1) None) None None None 1 false false inv invf])%list /\ anneal w' = anneal w /\ arrays w' = arrays w.
Proof.
  intros H. destruct (standard_names m H) as (Q1 & Q2 & Q3). cbv zeta. unfold new_layer. cbv zeta. unfold lbda_init. rewrite Q1, Q2, Q3.
  set (lay := Lay fs c m _ _ _ _ _ _ _ _ _). set (w1 := set_layers w (layers w ++ [lay])). set (w2 := set_mat w1 c _).
  change (fold_left _ fs w2) with (fold_layer (List.length (layers w)) fs w2). destruct (fold_layer_frame (List.length (layers w)) fs w2) as (H1 & H2 & _ & H4 & _). cbv zeta in *. rewrite H1, H2, H4. auto.
Qed.
(** The factors made. *)
Lemma add_layer_factors o w sh K c m inv invf : In m standard_models -> stored w -> (c < List.length (mats w))%nat ->
  let n0 := List.length (mats w) in let n := List.length sh in
  let w' := new_layer o (add_factors o K (combine (seq 0 n) sh) w) (seq n0 n) c m K inv invf in
  arrays w' = arrays (add_factors o K (combine (seq 0 n) sh) w) /\ List.length (arrays w') = (List.length (arrays w) + n)%nat /\ anneal w' = anneal w /\
  layers w' = (layers w ++ [Lay (seq n0 n) c m (Par (LS (5 / 100)) false (1, 1) None) None None None 1 false false inv invf])%list /\
  forall k, (k < n)%nat -> let f := get_mat w' (n0 + k) in matrix2 (fixed_entries f) /\ bprior f = 1 / 2 /\ sfct f = None /\ parents f = [].
Proof.
  intros Hm Hs Hc n0 n w'.
  destruct (add_factors_spec o K (combine (seq 0 n) sh) w) as (A1 & A2' & A3 & A4 & A5). cbv zeta in *.
  set (wf := add_factors o K (combine (seq 0 n) sh) w) in *.
  assert (Lc : List.length (combine (seq 0 n) sh) = n) by (rewrite combine_length, seq_length; fold n; lia). rewrite Lc in A1, A2'.
  assert (Lm : List.length (mats wf) = (n0 + n)%nat) by (rewrite A2', app_length, map_length, combine_length, seq_length, Lc; fold n0; lia).
  destruct (new_layer_spec o wf (seq n0 n) c m K inv invf) as (xs & ms & lay & _ & _ & _ & _ & _ & _ & _ & _ & _ & _ & _ & B11); [rewrite Lm; unfold n0; lia|].
  destruct (new_layer_standard o wf (seq n0 n) c m K inv invf Hm) as (C1 & C2 & C3). cbv zeta in *. fold w' in B11, C1, C2, C3.
  split; [exact C3|]. split; [rewrite C3, A1, app_length, map_length, combine_length, seq_length, Lc; lia|]. split; [rewrite C2; exact A5|]. split; [rewrite C1, A3; reflexivity|].
  intros k Hk. destruct (B11 (n0 + k)%nat) as (_ & _ & _ & D4 & D5 & D6 & _ & D8); [lia|].
  assert (E : get_mat wf (n0 + k) = Mat (List.length (arrays w) + k) (Some k) (FBool false) (zeros_like (random_arr (o_init o (clock w + k)) [nth k sh 0%nat; K])) (1/2) None [] None).
  { unfold get_mat. rewrite A2', app_nth2 by (unfold n0; lia). fold n0. replace (n0 + k - n0)%nat with k by lia.
    rewrite (nth_map_lt _ _ k (0, (0, 0))%nat no_matrix) by (rewrite combine_length, seq_length, Lc; lia). rewrite (combine_nth_seq n sh k eq_refl Hk). reflexivity. }
  rewrite E in *. cbn [fixed_entries bprior sfct parents] in *. rewrite D4, D5, D6, D8. split; [eexists; reflexivity|]. split; [reflexivity|]. split; [reflexivity|]. destruct (Nat.eqb_spec (n0 + k) c); [unfold n0 in *; lia|reflexivity].
Qed.
Lemma own_closure_ext w w' i l : parents (get_mat w' i) = parents (get_mat w i) -> bprior (get_mat w' i) = bprior (get_mat w i) -> layer_of (get_mat w i) = Some l -> layer_of (get_mat w' i) = Some l ->
  (forall a, a = l \/ In a (parents (get_mat w i)) -> get_lay w' a = get_lay w a) -> axis (get_mat w' i) = axis (get_mat w i) -> (forall j, In j (factors (get_lay w l)) -> axis (get_mat w' j) = axis (get_mat w j)) -> own_closure w' i l = own_closure w i l.
Proof.
  intros EP EB EL EL' Ea EX EX'. unfold own_closure, transpose_order, siblings. cbv zeta. rewrite EP, EB, EL, EL', (Ea l) by auto.
  assert (E1 : axis_of w' i = axis_of w i) by (unfold axis_of; rewrite EX; reflexivity).
  assert (E2 : map (axis_of w') (filter (fun j => negb (Nat.eqb j i)) (factors (get_lay w l))) = map (axis_of w) (filter (fun j => negb (Nat.eqb j i)) (factors (get_lay w l)))).
  { apply map_ext_in. intros j Hj. apply filter_In in Hj. unfold axis_of. rewrite EX' by apply Hj. reflexivity. }
  rewrite E1, E2. destruct (parents (get_mat w i)) as [|a [|b t]]; [reflexivity| |].
  - rewrite (Ea a) by (right; left; reflexivity). reflexivity.
  - rewrite (Ea a), (Ea b) by (right; cbn; auto). reflexivity.
Qed.

Lemma sound_new_layer o w K c m inv invf : sound w -> In m standard_models -> (c < List.length (mats w))%nat -> data_ok (value w c) -> (matrix2 (value w c) -> small (value w c)) ->
  (forall l, (l < List.length (layers w))%nat -> In c (factors (get_lay w l)) -> sfct (get_mat w c) = None /\ (parents (get_mat w c) = [] \/ exists k, parents (get_mat w c) = [k] /\ model (get_lay w k) = m) /\ List.length (factors (get_lay w l)) = 2%nat) ->
  let sh := shape_of (value w c) in
  sound (new_layer o (add_factors o K (combine (seq 0 (List.length sh)) sh) w) (seq (List.length (mats w)) (List.length sh)) c m K inv invf).
Proof.
  intros SO Hm Hc Hd Hsm Hf sh. pose proof (so_wf _ SO) as WF. pose proof (so_plain _ SO) as P. pose proof (wf_stored _ WF) as ST.
  destruct (add_layer_core o w sh K c m inv invf ST Hc) as (lay & L1 & _ & _ & _ & _ & _ & L5 & _ & L7 & L8 & L9).
  destruct (add_layer_factors o w sh K c m inv invf Hm ST Hc) as (F1 & F2 & F3 & F4 & F5). pose proof (add_layer_wf o w K c m sh inv invf WF Hc) as WF'. cbv zeta in *.
  destruct (standard_names m Hm) as (Q1 & _). rewrite Q1, Nat.add_0_r in L7.
  set (n0 := List.length (mats w)) in *. set (n := List.length sh) in *.
  set (w' := new_layer o (add_factors o K (combine (seq 0 n) sh) w) (seq n0 n) c m K inv invf) in *. clearbody w'. clear L1 lay.
  set (nl := List.length (layers w)) in *. set (lay := Lay (seq n0 n) c m _ _ _ _ _ _ _ _ _) in *.
  assert (Ln : List.length (layers w') = S nl) by (rewrite F4, app_length; cbn; unfold nl; lia).
  assert (Lo : forall l, (l < nl)%nat -> get_lay w' l = get_lay w l). { intros l Hl. rewrite (get_lay_app _ _ _ l F4). fold nl. rewrite (proj2 (Nat.ltb_lt _ _) Hl). reflexivity. }
  assert (Lnew : get_lay w' nl = lay). { rewrite (get_lay_app _ _ _ nl F4). fold nl. rewrite Nat.ltb_irrefl, Nat.eqb_refl. reflexivity. }
  assert (Ids : forall l i, (l < nl)%nat -> In i (factors (get_lay w l)) -> (i < n0)%nat /\ layer_of (get_mat w i) = Some l).
  { intros l i Hl Hi. destruct (wf_placed _ WF l i Hl Hi) as (G1 & G2 & _). auto. }
  assert (HN : (n = 2%nat /\ matrix2 (value w c)) \/ (n = 3%nat /\ tensor3 (value w c))).
  { unfold n, sh. destruct (value w c) as [x|x]; [left|right]; (split; [reflexivity|eexists; reflexivity]). }
  assert (Val : forall j, (j < n0)%nat -> value w' j = value w j) by (intros j Hj; apply (L8 j Hj)).
  assert (CF : forall l i, (l < nl)%nat -> In i (factors (get_lay w l)) -> sfct (get_mat w' i) = None \/ (sfct (get_mat w' i) = Some (own_closure w' i l))).
  { intros l i Hl Hi. destruct (Ids l i Hl Hi) as (Hi0 & EL). destruct (L8 i Hi0) as (_ & _ & EA & _ & _ & EB & ES & EL' & EP). rewrite ES. destruct (so_factor _ SO l i Hl Hi) as (_ & [G|G] & EP0 & _); [left; exact G|]. right. rewrite G. f_equal. symmetry.
    destruct (Nat.eqb_spec i c) as [->|Hn]; [destruct (Hf l Hl Hi) as (G' & _); congruence|]. apply own_closure_ext; try assumption; try congruence.
    - intros a [->|Ha]; [apply Lo; exact Hl|]. apply Lo. rewrite EP0 in Ha. apply filter_In in Ha. destruct Ha as (Ha & _). apply in_seq in Ha. unfold nl. lia.
    - intros j Hj. destruct (Ids l j Hl Hj) as (Hj0 & _). apply (L8 j Hj0). }
  assert (SP : forall l, (l < S nl)%nat -> (l < nl)%nat \/ l = nl) by (intros; lia).
  split.
  - exact WF'.
  - constructor.
    + intros l. rewrite Ln. intros Hl. destruct (SP l Hl) as [H| ->]; [rewrite Lo by exact H; apply P; exact H|rewrite Lnew; exact Hm].
    + intros l. rewrite Ln. intros Hl. unfold disp. destruct (SP l Hl) as [H| ->]; [rewrite Lo by exact H; apply (plain_disp _ P l H)|rewrite Lnew; eexists; reflexivity].
    + intros l. rewrite Ln. intros Hl. destruct (SP l Hl) as [H| ->]; [rewrite Lo by exact H; apply (plain_flags _ P l H)|rewrite Lnew; auto].
    + intros l. rewrite Ln. intros Hl. destruct (SP l Hl) as [H| ->].
      * rewrite Lo by exact H. rewrite <- (plain_axes _ P l H). apply map_ext_in. intros i Hi. apply L8. apply (Ids l i H Hi).
      * rewrite Lnew. unfold lay. cbn [factors]. rewrite seq_length. apply (nth_ext _ _ None None); [rewrite !map_length, !seq_length; reflexivity|]. intros k Hk. rewrite map_length, seq_length in Hk.
        rewrite !(nth_map_lt _ _ k 0%nat) by (rewrite seq_length; exact Hk). rewrite !seq_nth by exact Hk. apply (L9 k Hk).
    + intros l. rewrite Ln. intros Hl. destruct (SP l Hl) as [H| ->].
      * rewrite Lo by exact H. rewrite Val; [apply (plain_child _ P l H)|]. exact (proj1 (so_layer _ SO l H)).
      * rewrite Lnew. unfold lay. cbn [factors child]. rewrite seq_length, Val by exact Hc. exact HN.
    + intros l i. rewrite Ln. intros Hl. destruct (SP l Hl) as [H| ->].
      * rewrite Lo by exact H. intros Hi. destruct (Ids l i H Hi) as (Hi0 & EL). pose proof (L8 i Hi0) as (EV & _ & _ & EX & EE & _ & _ & _ & EP). destruct (plain_factor _ P l i H Hi) as (A1 & A2 & A3 & A4 & A5 & _). rewrite EV, EX, EE, EP. split; [exact A1|]. split; [exact A2|]. split; [exact A3|].
        destruct (Nat.eqb_spec i c) as [->|Hn].
        -- destruct (Hf l H Hi) as (G1 & G2 & G3). split; [|split; [intros _; exact G3|destruct (CF l c H Hi) as [G|G]; [left; exact G|right; eexists; split; [exact G|apply own_factor_closure]]]].
           intros p Hp. apply in_app_or in Hp. destruct Hp as [Hp|[<-|[]]]; [destruct (A4 p Hp) as (B1 & B2); fold nl in B1; rewrite Lo by exact B1; split; [lia|exact B2]|]. split; [lia|]. rewrite Lnew. unfold lay. cbn [factors]. rewrite seq_length.
           destruct HN as [(G & _)|(_ & (t & G))]; [exact G|]. destruct A1 as (x & A1). congruence.
        -- split; [|split; [exact A5|destruct (CF l i H Hi) as [G|G]; [left; exact G|right; eexists; split; [exact G|apply own_factor_closure]]]]. intros p Hp. destruct (A4 p Hp) as (B1 & B2). fold nl in B1. rewrite Lo by exact B1. split; [lia|exact B2].
      * rewrite Lnew. unfold lay. cbn [factors]. intros Hi. apply in_seq in Hi. destruct (L9 (i - n0)%nat) as (_ & _ & EX & _ & EV); [lia|]. destruct (F5 (i - n0)%nat) as (E1 & E2 & E3 & E4); [lia|]. replace (n0 + (i - n0))%nat with i in * by lia.
        split; [destruct EV as (x & EV & _); exists x; exact EV|]. split; [exact E1|]. split; [eexists; exact EX|]. rewrite E4. split; [contradiction|]. split; [contradiction|]. left. exact E3.
    + intros l. rewrite Ln. intros Hl. unfold disp_closure. destruct (SP l Hl) as [H| ->]; [rewrite Lo by exact H; apply (plain_lbda _ P l H)|rewrite Lnew; left; reflexivity].
    + intros i. rewrite L5. intros Hi. destruct (so_free _ SO i Hi) as (G & _). destruct (L8 i G) as (_ & _ & _ & -> & _). apply P. exact Hi.
  - intros i (l & Hl & Hi) j Hj Hn. rewrite Ln in Hl. rewrite L7 in Hj.
    assert (VO : forall k, (k < n0)%nat -> val (get_mat w' k) = val (get_mat w k) /\ (val (get_mat w k) < List.length (arrays w))%nat) by (intros k Hk; split; [apply (L8 k Hk)|apply stored_val; assumption]).
    assert (VN : forall k, (n0 <= k < n0 + n)%nat -> val (get_mat w' k) = (List.length (arrays w) + (k - n0))%nat) by (intros k Hk; destruct (L9 (k - n0)%nat) as (_ & _ & _ & G & _); [lia|]; replace (n0 + (k - n0))%nat with k in G by lia; exact G).
    destruct (SP l Hl) as [H| ->].
    + rewrite Lo in Hi by exact H. destruct (Ids l i H Hi) as (Hi0 & _). destruct (VO i Hi0) as (V1 & V2). rewrite V1. destruct (Nat.lt_ge_cases j n0) as [Hj0|Hj0].
      * destruct (VO j Hj0) as (V3 & _). rewrite V3. apply (so_own _ SO i); [exists l; auto|exact Hj0|exact Hn].
      * rewrite VN by lia. lia.
    + rewrite Lnew in Hi. unfold lay in Hi. cbn [factors] in Hi. apply in_seq in Hi. rewrite (VN i) by lia. destruct (Nat.lt_ge_cases j n0) as [Hj0|Hj0]; [destruct (VO j Hj0) as (V3 & V4); rewrite V3; lia|rewrite VN by lia; lia].
  - intros i. rewrite L5, L7. intros Hi. destruct (so_free _ SO i Hi) as (G1 & G2). fold n0 in G1. split; [lia|]. rewrite Val by exact G1. exact G2.
  - intros l. rewrite Ln, L7. intros Hl. destruct (SP l Hl) as [H| ->].
    + rewrite Lo by exact H. destruct (so_layer _ SO l H) as (G1 & G2 & G3 & (K' & G4) & G5). cbv zeta in *. fold n0 in G1. rewrite Val by exact G1. split; [lia|]. split; [exact G2|]. split; [exact G3|]. split; [|exact G5].
      exists K'. intros k Hk. rewrite Val; [apply G4; exact Hk|]. apply (Ids l _ H). apply nth_In. exact Hk.
    + rewrite Lnew. cbv zeta. unfold lay. cbn [factors child lbda beta fst snd]. rewrite seq_length, Val by exact Hc. split; [lia|]. split; [exact Hd|]. split; [intros i Hi; apply in_seq in Hi; lia|]. split; [|split; [|split; lra]].
      * exists K. intros k Hk. rewrite seq_nth by exact Hk. apply (L9 k Hk).
      * intros E. apply Hsm. destruct HN as [(_ & G)|(E' & _)]; [exact G|lia].
  - intros l i. rewrite Ln. intros Hl. rewrite seq_S, filter_app. cbn [Nat.add filter]. rewrite Lnew. change (child lay) with c.
    assert (FE : forall i, filter (fun k => Nat.eqb (child (get_lay w' k)) i) (seq 0 nl) = filter (fun k => Nat.eqb (child (get_lay w k)) i) (seq 0 nl)).
    { intros j. apply filter_ext_in. intros k Hk. apply in_seq in Hk. rewrite Lo by lia. reflexivity. }
    rewrite FE. destruct (SP l Hl) as [H| ->].
    + rewrite Lo by exact H. intros Hi. destruct (Ids l i H Hi) as (Hi0 & EL). pose proof (L8 i Hi0) as (_ & _ & _ & _ & _ & EB & _ & _ & EP). destruct (so_factor _ SO l i H Hi) as (G1 & _ & G3 & G4 & G5). split; [rewrite EB; exact G1|]. split; [apply (CF l i H Hi)|]. rewrite EP. fold nl in G3. rewrite G3 in *.
      assert (OLD : forall a, In a (filter (fun k => Nat.eqb (child (get_lay w k)) i) (seq 0 nl)) -> get_lay w' a = get_lay w a) by (intros a Ha; apply filter_In in Ha; destruct Ha as (Ha & _); apply in_seq in Ha; apply Lo; lia).
      rewrite (Nat.eqb_sym c i). destruct (Nat.eqb_spec i c) as [->|Hn].
      * split; [reflexivity|]. destruct (Hf l H Hi) as (_ & HP & _). rewrite G3 in HP. rewrite app_length. cbn [List.length]. split; [destruct HP as [->|(k & -> & _)]; cbn; lia|]. intros a b Ha Hb. destruct HP as [HP|(k & HP & HK)]; rewrite HP in *; cbn [app In] in Ha, Hb.
        -- destruct Ha as [<-|[]], Hb as [<-|[]]. reflexivity.
        -- assert (Ek : get_lay w' k = get_lay w k) by (apply OLD; left; reflexivity). destruct Ha as [<-|[<-|[]]], Hb as [<-|[<-|[]]]; rewrite ?Lnew, ?Ek; try reflexivity; [exact HK|symmetry; exact HK].
      * rewrite app_nil_r. split; [reflexivity|]. split; [exact G4|]. intros a b Ha Hb. rewrite !OLD by assumption. apply G5; assumption.
    + rewrite Lnew. unfold lay at 1. cbn [factors]. intros Hi. apply in_seq in Hi. destruct (F5 (i - n0)%nat) as (_ & E2 & E3 & E4); [lia|]. replace (n0 + (i - n0))%nat with i in * by lia. rewrite E2, E4. split; [lra|]. split; [left; exact E3|].
      assert (EN : filter (fun k => Nat.eqb (child (get_lay w k)) i) (seq 0 nl) = []).
      { destruct (filter _ (seq 0 nl)) as [|k t] eqn:E; [reflexivity|]. assert (Hk : In k (k :: t)) by (left; reflexivity). rewrite <- E in Hk. apply filter_In in Hk. destruct Hk as (Hk & Ek). apply in_seq in Hk. apply Nat.eqb_eq in Ek.
        destruct (so_layer _ SO k) as (G & _); [fold nl; lia|]. fold n0 in G. cbv zeta in G. lia. }
      rewrite EN, (proj2 (Nat.eqb_neq c i)) by lia. split; [reflexivity|]. split; [cbn; lia|]. intros a b [].
Qed.
