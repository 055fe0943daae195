(** qL-AND machines: construction and refutations (C89). *)
From Coq Require Import String Lia Lra Permutation.
From Verif Require Import Base BaseLemmas BaseR BaseRLemmas ScoresProofs Spec SpecR SpecQL Canon Sampling SamplingProofs Lambda QL QLProofs QLProofs2 LayerOutputProofs2 Clean Machine Dispatch Inference SpecMachine SpecOrdinary SpecExperiments SpecMaxRun SpecQRun MachineProofs MachineProofs2 InferenceProofs InferenceProofs2 InferenceProofs6 ProgressProofs PlainProofs PreserveProofs OrdinaryProofs6 ExperimentProofs2 EngineProofs MaxRunProofs2 QRunProofs MachineExamples OrdinaryExamples.
Local Open Scope R_scope.

Section Build.
Context (o : oracle) (arrs : list arr) (clk : nat) (src : source) (X : mat) (N D L : nat).
Context (HT : training_data arrs src (A2 X)) (HX : has_shape2 X N D) (HN : (0 < N)%nat) (HD : (0 < D)%nat) (HL : (0 < L)%nat).
Let arr0 : list arr := stored_arrays arrs src.
Let rnd (k K : nat) : arr := random_arr (o_init o (clk + k)) [K; L].
Definition q_mats : list matrix :=
  [Mat (train_index arrs src) None (FBool true) (zeros_like (A2 X)) (1 / 2) None [0%nat] None;
   Mat (List.length arr0) (Some 0%nat) (FBool false) (zeros_like (rnd 0 N)) (1 / 2) (Some 0%nat) [] None;
   Mat (S (List.length arr0)) (Some 1%nat) (FBool false) (zeros_like (rnd 1 D)) (1 / 2) (Some 0%nat) [] None;
   Mat (S (S (List.length arr0))) (Some 1%nat) (FBool false) (zeros_like (A2 [repeat 1%Z D])) (1 / 2) (Some 0%nat) [] None].
Definition q_built : world := World (((arr0 ++ [rnd 0 N]) ++ [rnd 1 D]) ++ [A2 [repeat 1%Z D]]) q_mats
  [Lay [1; 2]%nat 0 "qL-AND" (Par (lbda_init "qL-AND" L) false (1, 1) None) None None (Some 3%nat) 1 false false false false] [0%nat] false (S (S (S clk))).
Lemma q_build_layer : add_layer o (built_w1 arrs clk src X) L (Some 0%nat) None "qL-AND" = (q_built, Ok tt).
Proof.
  destruct (train_stored _ _ _ HT) as (T1 & T2). unfold add_layer, canonise_model. change (canonise_name "qL-AND") with (Ok ("qL-AND"%string, false, false)). cbv beta iota zeta. assert (V : value (built_w1 arrs clk src X) 0 = A2 X) by exact T2. rewrite V. cbn [shape_of]. rewrite (shape2_nrows _ _ _ HX), (shape2_ncols _ _ _ HX HN).
  cbn [List.length seq combine fold_left]. unfold new_layer. cbv zeta.
  assert (EN : forall (x : arr), List.length (arr0 ++ [x]) = S (List.length arr0)) by (intros; rewrite app_length; cbn; lia). assert (EN2 : forall (x y : arr), List.length ((arr0 ++ [x]) ++ [y]) = S (S (List.length arr0))) by (intros; rewrite !app_length; cbn; lia).
  change (String.eqb "qL-AND" "qL-AND") with true. change (String.eqb "qL-AND" "MAX-AND") with false. cbv iota.
  match goal with |- context [value ?W 0] => assert (VW : value W 0 = A2 X) end.
  { unfold value, get_arr. cbn -[random_arr zeros_like stored_arrays train_index lbda_init]. rewrite !app_nth1 by (rewrite ?app_length; unfold arr0 in *; lia). exact T2. }
  rewrite VW. cbn [shape_of nth]. rewrite (shape2_ncols _ _ _ HX HN).
  cbn -[random_arr zeros_like stored_arrays train_index lbda_init repeat]. unfold q_built, q_mats, rnd. fold arr0. rewrite !nth_middle.
  assert (E2 : forall (x y : arr), nth (List.length (arr0 ++ [x])) ((arr0 ++ [x]) ++ [y]) (A2 []) = y) by (intros; apply nth_middle).
  assert (E3 : forall (x y z : arr), nth (List.length ((arr0 ++ [x]) ++ [y])) (((arr0 ++ [x]) ++ [y]) ++ [z]) (A2 []) = z) by (intros; apply nth_middle).
  rewrite ?E2, ?E3, ?EN, ?EN2, ?Nat.add_0_r, ?Nat.add_1_r. reflexivity.
Qed.
Lemma q_build_machine : tern2 X -> (Z.of_nat N <= 32767)%Z -> (Z.of_nat D <= 32767)%Z -> exists A B lam, q_machine q_built N D L A B X [repeat 1%Z D] lam.
Proof.
  intros HX3 BN BD. destruct (train_stored _ _ _ HT) as (T1 & T2). fold arr0 in T1, T2.
  destruct (okmat_binary N L _ (random_binary (o_init o (clk + 0)) N L)) as (A & EA & OA). destruct (okmat_binary D L _ (random_binary (o_init o (clk + 1)) D L)) as (B & EB & OB).
  assert (V0 : value q_built 0 = A2 X) by (unfold value, get_arr; cbn; rewrite !app_nth1 by (rewrite ?app_length; lia); exact T2).
  assert (V1 : value q_built 1 = A2 A) by (unfold value, get_arr; cbn -[random_arr]; rewrite !(app_nth1 (_ ++ [_])) by (rewrite ?app_length; cbn; lia); rewrite nth_middle; exact EA).
  assert (V2 : value q_built 2 = A2 B) by (unfold value, get_arr; cbn -[random_arr]; rewrite (app_nth1 ((_ ++ [_]) ++ [_])) by (rewrite !app_length; cbn; lia); rewrite app_nth2 by (rewrite app_length; cbn; lia); rewrite app_length; cbn [List.length]; rewrite Nat.add_1_r, Nat.sub_diag; exact EB).
  assert (V3 : value q_built 3 = A2 [repeat 1%Z D]) by (unfold value, get_arr; cbn -[random_arr repeat]; rewrite app_nth2 by (rewrite !app_length; cbn; lia); rewrite !app_length; cbn [List.length]; replace (S (S (List.length arr0)) - (List.length arr0 + 1 + 1))%nat with 0%nat by lia; reflexivity).
  exists A, B. eexists. constructor.
  - constructor; try reflexivity.
    + cbn. lia.
    + auto 10.
    + intros i [-> | ->]; (split; [reflexivity|]); (split; [reflexivity|]); (split; [reflexivity|]); (split; [exists false; reflexivity|]); eexists; cbn -[random_arr]; unfold rnd; [rewrite EA|rewrite EB]; reflexivity.
    + intros i Hi. cbn [q_built arrays]. rewrite !app_length. cbn [List.length]. destruct i as [|[|[|[|i]]]]; cbn [q_built get_mat mats q_mats nth val List.length] in *; lia.
    + intros i j Hi Hj Hij. destruct i as [|[|[|[|i]]]], j as [|[|[|[|j]]]]; cbn [q_built get_mat mats q_mats nth val List.length] in *; lia.
  - reflexivity.
  - constructor; auto.
  - auto.
  - split; [reflexivity|]. split; [reflexivity|]. cbn. lra.
  - split; [exact V3|]. split; [split; [reflexivity|constructor; [apply repeat_length|constructor]]|]. intros d Hd. unfold at2, at1, row. cbn [nth]. rewrite (nth_indep _ 0%Z 1%Z) by (rewrite repeat_length; exact Hd). rewrite nth_repeat. lia.
  - split; [reflexivity|]. split; [reflexivity|]. split; [reflexivity|]. split; [exists false; reflexivity|]. eexists. reflexivity.
  - left. reflexivity.
  - left. reflexivity.
  - left. reflexivity.
  - intros [C|C]; destruct C; reflexivity.
  - left. reflexivity.
Qed.
End Build.
Lemma C89_built_lemma o arrs clk src X N D L : training_data arrs src (A2 X) -> has_shape2 X N D -> tern2 X -> (Z.of_nat N <= 32767)%Z -> (Z.of_nat D <= 32767)%Z -> (0 < N)%nat -> (0 < D)%nat -> (0 < L)%nat ->
  exists w1 w2 A B lam, add_matrix o (World arrs [] [] [] false clk) src None (FBool true) = Ok w1 /\ add_layer o w1 L (Some 0%nat) None "qL-AND" = (w2, Ok tt) /\
    q_machine w2 N D L A B X [repeat 1%Z D] lam /\ anneal w2 = false /\ fixed (get_mat w2 1) = FBool false /\ fixed (get_mat w2 2) = FBool false /\ fixed (get_mat w2 3) = FBool false /\ lfixed (lbda (get_lay w2 0)) = false.
Proof.
  intros HT HX HX3 BN BD HN HD HL. destruct (q_build_machine o arrs clk src X N D L HT HX HN HD HL HX3 BN BD) as (A & B & lam & H).
  exists (built_w1 arrs clk src X), (q_built o arrs clk src X N D L), A, B, lam. split; [apply (build_matrix o arrs clk src X HT)|]. split; [apply (q_build_layer o arrs clk src X N D L); assumption|]. split; [exact H|]. repeat split.
Qed.
Definition small_q (A B X Q : mat) (lam p : R) (F : mat) (b : bool) : world :=
  World [A2 X; A2 A; A2 B; A2 Q]
    [Mat 0 None (FBool true) (zeros_like (A2 X)) (1 / 2) None [0%nat] None;
     Mat 1 (Some 0%nat) (FBool b) (A2 F) p (Some 0%nat) [] (if b then None else Some (FqZ [0; 1]%nat));
     Mat 2 (Some 1%nat) (FBool b) (zeros_like (A2 B)) (1 / 2) (Some 0%nat) [] (if b then None else Some (FqU [1; 0]%nat));
     Mat 3 (Some 1%nat) (FBool false) (zeros_like (A2 Q)) (1 / 2) (Some 0%nat) [] (if b then None else Some Fqq)]
    [Lay [1; 2]%nat 0 "qL-AND" (Par (LS lam) false (1, 1) None) None None (Some 3%nat) 1 false false false false] [0%nat] false 0.
Lemma small_q_machine N D L A B X Q lam p F b : (0 < N)%nat -> (0 < D)%nat -> (0 < L)%nat -> has_shape2 X N D -> tern2 X -> (Z.of_nat N <= 32767)%Z -> (Z.of_nat D <= 32767)%Z -> okmat N L A -> okmat D L B -> has_shape2 Q 1 D -> (forall d, (d < D)%nat -> (1 <= at2 Q 0 d)%Z) ->
  q_machine (small_q A B X Q lam p F b) N D L A B X Q lam.
Proof.
  intros HN HD HL HX HX3 BN BD HA HB HQ HQ1. constructor.
  - constructor; try reflexivity; [cbn; lia|auto 10| | |].
    + intros i [-> | ->]; (split; [reflexivity|]); (split; [reflexivity|]); (split; [reflexivity|]); (split; [exists b; reflexivity|]); eexists; reflexivity.
    + intros [|[|[|[|i]]]] Hi; cbn in *; lia.
    + intros [|[|[|[|i]]]] [|[|[|[|j]]]] Hi Hj Hij; cbn in *; lia.
  - reflexivity.
  - constructor; [auto|auto|auto].
  - auto.
  - split; [reflexivity|]. split; [reflexivity|]. cbn. lra.
  - split; [reflexivity|]. auto.
  - split; [reflexivity|]. split; [reflexivity|]. split; [reflexivity|]. split; [exists false; reflexivity|]. eexists. reflexivity.
  - destruct b; [left|right]; reflexivity.
  - destruct b; [left|right]; reflexivity.
  - destruct b; [left|right]; reflexivity.
  - destruct b; [intros [C|C]; destruct C; reflexivity|reflexivity].
  - left. reflexivity.
Qed.
Lemma one_machine x lam p F b : x = 1%Z \/ x = (-1)%Z -> q_machine (small_q [[1%Z]] [[1%Z]] [[x]] [[1%Z]] lam p F b) 1 1 1 [[1%Z]] [[1%Z]] [[x]] [[1%Z]] lam.
Proof.
  intros Hx. assert (OK1 : okmat 1 1 [[1%Z]]) by (split; [split; [reflexivity|repeat constructor]|repeat constructor]).
  apply small_q_machine; try lia; try exact OK1; try (split; [reflexivity|repeat constructor]); [|intros [|d] Hd; [reflexivity|lia]].
  constructor; [constructor; [destruct Hx as [-> | ->]; unfold tern; auto|constructor]|constructor].
Qed.
Definition with_draws (c f : R) : oracle := {| o_perm := o_perm demo; o_cell := fun _ _ _ => c; o_feature := fun _ _ => f; o_ibp := o_ibp demo; o_init := o_init demo; o_argsort := o_argsort demo; o_memory := o_memory demo |}.
Lemma with_draws_random c f : SpecR.is_draw c -> SpecR.is_draw f -> random (with_draws c f) /\ forall k d, SpecR.is_draw (o_feature (with_draws c f) k d).
Proof. intros Hc Hf. split; [split; [exact (proj1 demo_random)|intros; exact Hc]|intros; exact Hf]. Qed.
Definition q_out (q : Z) (z u : vec) (L : nat) : Z := sgn (q_b q z u L).
Lemma q_out_is : is_qout q_out.
Proof. intros q z u L. apply q_output_b. reflexivity. Qed.
Lemma half_draw : SpecR.is_draw (1 / 2).
Proof. split; lra. Qed.
(** The state after an update determines the matrix. *)
Lemma ideal_at out o x lam p F i w' : x = 1%Z \/ x = (-1)%Z -> q_update false out o (small_q [[1%Z]] [[1%Z]] [[x]] [[1%Z]] lam p F false) i w' ->
  (i = 1%nat -> value w' 1 = A2 (ref_sweep (fun A' => q_post out (fun d => at2 [[1%Z]] 0 d) lam [[x]] 1 1 1 p (1 / 2) A' [[1%Z]]) F (o_cell o 0) 1 1 [[1%Z]])) /\
  (i = 3%nat -> exists M k, value w' 3 = A2 M /\ at2 M 0 0 = Z.of_nat k /\ selects (q_weight out lam 1 [[x]] 1 1 0 [[1%Z]] [[1%Z]]) (o_feature o 0 0) k).
Proof.
  intros Hx (N & D & L & A & B & Y & Q & lam0 & F0 & M & H & EF & -> & HU). pose proof (one_machine x lam p F false Hx) as H1.
  destruct (qm_layer _ _ _ _ _ _ _ _ _ H) as (_ & E1 & _). injection E1 as <-. destruct (qm_thresholds _ _ _ _ _ _ _ _ _ H) as (E2 & _). injection E2 as <-. destruct (qm_holding _ _ _ _ _ _ _ _ _ H) as [_ (a1 & a2 & a3) (b1 & b2 & b3)]. injection a1 as <-. injection a2 as <-. injection a3 as <-.
  destruct b2 as ((b2 & b2') & _). destruct b3 as ((b3 & _) & _). cbn in b2, b3. subst N D. inversion b2' as [|? ? G _]; subst. cbn [List.length] in *. cbv zeta in HU.
  split; intros ->.
  - destruct HU as [(_ & ->)|[(C & _)|(C & _)]]; try discriminate C. cbn in EF. injection EF as <-. reflexivity.
  - destruct HU as [(C & _)|[(C & _)|(_ & _ & HU)]]; try discriminate C. destruct (HU 0%nat ltac:(lia)) as (k & E & S1). exists M, k. split; [reflexivity|]. split; [exact E|exact S1].
Qed.
Lemma C89_conditional_refuted_lemma out : is_qout out -> forall lam p, 0 < p < 1 -> lam + ln (p / (1 - p)) <> 1 ->
  exists o w w', random o /\ q_machine w 1 1 1 [[1%Z]] [[1%Z]] [[1%Z]] [[1%Z]] lam /\ bprior (get_mat w 1) = p /\ run_mat o w 1 = Ok w' /\ ~ q_update false out o w 1 w'.
Proof.
  intros Ho lam p Hp Hne. destruct (proj1 (C44_refuted_lemma out Ho) lam p Hp Hne) as (r & Hr & NE). pose proof (one_machine 1 lam p [[0%Z]] false (or_introl eq_refl)) as H1. set (w := small_q _ _ _ _ _ _ _ _) in *.
  destruct (with_draws_random r (1 / 2) Hr half_draw) as (R1 & R2). exists (with_draws r (1 / 2)), w, (tick (put w 1 (qL_sampler 0 [[1%Z]] [[1%Z]] [[0%Z]] [[1%Z]] [[1%Z]] lam p (fun _ _ => r)))). split; [exact R1|]. split; [exact H1|]. split; [reflexivity|]. split; [reflexivity|].
  intros G. destruct (ideal_at out _ 1 lam p [[0%Z]] 1 _ (or_introl eq_refl) G) as (G1 & _). specialize (G1 eq_refl). apply NE. apply (f_equal (fun x => match x with A2 m => m | A3 _ => [] end)) in G1. etransitivity; [exact G1|]. reflexivity.
Qed.
Lemma C89_fixed_refuted_lemma out : forall lam p, exists o w w' F, random o /\ q_machine w 1 1 1 [[1%Z]] [[1%Z]] [[1%Z]] [[1%Z]] lam /\ bprior (get_mat w 1) = p /\ run_mat o w 1 = Ok w' /\ fixed_entries (get_mat w 1) = A2 F /\ at2 F 0 0 = 1%Z /\ value w 1 = A2 [[1%Z]] /\ value w' 1 = A2 [[(-1)%Z]] /\ ~ q_update false out o w 1 w'.
Proof.
  intros lam p. pose proof (one_machine 1 lam p [[1%Z]] false (or_introl eq_refl)) as H1. set (w := small_q _ _ _ _ _ _ _ _) in *. assert (D0 : SpecR.is_draw 0) by (split; lra).
  destruct (with_draws_random 0 (1 / 2) D0 half_draw) as (R1 & R2). assert (ES : qL_sampler 0 [[1%Z]] [[1%Z]] [[1%Z]] [[1%Z]] [[1%Z]] lam p (fun _ _ => 0) = [[(-1)%Z]]) by (apply (proj2 (C44_refuted_lemma _ (q_out_is)))).
  exists (with_draws 0 (1 / 2)), w, (tick (put w 1 [[(-1)%Z]])), [[1%Z]]. split; [exact R1|]. split; [exact H1|]. split; [reflexivity|]. split; [rewrite <- ES; reflexivity|]. split; [reflexivity|]. split; [reflexivity|]. split; [reflexivity|]. split; [reflexivity|].
  intros G. destruct (ideal_at out _ 1 lam p [[1%Z]] 1 _ (or_introl eq_refl) G) as (G1 & _). specialize (G1 eq_refl). unfold ref_sweep in G1. change (cells 1 1) with [(0%nat, 0%nat)] in G1. cbn [fold_left] in G1. change (at2 [[1%Z]] 0 0 =? 1)%Z with true in G1. cbv iota in G1. discriminate G1.
Qed.
Lemma C89_thresholds_refuted_lemma out : is_qout out -> forall lam, 0 < lam ->
  exists o w w', random o /\ (forall k d, SpecR.is_draw (o_feature o k d)) /\ q_machine w 1 1 1 [[1%Z]] [[1%Z]] [[(-1)%Z]] [[1%Z]] lam /\ run_mat o w 3 = Ok w' /\ ~ q_update false out o w 3 w'.
Proof.
  intros Ho lam Hl. destruct (C67_refuted_lemma out Ho lam 1 Hl Rlt_0_1) as (u & Hu & NE). pose proof (one_machine (-1) lam (1 / 2) [[0%Z]] false (or_intror eq_refl)) as H1. set (w := small_q _ _ _ _ _ _ _ _) in *.
  destruct (with_draws_random (1 / 2) u half_draw Hu) as (R1 & R2). exists (with_draws (1 / 2) u), w, (tick (put w 3 (sample_qL_q [[1%Z]] [[1%Z]] [[(-1)%Z]] [[1%Z]] lam 1 (fun _ => u)))). split; [exact R1|]. split; [exact R2|]. split; [exact H1|]. split; [reflexivity|].
  intros G. destruct (ideal_at out _ (-1) lam (1 / 2) [[0%Z]] 3 _ (or_intror eq_refl) G) as (_ & G3). destruct (G3 eq_refl) as (M & k & EV & Ek & Sl). apply (f_equal (fun x => match x with A2 m => m | A3 _ => [] end)) in EV. apply (NE k); [rewrite <- Ek; apply (f_equal (fun m => at2 m 0 0)); exact EV|exact Sl].
Qed.
