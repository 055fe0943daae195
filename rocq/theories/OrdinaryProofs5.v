(** The updates of an ordinary machine are draws from its joint posterior: all kinds of factors. *)
From Coq Require Import String Permutation Lra.
From Verif Require Import Base BaseR BaseLemmas BaseRLemmas Spec SpecR HelpersProofs Canon Outputs Fuzzy Scores Sampling SamplingProofs HierProofs Lambda LambdaProofs MaxMachine Clean Machine Dispatch Inference SpecMachine SpecOrdinary MachineProofs MachineProofs2 BuiltProofs InferenceProofs InferenceProofs2 PlainProofs DispatchProofs UpdateProofs OrdinaryProofs OrdinaryProofs2 OrdinaryProofs3 OrdinaryProofs4.
Local Open Scope R_scope.

Lemma lik2_cols out x X N D L A B : okmat N L A -> lik2 out x X N D (ncols A) A B = lik2 out x X N D L A B.
Proof. intros H. destruct (okmat_cols _ _ _ H) as (_ & [->| ->]); reflexivity. Qed.
Lemma lik3_cols out x X N D M L A B C : okmat N L A -> lik3 out x X N D M (ncols A) A B C = lik3 out x X N D M L A B C.
Proof. intros H. destruct (okmat_cols _ _ _ H) as (_ & [->| ->]); reflexivity. Qed.
Lemma prior_cols p N L A : okmat N L A -> prior p (nrows A) (ncols A) A = prior p N L A.
Proof. intros H. destruct (okmat_cols _ _ _ H) as (-> & [->| ->]); reflexivity. Qed.
Lemma layer2_same w l f g N D L A B X x f' g' N' D' L' A' B' X' x' : layer2 w l f g N D L A B X x -> layer2 w l f' g' N' D' L' A' B' X' x' -> f' = f /\ g' = g /\ A' = A /\ B' = B /\ X' = X /\ x' = x.
Proof.
  intros [(_ & E & _) _ (v1 & v2 & v3 & v4) _] [(_ & E' & _) _ (v1' & v2' & v3' & v4') _]. rewrite E in E'. injection E' as <- <-. rewrite v1 in v1'. rewrite v2 in v2'. rewrite v3 in v3'. rewrite v4 in v4'. repeat split; congruence.
Qed.

Section Updates.
Context (outs : string -> list vec -> nat -> Z) (Houts : outputs outs) (orc : oracle) (Hr : forall k n l, is_draw (o_cell orc k n l)) (w : world) (S : sound w).
Let dr N L : draws_ok (o_cell orc (clock w)) N L. Proof. intros n l _ _. apply Hr. Qed.

(** Parents *)
Lemma parent_layer l i k A : (l < List.length (layers w))%nat -> In i (factors (get_lay w l)) -> In k (parents (get_mat w i)) -> value w i = A2 A ->
  exists a b K a1 a2 y, layer2 w k a b (nrows A) (ncols A) K a1 a2 A y /\ (forall j, j = a \/ j = b -> j <> i) /\
  forall A', okmat (nrows A) (ncols A) A' -> layer_lik outs (put w i A') k = parent_lik (outs (model (get_lay w k))) y a1 a2 (nrows A) (ncols A) K A'.
Proof.
  intros Hl Hi Hk EA. destruct (plain_factor _ (so_plain _ S) l i Hl Hi) as (_ & _ & _ & A4 & _). destruct (A4 k Hk) as (Hk0 & H2). destruct (so_factor _ S l i Hl Hi) as (_ & _ & EP & _). rewrite EP in Hk. apply filter_In in Hk. destruct Hk as (_ & Hc). apply Nat.eqb_eq in Hc.
  destruct (sound_layer2 w k S Hk0 H2) as (a & b & K & a1 & a2 & X & y & H & _). pose proof (l2_values _ _ _ _ _ _ _ _ _ _ _ H) as (va & vb & vx & vy). rewrite Hc, EA in vx. injection vx as <-.
  pose proof (l2_layer _ _ _ _ _ _ _ _ _ _ _ H) as (_ & EF & _). pose proof (l2_factors _ _ _ _ _ _ _ _ _ _ _ H) as ((ha & _) & (hb & _)). destruct (so_layer _ S k Hk0) as (Hc0 & _ & G & _). cbv zeta in G. rewrite EF, Hc in G.
  assert (NE : forall j, j = a \/ j = b -> j <> i) by (intros j Hj; assert (i < j)%nat by (apply G; cbn; destruct Hj; auto); lia).
  exists a, b, K, a1, a2, y. split; [exact H|]. split; [exact NE|]. intros A' HA'. unfold layer_lik. change (get_lay (put w i A') k) with (get_lay w k). change (disp (put w i A') k) with (disp w k).
  rewrite EF, Hc, vy. cbn [map]. rewrite !(put_value w S l i Hl Hi) by first [assumption|rewrite <- Hc; exact Hc0]. rewrite Nat.eqb_refl, (proj2 (Nat.eqb_neq a i)), (proj2 (Nat.eqb_neq b i)) by (apply NE; auto). rewrite va, vb.
  destruct (l2_shapes _ _ _ _ _ _ _ _ _ _ _ H) as (s1 & s2 & _). destruct (okmat_cols _ _ _ s1) as (E1 & _). destruct (okmat_cols _ _ _ s2) as (E2 & _). rewrite E1, E2, (lik2_cols _ _ _ _ _ K _ _ s1). reflexivity.
Qed.
Lemma out_of k : (k < List.length (layers w))%nat -> exists o i, In (o, i) implemented /\ model (get_lay w k) = model_name o i /\ is_output o i (outs (model (get_lay w k))).
Proof. intros Hk. destruct (standard_implemented _ (plain_model _ (so_plain _ S) k Hk)) as (o & i & H1 & H2). exists o, i. split; [exact H1|]. split; [exact H2|]. rewrite H2. apply Houts. exact H1. Qed.
Let half : 0 < 1 / 2 < 1. Proof. lra. Qed.

(** The part of the posterior that depends on a factor *)
Lemma part2 l f g N D L A B X x : layer2 w l f g N D L A B X x ->
  (forall A', okmat N L A' -> part outs w l f A' = lik2 (outs (model (get_lay w l))) x X N D L A' B * prior (bprior (get_mat w f)) N L A' * Rprod (layer_lik outs (put w f A')) (parents (get_mat w f))) /\
  (forall B', okmat D L B' -> part outs w l g B' = lik2 (outs (model (get_lay w l))) x X N D L A B' * prior (bprior (get_mat w g)) D L B' * Rprod (layer_lik outs (put w g B')) (parents (get_mat w g))).
Proof.
  intros H. pose proof (l2_layer _ _ _ _ _ _ _ _ _ _ _ H) as (Hl & EF & Hfg). pose proof (l2_factors _ _ _ _ _ _ _ _ _ _ _ H) as ((hf & _) & (hg & _)). pose proof (l2_values _ _ _ _ _ _ _ _ _ _ _ H) as (vf & vg & vx & vl). pose proof (l2_shapes _ _ _ _ _ _ _ _ _ _ _ H) as (sA & sB & _).
  destruct (so_layer _ S l Hl) as (Hc0 & _ & G & _). cbv zeta in G. rewrite EF in G. assert (Gf : (child (get_lay w l) < f)%nat) by (apply G; cbn; auto). assert (Gg : (child (get_lay w l) < g)%nat) by (apply G; cbn; auto).
  assert (If : In f (factors (get_lay w l))) by (rewrite EF; cbn; auto). assert (Ig : In g (factors (get_lay w l))) by (rewrite EF; cbn; auto).
  split; intros A' HA'; unfold part; f_equal; f_equal.
  - unfold layer_lik. change (get_lay (put w f A') l) with (get_lay w l). change (disp (put w f A') l) with (disp w l). rewrite EF, vl. cbn [map]. rewrite !(put_value w S l f Hl If) by assumption.
    rewrite Nat.eqb_refl, (proj2 (Nat.eqb_neq g f)), (proj2 (Nat.eqb_neq (child (get_lay w l)) f)) by (auto; lia). rewrite vg, vx. destruct (okmat_cols _ _ _ HA') as (E1 & _). destruct (okmat_cols _ _ _ sB) as (E2 & _). rewrite E1, E2. apply lik2_cols. exact HA'.
  - unfold factor_prior. rewrite (put_value w S l f Hl If), Nat.eqb_refl by assumption. change (get_mat (put w f A') f) with (get_mat w f). apply prior_cols. exact HA'.
  - unfold layer_lik. change (get_lay (put w g A') l) with (get_lay w l). change (disp (put w g A') l) with (disp w l). rewrite EF, vl. cbn [map]. rewrite !(put_value w S l g Hl Ig) by assumption.
    rewrite Nat.eqb_refl, (proj2 (Nat.eqb_neq f g)), (proj2 (Nat.eqb_neq (child (get_lay w l)) g)) by (auto; lia). rewrite vf, vx. destruct (okmat_cols _ _ _ HA') as (E1 & _). destruct (okmat_cols _ _ _ sA) as (E2 & _). rewrite E1, E2. apply lik2_cols. exact sA.
  - unfold factor_prior. rewrite (put_value w S l g Hl Ig), Nat.eqb_refl by assumption. change (get_mat (put w g A') g) with (get_mat w g). apply prior_cols. exact HA'.
Qed.
Lemma part3 l f g h N D M L A B C X x : layer3 w l f g h N D M L A B C X x ->
  (forall A', okmat N L A' -> part outs w l f A' = lik3 (outs (model (get_lay w l))) x X N D M L A' B C * prior (bprior (get_mat w f)) N L A' * Rprod (layer_lik outs (put w f A')) (parents (get_mat w f))) /\
  (forall B', okmat D L B' -> part outs w l g B' = lik3 (outs (model (get_lay w l))) x X N D M L A B' C * prior (bprior (get_mat w g)) D L B' * Rprod (layer_lik outs (put w g B')) (parents (get_mat w g))) /\
  (forall C', okmat M L C' -> part outs w l h C' = lik3 (outs (model (get_lay w l))) x X N D M L A B C' * prior (bprior (get_mat w h)) M L C' * Rprod (layer_lik outs (put w h C')) (parents (get_mat w h))).
Proof.
  intros H. pose proof (l3_layer _ _ _ _ _ _ _ _ _ _ _ _ _ _ H) as (Hl & EF & ND). pose proof (l3_factors _ _ _ _ _ _ _ _ _ _ _ _ _ _ H) as ((hf & _) & (hg & _) & (hh & _)). pose proof (l3_values _ _ _ _ _ _ _ _ _ _ _ _ _ _ H) as (vf & vg & vh & vx & vl). pose proof (l3_shapes _ _ _ _ _ _ _ _ _ _ _ _ _ _ H) as (sA & sB & sC & _).
  inversion ND as [|? ? N1 ND1]; subst. inversion ND1 as [|? ? N2 _]; subst. cbn [In] in N1, N2. assert (Hfg : f <> g) by (intros ->; tauto). assert (Hfh : f <> h) by (intros ->; tauto). assert (Hgh : g <> h) by (intros ->; tauto).
  destruct (so_layer _ S l Hl) as (Hc0 & _ & G & _). cbv zeta in G. rewrite EF in G. assert (Gf : (child (get_lay w l) < f)%nat) by (apply G; cbn; auto). assert (Gg : (child (get_lay w l) < g)%nat) by (apply G; cbn; auto). assert (Gh : (child (get_lay w l) < h)%nat) by (apply G; cbn; auto).
  assert (If : In f (factors (get_lay w l))) by (rewrite EF; cbn; auto). assert (Ig : In g (factors (get_lay w l))) by (rewrite EF; cbn; auto). assert (Ih : In h (factors (get_lay w l))) by (rewrite EF; cbn; auto).
  destruct (okmat_cols _ _ _ sA) as (EA & _). destruct (okmat_cols _ _ _ sB) as (EB & _). destruct (okmat_cols _ _ _ sC) as (EC & _).
  split; [|split]; intros A' HA'; unfold part; f_equal; f_equal; destruct (okmat_cols _ _ _ HA') as (E1 & _).
  - unfold layer_lik. change (get_lay (put w f A') l) with (get_lay w l). change (disp (put w f A') l) with (disp w l). rewrite EF, vl. cbn [map]. rewrite !(put_value w S l f Hl If) by assumption.
    rewrite Nat.eqb_refl, (proj2 (Nat.eqb_neq g f)), (proj2 (Nat.eqb_neq h f)), (proj2 (Nat.eqb_neq (child (get_lay w l)) f)) by (auto; lia). rewrite vg, vh, vx, E1, EB, EC. apply lik3_cols. exact HA'.
  - unfold factor_prior. rewrite (put_value w S l f Hl If), Nat.eqb_refl by assumption. change (get_mat (put w f A') f) with (get_mat w f). apply prior_cols. exact HA'.
  - unfold layer_lik. change (get_lay (put w g A') l) with (get_lay w l). change (disp (put w g A') l) with (disp w l). rewrite EF, vl. cbn [map]. rewrite !(put_value w S l g Hl Ig) by assumption.
    rewrite Nat.eqb_refl, (proj2 (Nat.eqb_neq f g)), (proj2 (Nat.eqb_neq h g)), (proj2 (Nat.eqb_neq (child (get_lay w l)) g)) by (auto; lia). rewrite vf, vh, vx, EA, E1, EC. apply lik3_cols. exact sA.
  - unfold factor_prior. rewrite (put_value w S l g Hl Ig), Nat.eqb_refl by assumption. change (get_mat (put w g A') g) with (get_mat w g). apply prior_cols. exact HA'.
  - unfold layer_lik. change (get_lay (put w h A') l) with (get_lay w l). change (disp (put w h A') l) with (disp w l). rewrite EF, vl. cbn [map]. rewrite !(put_value w S l h Hl Ih) by assumption.
    rewrite Nat.eqb_refl, (proj2 (Nat.eqb_neq f h)), (proj2 (Nat.eqb_neq g h)), (proj2 (Nat.eqb_neq (child (get_lay w l)) h)) by (auto; lia). rewrite vf, vg, vx, EA, EB, E1. apply lik3_cols. exact sA.
  - unfold factor_prior. rewrite (put_value w S l h Hl Ih), Nat.eqb_refl by assumption. change (get_mat (put w h A') h) with (get_mat w h). apply prior_cols. exact HA'.
Qed.

(** Nothing to update *)
Lemma sample_loop_empty lg F r : sample_loop lg [] F r = [].
Proof. reflexivity. Qed.
Lemma empty11 n a ax A B F X x a1 a2 la p r : In n standard_models -> In a standard_models -> match ax with 0%nat => A | _ => B end = [] -> LOM_sampler_1c1p_2d n a ax A B F X x a1 a2 la p r = Ok [].
Proof.
  intros Hn Ha E. destruct (standard_known n Hn) as ((k2 & K2) & _). destruct (standard_known a Ha) as (_ & _ & (kp & KP) & _). unfold LOM_sampler_1c1p_2d, sampling_fct_onechild_oneparent_2d. cbv zeta. destruct ax; rewrite K2, bindE, KP, bindE, E; reflexivity.
Qed.
Lemma empty12 n a b ax A B F X x a1 a2 la b1 b2 lb p r : In n standard_models -> In a standard_models -> In b standard_models -> match ax with 0%nat => A | _ => B end = [] -> LOM_sampler_1c2p_2d n a b ax A B F X x a1 a2 la b1 b2 lb p r = Ok [].
Proof.
  intros Hn Ha Hb E. destruct (standard_known n Hn) as ((k2 & K2) & _). destruct (standard_known a Ha) as (_ & _ & (kp & KP) & _). destruct (standard_known b Hb) as (_ & _ & (kq & KQ) & _). unfold LOM_sampler_1c2p_2d, sampling_fct_onechild_twoparents_2d. cbv zeta. destruct ax; rewrite K2, bindE, KP, bindE, KQ, bindE, E; reflexivity.
Qed.

Definition resampled (l i : nat) : Prop := exists A F N L, value w i = A2 A /\ okmat N L A /\ fixed_entries (get_mat w i) = A2 F /\
  compute orc w i (own_closure w i l) = Ok (InPlace (ref_sweep (part outs w l i) F (o_cell orc (clock w)) N L A)).
Lemma resampled3 l i : (l < List.length (layers w))%nat -> In i (factors (get_lay w l)) -> List.length (factors (get_lay w l)) = 3%nat -> resampled l i.
Proof.
  intros Hl Hi H3. destruct (sound_layer3 w l S Hl H3) as (f & g & h & N & D & M & L & A & B & C & X & x & H). destruct (plain_factor _ (so_plain _ S) l i Hl Hi) as (_ & (F & EFx) & _ & _ & A5 & _).
  assert (EP : parents (get_mat w i) = []) by (destruct (parents (get_mat w i)); [reflexivity|exfalso; assert (List.length (factors (get_lay w l)) = 2%nat) by (apply A5; discriminate); lia]).
  assert (EC : own_closure w i l = FLom3 (model (get_lay w l)) (transpose_order w i) (bprior (get_mat w i))) by (unfold own_closure; cbv zeta; rewrite EP, H3; reflexivity).
  destruct (out_of l Hl) as (o' & i' & Ho & Em & Hout). rewrite Em in EC, Hout. pose proof (part3 l f g h N D M L A B C X x H) as (P1 & P2 & P3). rewrite Em in P1, P2, P3. destruct (so_factor _ S l i Hl Hi) as (Hb & _). pose proof (part_pos outs w S l i Hl Hi) as PP.
  pose proof (l3_layer _ _ _ _ _ _ _ _ _ _ _ _ _ _ H) as (_ & EF & _). pose proof (l3_values _ _ _ _ _ _ _ _ _ _ _ _ _ _ H) as (vf & vg & vh & vx & vl). pose proof (l3_shapes _ _ _ _ _ _ _ _ _ _ _ _ _ _ H) as (sA & sB & sC & sX).
  destruct (compute3 orc w l f g h N D M L A B C X x (model_name o' i') (bprior (get_mat w i)) F H) as (C1 & C2 & C3).
  pose proof (proj1 sA) as A1. pose proof (proj2 sA) as A1'. pose proof (proj1 sB) as B1. pose proof (proj2 sB) as B1'. pose proof (proj1 sC) as Q1. pose proof (proj2 sC) as Q1'.
  unfold resampled. rewrite EC. rewrite EF in Hi. destruct Hi as [<-|[<-|[<-|[]]]].
  - exists A, F, N, L. split; [exact vf|]. split; [exact sA|]. split; [exact EFx|]. rewrite (C1 EFx). destruct (C10_3_lemma o' i' Ho _ Hout N D M L A B C F X x (bprior (get_mat w f)) (1/2) (1/2) (o_cell orc (clock w)) A1 A1' B1 B1' Q1 Q1' sX Hb half half) as (G & _). rewrite (G (dr _ _)). rewrite bindE. do 2 f_equal.
    apply sweep_same with (c := prior (1/2) D L B * prior (1/2) M L C); [apply Rmult_lt_0_compat; apply prior_pos; exact half|intros; apply PP| |exact sA]. intros A' HA'. rewrite (P1 A' HA'), EP. unfold post3, Rprod. cbn [fold_right]. ring.
  - exists B, F, D, L. split; [exact vg|]. split; [exact sB|]. split; [exact EFx|]. rewrite (C2 EFx). destruct (C10_3_lemma o' i' Ho _ Hout N D M L A B C F X x (1/2) (bprior (get_mat w g)) (1/2) (o_cell orc (clock w)) A1 A1' B1 B1' Q1 Q1' sX half Hb half) as (_ & G & _). rewrite (G (dr _ _)). rewrite bindE. do 2 f_equal.
    apply sweep_same with (c := prior (1/2) N L A * prior (1/2) M L C); [apply Rmult_lt_0_compat; apply prior_pos; exact half|intros; apply PP| |exact sB]. intros A' HA'. rewrite (P2 A' HA'), EP. unfold post3, Rprod at 1. cbn [fold_right]. unfold Rprod. cbn [fold_right]. ring.
  - exists C, F, M, L. split; [exact vh|]. split; [exact sC|]. split; [exact EFx|]. rewrite (C3 EFx). destruct (C10_3_lemma o' i' Ho _ Hout N D M L A B C F X x (1/2) (1/2) (bprior (get_mat w h)) (o_cell orc (clock w)) A1 A1' B1 B1' Q1 Q1' sX half half Hb) as (_ & _ & G). rewrite (G (dr _ _)). rewrite bindE. do 2 f_equal.
    apply sweep_same with (c := prior (1/2) N L A * prior (1/2) D L B); [apply Rmult_lt_0_compat; apply prior_pos; exact half|intros; apply PP| |exact sC]. intros A' HA'. rewrite (P3 A' HA'), EP. unfold post3, Rprod. cbn [fold_right]. ring.
Qed.
(** The parents of a factor, with the products they contribute. *)
Lemma parents_cases l i A N L : (l < List.length (layers w))%nat -> In i (factors (get_lay w l)) -> value w i = A2 A -> okmat N L A -> (0 < N)%nat ->
  (parents (get_mat w i) = []) \/
  (exists k a b K a1 a2 y, parents (get_mat w i) = [k] /\ (k < List.length (layers w))%nat /\ layer2 w k a b N L K a1 a2 A y /\
     forall A', okmat N L A' -> Rprod (layer_lik outs (put w i A')) (parents (get_mat w i)) = parent_lik (outs (model (get_lay w k))) y a1 a2 N L K A') \/
  (exists k k' a b K a1 a2 y a' b' K' a1' a2' y', parents (get_mat w i) = [k; k'] /\ (k < List.length (layers w))%nat /\ model (get_lay w k') = model (get_lay w k) /\ layer2 w k a b N L K a1 a2 A y /\ layer2 w k' a' b' N L K' a1' a2' A y' /\
     forall A', okmat N L A' -> Rprod (layer_lik outs (put w i A')) (parents (get_mat w i)) = parent_lik (outs (model (get_lay w k))) y a1 a2 N L K A' * parent_lik (outs (model (get_lay w k))) y' a1' a2' N L K' A').
Proof.
  intros Hl Hi EA HA HN. destruct (so_factor _ S l i Hl Hi) as (_ & _ & _ & H2 & HM). destruct (plain_factor _ (so_plain _ S) l i Hl Hi) as (_ & _ & _ & A4 & _).
  assert (EN : nrows A = N /\ ncols A = L) by (destruct (okmat_cols _ _ _ HA) as (E1 & [E2|E2]); [lia|auto]). destruct EN as (E1 & E2).
  assert (PL : forall k, In k (parents (get_mat w i)) -> exists a b K a1 a2 y, layer2 w k a b N L K a1 a2 A y /\ forall A', okmat N L A' -> layer_lik outs (put w i A') k = parent_lik (outs (model (get_lay w k))) y a1 a2 N L K A').
  { intros k Hk. destruct (parent_layer l i k A Hl Hi Hk EA) as (a & b & K & a1 & a2 & y & G1 & _ & G2). rewrite E1, E2 in *. exists a, b, K, a1, a2, y. auto. }
  destruct (parents (get_mat w i)) as [|k [|k' [|? t]]]; [left; reflexivity|right; left|right; right|cbn in H2; lia].
  - destruct (PL k) as (a & b & K & a1 & a2 & y & G1 & G2); [left; reflexivity|]. exists k, a, b, K, a1, a2, y. split; [reflexivity|]. split; [apply A4; left; reflexivity|]. split; [exact G1|]. intros A' HA'. unfold Rprod. cbn [fold_right]. rewrite (G2 A' HA'). ring.
  - destruct (PL k) as (a & b & K & a1 & a2 & y & G1 & G2); [left; reflexivity|]. destruct (PL k') as (a' & b' & K' & a1' & a2' & y' & G1' & G2'); [right; left; reflexivity|].
    assert (EM : model (get_lay w k') = model (get_lay w k)) by (apply HM; cbn; auto). exists k, k', a, b, K, a1, a2, y, a', b', K', a1', a2', y'. split; [reflexivity|]. split; [apply A4; left; reflexivity|]. split; [exact EM|]. split; [exact G1|]. split; [exact G1'|].
    intros A' HA'. unfold Rprod. cbn [fold_right]. rewrite (G2 A' HA'), (G2' A' HA'), EM. ring.
Qed.
Lemma empty_compute l i f g N D L A B X x F : layer2 w l f g N D L A B X x -> (i = f \/ i = g) -> fixed_entries (get_mat w i) = A2 F -> value w i = A2 [] -> parents (get_mat w i) <> [] -> compute orc w i (own_closure w i l) = Ok (InPlace []).
Proof.
  intros H Hi EFx EV HP. pose proof (l2_layer _ _ _ _ _ _ _ _ _ _ _ H) as (Hl & EF & _). pose proof (l2_values _ _ _ _ _ _ _ _ _ _ _ H) as (vf & vg & vx & vl). assert (Hi0 : In i (factors (get_lay w l))) by (rewrite EF; destruct Hi as [->| ->]; cbn; auto).
  destruct (plain_factor _ (so_plain _ S) l i Hl Hi0) as (_ & _ & _ & A4 & _). pose proof (plain_model _ (so_plain _ S)) as PM. pose proof (PM l Hl) as Pl. unfold own_closure. cbv zeta.
  assert (PA : forall k p, nth_error (parents (get_mat w i)) k = Some p -> exists a b c, parent_args w i k = Ok (a, b, c)).
  { intros k p Hk. destruct (parent_args_ok w i l k p (so_plain _ S) (wf_placed _ (so_wf _ S)) Hl Hi0 Hk) as ([[a b] c] & E). exists a, b, c. exact E. }
  destruct (parents (get_mat w i)) as [|k [|k' t]] eqn:EP; [contradiction| |].
  - destruct (PA 0%nat k eq_refl) as (a1 & a2 & la & E0). pose proof (PM k (proj1 (A4 k (or_introl eq_refl)))) as Pk. destruct (compute11 orc w l f g N D L A B X x (model (get_lay w l)) (model (get_lay w k)) (bprior (get_mat w i)) F H) as (C1 & C2).
    destruct Hi as [->| ->]; [rewrite vf in EV; injection EV as EV; rewrite (C1 _ _ _ EFx E0)|rewrite vg in EV; injection EV as EV; rewrite (C2 _ _ _ EFx E0)]; rewrite empty11 by assumption; reflexivity.
  - destruct (PA 0%nat k eq_refl) as (a1 & a2 & la & E0). destruct (PA 1%nat k' eq_refl) as (b1 & b2 & lb & E1). pose proof (PM k (proj1 (A4 k (or_introl eq_refl)))) as Pk. pose proof (PM k' (proj1 (A4 k' (or_intror (or_introl eq_refl))))) as Pk'.
    destruct (compute12 orc w l f g N D L A B X x (model (get_lay w l)) (model (get_lay w k)) (model (get_lay w k')) (bprior (get_mat w i)) F H) as (C1 & C2).
    destruct Hi as [->| ->]; [rewrite vf in EV; injection EV as EV; rewrite (C1 _ _ _ _ _ _ EFx E0 E1)|rewrite vg in EV; injection EV as EV; rewrite (C2 _ _ _ _ _ _ EFx E0 E1)]; rewrite empty12 by assumption; reflexivity.
Qed.
Lemma resampled2 l i : (l < List.length (layers w))%nat -> In i (factors (get_lay w l)) -> List.length (factors (get_lay w l)) = 2%nat -> resampled l i.
Proof.
  intros Hl Hi H2. destruct (sound_layer2 w l S Hl H2) as (f & g & L & A & B & X & x & H & SN & SD). set (N := nrows X) in *. set (D := ncols X) in *. clearbody N D. destruct (plain_factor _ (so_plain _ S) l i Hl Hi) as (_ & (F & EFx) & _ & _ & _ & _).
  destruct (out_of l Hl) as (o' & i' & Ho & Em & Hout). rewrite Em in Hout. pose proof (part2 l f g N D L A B X x H) as (P1 & P2). rewrite Em in P1, P2. destruct (so_factor _ S l i Hl Hi) as (Hb & _). pose proof (part_pos outs w S l i Hl Hi) as PP.
  pose proof (l2_layer _ _ _ _ _ _ _ _ _ _ _ H) as (_ & EF & _). pose proof (l2_values _ _ _ _ _ _ _ _ _ _ _ H) as (vf & vg & vx & vl). pose proof (l2_shapes _ _ _ _ _ _ _ _ _ _ _ H) as (sA & sB & X1 & X2).
  pose proof (proj1 sA) as A1. pose proof (proj2 sA) as A1'. pose proof (proj1 sB) as B1. pose proof (proj2 sB) as B1'. pose proof (empty_compute l i f g N D L A B X x F H) as EC0. pose proof (parents_cases l i) as PC.
  destruct (compute2 orc w l f g N D L A B X x (model_name o' i') (bprior (get_mat w i)) F H) as (Q1 & Q2).
  assert (QC : own_closure w i l = match parents (get_mat w i) with [] => FLom (model_name o' i') (transpose_order w i) (bprior (get_mat w i)) | [a] => F11 (model_name o' i') (model (get_lay w a)) (transpose_order w i) (bprior (get_mat w i)) | a :: b :: _ => F12 (model_name o' i') (model (get_lay w a)) (model (get_lay w b)) (transpose_order w i) (bprior (get_mat w i)) end) by (unfold own_closure; cbv zeta; rewrite H2, Em; reflexivity).
  unfold resampled. assert (Hi0 := Hi). rewrite EF in Hi. destruct Hi as [<-|[<-|[]]].
  - exists A, F, N, L. split; [exact vf|]. split; [exact sA|]. split; [exact EFx|]. destruct (parents (get_mat w f)) as [|k0 t0] eqn:EP.
    { rewrite QC, (Q1 EFx). destruct (C10_2_lemma o' i' Ho _ Hout N D L A B F X x (bprior (get_mat w f)) (1/2) (o_cell orc (clock w)) A1 A1' B1 B1' X1 X2 Hb half) as (G & _). rewrite (G SD (dr _ _)), bindE. do 2 f_equal.
      apply sweep_same with (c := prior (1/2) D L B); [apply prior_pos; exact half|intros; apply PP| |exact sA]. intros A' HA'. rewrite (P1 A' HA'). unfold post2, Rprod. cbn [fold_right]. ring. }
    destruct N as [|N0]. { assert (EA0 : A = []) by (destruct A; [reflexivity|discriminate (proj1 A1)]). rewrite EC0 by (auto; try discriminate; rewrite <- EA0; exact vf). rewrite EA0. reflexivity. }
    destruct (PC A (Datatypes.S N0) L Hl Hi0 vf sA (Nat.lt_0_succ _)) as [C|[(k & a & b & K & a1 & a2 & y & C1 & C2 & C3 & C4)|(k & k' & a & b & K & a1 & a2 & y & a' & b' & K' & a1' & a2' & y' & C1 & C2 & C3 & C4 & C5 & C6)]]; [discriminate C| |].
    + rewrite QC. injection C1 as -> ->. destruct (out_of k C2) as (op & ip & Hop & Emk & Houtk). destruct (compute11 orc w l f g (Datatypes.S N0) D L A B X x (model_name o' i') (model (get_lay w k)) (bprior (get_mat w f)) F H) as (R1 & _).
      rewrite (R1 _ _ _ EFx (parent_argsE w f 0 k a b _ _ K a1 a2 A y (f_equal (fun t => nth_error t 0) EP) C3)). destruct (l2_shapes _ _ _ _ _ _ _ _ _ _ _ C3) as (s1 & s2 & _). rewrite Emk in *.
      destruct (C11_child_one_parent_lemma o' i' op ip Ho Hop _ _ Hout Houtk (Datatypes.S N0) D L A B F X x (bprior (get_mat w f)) (1/2) (o_cell orc (clock w)) sA sB X1 X2 Hb half) as (G & _). rewrite (G K a1 a2 y SD (dr _ _) s1 s2), bindE. do 2 f_equal.
      apply sweep_same with (c := prior (1/2) D L B); [apply prior_pos; exact half|intros; apply PP| |exact sA]. intros A' HA'. rewrite (P1 A' HA'), (C4 A' HA'). unfold post2. ring.
    + rewrite QC. injection C1 as -> ->. destruct (out_of k C2) as (op & ip & Hop & Emk & Houtk). destruct (compute12 orc w l f g (Datatypes.S N0) D L A B X x (model_name o' i') (model (get_lay w k)) (model (get_lay w k')) (bprior (get_mat w f)) F H) as (R1 & _).
      rewrite (R1 _ _ _ _ _ _ EFx (parent_argsE w f 0 k a b _ _ K a1 a2 A y (f_equal (fun t => nth_error t 0) EP) C4) (parent_argsE w f 1 k' a' b' _ _ K' a1' a2' A y' (f_equal (fun t => nth_error t 1) EP) C5)). destruct (l2_shapes _ _ _ _ _ _ _ _ _ _ _ C4) as (s1 & s2 & _). destruct (l2_shapes _ _ _ _ _ _ _ _ _ _ _ C5) as (s1' & s2' & _). rewrite C3, Emk in *.
      destruct (C11_child_two_parents_lemma o' i' op ip Ho Hop _ _ Hout Houtk (Datatypes.S N0) D L A B F X x (bprior (get_mat w f)) (1/2) (o_cell orc (clock w)) sA sB X1 X2 Hb half) as (G & _). rewrite (G K K' a1 a2 y a1' a2' y' SD (dr _ _) s1 s2 s1' s2'), bindE. do 2 f_equal.
      apply sweep_same with (c := prior (1/2) D L B); [apply prior_pos; exact half|intros; apply PP| |exact sA]. intros A' HA'. rewrite (P1 A' HA'), (C6 A' HA'). unfold post2. ring.
  - exists B, F, D, L. split; [exact vg|]. split; [exact sB|]. split; [exact EFx|]. destruct (parents (get_mat w g)) as [|k0 t0] eqn:EP.
    { rewrite QC, (Q2 EFx). destruct (C10_2_lemma o' i' Ho _ Hout N D L A B F X x (1/2) (bprior (get_mat w g)) (o_cell orc (clock w)) A1 A1' B1 B1' X1 X2 half Hb) as (_ & G). rewrite (G SN (dr _ _)), bindE. do 2 f_equal.
      apply sweep_same with (c := prior (1/2) N L A); [apply prior_pos; exact half|intros; apply PP| |exact sB]. intros A' HA'. rewrite (P2 A' HA'). unfold post2, Rprod. cbn [fold_right]. ring. }
    destruct D as [|D0]. { assert (EA0 : B = []) by (destruct B; [reflexivity|discriminate (proj1 B1)]). rewrite EC0 by (auto; try discriminate; rewrite <- EA0; exact vg). rewrite EA0. reflexivity. }
    destruct (PC B (Datatypes.S D0) L Hl Hi0 vg sB (Nat.lt_0_succ _)) as [C|[(k & a & b & K & a1 & a2 & y & C1 & C2 & C3 & C4)|(k & k' & a & b & K & a1 & a2 & y & a' & b' & K' & a1' & a2' & y' & C1 & C2 & C3 & C4 & C5 & C6)]]; [discriminate C| |].
    + rewrite QC. injection C1 as -> ->. destruct (out_of k C2) as (op & ip & Hop & Emk & Houtk). destruct (compute11 orc w l f g N (Datatypes.S D0) L A B X x (model_name o' i') (model (get_lay w k)) (bprior (get_mat w g)) F H) as (_ & R1).
      rewrite (R1 _ _ _ EFx (parent_argsE w g 0 k a b _ _ K a1 a2 B y (f_equal (fun t => nth_error t 0) EP) C3)). destruct (l2_shapes _ _ _ _ _ _ _ _ _ _ _ C3) as (s1 & s2 & _). rewrite Emk in *.
      destruct (C11_child_one_parent_lemma o' i' op ip Ho Hop _ _ Hout Houtk N (Datatypes.S D0) L A B F X x (1/2) (bprior (get_mat w g)) (o_cell orc (clock w)) sA sB X1 X2 half Hb) as (_ & G). rewrite (G K a1 a2 y SN (dr _ _) s1 s2), bindE. do 2 f_equal.
      apply sweep_same with (c := prior (1/2) N L A); [apply prior_pos; exact half|intros; apply PP| |exact sB]. intros A' HA'. rewrite (P2 A' HA'), (C4 A' HA'). unfold post2. ring.
    + rewrite QC. injection C1 as -> ->. destruct (out_of k C2) as (op & ip & Hop & Emk & Houtk). destruct (compute12 orc w l f g N (Datatypes.S D0) L A B X x (model_name o' i') (model (get_lay w k)) (model (get_lay w k')) (bprior (get_mat w g)) F H) as (_ & R1).
      rewrite (R1 _ _ _ _ _ _ EFx (parent_argsE w g 0 k a b _ _ K a1 a2 B y (f_equal (fun t => nth_error t 0) EP) C4) (parent_argsE w g 1 k' a' b' _ _ K' a1' a2' B y' (f_equal (fun t => nth_error t 1) EP) C5)). destruct (l2_shapes _ _ _ _ _ _ _ _ _ _ _ C4) as (s1 & s2 & _). destruct (l2_shapes _ _ _ _ _ _ _ _ _ _ _ C5) as (s1' & s2' & _). rewrite C3, Emk in *.
      destruct (C11_child_two_parents_lemma o' i' op ip Ho Hop _ _ Hout Houtk N (Datatypes.S D0) L A B F X x (1/2) (bprior (get_mat w g)) (o_cell orc (clock w)) sA sB X1 X2 half Hb) as (_ & G). rewrite (G K K' a1 a2 y a1' a2' y' SN (dr _ _) s1 s2 s1' s2'), bindE. do 2 f_equal.
      apply sweep_same with (c := prior (1/2) N L A); [apply prior_pos; exact half|intros; apply PP| |exact sB]. intros A' HA'. rewrite (P2 A' HA'), (C6 A' HA'). unfold post2. ring.
Qed.
(** A matrix update *)
Lemma gibbs_step l i w' : (l < List.length (layers w))%nat -> In i (factors (get_lay w l)) -> sfct (get_mat w i) = Some (own_closure w i l) -> run_mat orc w i = Ok w' -> gibbs_update outs orc w i w' /\ sound w' /\ mats w' = mats w /\ layers w' = layers w.
Proof.
  intros Hl Hi ES E. assert (HR : resampled l i) by (destruct (plain_child _ (so_plain _ S) l Hl) as [(G & _)|(G & _)]; [apply resampled2|apply resampled3]; assumption).
  destruct HR as (A & F & N & L & EV & HA & EFx & EC). unfold run_mat in E. rewrite ES in E. cbn [of_option] in E. rewrite bindE, EC, bindE in E. injection E as <-. cbn [apply_effect].
  destruct (joint_part outs w S l i Hl Hi) as (c & Hc & HJ). destruct (sweep_prop (fun A' => joint outs (put w i A')) (part outs w l i) c F (o_cell orc (clock w)) N L A Hc (fun m _ => part_pos outs w S l i Hl Hi m) (fun m _ => HJ m) HA) as (E1 & E2).
  split; [|split; [|auto]].
  - exists A, F, N, L. split; [exact EV|]. split; [exact HA|]. split; [exact EFx|]. rewrite E1. reflexivity.
  - apply sound_tick. assert (Hv : (val (get_mat w i) < List.length (arrays w))%nat) by (apply stored_val; [apply (so_wf _ S)|apply (wf_placed _ (so_wf _ S) l i Hl Hi)]). eapply sound_changed; [exact S|]. apply write_changed; [exact S|exact Hv| | |].
    + change (get_arr w (val (get_mat w i))) with (value w i). rewrite EV. destruct N as [|N0]; [|rewrite !(shape_okmat (Datatypes.S N0) L) by (assumption || lia); reflexivity]. assert (Z1 : A = []) by (destruct A; [reflexivity|discriminate (proj1 (proj1 HA))]). rewrite Z1. reflexivity.
    + intros _. apply binary_data. eexists _, _, _. split; [reflexivity|exact E2].
    + intros _. eexists _, _, _. split; [reflexivity|exact E2].
Qed.
End Updates.
