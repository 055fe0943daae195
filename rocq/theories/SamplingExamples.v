(** Proofs of C15 and of the examples in PropSampling.v. *)
From Coq Require Import String Lra.
From Coquelicot Require Import RInt Hierarchy.
From Verif Require Import Base BaseLemmas BaseR BaseRLemmas Spec Outputs OutputsProofs Scores ScoresProofs SpecR Sampling SamplingProofs
  Invariance InvarianceProofs HierProofs Parallel ParallelProofs.
Local Open Scope R_scope.

Lemma loop_kept logit Z_ fixed r N L : okmat N L Z_ -> kept fixed Z_ (sample_loop logit Z_ fixed r) N L.
Proof. intros H. split; [apply sample_loop_ok, H|intros; apply sample_loop_fixed; assumption]. Qed.

Lemma C15_lemma N L Z_ fixed r Z' : okmat N L Z_ ->
  (forall model B X lbda p, LOM_sampler_2d model 0 Z_ B fixed X lbda p r = Ok Z' -> kept fixed Z_ Z' N L) /\
  (forall model A X lbda p, LOM_sampler_2d model 1 A Z_ fixed X lbda p r = Ok Z' -> kept fixed Z_ Z' N L) /\
  (forall model B C X lbda p, LOM_sampler_3d model 0 Z_ B C fixed X lbda p r = Ok Z' -> kept fixed Z_ Z' N L) /\
  (forall model A C X lbda p, LOM_sampler_3d model 1 A Z_ C fixed X lbda p r = Ok Z' -> kept fixed Z_ Z' N L) /\
  (forall model A B X lbda p, LOM_sampler_3d model 2 A B Z_ fixed X lbda p r = Ok Z' -> kept fixed Z_ Z' N L) /\
  (forall model pm B X lbda a1 a2 la p,
     LOM_sampler_1c1p_2d model pm 0 Z_ B fixed X lbda a1 a2 la p r = Ok Z' -> kept fixed Z_ Z' N L) /\
  (forall model pm A X lbda a1 a2 la p,
     LOM_sampler_1c1p_2d model pm 1 A Z_ fixed X lbda a1 a2 la p r = Ok Z' -> kept fixed Z_ Z' N L) /\
  (forall pm a1 a2 la p, LOM_sampler_0c1p_2d pm Z_ fixed a1 a2 la p r = Ok Z' -> kept fixed Z_ Z' N L) /\
  (forall pm1 pm2 a1 a2 la b1 b2 lb p,
     LOM_sampler_0c2p_2d pm1 pm2 Z_ fixed a1 a2 la b1 b2 lb p r = Ok Z' -> kept fixed Z_ Z' N L) /\
  (forall model pm1 pm2 B X lbda a1 a2 la b1 b2 lb p,
     LOM_sampler_1c2p_2d model pm1 pm2 0 Z_ B fixed X lbda a1 a2 la b1 b2 lb p r = Ok Z' -> kept fixed Z_ Z' N L) /\
  (forall model pm1 pm2 A X lbda a1 a2 la b1 b2 lb p,
     LOM_sampler_1c2p_2d model pm1 pm2 1 A Z_ fixed X lbda a1 a2 la b1 b2 lb p r = Ok Z' -> kept fixed Z_ Z' N L).
Proof.
  intros H. repeat match goal with |- _ /\ _ => split end; intros until p;
    unfold LOM_sampler_2d, LOM_sampler_3d, LOM_sampler_1c1p_2d, LOM_sampler_0c1p_2d, LOM_sampler_0c2p_2d, LOM_sampler_1c2p_2d,
      sampling_fct_onechild_2d, sampling_fct_onechild_3d, sampling_fct_onechild_oneparent_2d, sampling_fct_nochild_oneparent_2d,
      sampling_fct_nochild_twoparents_2d, sampling_fct_onechild_twoparents_2d;
    cbv zeta iota;
    repeat (match goal with |- bind ?x _ = Ok _ -> _ => destruct x end; [cbn [bind]|discriminate]);
    (let E := fresh in intros E; injection E as <-; apply loop_kept; exact H).
Qed.

(** * Examples *)
Definition exA : mat := [[1; -1]; [1; 1]]%Z.
Definition exB : mat := [[1; 1]; [-1; 1]]%Z.
Definition exX : mat := [[1; 0]; [-1; 1]]%Z.
Definition exF : mat := [[0; 1]; [0; 0]]%Z.

Lemma exA_ok : okmat 2 2 exA. Proof. split; [shape_tac|bin_tac]. Qed.
Lemma exB_ok : okmat 2 2 exB. Proof. split; [shape_tac|bin_tac]. Qed.
Lemma exX_ok : has_shape2 exX 2 2 /\ tern2 exX. Proof. split; [shape_tac|bin_tac]. Qed.

Definition the_output (o i : lop) (rows : list vec) (L : nat) : Z := if lom_b o i rows L then 1%Z else (-1)%Z.
Lemma the_output_ok o i : is_output o i (the_output o i).
Proof. intros rows L. apply lom_output_b. reflexivity. Qed.

Lemma score_XOR_AND : forall z U x l D L,
  has_shape2 U D L -> bin2 U -> bin1 z -> List.length z = L -> (l < L)%nat ->
  exists s, explained2 XOR AND z U x l D L s /\ posterior_score_XOR_AND_2D z U x l = wrap16 s /\
    (tern1 x -> (Z.of_nat D <= 32767)%Z -> posterior_score_XOR_AND_2D z U x l = s).
Proof.
  destruct (C07_lemma XOR AND) as (f & Ef & Hf); [simpl; auto 10|].
  injection Ef as <-. exact Hf.
Qed.

Lemma C10_example_lemma : forall out, is_output XOR AND out ->
  In (XOR, AND) implemented /\ okmat 2 2 exA /\ okmat 2 2 exB /\ has_shape2 exX 2 2 /\ tern2 exX /\
  log_odds (fun A' => post2 out 2 exX 2 2 2 (1/4) (1/2) A' exB) exA 1 0 = 2 + ln (1 / 3).
Proof.
  intros out Ho. split; [simpl; auto 10|]. split; [apply exA_ok|]. split; [apply exB_ok|].
  split; [apply exX_ok|]. split; [apply exX_ok|].
  rewrite post2_log_odds_A by (try apply exA_ok; lia || lra).
  rewrite <- (score_log_odds XOR AND out Ho posterior_score_XOR_AND_2D score_XOR_AND 2 2 2 exA exB exX 2 1 0)
    by (try apply exA_ok; try apply exB_ok; try apply exX_ok; lia).
  change (posterior_score_XOR_AND_2D (row exA 1) exB (row exX 1) 0) with 1%Z.
  unfold logit. replace (1 / 4 / (1 - 1 / 4)) with (1 / 3) by field. ring.
Qed.

Lemma Rltb_0 x : Rltb 0 (Rmin 1 (exp x)) = true.
Proof. destruct (Rltb_spec 0 (Rmin 1 (exp x))) as [|H]; [reflexivity|]. exfalso. apply H. apply Rmin_glb_lt; [lra|apply exp_pos]. Qed.

(** With all draws 0 every non-fixed entry is flipped. *)
Lemma zero_draws_lemma :
  LOM_sampler_2d "XOR-AND" 0 exA exB exF exX 2 (1/4) (fun _ _ => 0) = Ok [[-1; -1]; [-1; -1]]%Z.
Proof.
  change "XOR-AND"%string with (model_name XOR AND).
  pose proof (C10_2_lemma XOR AND ltac:(simpl; auto 10) (the_output XOR AND) (the_output_ok _ _) 2 2 2 exA exB exF exX 2 (1/4) (1/2) (fun _ _ => 0)) as H.
  destruct H as [H _]; [apply exA_ok|apply exA_ok|apply exB_ok|apply exB_ok|apply exX_ok|apply exX_ok|lra|lra|].
  rewrite H; [|lia|intros n l _ _; unfold is_draw; lra].
  unfold ref_sweep. generalize (log_odds (fun A' => post2 (the_output XOR AND) 2 exX 2 2 2 (1 / 4) (1 / 2) A' exB)). intros lo.
  change (cells 2 2) with [(0, 0); (0, 1); (1, 0); (1, 1)]%nat. unfold mg_flip.
  cbn [fold_left]. change (at2 exF 0 0) with 0%Z. change (at2 exF 0 1) with 1%Z. change (at2 exF 1 0) with 0%Z. change (at2 exF 1 1) with 0%Z.
  cbn [Z.eqb Pos.eqb]. rewrite !Rltb_0. reflexivity.
Qed.

Lemma C13_example_lemma :
  flip_metropolised_gibbs_numba 1 1 (1/4) = (-1)%Z /\ flip_metropolised_gibbs_numba 1 1 (1/2) = 1%Z /\
  flip_metropolised_gibbs_numba 1 (-1) (1/2) = 1%Z.
Proof.
  assert (H3 : exp 1 <= 3) by apply exp_le_3.
  assert (H4 : exp (-1) > 1 / 4).
  { replace (-1) with (- (1)) by ring. rewrite exp_Ropp. replace (1 / 4) with (/ 4) by lra.
    apply Rinv_lt_contravar; [|lra]. pose proof (exp_pos 1). lra. }
  pose proof exp_m1_half.
  unfold flip_metropolised_gibbs_numba, flip_metropolised_branch. cbn [Z.eqb Pos.eqb andb].
  destruct (Rleb_spec 1 0); [lra|]. destruct (Rleb_spec 0 1); [|lra].
  cbn [Z.opp]. replace (-1 * 1) with (-1) by ring.
  destruct (Rltb_spec (1/4) (exp (-1))); [|lra]. destruct (Rltb_spec (1/2) (exp (-1))); [lra|]. auto.
Qed.

Lemma C14_example_lemma :
  okmat 2 2 exA /\ okmat 2 2 exB /\ has_shape2 exX 2 2 /\ tern2 exX /\
  List.length (filter (agrees exF exA 2 2) (all_mats 2 2)) = 8%nat.
Proof. split; [apply exA_ok|]. split; [apply exB_ok|]. split; [apply exX_ok|]. split; [apply exX_ok|]. reflexivity. Qed.

Lemma C16_example_lemma : forall score la lp rand,
  let lg := logit_onechild_2d score exB exX la lp in
  let sched := [0; 1; 1; 0; 0; 1; 0; 1; 1; 0; 1; 0; 1; 1]%nat in
  sampler_logit lg /\ has_shape2 exA 2 2 /\
  finished 2 (exec lg exF rand 2 sched (pinit exA)) /\
  fst (exec lg exF rand 2 sched (pinit exA)) = sample_loop lg exA exF rand.
Proof.
  intros score la lp rand lg sched. split; [constructor|]. split; [apply exA_ok|].
  assert (F : finished 2 (exec lg exF rand 2 sched (pinit exA))).
  { repeat constructor. }
  split; [exact F|]. destruct (C16_lemma lg exF rand 2 2 exA) as [A _]; [apply loc_1|apply exA_ok|]. apply A, F.
Qed.

Lemma C11_example_lemma : forall outp, is_output OR AND outp ->
  okmat 2 2 exA /\ okmat 2 2 exB /\ In (OR, AND) implemented /\
  log_odds (fun A' => prior (1/4) 2 2 A' * parent_lik outp 3 exA exB 2 2 2 A') exA 0 0 = 3 + ln (1 / 3) /\
  log_odds (fun A' => prior (1/4) 2 2 A' * parent_lik outp 3 exA exB 2 2 2 A') exA 0 1 = -3 + ln (1 / 3).
Proof.
  intros outp Ho. split; [apply exA_ok|]. split; [apply exB_ok|]. split; [simpl; auto 10|].
  assert (G : forall n l, (n < 2)%nat -> (l < 2)%nat ->
    log_odds (fun A' => prior (1/4) 2 2 A' * parent_lik outp 3 exA exB 2 2 2 A') exA n l =
    ln (1 / 3) + 3 * IZR (outp [row exA n; row exB l] 2%nat)).
  { intros n l Hn Hl. rewrite (log_odds_mul (prior (1/4) 2 2) (parent_lik outp 3 exA exB 2 2 2)).
    2:{ intros; apply prior_pos; lra. }
    2:{ intros; apply parent_lik_pos. }
    rewrite (log_odds_prior (1/4) 2 2) by (try apply exA_ok; lia || lra).
    rewrite (log_odds_parent OR AND outp) by (try exact Ho; try apply exA_ok; lia).
    unfold logit. replace (1 / 4 / (1 - 1 / 4)) with (1 / 3) by field. reflexivity. }
  assert (E : forall rows L, outp rows L = the_output OR AND rows L).
  { intros rows L. apply lom_output_b. apply Ho. }
  split; rewrite G by lia; rewrite E.
  - change (the_output OR AND [row exA 0; row exB 0] 2) with 1%Z. ring.
  - change (the_output OR AND [row exA 0; row exB 1] 2) with (-1)%Z. ring.
Qed.
