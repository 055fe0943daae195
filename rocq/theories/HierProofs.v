(** Lemmas for C11, C12, C13, C14, C15. *)
From Coq Require Import String Lra Permutation.
From Coquelicot Require Import RInt Hierarchy.
From Verif Require Import Base BaseLemmas BaseR BaseRLemmas Spec SpecR Outputs OutputsProofs Scores ScoresProofs
  Sampling SamplingProofs Invariance InvarianceProofs.
Local Open Scope R_scope.

Lemma parent_score o i : In (o, i) implemented ->
  exists f, get_parent_score_fct_2d (model_tag (model_name o i) "2") = Ok f /\
    forall u z : vec, bin1 u -> bin1 z -> List.length u = List.length z ->
      lom_output o i [u; z] (List.length u) (f u z).
Proof.
  intros Hin. destruct (C01_lemma o i Hin) as (f & Hf & H & _). exists f. split; [|exact H].
  clear H. simpl in Hin.
  repeat (destruct Hin as [Hin|Hin]; [inversion Hin; subst; clear Hin; vm_compute in Hf; injection Hf as <-; reflexivity|]).
  contradiction.
Qed.

Lemma parent_log_odds o i out f lbda pa1 pa2 N L K A n l : is_output o i out ->
  (forall u z : vec, bin1 u -> bin1 z -> List.length u = List.length z -> lom_output o i [u; z] (List.length u) (f u z)) ->
  okmat N K pa1 -> okmat L K pa2 -> has_shape2 A N L -> (n < N)%nat -> (l < L)%nat ->
  lbda * IZR (f (row pa1 n) (row pa2 l)) = log_odds (parent_lik out lbda pa1 pa2 N L K) A n l.
Proof.
  intros Ho Hf [H1 b1] [H2 b2] HA Hn Hl.
  rewrite (log_odds_parent o i out lbda pa1 pa2 N L K A n l Ho HA Hn Hl). do 2 f_equal.
  pose proof (Hf (row pa1 n) (row pa2 l) (bin2_row _ _ b1) (bin2_row _ _ b2)) as H.
  rewrite (shape2_row _ _ _ n H1 Hn), (shape2_row _ _ _ l H2 Hl) in H.
  eapply lom_output_unique; [apply H; reflexivity|apply Ho].
Qed.

Ltac pos_tac := intros; repeat apply Rmult_lt_0_compat;
  first [apply lik2_pos|apply parent_lik_pos|apply prior_pos; assumption|apply post2_pos; assumption].

(** * C11 *)
Section Hier.
  Variables (o i op ip : lop) (Hin : In (o, i) implemented) (Hinp : In (op, ip) implemented).
  Variables (out outp : list vec -> nat -> Z) (Ho : is_output o i out) (Hop : is_output op ip outp).

  Ltac psimp g la a1 a2 N L K Zc n l :=
    rewrite <- (parent_log_odds op ip outp g la a1 a2 N L K Zc n l) by (assumption || apply Zc).

  Lemma nochild_oneparent N L K A fixed p r a1 a2 la :
    okmat N L A -> 0 < p < 1 -> draws_ok r N L -> okmat N K a1 -> okmat L K a2 ->
    LOM_sampler_0c1p_2d (model_name op ip) A fixed a1 a2 la p r =
      Ok (ref_sweep (fun A' => prior p N L A' * parent_lik outp la a1 a2 N L K A') fixed r N L A).
  Proof.
    intros kA Hp Hr k1 k2. destruct (parent_score op ip Hinp) as (g & Eg & Hg).
    unfold LOM_sampler_0c1p_2d, sampling_fct_nochild_oneparent_2d. rewrite Eg. cbn [bind].
    f_equal. apply sample_loop_ref; [assumption|assumption|]. intros Zc n l HZ Hn Hl.
    unfold logit_nochild_oneparent_2d.
    rewrite (log_odds_mul (prior p N L) (parent_lik outp la a1 a2 N L K)) by pos_tac.
    rewrite (log_odds_prior p N L Zc n l) by (assumption || apply HZ).
    rewrite <- (parent_log_odds op ip outp g la a1 a2 N L K Zc n l) by (assumption || apply HZ). lra.
  Qed.

  Lemma nochild_twoparents N L K K' A fixed p r a1 a2 la a1' a2' la' :
    okmat N L A -> 0 < p < 1 -> draws_ok r N L -> okmat N K a1 -> okmat L K a2 -> okmat N K' a1' -> okmat L K' a2' ->
    LOM_sampler_0c2p_2d (model_name op ip) (model_name op ip) A fixed a1 a2 la a1' a2' la' p r =
      Ok (ref_sweep (fun A' => prior p N L A' * parent_lik outp la a1 a2 N L K A'
                               * parent_lik outp la' a1' a2' N L K' A') fixed r N L A).
  Proof.
    intros kA Hp Hr k1 k2 k1' k2'. destruct (parent_score op ip Hinp) as (g & Eg & Hg).
    unfold LOM_sampler_0c2p_2d, sampling_fct_nochild_twoparents_2d. rewrite Eg. cbn [bind].
    f_equal. apply sample_loop_ref; [assumption|assumption|]. intros Zc n l HZ Hn Hl.
    unfold logit_nochild_twoparents_2d.
    rewrite (log_odds_mul (fun A' => prior p N L A' * parent_lik outp la a1 a2 N L K A')
               (parent_lik outp la' a1' a2' N L K')) by pos_tac.
    rewrite (log_odds_mul (prior p N L) (parent_lik outp la a1 a2 N L K)) by pos_tac.
    rewrite (log_odds_prior p N L Zc n l) by (assumption || apply HZ).
    rewrite <- (parent_log_odds op ip outp g la a1 a2 N L K Zc n l) by (assumption || apply HZ).
    rewrite <- (parent_log_odds op ip outp g la' a1' a2' N L K' Zc n l) by (assumption || apply HZ). lra.
  Qed.

  Section WithChild.
    Variables (N D L : nat) (A B fixed X : mat) (lbda pA pB : R) (r : nat -> nat -> R).
    Hypothesis kA : okmat N L A.
    Hypothesis kB : okmat D L B.
    Hypothesis HX : has_shape2 X N D.
    Hypothesis TX : tern2 X.
    Hypothesis HpA : 0 < pA < 1.
    Hypothesis HpB : 0 < pB < 1.

    Lemma child_A f Zc n l :
      (forall z U x l D L,
        has_shape2 U D L -> bin2 U -> bin1 z -> List.length z = L -> (l < L)%nat ->
        exists s, explained2 o i z U x l D L s /\ f z U x l = wrap16 s /\
          (tern1 x -> (Z.of_nat D <= 32767)%Z -> f z U x l = s)) ->
      (Z.of_nat D <= 32767)%Z -> okmat N L Zc -> (n < N)%nat -> (l < L)%nat ->
      lbda * IZR (f (row Zc n) B (row X n) l) + logit pA =
      log_odds (fun A' => post2 out lbda X N D L pA pB A' B) Zc n l.
    Proof.
      intros Hf HD HZ Hn Hl. rewrite post2_log_odds_A by assumption.
      rewrite (score_log_odds o i out Ho f Hf N D L Zc B X lbda n l) by assumption. reflexivity.
    Qed.
    Lemma child_B f Zc n l :
      (forall z U x l D L,
        has_shape2 U D L -> bin2 U -> bin1 z -> List.length z = L -> (l < L)%nat ->
        exists s, explained2 o i z U x l D L s /\ f z U x l = wrap16 s /\
          (tern1 x -> (Z.of_nat D <= 32767)%Z -> f z U x l = s)) ->
      (Z.of_nat N <= 32767)%Z -> okmat D L Zc -> (n < D)%nat -> (l < L)%nat ->
      lbda * IZR (f (row Zc n) A (row (transpose X) n) l) + logit pB =
      log_odds (fun B' => post2 out lbda X N D L pA pB A B') Zc n l.
    Proof.
      intros Hf HD HZ Hn Hl. rewrite post2_log_odds_B by assumption.
      rewrite (score_log_odds_T o i out Ho f Hf N D L A Zc X lbda n l) by assumption. reflexivity.
    Qed.

    Lemma onechild_oneparent_A K a1 a2 la : (Z.of_nat D <= 32767)%Z -> draws_ok r N L -> okmat N K a1 -> okmat L K a2 ->
      LOM_sampler_1c1p_2d (model_name o i) (model_name op ip) 0 A B fixed X lbda a1 a2 la pA r =
      Ok (ref_sweep (fun A' => post2 out lbda X N D L pA pB A' B * parent_lik outp la a1 a2 N L K A') fixed r N L A).
    Proof.
      intros HD Hr k1 k2. destruct (C07_lemma o i Hin) as (f & Ef & Hf). destruct (parent_score op ip Hinp) as (g & Eg & Hg).
      unfold LOM_sampler_1c1p_2d, sampling_fct_onechild_oneparent_2d. rewrite Ef, Eg. cbn [bind].
      f_equal. apply sample_loop_ref; [assumption|assumption|]. intros Zc n l HZ Hn Hl.
      unfold logit_onechild_oneparent_2d.
      rewrite (log_odds_mul (fun A' => post2 out lbda X N D L pA pB A' B) (parent_lik outp la a1 a2 N L K)) by pos_tac.
      rewrite <- (child_A f) by assumption.
      rewrite <- (parent_log_odds op ip outp g la a1 a2 N L K Zc n l) by (assumption || apply HZ). lra.
    Qed.
    Lemma onechild_oneparent_B K a1 a2 la : (Z.of_nat N <= 32767)%Z -> draws_ok r D L -> okmat D K a1 -> okmat L K a2 ->
      LOM_sampler_1c1p_2d (model_name o i) (model_name op ip) 1 A B fixed X lbda a1 a2 la pB r =
      Ok (ref_sweep (fun B' => post2 out lbda X N D L pA pB A B' * parent_lik outp la a1 a2 D L K B') fixed r D L B).
    Proof.
      intros HD Hr k1 k2. destruct (C07_lemma o i Hin) as (f & Ef & Hf). destruct (parent_score op ip Hinp) as (g & Eg & Hg).
      unfold LOM_sampler_1c1p_2d, sampling_fct_onechild_oneparent_2d. rewrite Ef, Eg. cbn [bind].
      f_equal. apply sample_loop_ref; [assumption|assumption|]. intros Zc n l HZ Hn Hl.
      unfold logit_onechild_oneparent_2d.
      rewrite (log_odds_mul (fun B' => post2 out lbda X N D L pA pB A B') (parent_lik outp la a1 a2 D L K)) by pos_tac.
      rewrite <- (child_B f) by assumption.
      rewrite <- (parent_log_odds op ip outp g la a1 a2 D L K Zc n l) by (assumption || apply HZ). lra.
    Qed.
    Lemma onechild_twoparents_A K K' a1 a2 la a1' a2' la' : (Z.of_nat D <= 32767)%Z -> draws_ok r N L ->
      okmat N K a1 -> okmat L K a2 -> okmat N K' a1' -> okmat L K' a2' ->
      LOM_sampler_1c2p_2d (model_name o i) (model_name op ip) (model_name op ip) 0 A B fixed X lbda a1 a2 la a1' a2' la' pA r =
      Ok (ref_sweep (fun A' => post2 out lbda X N D L pA pB A' B * parent_lik outp la a1 a2 N L K A'
                               * parent_lik outp la' a1' a2' N L K' A') fixed r N L A).
    Proof.
      intros HD Hr k1 k2 k1' k2'. destruct (C07_lemma o i Hin) as (f & Ef & Hf). destruct (parent_score op ip Hinp) as (g & Eg & Hg).
      unfold LOM_sampler_1c2p_2d, sampling_fct_onechild_twoparents_2d. rewrite Ef, Eg. cbn [bind].
      f_equal. apply sample_loop_ref; [assumption|assumption|]. intros Zc n l HZ Hn Hl.
      unfold logit_onechild_twoparents_2d.
      rewrite (log_odds_mul (fun A' => post2 out lbda X N D L pA pB A' B * parent_lik outp la a1 a2 N L K A')
                 (parent_lik outp la' a1' a2' N L K')) by pos_tac.
      rewrite (log_odds_mul (fun A' => post2 out lbda X N D L pA pB A' B) (parent_lik outp la a1 a2 N L K)) by pos_tac.
      rewrite <- (child_A f) by assumption.
      rewrite <- (parent_log_odds op ip outp g la a1 a2 N L K Zc n l) by (assumption || apply HZ).
      rewrite <- (parent_log_odds op ip outp g la' a1' a2' N L K' Zc n l) by (assumption || apply HZ). lra.
    Qed.
    Lemma onechild_twoparents_B K K' a1 a2 la a1' a2' la' : (Z.of_nat N <= 32767)%Z -> draws_ok r D L ->
      okmat D K a1 -> okmat L K a2 -> okmat D K' a1' -> okmat L K' a2' ->
      LOM_sampler_1c2p_2d (model_name o i) (model_name op ip) (model_name op ip) 1 A B fixed X lbda a1 a2 la a1' a2' la' pB r =
      Ok (ref_sweep (fun B' => post2 out lbda X N D L pA pB A B' * parent_lik outp la a1 a2 D L K B'
                               * parent_lik outp la' a1' a2' D L K' B') fixed r D L B).
    Proof.
      intros HD Hr k1 k2 k1' k2'. destruct (C07_lemma o i Hin) as (f & Ef & Hf). destruct (parent_score op ip Hinp) as (g & Eg & Hg).
      unfold LOM_sampler_1c2p_2d, sampling_fct_onechild_twoparents_2d. rewrite Ef, Eg. cbn [bind].
      f_equal. apply sample_loop_ref; [assumption|assumption|]. intros Zc n l HZ Hn Hl.
      unfold logit_onechild_twoparents_2d.
      rewrite (log_odds_mul (fun B' => post2 out lbda X N D L pA pB A B' * parent_lik outp la a1 a2 D L K B')
                 (parent_lik outp la' a1' a2' D L K')) by pos_tac.
      rewrite (log_odds_mul (fun B' => post2 out lbda X N D L pA pB A B') (parent_lik outp la a1 a2 D L K)) by pos_tac.
      rewrite <- (child_B f) by assumption.
      rewrite <- (parent_log_odds op ip outp g la a1 a2 D L K Zc n l) by (assumption || apply HZ).
      rewrite <- (parent_log_odds op ip outp g la' a1' a2' D L K' Zc n l) by (assumption || apply HZ). lra.
    Qed.
  End WithChild.
End Hier.

Lemma C11_child_one_parent_lemma :
  forall o i op ip, In (o, i) implemented -> In (op, ip) implemented ->
  forall out outp, is_output o i out -> is_output op ip outp ->
  forall N D L A B fixed X lbda pA pB r,
    okmat N L A -> okmat D L B -> has_shape2 X N D -> tern2 X -> 0 < pA < 1 -> 0 < pB < 1 ->
    (forall K a1 a2 la, (Z.of_nat D <= 32767)%Z -> draws_ok r N L -> okmat N K a1 -> okmat L K a2 ->
       LOM_sampler_1c1p_2d (model_name o i) (model_name op ip) 0 A B fixed X lbda a1 a2 la pA r =
       Ok (ref_sweep (fun A' => post2 out lbda X N D L pA pB A' B * parent_lik outp la a1 a2 N L K A') fixed r N L A)) /\
    (forall K a1 a2 la, (Z.of_nat N <= 32767)%Z -> draws_ok r D L -> okmat D K a1 -> okmat L K a2 ->
       LOM_sampler_1c1p_2d (model_name o i) (model_name op ip) 1 A B fixed X lbda a1 a2 la pB r =
       Ok (ref_sweep (fun B' => post2 out lbda X N D L pA pB A B' * parent_lik outp la a1 a2 D L K B') fixed r D L B)).
Proof.
  intros. split; intros; [apply onechild_oneparent_A|apply onechild_oneparent_B]; assumption.
Qed.
Lemma C11_child_two_parents_lemma :
  forall o i op ip, In (o, i) implemented -> In (op, ip) implemented ->
  forall out outp, is_output o i out -> is_output op ip outp ->
  forall N D L A B fixed X lbda pA pB r,
    okmat N L A -> okmat D L B -> has_shape2 X N D -> tern2 X -> 0 < pA < 1 -> 0 < pB < 1 ->
    (forall K K' a1 a2 la a1' a2' la', (Z.of_nat D <= 32767)%Z -> draws_ok r N L ->
       okmat N K a1 -> okmat L K a2 -> okmat N K' a1' -> okmat L K' a2' ->
       LOM_sampler_1c2p_2d (model_name o i) (model_name op ip) (model_name op ip) 0 A B fixed X lbda a1 a2 la a1' a2' la' pA r =
       Ok (ref_sweep (fun A' => post2 out lbda X N D L pA pB A' B * parent_lik outp la a1 a2 N L K A'
                                * parent_lik outp la' a1' a2' N L K' A') fixed r N L A)) /\
    (forall K K' a1 a2 la a1' a2' la', (Z.of_nat N <= 32767)%Z -> draws_ok r D L ->
       okmat D K a1 -> okmat L K a2 -> okmat D K' a1' -> okmat L K' a2' ->
       LOM_sampler_1c2p_2d (model_name o i) (model_name op ip) (model_name op ip) 1 A B fixed X lbda a1 a2 la a1' a2' la' pB r =
       Ok (ref_sweep (fun B' => post2 out lbda X N D L pA pB A B' * parent_lik outp la a1 a2 D L K B'
                                * parent_lik outp la' a1' a2' D L K' B') fixed r D L B)).
Proof.
  intros. split; intros; [apply onechild_twoparents_A|apply onechild_twoparents_B]; assumption.
Qed.

(** * C12 *)
Lemma models_differ : forall o1 i1 o2 i2, In (o1, i1) implemented -> In (o2, i2) implemented -> (o1, i1) <> (o2, i2) ->
  exists u z, In u (all_vecs 3) /\ In z (all_vecs 3) /\ lom_b o1 i1 [u; z] 3 = negb (lom_b o2 i2 [u; z] 3).
Proof.
  intros o1 i1 o2 i2 H1 H2 Hne.
  assert (G : forallb (fun p => forallb (fun q =>
      if (match fst p, fst q with OR, OR | NOR, NOR | AND, AND | NAND, NAND | XOR, XOR | NXOR, NXOR => true | _, _ => false end) &&
         (match snd p, snd q with OR, OR | NOR, NOR | AND, AND | NAND, NAND | XOR, XOR | NXOR, NXOR => true | _, _ => false end)
      then true else
      existsb (fun u => existsb (fun z => Bool.eqb (lom_b (fst p) (snd p) [u; z] 3) (negb (lom_b (fst q) (snd q) [u; z] 3)))
        (all_vecs 3)) (all_vecs 3)) implemented) implemented = true) by (vm_compute; reflexivity).
  rewrite forallb_forall in G. specialize (G _ H1). rewrite forallb_forall in G. specialize (G _ H2). cbn [fst snd] in G.
  destruct (_ && _)%bool eqn:E.
  - exfalso. apply Hne. clear - E. destruct o1, o2; try discriminate; destruct i1, i2; try discriminate; reflexivity.
  - apply existsb_exists in G. destruct G as (u & Hu & G). apply existsb_exists in G. destruct G as (z & Hz & G).
    exists u, z. split; [exact Hu|]. split; [exact Hz|]. apply eqb_prop, G.
Qed.

Lemma exp_m1_half : exp (-1) < 1 / 2.
Proof.
  assert (H : 2 < exp 1) by (replace 2 with (1 + 1) by ring; apply exp_ineq1; lra).
  replace (-1) with (- (1)) by ring. rewrite exp_Ropp.
  replace (1 / 2) with (/ 2) by lra. apply Rinv_lt_contravar; lra.
Qed.

Lemma flip_neg y logit_p rand : pm1 y -> IZR y * logit_p > 0 -> flip_metropolised_gibbs_numba logit_p (- y) rand = y.
Proof.
  intros [-> | ->] H; unfold flip_metropolised_gibbs_numba, flip_metropolised_branch; cbn [Z.opp Z.eqb Pos.eqb andb].
  - destruct (Rleb_spec 0 logit_p); [reflexivity|lra].
  - destruct (Rleb_spec logit_p 0); [reflexivity|lra].
Qed.

Lemma C12_lemma : forall o1 i1 o2 i2, In (o1, i1) implemented -> In (o2, i2) implemented -> (o1, i1) <> (o2, i2) ->
  forall out1 out2, is_output o1 i1 out1 -> is_output o2 i2 out2 ->
  exists N L K A fixed a1 a2 la a1' a2' la' p r,
    okmat N L A /\ 0 < p < 1 /\ draws_ok r N L /\ okmat N K a1 /\ okmat L K a2 /\ okmat N K a1' /\ okmat L K a2' /\
    0 < la /\ 0 < la' /\
    LOM_sampler_0c2p_2d (model_name o1 i1) (model_name o2 i2) A fixed a1 a2 la a1' a2' la' p r <>
      Ok (ref_sweep (fun A' => prior p N L A' * parent_lik out1 la a1 a2 N L K A'
                               * parent_lik out2 la' a1' a2' N L K A') fixed r N L A).
Proof.
  intros o1 i1 o2 i2 H1 H2 Hne out1 out2 Ho1 Ho2.
  destruct (models_differ o1 i1 o2 i2 H1 H2 Hne) as (u & z & Hu & Hz & E).
  apply in_all_vecs in Hu, Hz. destruct Hu as [Lu Bu], Hz as [Lz Bz].
  set (y := out2 [u; z] 3%nat).
  assert (Hy : pm1 y) by (eapply out_pm; exact Ho2).
  assert (Hy1 : out1 [u; z] 3%nat = (- y)%Z).
  { unfold y. rewrite (proj1 (lom_output_b _ _ _ _ _) (Ho1 [u; z] 3%nat)), (proj1 (lom_output_b _ _ _ _ _) (Ho2 [u; z] 3%nat)).
    rewrite E. destruct (lom_b o2 i2 [u; z] 3); reflexivity. }
  assert (ok1 : forall v : vec, List.length v = 3%nat -> bin1 v -> okmat 1 3 [v]).
  { intros v Hv Bv. split; [split; [reflexivity|constructor; [exact Hv|constructor]]|constructor; [exact Bv|constructor]]. }
  assert (Hmy : pm1 (- y)%Z) by (destruct Hy as [-> | ->]; unfold pm1; auto).
  assert (kA : okmat 1 1 [[(- y)%Z]]).
  { split; [split; [reflexivity|constructor; [reflexivity|constructor]]|constructor; [constructor; [exact Hmy|constructor]|constructor]]. }
  exists 1%nat, 1%nat, 3%nat, [[(- y)%Z]], [[0%Z]], [u], [z], 2, [u], [z], 1, (1 / 2), (fun _ _ => 1 / 2).
  split; [exact kA|]. split; [lra|]. split; [intros n l _ _; unfold is_draw; lra|].
  split; [apply ok1; assumption|]. split; [apply ok1; assumption|]. split; [apply ok1; assumption|].
  split; [apply ok1; assumption|]. split; [lra|]. split; [lra|].
  destruct (parent_score o1 i1 H1) as (g1 & Eg1 & Hg1). destruct (parent_score o2 i2 H2) as (g2 & Eg2 & Hg2).
  unfold LOM_sampler_0c2p_2d, sampling_fct_nochild_twoparents_2d. rewrite Eg1, Eg2. cbn [bind].
  assert (Hg : g2 u z = y).
  { unfold y. eapply lom_output_unique; [|apply Ho2]. rewrite <- Lu. apply Hg2; try assumption; congruence. }
  assert (HL : logit (1 / 2) = 0) by (unfold logit; replace (1 / 2 / (1 - 1 / 2)) with 1 by lra; apply ln_1).
  assert (Q : IZR y * IZR y = 1) by (destruct Hy as [-> | ->]; lra).
  assert (S1 : sample_loop (logit_nochild_twoparents_2d g2 [u] [z] 2 [u] [z] 1 (logit (1 / 2))) [[(- y)%Z]] [[0%Z]] (fun _ _ => 1 / 2) = [[y]]).
  { unfold sample_loop. cbn [nrows ncols List.length hd seq fold_left]. unfold sample_cell.
    change (at2 [[0%Z]] 0 0) with 0%Z. change (at2 [[(- y)%Z]] 0 0) with (- y)%Z. cbn [Z.eqb].
    rewrite flip_neg; [reflexivity|exact Hy|].
    unfold logit_nochild_twoparents_2d. change (row [u] 0) with u. change (row [z] 0) with z. rewrite Hg, HL. nra. }
  rewrite S1. unfold ref_sweep. cbn [cells list_prod seq map app fold_left].
  change (at2 [[0%Z]] 0 0) with 0%Z. change (at2 [[(- y)%Z]] 0 0) with (- y)%Z. cbn [Z.eqb].
  rewrite (log_odds_mul (fun A' => prior (1 / 2) 1 1 A' * parent_lik out1 2 [u] [z] 1 1 3 A')
             (parent_lik out2 1 [u] [z] 1 1 3)).
  2:{ intros. apply Rmult_lt_0_compat; [apply prior_pos; lra|apply parent_lik_pos]. }
  2:{ intros. apply parent_lik_pos. }
  rewrite (log_odds_mul (prior (1 / 2) 1 1) (parent_lik out1 2 [u] [z] 1 1 3)).
  2:{ intros. apply prior_pos; lra. }
  2:{ intros. apply parent_lik_pos. }
  rewrite (log_odds_prior (1 / 2) 1 1) by (try lra; try lia; apply kA).
  rewrite (log_odds_parent o1 i1 out1) by (try assumption; try lia; apply kA).
  rewrite (log_odds_parent o2 i2 out2) by (try assumption; try lia; apply kA).
  change (row [u] 0) with u. change (row [z] 0) with z. fold y. rewrite Hy1, HL.
  unfold mg_flip.
  replace (- IZR (- y) * (0 + 2 * IZR (- y) + 1 * IZR y)) with (- (1)) by (rewrite opp_IZR; nra).
  replace (- (1)) with (-1) by ring.
  destruct (Rltb_spec (1 / 2) (Rmin 1 (exp (-1)))) as [C|C].
  - exfalso. pose proof (Rmin_r 1 (exp (-1))). pose proof exp_m1_half. lra.
  - intros C'. change (Ok [[y]] = Ok [[(- y)%Z]]) in C'. injection C' as C'. destruct Hy as [Hy | Hy]; rewrite Hy in C'; discriminate.
Qed.

(** * C13 *)
Lemma scalar_balance lo : sigma lo * Rmin 1 (exp (- lo)) = sigma (- lo) * Rmin 1 (exp lo).
Proof.
  rewrite sigma_opp.
  assert (E1 : 1 - sigma lo = sigma lo * exp (- lo)) by (rewrite <- sigma_ratio; field; pose proof (sigma_pos lo); lra).
  assert (E2 : exp (- lo) * exp lo = 1) by (rewrite <- exp_plus, Rplus_opp_l; apply exp_0).
  pose proof (exp_pos lo). pose proof (exp_pos (- lo)). rewrite E1. rewrite Rmult_assoc. f_equal.
  unfold Rmin. destruct (Rle_dec 1 (exp (- lo))), (Rle_dec 1 (exp lo)); nra.
Qed.

Lemma C13_balance_lemma lo : sigma lo * Rmin 1 (exp (- lo)) = (1 - sigma lo) * Rmin 1 (exp lo).
Proof. rewrite scalar_balance, sigma_opp. reflexivity. Qed.

Lemma C13_lemma : forall lo z, pm1 z ->
  let a := Rmin 1 (exp (- IZR z * lo)) in
  (forall r, is_draw r ->
    (flip_metropolised_gibbs_numba lo z r = (- z)%Z <-> r < a) /\
    (flip_metropolised_gibbs_numba lo z r = z <-> a <= r)) /\
  is_RInt (fun r => if Z.eqb (flip_metropolised_gibbs_numba lo z r) (- z) then 1 else 0) 0 1 a /\
  (forall e, flip_metropolised_branch lo z = CompareExp e -> e <= 0) /\
  (forall r, is_draw r -> flip_metropolised_gibbs_numba_classic (sigma lo) z r = flip_metropolised_gibbs_numba lo z r).
Proof.
  intros lo z Hz a.
  assert (Hzz : z <> (- z)%Z) by (destruct Hz as [-> | ->]; discriminate).
  assert (Q : forall r, is_draw r ->
    (flip_metropolised_gibbs_numba lo z r = (- z)%Z <-> r < a) /\
    (flip_metropolised_gibbs_numba lo z r = z <-> a <= r)).
  { intros r Hr. rewrite flip_is_mg by assumption. unfold mg_flip. fold a. destruct (Rltb_spec r a) as [H|H].
    - split; split; intros; try reflexivity; try assumption; try lra. congruence.
    - split; split; intros; try reflexivity; try lra; congruence. }
  split; [exact Q|]. split; [|split].
  - replace a with (a * 1 + (1 - a) * 0) by ring.
    assert (Ha : 0 <= a <= 1).
    { unfold a. split; [|apply Rmin_l]. apply Rmin_glb; [lra|]. left; apply exp_pos. }
    apply (@is_RInt_ext R_NormedModule (fun r => if Rltb r a then 1 else 0)); [|apply is_RInt_step, Ha].
    intros r. rewrite Rmin_left, Rmax_right by lra. intros Hr.
    assert (Hd : is_draw r) by (unfold is_draw; lra). destruct (Q r Hd) as [Q1 Q2].
    destruct (Rltb_spec r a) as [H|H].
    + rewrite (proj2 Q1 H), Z.eqb_refl. reflexivity.
    + rewrite (proj2 Q2) by lra. destruct (Z.eqb_spec z (- z)); [contradiction|reflexivity].
  - intros e. apply branch_nonpos, Hz.
  - intros r Hr. apply classic_same; assumption.
Qed.

Lemma C13_gibbs_lemma : forall p, 0 <= p <= 1 ->
  (forall r, is_draw r -> (flip_gibbs_numba p r = 1%Z <-> r < p) /\ pm1 (flip_gibbs_numba p r)) /\
  is_RInt (fun r => if Z.eqb (flip_gibbs_numba p r) 1 then 1 else 0) 0 1 p.
Proof.
  intros p Hp. split.
  - intros r _. unfold flip_gibbs_numba. destruct (Rltb_spec r p); unfold pm1; split; auto; split; intros; auto; try discriminate; try lra.
  - pose proof (is_RInt_step p 1 0 Hp) as H. replace (p * 1 + (1 - p) * 0) with p in H by ring.
    apply (@is_RInt_ext R_NormedModule (fun r => if Rltb r p then 1 else 0)); [|exact H].
    intros r _. unfold flip_gibbs_numba. destruct (Rltb r p); reflexivity.
Qed.

(** * C14 *)
Lemma ref_fixed w fixed r cs Z_ n l : at2 fixed n l = 1%Z ->
  at2 (fold_left (fun Zc '(n, l) =>
    if (at2 fixed n l =? 1)%Z then Zc
    else set2 Zc n l (mg_flip (log_odds w Zc n l) (at2 Zc n l) (r n l))) cs Z_) n l = at2 Z_ n l.
Proof.
  intros Hf. revert Z_. induction cs as [|[n' l'] cs IH]; intros Z_; [reflexivity|]. simpl. rewrite IH.
  destruct (Z.eqb_spec (at2 fixed n' l') 1) as [|Hn]; [reflexivity|].
  apply at2_set2_other. intros E. injection E as -> ->. contradiction.
Qed.

Lemma agrees_ref w fixed A0 N L r A : agrees fixed A0 N L (ref_sweep w fixed r N L A) = agrees fixed A0 N L A.
Proof.
  unfold agrees. assert (G : forall cs, forallb (fun '(n, l) => negb (at2 fixed n l =? 1)%Z || (at2 (ref_sweep w fixed r N L A) n l =? at2 A0 n l)%Z) cs
     = forallb (fun '(n, l) => negb (at2 fixed n l =? 1)%Z || (at2 A n l =? at2 A0 n l)%Z) cs); [|apply G].
  induction cs as [|[n l] cs IH]; [reflexivity|]. simpl. rewrite IH. f_equal.
  destruct (Z.eqb_spec (at2 fixed n l) 1) as [E|E]; [|reflexivity].
  unfold ref_sweep. rewrite ref_fixed by exact E. reflexivity.
Qed.

Lemma Rsum_filter {A} (f : A -> R) c l : Rsum f (filter c l) = Rsum (fun x => if c x then f x else 0) l.
Proof. induction l as [|a l IH]; [reflexivity|]. simpl filter. rewrite (Rsum_cons _ a l). destruct (c a); [rewrite Rsum_cons|]; rewrite IH; lra. Qed.
Lemma Edraws_const k c : Edraws k (fun _ => c) = c.
Proof. induction k as [|k IH]; [reflexivity|]. simpl. rewrite IH. apply RInt_01_const. Qed.

Lemma sampler_invariant (S : mat -> (nat -> nat -> R) -> res mat) w fixed A0 N L :
  (forall m, okmat N L m -> 0 < w m) ->
  (forall m r, okmat N L m -> draws_ok r N L -> S m r = Ok (ref_sweep w fixed r N L m)) ->
  invariant S w (filter (agrees fixed A0 N L) (all_mats N L)) N L.
Proof.
  intros Hw HS h. exists (fun m => Edraws (N * L) (fun rs => on_ok h (S m (draws_of L rs)))).
  assert (HX : forall m, okmat N L m -> forall rs, List.length rs = (N * L)%nat -> Forall is_draw rs ->
     on_ok h (S m (draws_of L rs)) = h (ref_sweep w fixed (draws_of L rs) N L m)).
  { intros m Hm rs Hl HF. rewrite HS by (try assumption; apply draws_of_ok; assumption). reflexivity. }
  split.
  - intros m Hm. apply filter_In in Hm. destruct Hm as [Hm _]. apply in_all_mats in Hm.
    rewrite (Edraws_ext _ _ _ (HX m Hm)). eapply is_E_ext; [|apply ref_sweep_is_E].
    intros rs Hl HF. symmetry. apply HX; assumption.
  - rewrite !Rsum_filter.
    pose (h' := fun m => if agrees fixed A0 N L m then h m else 0).
    transitivity (Rsum (fun m => w m * h' m) (all_mats N L)).
    + rewrite <- (ref_sweep_invariant w N L fixed h' Hw). apply Rsum_ext. intros m Hm. apply in_all_mats in Hm.
      destruct (agrees fixed A0 N L m) eqn:E.
      * f_equal. apply Edraws_ext. intros rs Hl HF. rewrite HX by assumption.
        unfold h'. rewrite agrees_ref, E. reflexivity.
      * rewrite (Edraws_ext (N * L) _ (fun _ => 0)).
        -- rewrite Edraws_const. ring.
        -- intros rs Hl HF. unfold h'. rewrite agrees_ref, E. reflexivity.
    + apply Rsum_ext. intros m _. unfold h'. destruct (agrees fixed A0 N L m); ring.
Qed.

Lemma post3_pos out lbda X N D M L pA pB pC A B C : 0 < pA < 1 -> 0 < pB < 1 -> 0 < pC < 1 ->
  0 < post3 out lbda X N D M L pA pB pC A B C.
Proof. intros. unfold post3. repeat apply Rmult_lt_0_compat; first [apply lik3_pos|apply prior_pos; assumption]. Qed.

(** Factors that agree with the current one on the fixed cells. *)
Lemma C14_2_lemma : forall o i, In (o, i) implemented -> forall out, is_output o i out ->
  forall N D L (A B fixed X : mat) lbda pA pB,
    okmat N L A -> okmat D L B -> has_shape2 X N D -> tern2 X ->
    0 < pA < 1 -> 0 < pB < 1 ->
    ((Z.of_nat D <= 32767)%Z ->
      invariant (fun A' r => LOM_sampler_2d (model_name o i) 0 A' B fixed X lbda pA r)
        (fun A' => post2 out lbda X N D L pA pB A' B) (filter (agrees fixed A N L) (all_mats N L)) N L) /\
    ((Z.of_nat N <= 32767)%Z ->
      invariant (fun B' r => LOM_sampler_2d (model_name o i) 1 A B' fixed X lbda pB r)
        (fun B' => post2 out lbda X N D L pA pB A B') (filter (agrees fixed B D L) (all_mats D L)) D L).
Proof.
  intros o i Hin out Ho N D L A B fixed X lbda pA pB [HA bA] [HB bB] HX TX HpA HpB. split; intros Hlim; apply sampler_invariant.
  1,3: intros; apply post2_pos; assumption.
  - intros m r [Hm bm] Hr. apply (C10_2_lemma o i Hin out Ho N D L m B fixed X lbda pA pB r); assumption.
  - intros m r [Hm bm] Hr. apply (C10_2_lemma o i Hin out Ho N D L A m fixed X lbda pA pB r); assumption.
Qed.

Lemma C14_3_lemma : forall o i, In (o, i) implemented -> forall out, is_output o i out ->
  forall N D M L (A B C fixed : mat) (X : ten) lbda pA pB pC,
    okmat N L A -> okmat D L B -> okmat M L C -> has_shape3 X N D M ->
    0 < pA < 1 -> 0 < pB < 1 -> 0 < pC < 1 ->
    let post := post3 out lbda X N D M L pA pB pC in
    invariant (fun A' r => LOM_sampler_3d (model_name o i) 0 A' B C fixed X lbda pA r)
      (fun A' => post A' B C) (filter (agrees fixed A N L) (all_mats N L)) N L /\
    invariant (fun B' r => LOM_sampler_3d (model_name o i) 1 A B' C fixed X lbda pB r)
      (fun B' => post A B' C) (filter (agrees fixed B D L) (all_mats D L)) D L /\
    invariant (fun C' r => LOM_sampler_3d (model_name o i) 2 A B C' fixed X lbda pC r)
      (fun C' => post A B C') (filter (agrees fixed C M L) (all_mats M L)) M L.
Proof.
  intros o i Hin out Ho N D M L A B C fixed X lbda pA pB pC [HA bA] [HB bB] [HC bC] HX HpA HpB HpC post.
  unfold post. split; [|split]; apply sampler_invariant.
  1,3,5: intros; apply post3_pos; assumption.
  - intros m r [Hm bm] Hr. apply (C10_3_lemma o i Hin out Ho N D M L m B C fixed X lbda pA pB pC r); assumption.
  - intros m r [Hm bm] Hr. apply (C10_3_lemma o i Hin out Ho N D M L A m C fixed X lbda pA pB pC r); assumption.
  - intros m r [Hm bm] Hr. apply (C10_3_lemma o i Hin out Ho N D M L A B m fixed X lbda pA pB pC r); assumption.
Qed.

(** With parents. *)
Lemma C14_h_lemma : forall op ip, In (op, ip) implemented -> forall outp, is_output op ip outp ->
  forall N L K A fixed p a1 a2 la, okmat N L A -> 0 < p < 1 -> okmat N K a1 -> okmat L K a2 ->
  invariant (fun A' r => LOM_sampler_0c1p_2d (model_name op ip) A' fixed a1 a2 la p r)
    (fun A' => prior p N L A' * parent_lik outp la a1 a2 N L K A')
    (filter (agrees fixed A N L) (all_mats N L)) N L /\
  (forall o i, In (o, i) implemented -> forall out, is_output o i out -> forall D B X lbda pB,
     okmat D L B -> has_shape2 X N D -> tern2 X -> 0 < pB < 1 -> (Z.of_nat D <= 32767)%Z ->
     invariant (fun A' r => LOM_sampler_1c1p_2d (model_name o i) (model_name op ip) 0 A' B fixed X lbda a1 a2 la p r)
       (fun A' => post2 out lbda X N D L p pB A' B * parent_lik outp la a1 a2 N L K A')
       (filter (agrees fixed A N L) (all_mats N L)) N L).
Proof.
  intros op ip Hinp outp Hop N L K A fixed p a1 a2 la kA Hp k1 k2. split; [|intros]; apply sampler_invariant.
  - intros; apply Rmult_lt_0_compat; [apply prior_pos; assumption|apply parent_lik_pos].
  - intros m r Hm Hr. apply nochild_oneparent; assumption.
  - intros; apply Rmult_lt_0_compat; [apply post2_pos; assumption|apply parent_lik_pos].
  - intros m r Hm Hr. apply onechild_oneparent_A; assumption.
Qed.
