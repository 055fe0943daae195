(** Updates in double precision: the factors of a layer. *)
From Coq Require Import Lra Psatz ZifyBool String.
From Verif Require Import Base BaseR BaseLemmas BaseRLemmas Spec SpecR Outputs Scores ScoresProofs Sampling SamplingProofs HierProofs SpecFloat Invariance InvarianceProofs FloatFuzzy FloatProofs SpecFloatRun FloatSampling FloatSampleProofs FloatSampleProofs2 FloatSampleProofs3.
Local Open Scope R_scope.

Section All.
Context (ex : R -> R) (Hex : good_exp ex).
Lemma close_eq S S' T T' N L b c : (forall r, S r = T r) -> (forall r, S' r = T' r) -> b = c -> close_update T T' N L c -> close_update S S' N L b.
Proof.
  intros E E' -> H h Hh. destruct (H h Hh) as (v & V1 & V2). exists v. split.
  - eapply is_E_ext; [|exact V1]. intros rs _ _. cbv beta. rewrite E. reflexivity.
  - assert (G : forall M k f g, (forall rs, f rs = g rs) -> grid_mean M k f = grid_mean M k g).
    { intros M. induction k as [|k IH]; intros f g Q; cbn [grid_mean]; [apply Q|]. f_equal. apply Rsum_ext. intros j _. apply IH. intros rs. apply Q. }
    unfold mean_of in *. rewrite (G _ _ _ (fun rs => on_ok h (T' (draws_of L rs)))) by (intros; rewrite E'; reflexivity). exact V2.
Qed.
Lemma tail_pos P d : 0 <= d -> 0 <= (7 + 3 * Rabs P) * roundoff + d.
Proof. intros. pose proof (Rabs_pos P). pose proof eps_pos as EP. change eps with roundoff in EP. assert (0 <= (7 + 3 * Rabs P) * roundoff) by (apply Rmult_le_pos; lra). lra. Qed.
Lemma tail_pos3 Q P d : 0 <= d -> 0 <= (10 + 4 * (Rabs Q + Rabs P)) * roundoff + d.
Proof. intros. pose proof (Rabs_pos P). pose proof (Rabs_pos Q). pose proof eps_pos as EP. change eps with roundoff in EP. assert (0 <= (10 + 4 * (Rabs Q + Rabs P)) * roundoff) by (apply Rmult_le_pos; lra). lra. Qed.
Lemma dist_pos a b d : Rabs (a - b) <= d -> 0 <= d.
Proof. pose proof (Rabs_pos (a - b)). lra. Qed.
Lemma C116_close2_lemma o i : In (o, i) implemented -> forall P L A B fixed X lbda p lp d ax, okmat P L (match ax with O => A | _ => B end) -> Rabs (lp - logit p) <= d ->
  close_update (LOM_sampler_2d (model_name o i) ax A B fixed X lbda p) (double_sampler_2d ex (model_name o i) ax A B fixed X lbda lp) P L (INR (P * L) * ((10 + 3 * Rabs lp) * roundoff + d)).
Proof.
  intros Hin P L A B fixed X lbda p lp d ax HZ Hd. destruct (C07_lemma o i Hin) as (f & Ef & _).
  assert (Q : INR (P * L) * ((10 + 3 * Rabs lp) * roundoff + d) = INR (P * L) * (((7 + 3 * Rabs lp) * roundoff + d) + 3 * roundoff)) by (f_equal; ring).
  destruct ax as [|ax]; eapply close_eq; [intros r; unfold LOM_sampler_2d, sampling_fct_onechild_2d; rewrite Ef; reflexivity|intros r; unfold double_sampler_2d; rewrite Ef; reflexivity|exact Q| |intros r; unfold LOM_sampler_2d, sampling_fct_onechild_2d; rewrite Ef; reflexivity|intros r; unfold double_sampler_2d; rewrite Ef; reflexivity|exact Q|];
    (apply loops_close; [exact Hex|exact HZ|apply tail_pos, (dist_pos _ _ _ Hd)|]); intros m n l Hm Hn Hl; apply logit_close2; solve [eapply okmat_pm; eassumption|exact Hd].
Qed.
Lemma C116_close3_lemma o i : In (o, i) implemented -> forall P L A B C fixed X lbda p lp d ax, okmat P L (match ax with O => A | 1%nat => B | _ => C end) -> Rabs (lp - logit p) <= d ->
  close_update (LOM_sampler_3d (model_name o i) ax A B C fixed X lbda p) (double_sampler_3d ex (model_name o i) ax A B C fixed X lbda lp) P L (INR (P * L) * ((10 + 3 * Rabs lp) * roundoff + d)).
Proof.
  intros Hin P L A B C fixed X lbda p lp d ax HZ Hd. destruct (C08_lemma o i Hin) as (f & Ef & _).
  assert (Q : INR (P * L) * ((10 + 3 * Rabs lp) * roundoff + d) = INR (P * L) * (((7 + 3 * Rabs lp) * roundoff + d) + 3 * roundoff)) by (f_equal; ring).
  destruct ax as [|[|ax]]; (eapply close_eq; [intros r; unfold LOM_sampler_3d, sampling_fct_onechild_3d; rewrite Ef; reflexivity|intros r; unfold double_sampler_3d; rewrite Ef; reflexivity|exact Q|]);
    (apply loops_close; [exact Hex|exact HZ|apply tail_pos, (dist_pos _ _ _ Hd)|]); intros m n l Hm Hn Hl; apply logit_close2; solve [eapply okmat_pm; eassumption|exact Hd].
Qed.
Lemma C116_close0p_lemma o i : In (o, i) implemented -> forall P L A fixed a1 a2 la p lp d, okmat P L A -> Rabs (lp - logit p) <= d ->
  close_update (LOM_sampler_0c1p_2d (model_name o i) A fixed a1 a2 la p) (double_sampler_0c1p ex (model_name o i) A fixed a1 a2 la lp) P L (INR (P * L) * ((10 + 3 * Rabs lp) * roundoff + d)).
Proof.
  intros Hin P L A fixed a1 a2 la p lp d HZ Hd. destruct (parent_score o i Hin) as (f & Ef & _).
  assert (Q : INR (P * L) * ((10 + 3 * Rabs lp) * roundoff + d) = INR (P * L) * (((7 + 3 * Rabs lp) * roundoff + d) + 3 * roundoff)) by (f_equal; ring).
  eapply close_eq; [intros r; unfold LOM_sampler_0c1p_2d, sampling_fct_nochild_oneparent_2d; rewrite Ef; reflexivity|intros r; unfold double_sampler_0c1p; rewrite Ef; reflexivity|exact Q|].
  apply loops_close; [exact Hex|exact HZ|apply tail_pos, (dist_pos _ _ _ Hd)|]. intros m n l Hm Hn Hl; apply logit_close2; solve [eapply okmat_pm; eassumption|exact Hd].
Qed.
Lemma pscore_abs g la a1 a2 P L K n l : (forall va vb, bin1 va -> bin1 vb -> List.length va = List.length vb -> pm1 (g va vb)) -> okmat P K a1 -> okmat L K a2 -> (n < P)%nat -> (l < L)%nat ->
  Rabs (la * IZR (g (row a1 n) (row a2 l))) = Rabs la.
Proof.
  intros Hg k1 k2 Hn Hl. rewrite Rabs_mult. assert (G : pm1 (g (row a1 n) (row a2 l))) by (apply Hg; [exact (bin2_row _ _ (proj2 k1))|exact (bin2_row _ _ (proj2 k2))|rewrite (shape2_row _ _ _ n (proj1 k1) Hn), (shape2_row _ _ _ l (proj1 k2) Hl); reflexivity]).
  destruct G as [-> | ->]; [rewrite Rabs_R1; ring|]. rewrite (Rabs_left (-1)) by lra. ring.
Qed.
Lemma pscore_pm o i : In (o, i) implemented -> exists g, get_parent_score_fct_2d (model_tag (model_name o i) "2") = Ok g /\ forall va vb, bin1 va -> bin1 vb -> List.length va = List.length vb -> pm1 (g va vb).
Proof. intros H. destruct (parent_score o i H) as (g & Eg & Hg). exists g. split; [exact Eg|]. intros va vb h1 h2 h3. destruct (Hg va vb h1 h2 h3) as [[-> _]|[-> _]]; [left|right]; reflexivity. Qed.
Lemma C116_close1p_lemma o i op ip : In (o, i) implemented -> In (op, ip) implemented -> forall P L K A B fixed X lbda a1 a2 la p lp d ax, okmat P L (match ax with O => A | _ => B end) -> okmat P K a1 -> okmat L K a2 -> Rabs (lp - logit p) <= d ->
  close_update (LOM_sampler_1c1p_2d (model_name o i) (model_name op ip) ax A B fixed X lbda a1 a2 la p) (double_sampler_1c1p ex (model_name o i) (model_name op ip) ax A B fixed X lbda a1 a2 la lp) P L (INR (P * L) * ((13 + 4 * (Rabs la + Rabs lp)) * roundoff + d)).
Proof.
  intros Hin Hinp P L K A B fixed X lbda a1 a2 la p lp d ax HZ k1 k2 Hd. destruct (C07_lemma o i Hin) as (f & Ef & _). destruct (pscore_pm op ip Hinp) as (g & Eg & Hg).
  assert (Q : INR (P * L) * ((13 + 4 * (Rabs la + Rabs lp)) * roundoff + d) = INR (P * L) * (((10 + 4 * (Rabs la + Rabs lp)) * roundoff + d) + 3 * roundoff)) by (f_equal; ring).
  destruct ax as [|ax]; (eapply close_eq; [intros r; unfold LOM_sampler_1c1p_2d, sampling_fct_onechild_oneparent_2d; rewrite Ef, Eg; reflexivity|intros r; unfold double_sampler_1c1p; rewrite Ef, Eg; reflexivity|exact Q|]);
    (apply loops_close; [exact Hex|exact HZ|apply tail_pos3, (dist_pos _ _ _ Hd)|]); intros m n l Hm Hn Hl; rewrite <- (pscore_abs g la a1 a2 P L K n l Hg k1 k2 Hn Hl); (apply logit_close3; [eapply okmat_pm; eassumption|exact Hd]).
Qed.
Lemma tail_pos4 Q1 Q2 P d : 0 <= d -> 0 <= (13 + 5 * (Rabs Q1 + Rabs Q2 + Rabs P)) * roundoff + d.
Proof. intros. pose proof (Rabs_pos P). pose proof (Rabs_pos Q1). pose proof (Rabs_pos Q2). pose proof eps_pos as EP. change eps with roundoff in EP. assert (0 <= (13 + 5 * (Rabs Q1 + Rabs Q2 + Rabs P)) * roundoff) by (apply Rmult_le_pos; lra). lra. Qed.
Lemma C116_close2p_lemma o i op ip oq iq : In (o, i) implemented -> In (op, ip) implemented -> In (oq, iq) implemented -> forall P L K K' A B fixed X lbda a1 a2 la b1 b2 lb p lp d ax, okmat P L (match ax with O => A | _ => B end) -> okmat P K a1 -> okmat L K a2 -> okmat P K' b1 -> okmat L K' b2 -> Rabs (lp - logit p) <= d ->
  close_update (LOM_sampler_1c2p_2d (model_name o i) (model_name op ip) (model_name oq iq) ax A B fixed X lbda a1 a2 la b1 b2 lb p) (double_sampler_1c2p ex (model_name o i) (model_name op ip) (model_name oq iq) ax A B fixed X lbda a1 a2 la b1 b2 lb lp) P L (INR (P * L) * ((16 + 5 * (Rabs la + Rabs lb + Rabs lp)) * roundoff + d)).
Proof.
  intros Hin Hinp Hinq P L K K' A B fixed X lbda a1 a2 la b1 b2 lb p lp d ax HZ k1 k2 k3 k4 Hd. destruct (C07_lemma o i Hin) as (f & Ef & _). destruct (pscore_pm op ip Hinp) as (g0 & Eg0 & _). destruct (pscore_pm oq iq Hinq) as (g & Eg & Hg).
  assert (Q : INR (P * L) * ((16 + 5 * (Rabs la + Rabs lb + Rabs lp)) * roundoff + d) = INR (P * L) * (((13 + 5 * (Rabs la + Rabs lb + Rabs lp)) * roundoff + d) + 3 * roundoff)) by (f_equal; ring).
  destruct ax as [|ax]; (eapply close_eq; [intros r; unfold LOM_sampler_1c2p_2d, sampling_fct_onechild_twoparents_2d; rewrite Ef, Eg0, Eg; reflexivity|intros r; unfold double_sampler_1c2p; rewrite Ef, Eg0, Eg; reflexivity|exact Q|]);
    (apply loops_close; [exact Hex|exact HZ|apply tail_pos4, (dist_pos _ _ _ Hd)|]); intros m n l Hm Hn Hl; rewrite <- (pscore_abs g la a1 a2 P L K n l Hg k1 k2 Hn Hl), <- (pscore_abs g lb b1 b2 P L K' n l Hg k3 k4 Hn Hl); (apply logit_close4; [eapply okmat_pm; eassumption|exact Hd]).
Qed.
Lemma C116_close02_lemma op ip oq iq : In (op, ip) implemented -> In (oq, iq) implemented -> forall P L K A fixed a1 a2 la b1 b2 lb p lp d, okmat P L A -> okmat P K b1 -> okmat L K b2 -> Rabs (lp - logit p) <= d ->
  close_update (LOM_sampler_0c2p_2d (model_name op ip) (model_name oq iq) A fixed a1 a2 la b1 b2 lb p) (double_sampler_0c2p ex (model_name op ip) (model_name oq iq) A fixed a1 a2 la b1 b2 lb lp) P L (INR (P * L) * ((13 + 4 * (Rabs lb + Rabs lp)) * roundoff + d)).
Proof.
  intros Hinp Hinq P L K A fixed a1 a2 la b1 b2 lb p lp d HZ k1 k2 Hd. destruct (pscore_pm op ip Hinp) as (g0 & Eg0 & _). destruct (pscore_pm oq iq Hinq) as (g & Eg & Hg).
  assert (Q : INR (P * L) * ((13 + 4 * (Rabs lb + Rabs lp)) * roundoff + d) = INR (P * L) * (((10 + 4 * (Rabs lb + Rabs lp)) * roundoff + d) + 3 * roundoff)) by (f_equal; ring).
  eapply close_eq; [intros r; unfold LOM_sampler_0c2p_2d, sampling_fct_nochild_twoparents_2d; rewrite Eg0, Eg; reflexivity|intros r; unfold double_sampler_0c2p; rewrite Eg0, Eg; reflexivity|exact Q|].
  apply loops_close; [exact Hex|exact HZ|apply tail_pos3, (dist_pos _ _ _ Hd)|]; intros m n l Hm Hn Hl; rewrite <- (pscore_abs g lb b1 b2 P L K n l Hg k1 k2 Hn Hl); (apply logit_close3; [eapply okmat_pm; eassumption|exact Hd]).
Qed.

Lemma states_ok F A N L m : In m (filter (agrees F A N L) (all_mats N L)) -> okmat N L m.
Proof. intros H. apply filter_In in H. apply in_all_mats, H. Qed.
Lemma C116_inv2_lemma o i : In (o, i) implemented -> forall out, is_output o i out -> forall N D L A B fixed X lbda pA pB lp d,
  okmat N L A -> okmat D L B -> has_shape2 X N D -> tern2 X -> 0 < pA < 1 -> 0 < pB < 1 ->
  ((Z.of_nat D <= 32767)%Z -> Rabs (lp - logit pA) <= d ->
     nearly_invariant (fun A' => double_sampler_2d ex (model_name o i) 0 A' B fixed X lbda lp) (fun A' => post2 out lbda X N D L pA pB A' B)
       (filter (agrees fixed A N L) (all_mats N L)) N L (INR (N * L) * ((10 + 3 * Rabs lp) * roundoff + d))) /\
  ((Z.of_nat N <= 32767)%Z -> Rabs (lp - logit pB) <= d ->
     nearly_invariant (fun B' => double_sampler_2d ex (model_name o i) 1 A B' fixed X lbda lp) (fun B' => post2 out lbda X N D L pA pB A B')
       (filter (agrees fixed B D L) (all_mats D L)) D L (INR (D * L) * ((10 + 3 * Rabs lp) * roundoff + d))).
Proof.
  intros Hin out Ho N D L A B fixed X lbda pA pB lp d HA HB HX TX H1 H2.
  destruct (C14_2_lemma o i Hin out Ho N D L A B fixed X lbda pA pB HA HB HX TX H1 H2) as [I1 I2]. split; intros Hl Hd.
  - apply (close_invariant _ _ _ _ _ _ _ (I1 Hl)); [intros; left; apply post2_pos; assumption|]. intros m Hm. apply (C116_close2_lemma o i Hin N L m B fixed X lbda pA lp d 0); [eapply states_ok; eassumption|exact Hd].
  - apply (close_invariant _ _ _ _ _ _ _ (I2 Hl)); [intros; left; apply post2_pos; assumption|]. intros m Hm. apply (C116_close2_lemma o i Hin D L A m fixed X lbda pB lp d 1); [eapply states_ok; eassumption|exact Hd].
Qed.
Lemma C116_inv3_lemma o i : In (o, i) implemented -> forall out, is_output o i out -> forall N D M L A B C fixed X lbda pA pB pC lp d,
  okmat N L A -> okmat D L B -> okmat M L C -> has_shape3 X N D M -> 0 < pA < 1 -> 0 < pB < 1 -> 0 < pC < 1 ->
  let post := post3 out lbda X N D M L pA pB pC in let b P := INR (P * L) * ((10 + 3 * Rabs lp) * roundoff + d) in
  (Rabs (lp - logit pA) <= d -> nearly_invariant (fun A' => double_sampler_3d ex (model_name o i) 0 A' B C fixed X lbda lp) (fun A' => post A' B C)
     (filter (agrees fixed A N L) (all_mats N L)) N L (b N)) /\
  (Rabs (lp - logit pB) <= d -> nearly_invariant (fun B' => double_sampler_3d ex (model_name o i) 1 A B' C fixed X lbda lp) (fun B' => post A B' C)
     (filter (agrees fixed B D L) (all_mats D L)) D L (b D)) /\
  (Rabs (lp - logit pC) <= d -> nearly_invariant (fun C' => double_sampler_3d ex (model_name o i) 2 A B C' fixed X lbda lp) (fun C' => post A B C')
     (filter (agrees fixed C M L) (all_mats M L)) M L (b M)).
Proof.
  intros Hin out Ho N D M L A B C fixed X lbda pA pB pC lp d HA HB HC HX H1 H2 H3. cbv zeta.
  destruct (C14_3_lemma o i Hin out Ho N D M L A B C fixed X lbda pA pB pC HA HB HC HX H1 H2 H3) as (I1 & I2 & I3). repeat split; intros Hd.
  - apply (close_invariant _ _ _ _ _ _ _ I1); [intros; left; apply post3_pos; assumption|]. intros m Hm. apply (C116_close3_lemma o i Hin N L m B C fixed X lbda pA lp d 0); [eapply states_ok; eassumption|exact Hd].
  - apply (close_invariant _ _ _ _ _ _ _ I2); [intros; left; apply post3_pos; assumption|]. intros m Hm. apply (C116_close3_lemma o i Hin D L A m C fixed X lbda pB lp d 1); [eapply states_ok; eassumption|exact Hd].
  - apply (close_invariant _ _ _ _ _ _ _ I3); [intros; left; apply post3_pos; assumption|]. intros m Hm. apply (C116_close3_lemma o i Hin M L A B m fixed X lbda pC lp d 2); [eapply states_ok; eassumption|exact Hd].
Qed.
Lemma C116_invh_lemma op ip : In (op, ip) implemented -> forall outp, is_output op ip outp -> forall N L K A fixed p a1 a2 la lp d,
  okmat N L A -> 0 < p < 1 -> okmat N K a1 -> okmat L K a2 -> Rabs (lp - logit p) <= d ->
  nearly_invariant (fun A' => double_sampler_0c1p ex (model_name op ip) A' fixed a1 a2 la lp) (fun A' => prior p N L A' * parent_lik outp la a1 a2 N L K A')
    (filter (agrees fixed A N L) (all_mats N L)) N L (INR (N * L) * ((10 + 3 * Rabs lp) * roundoff + d)) /\
  (forall o i, In (o, i) implemented -> forall out, is_output o i out -> forall D B X lbda pB, okmat D L B -> has_shape2 X N D -> tern2 X -> 0 < pB < 1 -> (Z.of_nat D <= 32767)%Z ->
   nearly_invariant (fun A' => double_sampler_1c1p ex (model_name o i) (model_name op ip) 0 A' B fixed X lbda a1 a2 la lp)
     (fun A' => post2 out lbda X N D L p pB A' B * parent_lik outp la a1 a2 N L K A')
     (filter (agrees fixed A N L) (all_mats N L)) N L (INR (N * L) * ((13 + 4 * (Rabs la + Rabs lp)) * roundoff + d))).
Proof.
  intros Hin outp Ho N L K A fixed p a1 a2 la lp d HA Hp k1 k2 Hd.
  destruct (C14_h_lemma op ip Hin outp Ho N L K A fixed p a1 a2 la HA Hp k1 k2) as (I1 & I2). split.
  - apply (close_invariant _ _ _ _ _ _ _ I1); [intros; left; apply Rmult_lt_0_compat; [apply prior_pos; assumption|apply parent_lik_pos]|]. intros m Hm. apply (C116_close0p_lemma op ip Hin N L m fixed a1 a2 la p lp d); [eapply states_ok; eassumption|exact Hd].
  - intros o i Hc out Hout D B X lbda pB HB HX TX HpB Hl. apply (close_invariant _ _ _ _ _ _ _ (I2 o i Hc out Hout D B X lbda pB HB HX TX HpB Hl)); [intros; left; apply Rmult_lt_0_compat; [apply post2_pos; assumption|apply parent_lik_pos]|].
    intros m Hm. apply (C116_close1p_lemma o i op ip Hc Hin N L K m B fixed X lbda a1 a2 la p lp d 0); [eapply states_ok; eassumption|assumption|assumption|exact Hd].
Qed.
End All.
