(** Lemmas for C105 and C106. *)
From Coq Require Import String Lra Permutation.
From Verif Require Import Base BaseLemmas BaseR BaseRLemmas Spec SpecR Outputs OutputsProofs Scores ScoresProofs
  Sampling SamplingProofs Invariance InvarianceProofs HierProofs Extended SpecExtended.
Local Open Scope R_scope.

(** * Finite values *)
Lemma xlogit_fin p : 0 < p < 1 -> xlogit p = Fin (logit p).
Proof.
  intros [H0 H1]. unfold xlogit, Rltb, Rleb.
  destruct (Rlt_dec p 0); [lra|]. destruct (Rlt_dec 1 p); [lra|].
  destruct (Rle_dec p 0); [lra|]. destruct (Rle_dec 1 p); [lra|]. reflexivity.
Qed.
Lemma xlogit_out p : p < 0 \/ 1 < p -> xlogit p = NaN.
Proof.
  intros H. unfold xlogit, Rltb. destruct (Rlt_dec p 0); [reflexivity|]. destruct (Rlt_dec 1 p); [reflexivity|lra].
Qed.
Lemma xlogit_1 : xlogit 1 = PInf.
Proof.
  unfold xlogit, Rltb, Rleb. destruct (Rlt_dec 1 0); [lra|]. destruct (Rlt_dec 1 1); [lra|].
  destruct (Rle_dec 1 0); [lra|]. destruct (Rle_dec 1 1); [reflexivity|lra].
Qed.
Lemma xlogit_0 : xlogit 0 = NInf.
Proof.
  unfold xlogit, Rltb, Rleb. destruct (Rlt_dec 0 0); [lra|]. destruct (Rlt_dec 1 0); [lra|].
  destruct (Rle_dec 0 0); [reflexivity|lra].
Qed.

Lemma flip_x_fin x z r : flip_x (Fin x) z r = flip_metropolised_gibbs_numba x z r.
Proof.
  unfold flip_x, flip_metropolised_gibbs_numba, flip_metropolised_branch. cbn [xle0 xge0 xscale xexp_gt].
  destruct (_ && _); [reflexivity|]. destruct (_ && _); [reflexivity|].
  rewrite (Rmult_comm x). reflexivity.
Qed.
Lemma flip_x_nan z r : pm1 z -> flip_x NaN z r = z.
Proof. intros [-> | ->]; reflexivity. Qed.
Lemma flip_x_pinf z r : pm1 z -> 0 <= r -> flip_x PInf z r = 1%Z.
Proof.
  intros [-> | ->] H; unfold flip_x; cbn; [|reflexivity].
  unfold Rltb. destruct (Rlt_dec r 0); [lra|reflexivity].
Qed.
Lemma flip_x_ninf z r : pm1 z -> 0 <= r -> flip_x NInf z r = (-1)%Z.
Proof.
  intros [-> | ->] H; unfold flip_x; cbn; [reflexivity|].
  unfold Rltb. destruct (Rlt_dec r 0); [lra|reflexivity].
Qed.

Lemma sample_loop_x_fin lo lo' Z_ fixed rand : (forall Zc n l, lo' Zc n l = Fin (lo Zc n l)) ->
  sample_loop_x lo' Z_ fixed rand = sample_loop lo Z_ fixed rand.
Proof.
  intros E. unfold sample_loop_x, sample_loop.
  assert (G : forall n ls Zc, fold_left (fun Zl l => sample_cell_x lo' fixed rand Zl n l) ls Zc =
                              fold_left (fun Zl l => sample_cell lo fixed rand Zl n l) ls Zc).
  { intros n. induction ls as [|l ls IH]; intros Zc; [reflexivity|]. simpl. rewrite IH. f_equal.
    unfold sample_cell_x, sample_cell. rewrite E, flip_x_fin. reflexivity. }
  generalize (seq 0 (nrows Z_)) as ns. generalize (seq 0 (ncols Z_)) as ls. intros ls ns. revert Z_.
  induction ns as [|n ns IH]; intros Z_; [reflexivity|]. simpl. rewrite IH, G. reflexivity.
Qed.

Lemma bind_ext {A B} (x : res A) (f g : A -> res B) : (forall a, f a = g a) -> bind x f = bind x g.
Proof. intros H. destruct x; simpl; [apply H|reflexivity]. Qed.

Lemma C105_agree_lemma : forall c fixed p rand, 0 < p < 1 -> run_call_x (fin_call c) fixed p rand = run_call c fixed p rand.
Proof.
  intros c fixed p rand Hp. unfold run_call_x. rewrite (xlogit_fin p Hp).
  destruct c as [m ax A B X la|m ax A B C X la|m pm ax A B X la a1 a2 lp|pm Z_ a1 a2 lp|pm pm' Z_ a1 a2 lp b1 b2 lq|m pm pm' ax A B X la a1 a2 lp b1 b2 lq];
    cbn [fin_call run_call].
  - unfold LOM_sampler_2d, sampling_fct_onechild_2d.
    destruct ax; (apply bind_ext; intros f; f_equal; apply sample_loop_x_fin; reflexivity).
  - unfold LOM_sampler_3d, sampling_fct_onechild_3d.
    destruct ax as [|[|ax]]; (apply bind_ext; intros f; f_equal; apply sample_loop_x_fin; reflexivity).
  - unfold LOM_sampler_1c1p_2d, sampling_fct_onechild_oneparent_2d.
    destruct ax; (do 2 (apply bind_ext; intros ?); f_equal; apply sample_loop_x_fin; reflexivity).
  - unfold LOM_sampler_0c1p_2d, sampling_fct_nochild_oneparent_2d.
    apply bind_ext; intros f; f_equal; apply sample_loop_x_fin; reflexivity.
  - unfold LOM_sampler_0c2p_2d, sampling_fct_nochild_twoparents_2d.
    do 2 (apply bind_ext; intros ?); f_equal; apply sample_loop_x_fin; reflexivity.
  - unfold LOM_sampler_1c2p_2d, sampling_fct_onechild_twoparents_2d.
    destruct ax; (do 3 (apply bind_ext; intros ?); f_equal; apply sample_loop_x_fin; reflexivity).
Qed.

(** * Loops over extended logits *)
Lemma sample_loop_x_cells lo Z_ fixed rand N L : has_shape2 Z_ N L ->
  sample_loop_x lo Z_ fixed rand =
  fold_left (fun Zc '(n, l) => sample_cell_x lo fixed rand Zc n l) (row_by_row N L) Z_.
Proof.
  intros HZ. unfold sample_loop_x. rewrite fold_prod. rewrite (shape2_nrows _ _ _ HZ).
  unfold row_by_row. destruct N as [|N]; [reflexivity|]. rewrite (shape2_ncols _ _ _ HZ) by lia. reflexivity.
Qed.
Lemma in_rbr n l N L : In (n, l) (row_by_row N L) <-> (n < N)%nat /\ (l < L)%nat.
Proof. unfold row_by_row. rewrite in_prod_iff, !in_seq0. reflexivity. Qed.
Lemma flip_x_pm lo z r : pm1 z -> pm1 (flip_x lo z r).
Proof.
  intros [-> | ->]; unfold flip_x; destruct (_ && _); unfold pm1; auto; destruct (_ && _); auto;
  destruct (xexp_gt _ _); auto.
Qed.
Lemma cell_x_ok lo fixed rand N L Z_ n l : okmat N L Z_ -> (n < N)%nat -> (l < L)%nat ->
  okmat N L (sample_cell_x lo fixed rand Z_ n l).
Proof.
  intros H Hn Hl. unfold sample_cell_x. destruct (_ =? 1)%Z; [exact H|].
  apply okmat_set; [exact H|]. apply flip_x_pm. eapply okmat_pm; eassumption.
Qed.
Lemma set2_same Z_ n l : set2 Z_ n l (at2 Z_ n l) = Z_.
Proof.
  unfold set2, at2, row, at1.
  assert (U : forall (A : Type) (v : list A) k d, upd v k (nth k v d) = v).
  { intros A v. induction v as [|x v IH]; intros k d; [reflexivity|]. destruct k; simpl; [reflexivity|]. rewrite IH. reflexivity. }
  rewrite (U Z (nth n Z_ []) l 0%Z). apply U.
Qed.

(** A logit that decides each visited entry: [f n l = Some v] sets it, [None] keeps it. *)
Lemma loop_x_decided lo fixed rand N L Z_ (f : nat -> nat -> option Z) : okmat N L Z_ ->
  (forall Zc n l, okmat N L Zc -> (n < N)%nat -> (l < L)%nat ->
     flip_x (lo Zc n l) (at2 Zc n l) (rand n l) = match f n l with Some v => v | None => at2 Zc n l end) ->
  let Z' := sample_loop_x lo Z_ fixed rand in
  okmat N L Z' /\ forall n l, (n < N)%nat -> (l < L)%nat ->
    at2 Z' n l = if (at2 fixed n l =? 1)%Z then at2 Z_ n l else match f n l with Some v => v | None => at2 Z_ n l end.
Proof.
  intros HZ H Z'. unfold Z'. rewrite (sample_loop_x_cells _ _ _ _ N L) by apply HZ.
  set (step := fun Zc '(n, l) => sample_cell_x lo fixed rand Zc n l).
  assert (G : forall cs Zc, okmat N L Zc -> (forall c, In c cs -> In c (row_by_row N L)) -> 
    okmat N L (fold_left step cs Zc) /\
    forall n l, (n < N)%nat -> (l < L)%nat -> at2 (fold_left step cs Zc) n l =
      if (at2 fixed n l =? 1)%Z then at2 Zc n l
      else if existsb (fun c => Nat.eqb (fst c) n && Nat.eqb (snd c) l) cs
           then match f n l with Some v => v | None => at2 Zc n l end else at2 Zc n l).
  { induction cs as [|[n0 l0] cs IH]; intros Zc HZc Hc.
    - split; [exact HZc|]. intros n l _ _. simpl. destruct (_ =? 1)%Z; reflexivity.
    - destruct (proj1 (in_rbr n0 l0 N L) (Hc _ (or_introl eq_refl))) as [Hn0 Hl0].
      destruct (IH (step Zc (n0, l0))) as [K1 K2].
      { apply cell_x_ok; assumption. } { intros c Hi; apply Hc; right; exact Hi. }
      change (fold_left step ((n0, l0) :: cs) Zc) with (fold_left step cs (step Zc (n0, l0))).
      split; [exact K1|]. intros n l Hn Hl. rewrite (K2 n l Hn Hl).
      cbn [existsb fst snd].
      assert (E : at2 (step Zc (n0, l0)) n l =
        if (at2 fixed n l =? 1)%Z then at2 Zc n l
        else if (Nat.eqb n0 n && Nat.eqb l0 l) then match f n l with Some v => v | None => at2 Zc n l end else at2 Zc n l).
      { unfold step, sample_cell_x. destruct (Nat.eqb_spec n0 n) as [<-|Hne].
        - destruct (Nat.eqb_spec l0 l) as [<-|Hle]; cbn [andb].
          + destruct (at2 fixed n0 l0 =? 1)%Z; [reflexivity|].
            rewrite (H Zc n0 l0 HZc Hn0 Hl0). 
            destruct HZc as [HS _]. rewrite (at2_set2_same Zc N L) by assumption. reflexivity.
          + assert (E0 : at2 (if (at2 fixed n0 l0 =? 1)%Z then Zc else set2 Zc n0 l0 (flip_x (lo Zc n0 l0) (at2 Zc n0 l0) (rand n0 l0))) n0 l = at2 Zc n0 l).
            { destruct (at2 fixed n0 l0 =? 1)%Z; [reflexivity|]. apply at2_set2_other. congruence. }
            rewrite E0. destruct (at2 fixed n0 l =? 1)%Z; reflexivity.
        - cbn [andb].
          assert (E0 : at2 (if (at2 fixed n0 l0 =? 1)%Z then Zc else set2 Zc n0 l0 (flip_x (lo Zc n0 l0) (at2 Zc n0 l0) (rand n0 l0))) n l = at2 Zc n l).
          { destruct (at2 fixed n0 l0 =? 1)%Z; [reflexivity|]. apply at2_set2_other. congruence. }
          rewrite E0. destruct (at2 fixed n l =? 1)%Z; reflexivity. }
      rewrite E. destruct (at2 fixed n l =? 1)%Z; [reflexivity|].
      destruct (Nat.eqb n0 n && Nat.eqb l0 l); destruct (existsb _ cs); cbn [orb]; try reflexivity.
      destruct (f n l); reflexivity. }
  destruct (G (row_by_row N L) Z_ HZ ltac:(auto)) as [G1 G2]. split; [exact G1|].
  intros n l Hn Hl. rewrite (G2 n l Hn Hl). destruct (_ =? 1)%Z; [reflexivity|].
  assert (E : existsb (fun c => Nat.eqb (fst c) n && Nat.eqb (snd c) l) (row_by_row N L) = true).
  { apply existsb_exists. exists (n, l). split; [apply in_rbr; auto|]. cbn. rewrite !Nat.eqb_refl. reflexivity. }
  rewrite E. reflexivity.
Qed.

(** * One call *)
Lemma named_score2 m : named m -> exists f, get_posterior_score_fct_2d (model_tag m "2") = Ok f.
Proof. intros (o & i & Hin & ->). destruct (C07_lemma o i Hin) as (f & Ef & _). eauto. Qed.
Lemma named_score3 m : named m -> exists f, get_posterior_score_fct_3d (model_tag m "3") = Ok f.
Proof. intros (o & i & Hin & ->). destruct (C08_lemma o i Hin) as (f & Ef & _). eauto. Qed.
Lemma named_parent m : named m -> exists f, get_parent_score_fct_2d (model_tag m "2") = Ok f.
Proof. intros (o & i & Hin & ->). destruct (parent_score o i Hin) as (f & Ef & _). eauto. Qed.

Lemma call_loop c : known c -> exists lo : mat -> nat -> nat -> xf,
  (forall fixed p rand, run_call_x c fixed p rand =
     Ok (sample_loop_x (fun Zc n l => xadd (lo Zc n l) (xlogit p)) (target c) fixed rand)) /\
  (forall c0, c = fin_call c0 -> forall Zc n l, exists x, lo Zc n l = Fin x).
Proof.
  destruct c as [m ax A B X la|m ax A B C X la|m pm ax A B X la a1 a2 lp|pm Z_ a1 a2 lp|pm pm' Z_ a1 a2 lp b1 b2 lq|m pm pm' ax A B X la a1 a2 lp b1 b2 lq];
    cbn [known]; intros H.
  - destruct (named_score2 m H) as (f & E).
    exists (fun Zc n l => xscale la (f (row Zc n) (other2 ax A B) (row (data2 ax X) n) l)). split.
    + intros. unfold run_call_x. rewrite E. destruct ax; reflexivity.
    + intros c0 Ec. destruct c0; try discriminate Ec. injection Ec as -> -> -> -> -> ->. intros. eexists. reflexivity.
  - destruct (named_score3 m H) as (f & E).
    exists (fun Zc n l => xscale la (f (row Zc n) (first3 ax A B C) (second3 ax A B C) (slab (data3 ax X) n) l)). split.
    + intros. unfold run_call_x. rewrite E. destruct ax as [|[|ax]]; reflexivity.
    + intros c0 Ec. destruct c0; try discriminate Ec. injection Ec as -> -> -> -> -> -> ->. intros. eexists. reflexivity.
  - destruct H as [H1 H2]. destruct (named_score2 m H1) as (f & E). destruct (named_parent pm H2) as (g & Eg).
    exists (fun Zc n l => xadd (xscale la (f (row Zc n) (other2 ax A B) (row (data2 ax X) n) l))
                       (xscale lp (g (row a1 n) (row a2 l)))). split.
    + intros. unfold run_call_x. rewrite E, Eg. destruct ax; reflexivity.
    + intros c0 Ec. destruct c0; try discriminate Ec. injection Ec as -> -> -> -> -> -> -> -> -> ->. intros. eexists. reflexivity.
  - destruct (named_parent pm H) as (g & Eg). exists (fun _ n l => xscale lp (g (row a1 n) (row a2 l))). split.
    + intros. unfold run_call_x. rewrite Eg. reflexivity.
    + intros c0 Ec. destruct c0; try discriminate Ec. injection Ec as -> -> -> -> ->. intros. eexists. reflexivity.
  - destruct H as [H1 H2]. destruct (named_parent pm H1) as (f & E). destruct (named_parent pm' H2) as (g & Eg).
    exists (fun _ n l => xadd (xscale lp (g (row a1 n) (row a2 l))) (xscale lq (g (row b1 n) (row b2 l)))). split.
    + intros. unfold run_call_x. rewrite E, Eg. reflexivity.
    + intros c0 Ec. destruct c0; try discriminate Ec. injection Ec as -> -> -> -> -> -> -> -> ->. intros. eexists. reflexivity.
  - destruct H as (H0 & H1 & H2). destruct (named_score2 m H0) as (h & Eh). destruct (named_parent pm H1) as (f & E).
    destruct (named_parent pm' H2) as (g & Eg).
    exists (fun Zc n l => xadd (xadd (xscale la (h (row Zc n) (other2 ax A B) (row (data2 ax X) n) l))
                             (xscale lp (g (row a1 n) (row a2 l)))) (xscale lq (g (row b1 n) (row b2 l)))). split.
    + intros. unfold run_call_x. rewrite Eh, E, Eg. destruct ax; reflexivity.
    + intros c0 Ec. destruct c0; try discriminate Ec. injection Ec as -> -> -> -> -> -> -> -> -> -> -> -> -> ->. intros. eexists. reflexivity.
Qed.

Lemma target_fin c : target (fin_call c) = target c.
Proof. destruct c; reflexivity. Qed.
Lemma known_fin c : known c -> known (fin_call c).
Proof. destruct c; intros H; exact H. Qed.

Lemma C105_pinned_lemma : forall c N L fixed rand, known c -> okmat N L (target c) -> draws_ok rand N L ->
  (exists Z', run_call_x (fin_call c) fixed 1 rand = Ok Z' /\ pinned 1 fixed (target c) Z' N L) /\
  (exists Z', run_call_x (fin_call c) fixed 0 rand = Ok Z' /\ pinned (-1) fixed (target c) Z' N L).
Proof.
  intros c N L fixed rand Hk HZ Hr. destruct (call_loop (fin_call c) (known_fin c Hk)) as (lo & E & Hfin).
  rewrite !E, target_fin, xlogit_1, xlogit_0. split; eexists; (split; [reflexivity|]).
  - destruct (loop_x_decided (fun Zc n l => xadd (lo Zc n l) PInf) fixed rand N L (target c) (fun _ _ => Some 1%Z) HZ) as [G1 G2].
    { intros Zc n l HZc Hn Hl. destruct (Hfin c eq_refl Zc n l) as (x & ->). cbn.
      apply flip_x_pinf; [eapply okmat_pm; eassumption|]. apply (Hr n l Hn Hl). }
    split; [apply G1|exact G2].
  - destruct (loop_x_decided (fun Zc n l => xadd (lo Zc n l) NInf) fixed rand N L (target c) (fun _ _ => Some (-1)%Z) HZ) as [G1 G2].
    { intros Zc n l HZc Hn Hl. destruct (Hfin c eq_refl Zc n l) as (x & ->). cbn.
      apply flip_x_ninf; [eapply okmat_pm; eassumption|]. apply (Hr n l Hn Hl). }
    split; [apply G1|exact G2].
Qed.

Lemma xadd_nan a : xadd a NaN = NaN.
Proof. destruct a; reflexivity. Qed.

Lemma loop_x_nan lo fixed rand N L Z_ : okmat N L Z_ -> (forall Zc n l, lo Zc n l = NaN) ->
  sample_loop_x lo Z_ fixed rand = Z_.
Proof.
  intros HZ H. rewrite (sample_loop_x_cells _ _ _ _ N L) by apply HZ.
  assert (G : forall cs, (forall c, In c cs -> In c (row_by_row N L)) ->
    fold_left (fun Zc '(n, l) => sample_cell_x lo fixed rand Zc n l) cs Z_ = Z_).
  { induction cs as [|[n l] cs IH]; intros Hc; [reflexivity|]. simpl.
    destruct (proj1 (in_rbr n l N L) (Hc _ (or_introl eq_refl))) as [Hn Hl].
    assert (E : sample_cell_x lo fixed rand Z_ n l = Z_).
    { unfold sample_cell_x. destruct (_ =? 1)%Z; [reflexivity|].
      rewrite H, flip_x_nan by (eapply okmat_pm; eassumption). apply set2_same. }
    rewrite E. apply IH. intros c Hi. apply Hc. right; exact Hi. }
  apply G. auto.
Qed.

Lemma C105_frozen_lemma : forall c N L fixed p rand, known c -> okmat N L (target c) -> p < 0 \/ 1 < p ->
  run_call_x c fixed p rand = Ok (target c).
Proof.
  intros c N L fixed p rand Hk HZ Hp. destruct (call_loop c Hk) as (lo & E & _). rewrite E, (xlogit_out p Hp). f_equal.
  apply (loop_x_nan _ _ _ N L); [exact HZ|]. intros. apply xadd_nan.
Qed.

(** * Infinite dispersions *)
Lemma greedy_loop lo gain fixed rand N L Z_ x : okmat N L Z_ -> draws_ok rand N L ->
  (forall Zc n l, okmat N L Zc -> (n < N)%nat -> (l < L)%nat ->
     exists s, gain Zc n l s /\ lo Zc n l = xadd (xscale PInf s) (Fin x)) ->
  greedy gain fixed (row_by_row N L) Z_ (sample_loop_x lo Z_ fixed rand).
Proof.
  intros HZ Hr H. rewrite (sample_loop_x_cells _ _ _ _ N L) by apply HZ.
  assert (G : forall cs Zc, okmat N L Zc -> (forall c, In c cs -> In c (row_by_row N L)) ->
    greedy gain fixed cs Zc (fold_left (fun Zc '(n, l) => sample_cell_x lo fixed rand Zc n l) cs Zc)).
  { induction cs as [|[n l] cs IH]; intros Zc HZc Hc; [constructor|].
    destruct (proj1 (in_rbr n l N L) (Hc _ (or_introl eq_refl))) as [Hn Hl].
    specialize (IH (sample_cell_x lo fixed rand Zc n l) (cell_x_ok lo fixed rand N L Zc n l HZc Hn Hl)
      (fun c Hi => Hc c (or_intror Hi))).
    cbn [fold_left]. remember (sample_cell_x lo fixed rand Zc n l) as Zd eqn:Ed. unfold sample_cell_x in Ed.
    destruct (Z.eqb_spec (at2 fixed n l) 1) as [Hf|Hf].
    - subst Zd. apply greedy_fixed; [exact Hf|exact IH].
    - destruct (H Zc n l HZc Hn Hl) as (s & Hs & El). rewrite El in Ed.
      assert (Hz : pm1 (at2 Zc n l)) by (eapply okmat_pm; eassumption).
      destruct (Hr n l Hn Hl) as [Hr0 _]. cbn [xscale] in Ed.
      destruct (Z.ltb_spec 0 s) as [H1|H1].
      + cbn [xadd] in Ed. rewrite flip_x_pinf in Ed by assumption. subst Zd. eapply greedy_up; eassumption.
      + destruct (Z.ltb_spec s 0) as [H2|H2].
        * cbn [xadd] in Ed. rewrite flip_x_ninf in Ed by assumption. subst Zd. eapply greedy_down; eassumption.
        * cbn [xadd] in Ed. rewrite flip_x_nan in Ed by assumption. rewrite set2_same in Ed. subst Zd.
          assert (s = 0%Z) by lia. subst s. eapply greedy_tie; eassumption. }
  apply G; auto.
Qed.

Lemma Zsum_single f k n : (k < n)%nat -> (forall i, (i < n)%nat -> i <> k -> f i = 0%Z) -> Zsum f (seq 0 n) = f k.
Proof.
  intros Hk H. induction n as [|n IH]; [lia|]. rewrite seq_S, Zsum_app. cbn [Nat.add]. rewrite Zsum_cons.
  change (Zsum f []) with 0%Z.
  destruct (Nat.eq_dec k n) as [->|Hne].
  - rewrite Zsum_zero; [lia|]. intros i Hi. apply in_seq0 in Hi. apply H; lia.
  - rewrite IH; [|lia|intros; apply H; lia]. rewrite (H n) by lia. lia.
Qed.
Lemma Zsum_sub f g ls : (Zsum f ls - Zsum g ls = Zsum (fun i => f i - g i) ls)%Z.
Proof. induction ls as [|a ls IH]; [reflexivity|]. rewrite !Zsum_cons. lia. Qed.
Lemma Zsum_swap f ls ls' : Zsum (fun i => Zsum (fun j => f i j) ls') ls = Zsum (fun j => Zsum (fun i => f i j) ls) ls'.
Proof.
  induction ls as [|a ls IH].
  - symmetry. apply Zsum_zero. reflexivity.
  - rewrite Zsum_cons, IH, <- Zsum_add. apply Zsum_ext. intros j _. rewrite Zsum_cons. reflexivity.
Qed.

(** Row [n] is the only one that changes. *)
Lemma gains_rows (h : nat -> vec -> Z) N L A n l s : has_shape2 A N L -> (n < N)%nat ->
  (2 * s = h n (upd (row A n) l 1%Z) - h n (upd (row A n) l (-1)%Z))%Z ->
  gains (fun A' => Zsum (fun k => h k (row A' k)) (seq 0 N)) A n l s.
Proof.
  intros HA Hn E. unfold gains. rewrite Zsum_sub, (Zsum_single _ n N Hn).
  - rewrite !row_set2_same by (destruct HA as [-> _]; exact Hn). exact E.
  - intros k Hk Hne. rewrite !row_set2_other by congruence. lia.
Qed.

Section Gains.
  Context (o i : lop) (out : list vec -> nat -> Z) (Ho : is_output o i out).

  Lemma gains_A X N D L A B n l s : has_shape2 A N L -> (n < N)%nat ->
    explained2 o i (row A n) B (row X n) l D L s -> gains (fun A' => agreement2 out X N D L A' B) A n l s.
  Proof.
    intros HA Hn (up & down & H & E).
    apply (gains_rows (fun k z => Zsum (fun d => at2 X k d * out [z; row B d] L)%Z (seq 0 D)) N L); [exact HA|exact Hn|].
    rewrite E, Zsum_sub. apply Zsum_ext. intros d Hd. apply in_seq0 in Hd. destruct (H d Hd) as [H1 H2].
    rewrite (lom_output_unique _ _ _ _ _ _ H1 (Ho _ _)), (lom_output_unique _ _ _ _ _ _ H2 (Ho _ _)).
    unfold at2, at1. rewrite Z.mul_sub_distr_l. reflexivity.
  Qed.
  Lemma agreement2_swap X N D L A B : has_shape2 X N D ->
    agreement2 out X N D L A B = agreement2 out (transpose X) D N L B A.
  Proof.
    intros HX. unfold agreement2. rewrite Zsum_swap. apply Zsum_ext. intros d Hd. apply Zsum_ext. intros n Hn.
    apply in_seq0 in Hd, Hn. rewrite (at2_transpose X N D) by assumption. rewrite (out_swap2 o i out _ _ L Ho). reflexivity.
  Qed.
  Lemma gains_B X N D L A B n l s : has_shape2 X N D -> has_shape2 B D L -> (n < D)%nat ->
    explained2 o i (row B n) A (row (transpose X) n) l N L s -> gains (fun B' => agreement2 out X N D L A B') B n l s.
  Proof.
    intros HX HB Hn He. unfold gains. rewrite !(agreement2_swap X N D) by exact HX.
    exact (gains_A (transpose X) D N L B A n l s HB Hn He).
  Qed.
  Lemma gains_3 X N D M L A B C n l s : has_shape2 A N L -> (n < N)%nat ->
    explained3 o i (row A n) B C (slab X n) l D M L s -> gains (fun A' => agreement3 out X N D M L A' B C) A n l s.
  Proof.
    intros HA Hn (up & down & H & E).
    apply (gains_rows (fun k z => Zsum (fun d => Zsum (fun m => at3 X k d m * out [z; row B d; row C m] L)%Z (seq 0 M)) (seq 0 D)) N L); [exact HA|exact Hn|].
    rewrite E, Zsum_sub. apply Zsum_ext. intros d Hd. rewrite Zsum_sub. apply Zsum_ext. intros m Hm.
    apply in_seq0 in Hd, Hm. destruct (H d m Hd Hm) as [H1 H2].
    rewrite (lom_output_unique _ _ _ _ _ _ H1 (Ho _ _)), (lom_output_unique _ _ _ _ _ _ H2 (Ho _ _)).
    unfold at3, at2, at1, row. rewrite Z.mul_sub_distr_l. reflexivity.
  Qed.
  Lemma agreement3_012 X N D M L A B C : has_shape3 X N D M ->
    agreement3 out X N D M L A B C = agreement3 out (transpose3 0 1 2 X) N D M L A B C.
  Proof.
    intros HX. unfold agreement3. apply Zsum_ext. intros n Hn. apply Zsum_ext. intros d Hd. apply Zsum_ext. intros m Hm.
    apply in_seq0 in Hn, Hd, Hm. rewrite (at3_transpose3_012 X N D M) by assumption. reflexivity.
  Qed.
  Lemma agreement3_102 X N D M L A B C : has_shape3 X N D M ->
    agreement3 out X N D M L A B C = agreement3 out (transpose3 1 0 2 X) D N M L B A C.
  Proof.
    intros HX. unfold agreement3. rewrite Zsum_swap.
    apply Zsum_ext. intros d Hd. apply Zsum_ext. intros n Hn. apply Zsum_ext. intros m Hm.
    apply in_seq0 in Hn, Hd, Hm. rewrite (at3_transpose3_102 X N D M) by assumption.
    rewrite (out_perm3 o i out _ _ _ (row B d) (row A n) (row C m) L Ho); [reflexivity|constructor].
  Qed.
  Lemma agreement3_201 X N D M L A B C : has_shape3 X N D M ->
    agreement3 out X N D M L A B C = agreement3 out (transpose3 2 0 1 X) M N D L C A B.
  Proof.
    intros HX. unfold agreement3.
    transitivity (Zsum (fun n => Zsum (fun m => Zsum (fun d => at3 X n d m * out [row A n; row B d; row C m] L)%Z
      (seq 0 D)) (seq 0 M)) (seq 0 N)).
    { apply Zsum_ext. intros n _. apply Zsum_swap. }
    rewrite Zsum_swap.
    apply Zsum_ext. intros m Hm. apply Zsum_ext. intros n Hn. apply Zsum_ext. intros d Hd.
    apply in_seq0 in Hn, Hd, Hm. rewrite (at3_transpose3_201 X N D M) by assumption.
    rewrite (out_perm3 o i out _ _ _ (row C m) (row A n) (row B d) L Ho); [reflexivity|].
    apply Permutation_sym. apply (Permutation_cons_app [row A n; row B d] [] (row C m)). simpl. apply Permutation_refl.
  Qed.
End Gains.

Lemma C106_two_lemma : forall o i, In (o, i) implemented -> forall out, is_output o i out ->
  forall N D L (A B fixed X : mat) p r, okmat N L A -> okmat D L B -> has_shape2 X N D -> tern2 X -> 0 < p < 1 ->
  ((Z.of_nat D <= 32767)%Z -> draws_ok r N L -> exists A',
     run_call_x (OneChild2 (model_name o i) 0 A B X PInf) fixed p r = Ok A' /\
     greedy (gains (fun A' => agreement2 out X N D L A' B)) fixed (row_by_row N L) A A') /\
  ((Z.of_nat N <= 32767)%Z -> draws_ok r D L -> exists B',
     run_call_x (OneChild2 (model_name o i) 1 A B X PInf) fixed p r = Ok B' /\
     greedy (gains (fun B' => agreement2 out X N D L A B')) fixed (row_by_row D L) B B').
Proof.
  intros o i Hin out Ho N D L A B fixed X p r kA kB HX TX Hp. destruct (C07_lemma o i Hin) as (f & Ef & Hf).
  unfold run_call_x. rewrite Ef, (xlogit_fin p Hp). cbn [bind own2 other2 data2].
  split; intros HD Hr; eexists; (split; [reflexivity|]).
  - apply (greedy_loop _ _ _ _ _ _ _ (logit p)); [exact kA|exact Hr|]. intros Zc n l [HZ bZ] Hn Hl.
    destruct kB as [HB bB]. destruct (Hf (row Zc n) B (row X n) l D L HB bB (bin2_row _ _ bZ) (shape2_row _ _ _ n HZ Hn) Hl) as (s & Hs & _ & Es).
    exists s. rewrite (Es (tern2_row _ _ TX) HD). split; [|reflexivity]. apply (gains_A o i out Ho); assumption.
  - apply (greedy_loop _ _ _ _ _ _ _ (logit p)); [exact kB|exact Hr|]. intros Zc n l [HZ bZ] Hn Hl.
    destruct kA as [HA bA]. destruct (Hf (row Zc n) A (row (transpose X) n) l N L HA bA (bin2_row _ _ bZ) (shape2_row _ _ _ n HZ Hn) Hl) as (s & Hs & _ & Es).
    exists s. rewrite Es; [|apply tern2_row, (transpose_forall _ X N D); assumption|exact HD].
    split; [|reflexivity]. apply (gains_B o i out Ho); assumption.
Qed.

Lemma C106_three_lemma : forall o i, In (o, i) implemented -> forall out, is_output o i out ->
  forall N D M L (A B C fixed : mat) (X : ten) p r, okmat N L A -> okmat D L B -> okmat M L C -> has_shape3 X N D M -> 0 < p < 1 ->
  (draws_ok r N L -> exists A',
     run_call_x (OneChild3 (model_name o i) 0 A B C X PInf) fixed p r = Ok A' /\
     greedy (gains (fun A' => agreement3 out X N D M L A' B C)) fixed (row_by_row N L) A A') /\
  (draws_ok r D L -> exists B',
     run_call_x (OneChild3 (model_name o i) 1 A B C X PInf) fixed p r = Ok B' /\
     greedy (gains (fun B' => agreement3 out X N D M L A B' C)) fixed (row_by_row D L) B B') /\
  (draws_ok r M L -> exists C',
     run_call_x (OneChild3 (model_name o i) 2 A B C X PInf) fixed p r = Ok C' /\
     greedy (gains (fun C' => agreement3 out X N D M L A B C')) fixed (row_by_row M L) C C').
Proof.
  intros o i Hin out Ho N D M L A B C fixed X p r kA kB kC HX Hp. destruct (C08_lemma o i Hin) as (f & Ef & Hf).
  unfold run_call_x. rewrite Ef, (xlogit_fin p Hp). cbn [bind own3 first3 second3 data3].
  destruct kA as [HA bA], kB as [HB bB], kC as [HC bC].
  split; [|split]; intros Hr; eexists; (split; [reflexivity|]);
    (apply (greedy_loop _ _ _ _ _ _ _ (logit p)); [split; assumption|exact Hr|]); intros Zc n l [HZ bZ] Hn Hl;
    eexists; (split; [|reflexivity]).
  - unfold gains. rewrite !(agreement3_012 out X N D M) by exact HX. apply (gains_3 o i out Ho (transpose3 0 1 2 X) N D M L Zc B C n l); [exact HZ|exact Hn|].
    apply Hf; try assumption; [apply bin2_row; exact bZ|apply (shape2_row _ _ _ n HZ Hn)].
  - unfold gains. rewrite !(agreement3_102 o i out Ho X N D M) by exact HX. apply (gains_3 o i out Ho (transpose3 1 0 2 X) D N M L Zc A C n l); [exact HZ|exact Hn|].
    apply Hf; try assumption; [apply bin2_row; exact bZ|apply (shape2_row _ _ _ n HZ Hn)].
  - unfold gains. rewrite !(agreement3_201 o i out Ho X N D M) by exact HX. apply (gains_3 o i out Ho (transpose3 2 0 1 X) M N D L Zc A B n l); [exact HZ|exact Hn|].
    apply Hf; try assumption; [apply bin2_row; exact bZ|apply (shape2_row _ _ _ n HZ Hn)].
Qed.

(** * Infinite parent dispersion *)
Lemma parent_inf g o i out a1 a2 P Q K n l x r z : is_output o i out ->
  (forall u z : vec, bin1 u -> bin1 z -> List.length u = List.length z -> lom_output o i [u; z] (List.length u) (g u z)) ->
  okmat P K a1 -> okmat Q K a2 -> (n < P)%nat -> (l < Q)%nat -> pm1 z -> 0 <= r ->
  flip_x (xadd (xscale PInf (g (row a1 n) (row a2 l))) (Fin x)) z r = out [row a1 n; row a2 l] K.
Proof.
  intros Ho Hg [H1 b1] [H2 b2] Hn Hl Hz Hr.
  pose proof (Hg (row a1 n) (row a2 l) (bin2_row _ _ b1) (bin2_row _ _ b2)) as H.
  rewrite (shape2_row _ _ _ n H1 Hn), (shape2_row _ _ _ l H2 Hl) in H. specialize (H eq_refl).
  rewrite <- (lom_output_unique _ _ _ _ _ _ H (Ho [row a1 n; row a2 l] K)).
  destruct H as [[-> _]|[-> _]]; cbn [xscale Z.ltb Z.compare xadd]; [apply flip_x_pinf|apply flip_x_ninf]; assumption.
Qed.
Lemma xadd_inf_mid y s x : s <> 0%Z -> xadd (xadd (Fin y) (xscale PInf s)) (Fin x) = xadd (xscale PInf s) (Fin x).
Proof. intros Hs. cbn. destruct (Z.ltb_spec 0 s); [reflexivity|]. destruct (Z.ltb_spec s 0); [reflexivity|lia]. Qed.

Lemma C106_parent_lemma : forall op ip, In (op, ip) implemented -> forall out, is_output op ip out ->
  forall P Q K a1 a2 fixed p r, okmat P K a1 -> okmat Q K a2 -> 0 < p < 1 -> draws_ok r P Q ->
  (forall Z_, okmat P Q Z_ -> exists Z', run_call_x (NoChildOneParent (model_name op ip) Z_ a1 a2 PInf) fixed p r = Ok Z' /\
     has_shape2 Z' P Q /\ forall n l, (n < P)%nat -> (l < Q)%nat ->
       at2 Z' n l = if (at2 fixed n l =? 1)%Z then at2 Z_ n l else out [row a1 n; row a2 l] K) /\
  (forall m ax A B X lbda, named m -> let Z_ := if Nat.eqb ax 0 then A else B in okmat P Q Z_ ->
     exists Z', run_call_x (OneChildOneParent m (model_name op ip) ax A B X (Fin lbda) a1 a2 PInf) fixed p r = Ok Z' /\
     has_shape2 Z' P Q /\ forall n l, (n < P)%nat -> (l < Q)%nat ->
       at2 Z' n l = if (at2 fixed n l =? 1)%Z then at2 Z_ n l else out [row a1 n; row a2 l] K).
Proof.
  intros op ip Hin out Ho P Q K a1 a2 fixed p r k1 k2 Hp Hr. destruct (parent_score op ip Hin) as (g & Eg & Hg).
  split.
  - intros Z_ HZ. unfold run_call_x. rewrite Eg, (xlogit_fin p Hp). cbn [bind]. eexists. split; [reflexivity|].
    destruct (loop_x_decided (fun _ n l => xadd (xscale PInf (g (row a1 n) (row a2 l))) (Fin (logit p))) fixed r P Q Z_
      (fun n l => Some (out [row a1 n; row a2 l] K)) HZ) as [G1 G2].
    { intros Zc n l HZc Hn Hl. apply (parent_inf g op ip out a1 a2 P Q K); try assumption; [eapply okmat_pm; eassumption|].
      apply (Hr n l Hn Hl). }
    split; [apply G1|exact G2].
  - intros m ax A B X lbda Hm Z_ HZ. destruct (named_score2 m Hm) as (f & Ef).
    unfold run_call_x. rewrite Ef, Eg, (xlogit_fin p Hp). cbn [bind]. eexists. split; [reflexivity|].
    assert (EZ : own2 ax A B = Z_) by (destruct ax; reflexivity). rewrite EZ.
    match goal with |- context [sample_loop_x ?lo _ _ _] =>
      destruct (loop_x_decided lo fixed r P Q Z_ (fun n l => Some (out [row a1 n; row a2 l] K)) HZ) as [G1 G2] end.
    { intros Zc n l HZc Hn Hl.
      match goal with |- context [xscale (Fin lbda) ?k] => change (xscale (Fin lbda) k) with (Fin (lbda * IZR k)) end.
      rewrite xadd_inf_mid.
      - apply (parent_inf g op ip out a1 a2 P Q K); try assumption; [eapply okmat_pm; eassumption|]. apply (Hr n l Hn Hl).
      - destruct k1 as [H1 b1], k2 as [H2 b2].
        pose proof (Hg (row a1 n) (row a2 l) (bin2_row _ _ b1) (bin2_row _ _ b2)) as H.
        rewrite (shape2_row _ _ _ n H1 Hn), (shape2_row _ _ _ l H2 Hl) in H. specialize (H eq_refl).
        destruct H as [[-> _]|[-> _]]; discriminate. }
    split; [apply G1|exact G2].
Qed.

Lemma parent_pm g o i out a1 a2 P Q K n l : is_output o i out ->
  (forall u z : vec, bin1 u -> bin1 z -> List.length u = List.length z -> lom_output o i [u; z] (List.length u) (g u z)) ->
  okmat P K a1 -> okmat Q K a2 -> (n < P)%nat -> (l < Q)%nat ->
  g (row a1 n) (row a2 l) = out [row a1 n; row a2 l] K /\ pm1 (out [row a1 n; row a2 l] K).
Proof.
  intros Ho Hg [H1 b1] [H2 b2] Hn Hl.
  pose proof (Hg (row a1 n) (row a2 l) (bin2_row _ _ b1) (bin2_row _ _ b2)) as H.
  rewrite (shape2_row _ _ _ n H1 Hn), (shape2_row _ _ _ l H2 Hl) in H. specialize (H eq_refl).
  rewrite <- (lom_output_unique _ _ _ _ _ _ H (Ho [row a1 n; row a2 l] K)). split; [reflexivity|].
  destruct H as [[-> _]|[-> _]]; [left|right]; reflexivity.
Qed.
Lemma C106_conflict_lemma : forall op ip, In (op, ip) implemented -> forall out, is_output op ip out ->
  forall P Q K K' a1 a2 b1 b2 Z_ fixed p r, okmat P K a1 -> okmat Q K a2 -> okmat P K' b1 -> okmat Q K' b2 -> okmat P Q Z_ -> 0 < p < 1 -> draws_ok r P Q ->
  exists Z', run_call_x (NoChildTwoParents (model_name op ip) (model_name op ip) Z_ a1 a2 PInf b1 b2 PInf) fixed p r = Ok Z' /\
  has_shape2 Z' P Q /\ forall n l, (n < P)%nat -> (l < Q)%nat ->
    at2 Z' n l = if (at2 fixed n l =? 1)%Z then at2 Z_ n l
                 else if (out [row a1 n; row a2 l] K =? out [row b1 n; row b2 l] K')%Z then out [row a1 n; row a2 l] K else at2 Z_ n l.
Proof.
  intros op ip Hin out Ho P Q K K' a1 a2 b1 b2 Z_ fixed p r k1 k2 k3 k4 HZ Hp Hr. destruct (parent_score op ip Hin) as (g & Eg & Hg).
  unfold run_call_x. rewrite Eg, (xlogit_fin p Hp). cbn [bind]. eexists. split; [reflexivity|].
  match goal with |- context [sample_loop_x ?lo _ _ _] =>
    destruct (loop_x_decided lo fixed r P Q Z_ (fun n l => if (out [row a1 n; row a2 l] K =? out [row b1 n; row b2 l] K')%Z then Some (out [row a1 n; row a2 l] K) else None) HZ) as [G1 G2] end.
  { intros Zc n l HZc Hn Hl. destruct (parent_pm g op ip out a1 a2 P Q K n l Ho Hg k1 k2 Hn Hl) as [-> C1]. destruct (parent_pm g op ip out b1 b2 P Q K' n l Ho Hg k3 k4 Hn Hl) as [-> C2].
    assert (Hz : pm1 (at2 Zc n l)) by (eapply okmat_pm; eassumption). assert (R0 : 0 <= r n l) by apply (Hr n l Hn Hl).
    destruct C1 as [-> | ->], C2 as [-> | ->]; cbn [xscale Z.ltb Z.compare xadd Z.eqb Pos.eqb]; [apply flip_x_pinf|apply flip_x_nan|apply flip_x_nan|apply flip_x_ninf]; assumption. }
  split; [apply G1|]. intros n l Hn Hl. rewrite (G2 n l Hn Hl). destruct (at2 fixed n l =? 1)%Z; [reflexivity|]. destruct (_ =? _)%Z; reflexivity.
Qed.
