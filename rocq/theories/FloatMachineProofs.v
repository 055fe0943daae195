(** Proof of C119. *)
From Coq Require Import String Lia Lra Permutation.
From Verif Require Import Base BaseLemmas BaseR BaseRLemmas Spec SpecR Outputs Scores ScoresProofs Sampling SpecFloat Invariance InvarianceProofs HierProofs Canon Machine Dispatch Inference SpecMachine SpecOrdinary SpecPass MachineProofs MachineProofs2 InferenceProofs BuiltProofs InferenceProofs2 PlainProofs DispatchProofs UpdateProofs SamplingProofs.
From Verif Require Import OrdinaryProofs OrdinaryProofs2 OrdinaryProofs3 OrdinaryProofs4 OrdinaryProofs5 OrdinaryProofs6 OrdinaryProofs7 PassProofs.
From Verif Require Import FloatFuzzy FloatProofs SpecFloatRun FloatSampling FloatSampleProofs FloatSampleProofs3 FloatSampleProofs4 FloatSampleProofs5 FloatMachine SpecFloatMachine.
Local Open Scope R_scope.

Section Computes.
Context (ex lg : R -> R).
Lemma dcompute2 w l f g N D L A B X x n p F r : layer2 w l f g N D L A B X x ->
  (fixed_entries (get_mat w f) = A2 F -> double_compute ex lg w f r (FLom n (transpose_order w f) p) = double_sampler_2d ex n 0 A B F X x (lg p) r) /\
  (fixed_entries (get_mat w g) = A2 F -> double_compute ex lg w g r (FLom n (transpose_order w g) p) = double_sampler_2d ex n 1 A B F X x (lg p) r).
Proof.
  intros H. destruct (l2_order _ _ _ _ _ _ _ _ _ _ _ H) as (S1 & S2 & T1 & T2). destruct H as [_ ((_ & _ & lf) & (_ & _ & lgg)) (vf & vg & vx & vl) _]. unfold disp in vl.
  split; intros EF; unfold double_compute; cbv zeta; [rewrite (readE _ _ _ vf)|rewrite (readE _ _ _ vg)]; cbn [bind]; rewrite EF; cbn [as2 bind]; unfold own_layer, pick.
  - rewrite lf, S1, T1. cbn [bind nth_error of_option]. rewrite (readE _ _ _ vg), vx, vl. reflexivity.
  - rewrite lgg, S2, T2. cbn [bind nth_error of_option]. rewrite (readE _ _ _ vf), vx, vl. reflexivity.
Qed.
Lemma dcompute3 w l f g h N D M L A B C X x n p F r : layer3 w l f g h N D M L A B C X x ->
  (fixed_entries (get_mat w f) = A2 F -> double_compute ex lg w f r (FLom3 n (transpose_order w f) p) = double_sampler_3d ex n 0 A B C F X x (lg p) r) /\
  (fixed_entries (get_mat w g) = A2 F -> double_compute ex lg w g r (FLom3 n (transpose_order w g) p) = double_sampler_3d ex n 1 A B C F X x (lg p) r) /\
  (fixed_entries (get_mat w h) = A2 F -> double_compute ex lg w h r (FLom3 n (transpose_order w h) p) = double_sampler_3d ex n 2 A B C F X x (lg p) r).
Proof.
  intros H. destruct (l3_order _ _ _ _ _ _ _ _ _ _ _ _ _ _ H) as ((S1 & T1) & (S2 & T2) & (S3 & T3)). destruct H as [_ ((_ & _ & lf) & (_ & _ & lgg) & (_ & _ & lh)) (vf & vg & vh & vx & vl) _]. unfold disp in vl.
  split; [|split]; intros EF; unfold double_compute; cbv zeta; [rewrite (readE _ _ _ vf)|rewrite (readE _ _ _ vg)|rewrite (readE _ _ _ vh)]; cbn [bind]; rewrite EF; cbn [as2 bind]; unfold own_layer, pick.
  - rewrite lf, S1, T1. cbn [bind nth_error of_option]. rewrite (readE _ _ _ vg), (readE _ _ _ vh), vx, vl. reflexivity.
  - rewrite lgg, S2, T2. cbn [bind nth_error of_option]. rewrite (readE _ _ _ vf), (readE _ _ _ vh), vx, vl. reflexivity.
  - rewrite lh, S3, T3. cbn [bind nth_error of_option]. rewrite (readE _ _ _ vf), (readE _ _ _ vg), vx, vl. reflexivity.
Qed.
Lemma dcompute11 w l f g N D L A B X x n pn p F r : layer2 w l f g N D L A B X x ->
  (forall a1 a2 la, fixed_entries (get_mat w f) = A2 F -> parent_args w f 0 = Ok (a1, a2, la) -> double_compute ex lg w f r (F11 n pn (transpose_order w f) p) = double_sampler_1c1p ex n pn 0 A B F X x a1 a2 la (lg p) r) /\
  (forall a1 a2 la, fixed_entries (get_mat w g) = A2 F -> parent_args w g 0 = Ok (a1, a2, la) -> double_compute ex lg w g r (F11 n pn (transpose_order w g) p) = double_sampler_1c1p ex n pn 1 A B F X x a1 a2 la (lg p) r).
Proof.
  intros H. destruct (l2_order _ _ _ _ _ _ _ _ _ _ _ H) as (S1 & S2 & T1 & T2). destruct H as [_ ((_ & _ & lf) & (_ & _ & lgg)) (vf & vg & vx & vl) _]. unfold disp in vl.
  split; intros a1 a2 la EF EP; unfold double_compute; cbv zeta; [rewrite (readE _ _ _ vf)|rewrite (readE _ _ _ vg)]; cbn [bind]; rewrite EF; cbn [as2 bind]; unfold own_layer, pick.
  - rewrite lf, S1, T1. cbn [bind nth_error of_option]. rewrite (readE _ _ _ vg), vx, vl. cbn [bind child2 scalar axis2]. rewrite EP. reflexivity.
  - rewrite lgg, S2, T2. cbn [bind nth_error of_option]. rewrite (readE _ _ _ vf), vx, vl. cbn [bind child2 scalar axis2]. rewrite EP. reflexivity.
Qed.
Lemma dcompute12 w l f g N D L A B X x n pn pn' p F r : layer2 w l f g N D L A B X x ->
  (forall a1 a2 la b1 b2 lb, fixed_entries (get_mat w f) = A2 F -> parent_args w f 0 = Ok (a1, a2, la) -> parent_args w f 1 = Ok (b1, b2, lb) -> double_compute ex lg w f r (F12 n pn pn' (transpose_order w f) p) = double_sampler_1c2p ex n pn pn' 0 A B F X x a1 a2 la b1 b2 lb (lg p) r) /\
  (forall a1 a2 la b1 b2 lb, fixed_entries (get_mat w g) = A2 F -> parent_args w g 0 = Ok (a1, a2, la) -> parent_args w g 1 = Ok (b1, b2, lb) -> double_compute ex lg w g r (F12 n pn pn' (transpose_order w g) p) = double_sampler_1c2p ex n pn pn' 1 A B F X x a1 a2 la b1 b2 lb (lg p) r).
Proof.
  intros H. destruct (l2_order _ _ _ _ _ _ _ _ _ _ _ H) as (S1 & S2 & T1 & T2). destruct H as [_ ((_ & _ & lf) & (_ & _ & lgg)) (vf & vg & vx & vl) _]. unfold disp in vl.
  split; intros a1 a2 la b1 b2 lb EF EP EQ; unfold double_compute; cbv zeta; [rewrite (readE _ _ _ vf)|rewrite (readE _ _ _ vg)]; cbn [bind]; rewrite EF; cbn [as2 bind]; unfold own_layer, pick.
  - rewrite lf, S1, T1. cbn [bind nth_error of_option]. rewrite (readE _ _ _ vg), vx, vl. cbn [bind child2 scalar axis2]. rewrite EP. cbn [bind]. rewrite EQ. reflexivity.
  - rewrite lgg, S2, T2. cbn [bind nth_error of_option]. rewrite (readE _ _ _ vf), vx, vl. cbn [bind child2 scalar axis2]. rewrite EP. cbn [bind]. rewrite EQ. reflexivity.
Qed.
End Computes.

Lemma close_weaken S S' N L b c : b <= c -> close_update S S' N L b -> close_update S S' N L c.
Proof. intros H HC h Hh. destruct (HC h Hh) as (v & V1 & V2). exists v. split; [exact V1|lra]. Qed.
(** All updates are loops over the cells. *)
Section Loops.
Context (ex : R -> R) (o i : lop) (Hin : In (o, i) implemented).
Lemma loop2 A B F X x lp ax : exists lo, forall r, double_sampler_2d ex (model_name o i) ax A B F X x lp r = Ok (double_loop ex lo (match ax with O => A | _ => B end) F r).
Proof. destruct (C07_lemma o i Hin) as (f & Ef & _). destruct ax; eexists; intros r; unfold double_sampler_2d; rewrite Ef; reflexivity. Qed.
Lemma loop3 A B C F X x lp ax : exists lo, forall r, double_sampler_3d ex (model_name o i) ax A B C F X x lp r = Ok (double_loop ex lo (match ax with O => A | 1%nat => B | _ => C end) F r).
Proof. destruct (C08_lemma o i Hin) as (f & Ef & _). destruct ax as [|[|ax]]; eexists; intros r; unfold double_sampler_3d; rewrite Ef; reflexivity. Qed.
Lemma loop11 op ip A B F X x a1 a2 y lp ax : In (op, ip) implemented -> exists lo, forall r, double_sampler_1c1p ex (model_name o i) (model_name op ip) ax A B F X x a1 a2 y lp r = Ok (double_loop ex lo (match ax with O => A | _ => B end) F r).
Proof. intros Hp. destruct (C07_lemma o i Hin) as (f & Ef & _). destruct (pscore_pm op ip Hp) as (g & Eg & _). destruct ax; eexists; intros r; unfold double_sampler_1c1p; rewrite Ef, Eg; reflexivity. Qed.
Lemma loop12 op ip oq iq A B F X x a1 a2 y b1 b2 y' lp ax : In (op, ip) implemented -> In (oq, iq) implemented -> exists lo, forall r, double_sampler_1c2p ex (model_name o i) (model_name op ip) (model_name oq iq) ax A B F X x a1 a2 y b1 b2 y' lp r = Ok (double_loop ex lo (match ax with O => A | _ => B end) F r).
Proof. intros Hp Hq. destruct (C07_lemma o i Hin) as (f & Ef & _). destruct (pscore_pm op ip Hp) as (g & Eg & _). destruct (pscore_pm oq iq Hq) as (g' & Eg' & _). destruct ax; eexists; intros r; unfold double_sampler_1c2p; rewrite Ef, Eg, Eg'; reflexivity. Qed.
End Loops.

Section One.
Context (ex lg : R -> R) (outs : string -> list vec -> nat -> Z) (Houts : outputs outs) (o : oracle).
(** What the closure of a factor computes, exactly and in double precision. *)
Definition twin (w : world) (i l : nat) : Prop := exists S S' : (nat -> nat -> R) -> res mat,
  (forall r, compute (with_cells o r) w i (own_closure w i l) = bind (S r) (fun Z' => Ok (InPlace Z'))) /\
  (forall r, double_compute ex lg w i r (own_closure w i l) = S' r) /\
  (exists lo, forall r, S' r = Ok (double_loop ex lo (matrix_of w i) (fixed_of w i) r)) /\
  (good_exp ex -> forall d, Rabs (lg (bprior (get_mat w i)) - logit (bprior (get_mat w i))) <= d -> close_update S S' (nrows (matrix_of w i)) (ncols (matrix_of w i)) (update_error w (lg (bprior (get_mat w i))) d i)).
Lemma weaker w i lp d k q : 0 <= d -> 0 <= k <= 16 -> 0 <= q <= 5 * (pull w i + Rabs lp) -> INR (nrows (matrix_of w i) * ncols (matrix_of w i)) * ((k + q) * roundoff + d) <= update_error w lp d i.
Proof.
  intros Hd Hk Hq. unfold update_error, draws_needed. pose proof eps_pos as EP. change eps with roundoff in EP. apply Rmult_le_compat_l; [apply pos_INR|]. apply Rplus_le_compat_r. apply Rmult_le_compat_r; lra.
Qed.
Lemma pull_pos w i : 0 <= pull w i.
Proof. unfold pull. apply Rsum_nonneg. intros k _. destruct (disp w k); try lra; apply Rabs_pos. Qed.
Lemma twin_ok w l i : sound w -> (l < List.length (layers w))%nat -> In i (factors (get_lay w l)) -> twin w i l.
Proof.
  intros S Hl Hi. destruct (sound_value w l i S Hl Hi) as (EV & HO & EFx). destruct (out_of outs Houts w S l Hl) as (o' & i' & Ho & Em & _).
  set (lp := lg (bprior (get_mat w i))) in *. set (p := bprior (get_mat w i)) in *. pose proof (Rabs_pos lp) as LP. pose proof (pull_pos w i) as PP. set (F := fixed_of w i) in *.
  destruct (plain_child _ (so_plain _ S) l Hl) as [(H2 & _)|(H3 & _)].
  - destruct (sound_layer2 w l S Hl H2) as (f & g & L & A & B & X & x & H & _). pose proof (l2_layer _ _ _ _ _ _ _ _ _ _ _ H) as (_ & EF & _). pose proof (l2_values _ _ _ _ _ _ _ _ _ _ _ H) as (vf & vg & _).
    destruct (so_factor _ S l i Hl Hi) as (_ & _ & _ & HP2 & _).
    pose proof (fun k A => parent_layer outs w S l i k A Hl Hi) as PL. specialize (fun k => PL k (matrix_of w i)).
    destruct (parents (get_mat w i)) as [|k [|k' t]] eqn:EP.
    + assert (QC : own_closure w i l = FLom (model_name o' i') (transpose_order w i) p) by (unfold own_closure; cbv zeta; rewrite EP, H2, Em; reflexivity).
      assert (AX : exists ax, (match ax with O => A | _ => B end) = matrix_of w i /\ (forall r, compute (with_cells o r) w i (own_closure w i l) = bind (LOM_sampler_2d (model_name o' i') ax A B F X x p r) (fun Z' => Ok (InPlace Z'))) /\
                 forall r, double_compute ex lg w i r (own_closure w i l) = double_sampler_2d ex (model_name o' i') ax A B F X x lp r).
      { rewrite QC. rewrite EF in Hi. destruct Hi as [<-|[<-|[]]]; [exists 0%nat|exists 1%nat]; (split; [unfold matrix_of; rewrite ?vf, ?vg; reflexivity|]); split; intros r;
          [apply (compute2 (with_cells o r) w l f g _ _ _ _ _ _ _ _ _ _ H)|apply (dcompute2 ex lg w l f g _ _ _ _ _ _ _ _ _ _ r H)|apply (compute2 (with_cells o r) w l f g _ _ _ _ _ _ _ _ _ _ H)|apply (dcompute2 ex lg w l f g _ _ _ _ _ _ _ _ _ _ r H)]; exact EFx. }
      destruct AX as (ax & EM & C1 & C2). assert (OA := HO). rewrite <- EM in OA at 3. exists (LOM_sampler_2d (model_name o' i') ax A B F X x p), (double_sampler_2d ex (model_name o' i') ax A B F X x lp). split; [exact C1|]. split; [exact C2|]. split; [rewrite <- EM; apply loop2; exact Ho|].
      intros Hex d Hd. pose proof (dist_pos _ _ _ Hd) as D0. eapply close_weaken; [|apply (C116_close2_lemma ex Hex o' i' Ho _ _ A B F X x p lp d ax OA Hd)]. apply (weaker w i lp); lra.
    + destruct (PL k (or_introl eq_refl) EV) as (a & b & K & a1 & a2 & y & HK & _). destruct (out_of outs Houts w S k (proj1 (l2_layer _ _ _ _ _ _ _ _ _ _ _ HK))) as (op & ip & Hop & Emk & _).
      assert (EA : parent_args w i 0 = Ok (a1, a2, y)) by (eapply parent_argsE; [rewrite EP; reflexivity|exact HK]). destruct (l2_shapes _ _ _ _ _ _ _ _ _ _ _ HK) as (s1 & s2 & _).
      assert (EY : pull w i = Rabs y) by (unfold pull; rewrite EP; unfold Rsum; cbn [map fold_right]; rewrite (proj2 (proj2 (proj2 (l2_values _ _ _ _ _ _ _ _ _ _ _ HK)))); ring).
      assert (QC : own_closure w i l = F11 (model_name o' i') (model_name op ip) (transpose_order w i) p) by (unfold own_closure; cbv zeta; rewrite EP, Em, Emk; reflexivity).
      assert (AX : exists ax, (match ax with O => A | _ => B end) = matrix_of w i /\ (forall r, compute (with_cells o r) w i (own_closure w i l) = bind (LOM_sampler_1c1p_2d (model_name o' i') (model_name op ip) ax A B F X x a1 a2 y p r) (fun Z' => Ok (InPlace Z'))) /\
                 forall r, double_compute ex lg w i r (own_closure w i l) = double_sampler_1c1p ex (model_name o' i') (model_name op ip) ax A B F X x a1 a2 y lp r).
      { rewrite QC. rewrite EF in Hi. destruct Hi as [<-|[<-|[]]]; [exists 0%nat|exists 1%nat]; (split; [unfold matrix_of; rewrite ?vf, ?vg; reflexivity|]); split; intros r;
          [apply (compute11 (with_cells o r) w l f g _ _ _ _ _ _ _ _ _ _ _ H)|apply (dcompute11 ex lg w l f g _ _ _ _ _ _ _ _ _ _ _ r H)|apply (compute11 (with_cells o r) w l f g _ _ _ _ _ _ _ _ _ _ _ H)|apply (dcompute11 ex lg w l f g _ _ _ _ _ _ _ _ _ _ _ r H)]; assumption. }
      destruct AX as (ax & EM & C1 & C2). assert (OA := HO). rewrite <- EM in OA at 3. eexists _, _. split; [exact C1|]. split; [exact C2|]. split; [rewrite <- EM; apply loop11; assumption|].
      intros Hex d Hd. pose proof (dist_pos _ _ _ Hd) as D0. eapply close_weaken; [|apply (C116_close1p_lemma ex Hex o' i' op ip Ho Hop _ _ K A B F X x a1 a2 y p lp d ax OA s1 s2 Hd)]. pose proof (Rabs_pos y). apply (weaker w i lp); rewrite ?EY; lra.
    + assert (t = []) by (cbn in HP2; destruct t; [reflexivity|cbn in HP2; lia]). subst t.
      destruct (PL k (or_introl eq_refl) EV) as (a & b & K & a1 & a2 & y & HK & _). destruct (out_of outs Houts w S k (proj1 (l2_layer _ _ _ _ _ _ _ _ _ _ _ HK))) as (op & ip & Hop & Emk & _).
      destruct (PL k' (or_intror (or_introl eq_refl)) EV) as (a' & b' & K' & a1' & a2' & y' & HK' & _). destruct (out_of outs Houts w S k' (proj1 (l2_layer _ _ _ _ _ _ _ _ _ _ _ HK'))) as (oq & iq & Hoq & Emk' & _).
      assert (EA : parent_args w i 0 = Ok (a1, a2, y)) by (eapply parent_argsE; [rewrite EP; reflexivity|exact HK]). destruct (l2_shapes _ _ _ _ _ _ _ _ _ _ _ HK) as (s1 & s2 & _).
      assert (EA' : parent_args w i 1 = Ok (a1', a2', y')) by (eapply parent_argsE; [rewrite EP; reflexivity|exact HK']). destruct (l2_shapes _ _ _ _ _ _ _ _ _ _ _ HK') as (s1' & s2' & _).
      assert (EY : pull w i = Rabs y + Rabs y') by (unfold pull; rewrite EP; unfold Rsum; cbn [map fold_right]; rewrite (proj2 (proj2 (proj2 (l2_values _ _ _ _ _ _ _ _ _ _ _ HK)))), (proj2 (proj2 (proj2 (l2_values _ _ _ _ _ _ _ _ _ _ _ HK')))); ring).
      assert (QC : own_closure w i l = F12 (model_name o' i') (model_name op ip) (model_name oq iq) (transpose_order w i) p) by (unfold own_closure; cbv zeta; rewrite EP, Em, Emk, Emk'; reflexivity).
      assert (AX : exists ax, (match ax with O => A | _ => B end) = matrix_of w i /\ (forall r, compute (with_cells o r) w i (own_closure w i l) = bind (LOM_sampler_1c2p_2d (model_name o' i') (model_name op ip) (model_name oq iq) ax A B F X x a1 a2 y a1' a2' y' p r) (fun Z' => Ok (InPlace Z'))) /\
                 forall r, double_compute ex lg w i r (own_closure w i l) = double_sampler_1c2p ex (model_name o' i') (model_name op ip) (model_name oq iq) ax A B F X x a1 a2 y a1' a2' y' lp r).
      { rewrite QC. rewrite EF in Hi. destruct Hi as [<-|[<-|[]]]; [exists 0%nat|exists 1%nat]; (split; [unfold matrix_of; rewrite ?vf, ?vg; reflexivity|]); split; intros r;
          [apply (compute12 (with_cells o r) w l f g _ _ _ _ _ _ _ _ _ _ _ _ H)|apply (dcompute12 ex lg w l f g _ _ _ _ _ _ _ _ _ _ _ _ r H)|apply (compute12 (with_cells o r) w l f g _ _ _ _ _ _ _ _ _ _ _ _ H)|apply (dcompute12 ex lg w l f g _ _ _ _ _ _ _ _ _ _ _ _ r H)]; assumption. }
      destruct AX as (ax & EM & C1 & C2). assert (OA := HO). rewrite <- EM in OA at 3. eexists _, _. split; [exact C1|]. split; [exact C2|]. split; [rewrite <- EM; apply loop12; assumption|].
      intros Hex d Hd. pose proof (dist_pos _ _ _ Hd) as D0. eapply close_weaken; [|apply (C116_close2p_lemma ex Hex o' i' op ip oq iq Ho Hop Hoq _ _ K K' A B F X x a1 a2 y a1' a2' y' p lp d ax OA s1 s2 s1' s2' Hd)]. pose proof (Rabs_pos y). pose proof (Rabs_pos y'). apply (weaker w i lp); rewrite ?EY; lra.
  - destruct (sound_layer3 w l S Hl H3) as (f & g & h & N & D & M & L & A & B & C & X & x & H). pose proof (l3_layer _ _ _ _ _ _ _ _ _ _ _ _ _ _ H) as (_ & EF & _). pose proof (l3_values _ _ _ _ _ _ _ _ _ _ _ _ _ _ H) as (vf & vg & vh & _).
    destruct (plain_factor _ (so_plain _ S) l i Hl Hi) as (_ & _ & _ & _ & A5 & _).
    assert (EP : parents (get_mat w i) = []) by (destruct (parents (get_mat w i)); [reflexivity|exfalso; assert (List.length (factors (get_lay w l)) = 2%nat) by (apply A5; discriminate); lia]).
    assert (QC : own_closure w i l = FLom3 (model_name o' i') (transpose_order w i) p) by (unfold own_closure; cbv zeta; rewrite EP, H3, Em; reflexivity).
    assert (AX : exists ax, (match ax with O => A | 1%nat => B | _ => C end) = matrix_of w i /\ (forall r, compute (with_cells o r) w i (own_closure w i l) = bind (LOM_sampler_3d (model_name o' i') ax A B C F X x p r) (fun Z' => Ok (InPlace Z'))) /\
               forall r, double_compute ex lg w i r (own_closure w i l) = double_sampler_3d ex (model_name o' i') ax A B C F X x lp r).
    { rewrite QC. rewrite EF in Hi. destruct Hi as [<-|[<-|[<-|[]]]]; [exists 0%nat|exists 1%nat|exists 2%nat]; (split; [unfold matrix_of; rewrite ?vf, ?vg, ?vh; reflexivity|]); split; intros r;
        [apply (compute3 (with_cells o r) w l f g h _ _ _ _ _ _ _ _ _ _ _ _ H)|apply (dcompute3 ex lg w l f g h _ _ _ _ _ _ _ _ _ _ _ _ r H)|apply (compute3 (with_cells o r) w l f g h _ _ _ _ _ _ _ _ _ _ _ _ H)|apply (dcompute3 ex lg w l f g h _ _ _ _ _ _ _ _ _ _ _ _ r H)|apply (compute3 (with_cells o r) w l f g h _ _ _ _ _ _ _ _ _ _ _ _ H)|apply (dcompute3 ex lg w l f g h _ _ _ _ _ _ _ _ _ _ _ _ r H)]; exact EFx. }
    destruct AX as (ax & EM & C1 & C2). assert (OA := HO). rewrite <- EM in OA at 3. eexists _, _. split; [exact C1|]. split; [exact C2|]. split; [rewrite <- EM; apply loop3; exact Ho|].
    intros Hex d Hd. pose proof (dist_pos _ _ _ Hd) as D0. eapply close_weaken; [|apply (C116_close3_lemma ex Hex o' i' Ho _ _ A B C F X x p lp d ax OA Hd)]. apply (weaker w i lp); lra.
Qed.
End One.
