(** Proof of C119 for matrices that are not factors. *)
From Coq Require Import String Lia Lra.
From Verif Require Import Base BaseLemmas BaseR BaseRLemmas Spec SpecR Sampling SpecFloat Invariance InvarianceProofs Machine Dispatch SpecMachine SpecOrdinary SpecPass UpdateProofs SpecFloatRun FloatSampling FloatSampleProofs4 FloatSampleProofs5 FloatMachine SpecFloatMachine FloatMachineProofs2.
Local Open Scope R_scope.

Lemma close_ext S S' T T' N L b : (forall r, S r = T r) -> (forall r, S' r = T' r) -> close_update S S' N L b -> close_update T T' N L b.
Proof.
  intros E E' H h Hh. destruct (H h Hh) as (v & Hv & HB). exists v. split.
  - eapply is_E_ext; [|exact Hv]. intros rs _ _. cbv beta. rewrite E. reflexivity.
  - rewrite (FloatMachineProofs2.mean_ext _ _ (fun rs => on_ok h (S' (draws_of L rs)))) by (intros rs; cbv beta; rewrite E'; reflexivity). exact HB.
Qed.
Lemma written w i Z' : (val (get_mat w i) < List.length (arrays w))%nat -> matrix_of (write w (val (get_mat w i)) (A2 Z')) i = Z'.
Proof.
  intros H. unfold matrix_of, value, write, get_arr, get_mat in *. cbn. rewrite nth_upd_same by exact H. reflexivity.
Qed.
Lemma C119_unobserved_lemma ex lg o w i N L F p d : good_exp ex -> (val (get_mat w i) < List.length (arrays w))%nat -> value w i = A2 (matrix_of w i) -> okmat N L (matrix_of w i) -> fixed_entries (get_mat w i) = A2 F -> Rabs (lg p - logit p) <= d ->
  forall op ip a1 a2 la, In (op, ip) implemented -> parent_args w i 0 = Ok (a1, a2, la) ->
  let close b := close_update (fun r => bind (run_mat (with_cells o r) w i) (fun w' => Ok (matrix_of w' i))) (fun r => bind (double_run ex lg w i r) (fun w' => Ok (matrix_of w' i))) N L b in
  (sfct (get_mat w i) = Some (F01 (model_name op ip) p) -> close (INR (N * L) * ((10 + 3 * Rabs (lg p)) * roundoff + d))) /\
  (forall oq iq b1 b2 lb K, In (oq, iq) implemented -> parent_args w i 1 = Ok (b1, b2, lb) -> okmat N K b1 -> okmat L K b2 ->
   sfct (get_mat w i) = Some (F02 (model_name op ip) (model_name oq iq) p) -> close (INR (N * L) * ((13 + 4 * (Rabs lb + Rabs (lg p))) * roundoff + d))).
Proof.
  intros Hex Hs HV HO HF Hd op ip a1 a2 la Hop HP close. split.
  - intros Ef. eapply close_ext; [| |apply (C116_close0p_lemma ex Hex op ip Hop N L (matrix_of w i) F a1 a2 la p (lg p) d HO Hd)]; intros r.
    + unfold run_mat. rewrite Ef. cbn [of_option bind]. unfold compute. rewrite (readE _ _ _ HV), HF. cbn [as2 bind]. rewrite HP. cbn [bind with_cells o_cell]. destruct (LOM_sampler_0c1p_2d _ _ _ _ _ _ _ _) as [Z'|e]; [|reflexivity]. cbn [bind apply_effect]. f_equal. symmetry. apply written, Hs.
    + unfold double_run. rewrite Ef. cbn [of_option bind]. unfold double_compute. rewrite (readE _ _ _ HV), HF. cbn [as2 bind]. rewrite HP. cbn [bind]. destruct (double_sampler_0c1p _ _ _ _ _ _ _ _ _) as [Z'|e]; [|reflexivity]. cbn [bind]. f_equal. symmetry. apply written, Hs.
  - intros oq iq b1 b2 lb K Hoq HP' s1 s2 Ef. eapply close_ext; [| |apply (C116_close02_lemma ex Hex op ip oq iq Hop Hoq N L K (matrix_of w i) F a1 a2 la b1 b2 lb p (lg p) d HO s1 s2 Hd)]; intros r.
    + unfold run_mat. rewrite Ef. cbn [of_option bind]. unfold compute. rewrite (readE _ _ _ HV), HF. cbn [as2 bind]. rewrite HP, HP'. cbn [bind with_cells o_cell]. destruct (LOM_sampler_0c2p_2d _ _ _ _ _ _ _ _ _ _ _ _) as [Z'|e]; [|reflexivity]. cbn [bind apply_effect]. f_equal. symmetry. apply written, Hs.
    + unfold double_run. rewrite Ef. cbn [of_option bind]. unfold double_compute. rewrite (readE _ _ _ HV), HF. cbn [as2 bind]. rewrite HP, HP'. cbn [bind]. destruct (double_sampler_0c2p _ _ _ _ _ _ _ _ _ _ _ _ _) as [Z'|e]; [|reflexivity]. cbn [bind]. f_equal. symmetry. apply written, Hs.
Qed.
