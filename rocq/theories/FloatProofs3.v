(** Fuzzy outputs in double precision: distance from the exact probability, range, exactness for certain factors. *)
From Coq Require Import Lra Psatz String.
From Verif Require Import Base BaseR Spec SpecF Fuzzy FuzzyProofs FloatFuzzy FloatProofs FloatProofs2.
Local Open Scope R_scope.

(** ** Distance *)
Lemma rat01 z l : probs z -> (l < List.length z)%nat -> in01 (rat z l).
Proof. intros P H. exact (nth_probs z l P H). Qed.
Lemma sum_comm a (f g : nat -> R) L : (forall x y, amul a x y = amul a y x) -> a_sum a (fun l => amul a (f l) (g l)) L = a_sum a (fun l => amul a (g l) (f l)) L.
Proof. intros C. unfold a_sum. generalize 0. induction (seq 0 L) as [|l ls IH]; intros x; [reflexivity|]. cbn [fold_left]. rewrite (C (f l) (g l)). apply IH. Qed.
Lemma double_comm x y : amul double x y = amul double y x.
Proof. cbn. rewrite Rmult_comm. reflexivity. Qed.
Lemma exact_comm x y : amul exact x y = amul exact y x.
Proof. cbn. apply Rmult_comm. Qed.
(** The bound: for an outer XOR quadratic in the number of latent dimensions, otherwise linear. *)
Definition bound (o : lop) (c : R) (L : nat) : R :=
  match o with XOR => ((2 * (2 * c + 2) + 1) * INR L + c + 5) * INR L | _ => (2 * c + 2) * INR L + 2 end.
Lemma error2 o i : In (o, i) implemented -> exists f, a_output_2d double (model_name o i) = Some f /\
  exists f', get_scalar_output_function_2d_fuzzy (model_name o i) = Some f' /\
  forall z u L, List.length z = L -> List.length u = L -> probs z -> probs u -> (Z.of_nat L <= 2 ^ 20)%Z -> near (bound o 6 L) (f z u) (f' z u).
Proof.
  intros H.
  assert (N1 : forall z u l, probs z -> probs u -> (l < List.length z)%nat -> List.length z = List.length u -> in01 (rat z l) /\ in01 (rat u l)) by (intros z u l Pz Pu Hl E; split; apply rat01; [exact Pz|exact Hl|exact Pu|rewrite <- E; exact Hl]).
  assert (W1 : forall x y, in01 x -> in01 y -> in01 (x * y) /\ near 6 (rnd (x * y)) (x * y)) by (intros x y I J; split; [apply in01_mul; assumption|apply (near_weaken 1); [lra|apply n_and; assumption]]).
  assert (W2 : forall x y, in01 x -> in01 y -> in01 (1 - x * y) /\ near 6 (rnd (1 - rnd (x * y))) (1 - x * y)) by (intros x y I J; split; [apply in01_sub, in01_mul; assumption|apply (near_weaken 2); [lra|apply n_nand; assumption]]).
  assert (W3 : forall x y, in01 x -> in01 y -> in01 (x * y + (1 - x) * (1 - y)) /\ near 6 (rnd (rnd (x * y) + rnd (rnd (1 - x) * rnd (1 - y)))) (x * y + (1 - x) * (1 - y))) by (intros x y I J; split; [unfold in01 in *; split; nra|apply n_nxor; assumption]).
  assert (W4 : forall x y, in01 x -> in01 y -> in01 (x * (1 - y) + y * (1 - x)) /\ near 6 (rnd (rnd (x * rnd (1 - y)) + rnd (y * rnd (1 - x)))) (x * (1 - y) + y * (1 - x))) by (intros x y I J; split; [unfold in01 in *; split; nra|apply n_xor; assumption]).
  assert (C6 : 0 <= 6 <= 100) by lra.
  destruct H as [H|[H|[H|[H|[H|[H|[H|[H|[]]]]]]]]]; injection H as <- <-; eexists; (split; [reflexivity|]); eexists; (split; [reflexivity|]); intros z u L <- Hu Pz Pu HL; symmetry in Hu; unfold bound.
  - apply (or_near _ HL (fun l => 1 - rat z l * rat u l) (fun l => rnd (1 - rnd (rat z l * rat u l))) 6 C6). intros l Hl. destruct (N1 z u l Pz Pu Hl Hu) as (I & J). apply W2; assumption.
  - apply (or_near _ HL (fun l => rat z l * rat u l) (fun l => rnd (rat z l * rat u l)) 6 C6). intros l Hl. destruct (N1 z u l Pz Pu Hl Hu) as (I & J). apply W1; assumption.
  - apply (or_near _ HL (fun l => rat z l * rat u l + (1 - rat z l) * (1 - rat u l)) (fun l => rnd (rnd (rat z l * rat u l) + rnd (rnd (1 - rat z l) * rnd (1 - rat u l)))) 6 C6). intros l Hl. destruct (N1 z u l Pz Pu Hl Hu) as (I & J). apply W3; assumption.
  - apply (or_near _ HL (fun l => rat z l * (1 - rat u l) + rat u l * (1 - rat z l)) (fun l => rnd (rnd (rat z l * rnd (1 - rat u l)) + rnd (rat u l * rnd (1 - rat z l)))) 6 C6). intros l Hl. destruct (N1 z u l Pz Pu Hl Hu) as (I & J). apply W4; assumption.
  - apply (xor_near _ HL (fun l => 1 - rat z l * rat u l) (fun l => rnd (1 - rnd (rat z l * rat u l))) (fun l => rat z l * rat u l) (fun l => rnd (rat z l * rat u l)) 6 C6); intros l Hl; destruct (N1 z u l Pz Pu Hl Hu) as (I & J); [apply W2|apply W1]; assumption.
  - unfold a_XOR_XOR. rewrite (sum_comm double _ _ _ double_comm). change (XOR_XOR_product_fuzzy z u) with (a_XOR_XOR exact z u). unfold a_XOR_XOR. rewrite (sum_comm exact _ _ _ exact_comm).
    apply (xor_near _ HL (fun l => rat z l * rat u l + (1 - rat z l) * (1 - rat u l)) (fun l => rnd (rnd (rat z l * rat u l) + rnd (rnd (1 - rat z l) * rnd (1 - rat u l))))
      (fun l => (1 - rat z l) * rat u l + (1 - rat u l) * rat z l) (fun l => rnd (rnd (rnd (1 - rat z l) * rat u l) + rnd (rnd (1 - rat u l) * rat z l))) 6 C6); intros l Hl; destruct (N1 z u l Pz Pu Hl Hu) as (I & J); [apply W3; assumption|].
    rewrite !(Rmult_comm (rnd (1 - _))), !(Rmult_comm (1 - _)). rewrite (Rplus_comm (rnd _)), (Rplus_comm (rat u l * _)). apply W4; assumption.
  - unfold a_XOR_NXOR. rewrite (sum_comm double _ _ _ double_comm). change (XOR_NXOR_product_fuzzy z u) with (a_XOR_NXOR exact z u). unfold a_XOR_NXOR. rewrite (sum_comm exact _ _ _ exact_comm).
    apply (xor_near _ HL (fun l => rat z l * (1 - rat u l) + (1 - rat z l) * rat u l) (fun l => rnd (rnd (rat z l * rnd (1 - rat u l)) + rnd (rnd (1 - rat z l) * rat u l)))
      (fun l => rat z l * rat u l + (1 - rat u l) * (1 - rat z l)) (fun l => rnd (rnd (rat z l * rat u l) + rnd (rnd (1 - rat u l) * rnd (1 - rat z l)))) 6 C6); intros l Hl; destruct (N1 z u l Pz Pu Hl Hu) as (I & J).
    + rewrite (Rmult_comm (rnd (1 - rat z l))), (Rmult_comm (1 - rat z l)). apply W4; assumption.
    + rewrite (Rmult_comm (rnd (1 - rat u l))), (Rmult_comm (1 - rat u l)). apply W3; assumption.
  - apply (xor_near _ HL (fun l => rat z l * rat u l) (fun l => rnd (rat z l * rat u l)) (fun l => 1 - rat z l * rat u l) (fun l => rnd (1 - rnd (rat z l * rat u l))) 6 C6); intros l Hl; destruct (N1 z u l Pz Pu Hl Hu) as (I & J); [apply W1|apply W2]; assumption.
Qed.
Definition inner_error (o : lop) : R := match o with XOR => 66 | _ => 17 end.
Lemma error3 o i : In (o, i) implemented -> (o, i) <> (OR, XOR) -> exists f, a_output_3d double (model_name o i) = Some f /\
  exists f', get_scalar_output_function_3d_fuzzy (model_name o i) = Some f' /\
  forall z u v L, List.length z = L -> List.length u = L -> List.length v = L -> probs z -> probs u -> probs v -> (Z.of_nat L <= 2 ^ 20)%Z -> near (bound o (inner_error o) L) (f z u v) (f' z u v).
Proof.
  intros H NE.
  assert (N1 : forall z u v l, probs z -> probs u -> probs v -> (l < List.length z)%nat -> List.length z = List.length u -> List.length z = List.length v -> in01 (rat z l) /\ in01 (rat u l) /\ in01 (rat v l)).
  { intros z u v l Pz Pu Pv Hl E E'. split; [|split]; apply rat01; [exact Pz|exact Hl|exact Pu|rewrite <- E; exact Hl|exact Pv|rewrite <- E'; exact Hl]. }
  assert (W1 : forall c x y w, 2 <= c -> in01 x -> in01 y -> in01 w -> in01 (x * y * w) /\ near c (rnd (rnd (x * y) * w)) (x * y * w)) by (intros c x y w Hc I J K; split; [apply in01_mul; [apply in01_mul|]; assumption|apply (near_weaken 2); [lra|apply n_and3; assumption]]).
  assert (W2 : forall c x y w, 3 <= c -> in01 x -> in01 y -> in01 w -> in01 (1 - x * y * w) /\ near c (rnd (1 - rnd (rnd (x * y) * w))) (1 - x * y * w)) by (intros c x y w Hc I J K; split; [apply in01_sub, in01_mul; [apply in01_mul|]; assumption|apply (near_weaken 3); [lra|apply n_nand3; assumption]]).
  assert (C17 : 0 <= 17 <= 100) by lra. assert (C66 : 0 <= 66 <= 100) by lra.
  destruct H as [H|[H|[H|[H|[H|[H|[H|[H|[]]]]]]]]]; injection H as <- <-; try (exfalso; apply NE; reflexivity); eexists; (split; [reflexivity|]); eexists; (split; [reflexivity|]); intros z u v L <- Hu Hv Pz Pu Pv HL; symmetry in Hu, Hv; unfold bound, inner_error.
  - apply (or_near _ HL (fun l => 1 - rat z l * rat u l * rat v l) (fun l => rnd (1 - rnd (rnd (rat z l * rat u l) * rat v l))) 17 C17). intros l Hl. destruct (N1 z u v l Pz Pu Pv Hl Hu Hv) as (I & J & K). apply W2; try assumption; lra.
  - apply (or_near _ HL (fun l => rat z l * rat u l * rat v l) (fun l => rnd (rnd (rat z l * rat u l) * rat v l)) 17 C17). intros l Hl. destruct (N1 z u v l Pz Pu Pv Hl Hu Hv) as (I & J & K). apply W1; try assumption; lra.
  - apply (or_near _ HL (fun l => rat z l * (1 - rat u l) * (1 - rat v l) + rat v l * (1 - rat z l) * (1 - rat u l) + rat u l * (1 - rat v l) * (1 - rat z l))
      (fun l => rnd (rnd (rnd (rnd (rat z l * rnd (1 - rat u l)) * rnd (1 - rat v l)) + rnd (rnd (rat v l * rnd (1 - rat z l)) * rnd (1 - rat u l))) + rnd (rnd (rat u l * rnd (1 - rat v l)) * rnd (1 - rat z l)))) 17 C17). intros l Hl. destruct (N1 z u v l Pz Pu Pv Hl Hu Hv) as (I & J & K). split; [|apply n_xor3; assumption].
    pose proof (pxor01 _ _ _ I J K) as P. unfold a_p_XOR in P. cbn [aadd asub amul exact] in P. match goal with |- in01 ?a => match type of P with in01 ?b => replace a with b by ring end end. exact P.
  - apply (xor_near _ HL (fun l => 1 - rat z l * rat u l * rat v l) (fun l => rnd (1 - rnd (rnd (rat z l * rat u l) * rat v l))) (fun l => rat z l * rat u l * rat v l) (fun l => rnd (rnd (rat z l * rat u l) * rat v l)) 66 C66); intros l Hl; destruct (N1 z u v l Pz Pu Pv Hl Hu Hv) as (I & J & K); [apply W2|apply W1]; try assumption; lra.
  - unfold a_XOR_XOR_3d. rewrite (sum_comm double _ _ _ double_comm). change (XOR_XOR_product_fuzzy_3d z u v) with (a_XOR_XOR_3d exact z u v). unfold a_XOR_XOR_3d. rewrite (sum_comm exact _ _ _ exact_comm).
    apply (xor_near _ HL (fun l => asub exact 1 (a_p_XOR exact (rat z l) (rat u l) (rat v l))) (fun l => asub double 1 (a_p_XOR double (rat z l) (rat u l) (rat v l)))
      (fun l => a_p_XOR exact (rat z l) (rat u l) (rat v l)) (fun l => a_p_XOR double (rat z l) (rat u l) (rat v l)) 66 C66); intros l Hl; destruct (N1 z u v l Pz Pu Pv Hl Hu Hv) as (I & J & K); (split; [|]).
    + apply in01_sub, pxor01; assumption.
    + apply n_pnxor; assumption.
    + apply pxor01; assumption.
    + apply (near_weaken 64); [lra|apply n_pxor; assumption].
  - unfold a_XOR_NXOR_3d. rewrite (sum_comm double _ _ _ double_comm). change (XOR_NXOR_product_fuzzy_3d z u v) with (a_XOR_NXOR_3d exact z u v). unfold a_XOR_NXOR_3d. rewrite (sum_comm exact _ _ _ exact_comm).
    apply (xor_near _ HL (fun l => a_p_XOR exact (rat z l) (rat u l) (rat v l)) (fun l => a_p_XOR double (rat z l) (rat u l) (rat v l))
      (fun l => asub exact 1 (a_p_XOR exact (rat z l) (rat u l) (rat v l))) (fun l => asub double 1 (a_p_XOR double (rat z l) (rat u l) (rat v l))) 66 C66); intros l Hl; destruct (N1 z u v l Pz Pu Pv Hl Hu Hv) as (I & J & K); (split; [|]).
    + apply pxor01; assumption.
    + apply (near_weaken 64); [lra|apply n_pxor; assumption].
    + apply in01_sub, pxor01; assumption.
    + apply n_pnxor; assumption.
  - apply (xor_near _ HL (fun l => rat z l * rat u l * rat v l) (fun l => rnd (rnd (rat z l * rat u l) * rat v l)) (fun l => 1 - rat z l * rat u l * rat v l) (fun l => rnd (1 - rnd (rnd (rat z l * rat u l) * rat v l))) 66 C66); intros l Hl; destruct (N1 z u v l Pz Pu Pv Hl Hu Hv) as (I & J & K); [apply W1|apply W2]; try assumption; lra.
Qed.
