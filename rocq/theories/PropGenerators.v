(** Synthetic data: random tensors (C91) and random OR-AND products (C92). *)
From Coq Require Import String Lia Lra.
From Verif Require Import Base BaseR Spec SpecR Invariance Helpers SpecHelpers Generators SpecGenerators GeneratorProofs GeneratorProofs2 GeneratorProofs3 GeneratorProofs4.
Local Open Scope R_scope.

(** Every call returns a tensor of the requested dimensions that is the Boolean product of the returned factors, and a noisy
    tensor of the same dimensions that differs from it where the draw for the entry is below the noise level. *)
Theorem C91_result : forall rand L N D M noise density, (1 <= L)%nat ->
  exists Xn X F1 F2 F3 q, generate_random_tensor rand L [N; D; M] noise density = Ok (Xn, X, [F1; F2; F3], q) /\
    boxed Xn N D M /\ boxed X N D M /\
    (List.length F1 = N /\ List.length F2 = D /\ List.length F3 = M /\ Forall (fun r => List.length r = L) (F1 ++ F2 ++ F3)) /\
    forall n d m, (n < N)%nat -> (d < D)%nat -> (m < M)%nat ->
      (bit X n d m = true <-> exists l, (l < L)%nat /\ nth l (nth n F1 []) false = true /\ nth l (nth d F2 []) false = true /\ nth l (nth m F3 []) false = true) /\
      (bit Xn n d m <> bit X n d m <-> rand ((N + D + M) * L + ((n * D + d) * M + m))%nat < noise).
Proof. exact C91_result_lemma. Qed.
(** The expected share of ones of the product is the requested density; with noise it moves towards the opposite. *)
Theorem C91_density : forall L N D M noise density, (1 <= L)%nat -> (1 <= N * D * M)%nat -> 0 <= density <= 1 -> 0 <= noise <= 1 ->
  let draws := ((N + D + M) * L + N * D * M)%nat in
  let call rs := generate_random_tensor (drawn rs) L [N; D; M] noise density in
  is_E draws (fun rs => reading (fun '(_, X, _, _) => density_of X) (call rs)) density /\
  is_E draws (fun rs => reading (fun '(Xn, _, _, _) => density_of Xn) (call rs)) (density * (1 - noise) + (1 - density) * noise).
Proof. exact C91_density_all. Qed.
(** The same for every single entry, and every entry is flipped with probability noise. *)
Theorem C91_entries : forall L N D M noise density n d m, (1 <= L)%nat -> 0 <= density <= 1 -> 0 <= noise <= 1 -> (n < N)%nat -> (d < D)%nat -> (m < M)%nat ->
  let draws := ((N + D + M) * L + N * D * M)%nat in
  let call rs := generate_random_tensor (drawn rs) L [N; D; M] noise density in
  is_E draws (fun rs => reading (fun '(_, X, _, _) => if bit X n d m then 1 else 0) (call rs)) density /\
  is_E draws (fun rs => reading (fun '(Xn, _, _, _) => if bit Xn n d m then 1 else 0) (call rs)) (density * (1 - noise) + (1 - density) * noise) /\
  is_E draws (fun rs => reading (fun '(Xn, X, _, _) => if Bool.eqb (bit Xn n d m) (bit X n d m) then 0 else 1) (call rs)) noise.
Proof. exact C91_entries_lemma. Qed.
(** The returned factor density is the expected share of ones of every entry of a factor, and lies in [0,1]. *)
Theorem C91_factors : forall L N D M noise density i n l, (1 <= L)%nat -> 0 <= density <= 1 -> 0 <= noise <= 1 -> (i < 3)%nat -> (n < nth i [N; D; M] 0)%nat -> (l < L)%nat ->
  let draws := ((N + D + M) * L + N * D * M)%nat in
  let call rs := generate_random_tensor (drawn rs) L [N; D; M] noise density in
  exists q, 0 <= q <= 1 /\ (forall rs, exists Xn X fs, call rs = Ok (Xn, X, fs, q)) /\
    is_E draws (fun rs => reading (fun '(_, _, fs, _) => if nth l (nth n (nth i fs []) []) false then 1 else 0) (call rs)) q.
Proof. exact C91_factors_lemma. Qed.
(** The calls that raise. *)
Theorem C91_raises : forall rand L dims noise density,
  (L = 0%nat -> generate_random_tensor rand L dims noise density = Err ZeroDivisionError) /\
  (L <> 0%nat -> List.length dims <> 3%nat -> generate_random_tensor rand L dims noise density = Err ValueError).
Proof. exact C91_raises_lemma. Qed.
Example C91_example : (1 <= 3)%nat /\ (1 <= 4 * 5 * 6)%nat /\ 0 <= 3 / 10 <= 1 /\ 0 <= 1 / 10 <= 1 /\
  is_E ((4 + 5 + 6) * 3 + 4 * 5 * 6) (fun rs => reading (fun '(Xn, _, _, _) => density_of Xn) (generate_random_tensor (drawn rs) 3 [4; 5; 6]%nat (1 / 10) (3 / 10))) (34 / 100).
Proof.
  split; [lia|]. split; [lia|]. split; [lra|]. split; [lra|]. replace (34 / 100) with (3 / 10 * (1 - 1 / 10) + (1 - 3 / 10) * (1 / 10)) by lra.
  apply (C91_density 3 4 5 6 (1 / 10) (3 / 10)); lia || lra.
Qed.

(** Full statement of C92: for all sizes the call returns, U and Z have disjoint columns and X is their Boolean product.
    Missing: disjointness (no column is contained in another one instead) and termination. *)
Theorem C92_product_partial : forall fuel rand N D L U Z_ X, generate_orm_product fuel rand N D L = Some (U, Z_, X) ->
  has_shape2 U D L /\ bin2 U /\ has_shape2 Z_ N L /\ bin2 Z_ /\ has_shape2 X N D /\ bin2 X /\ no_column_below U L /\ no_column_below Z_ L /\
  forall n d, (n < N)%nat -> (d < D)%nat -> lom_output OR AND [row Z_ n; row U d] L (at2 X n d).
Proof. exact C92_result_lemma. Qed.
(** U and Z are the first acceptable ones among matrices of independent fair coin flips, every attempt using new draws. *)
Theorem C92_draws_partial : forall fuel rand N D L U Z_, (exists X, generate_orm_product fuel rand N D L = Some (U, Z_, X)) <->
  exists a b, (a < fuel)%nat /\ (b < fuel)%nat /\ first_good rand 0 D L a U /\ first_good rand (S a * (D * L)) N L b Z_.
Proof. exact C92_draws_lemma. Qed.
Theorem C92_returns_partial : forall N D L, (L <= D)%nat -> (L <= N)%nat -> exists rand, (forall k, 0 < rand k < 1) /\ generate_orm_product 1 rand N D L <> None.
Proof. exact C92_possible_lemma. Qed.
Theorem C92_disjoint_refuted : exists rand U Z_ X, (forall k, 0 < rand k < 1) /\ generate_orm_product 1 rand 3 3 2 = Some (U, Z_, X) /\ ~ disjoint_columns U 2 /\ ~ disjoint_columns Z_ 2.
Proof. exact C92_disjoint_lemma. Qed.
(** Whatever is drawn, the loop never ends if there is only one row and more than one latent dimension. *)
Theorem C92_terminates_refuted : forall fuel rand N D L, (N <= 1 \/ D <= 1)%nat -> (2 <= L)%nat -> generate_orm_product fuel rand N D L = None.
Proof. exact C92_never_lemma. Qed.
Example C92_example : exists rand U Z_ X, generate_orm_product 1 rand 5 4 3 = Some (U, Z_, X).
Proof.
  destruct (C92_returns_partial 5 4 3 ltac:(lia) ltac:(lia)) as (rand & _ & H). exists rand. destruct (generate_orm_product 1 rand 5 4 3) as [[[U Z_] X]|]; [|contradiction]. exists U, Z_, X. reflexivity.
Qed.
Print Assumptions C91_result.
Print Assumptions C91_density.
Print Assumptions C91_entries.
Print Assumptions C91_factors.
Print Assumptions C91_raises.
Print Assumptions C92_product_partial.
Print Assumptions C92_draws_partial.
Print Assumptions C92_returns_partial.
Print Assumptions C92_disjoint_refuted.
Print Assumptions C92_terminates_refuted.
