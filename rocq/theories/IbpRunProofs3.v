(** OR-AND-IBP machines: construction and refutations (C90). *)
From Coq Require Import String Lia Lra Sorted Permutation.
From Verif Require Import Base BaseLemmas BaseR BaseRLemmas Spec SpecR SpecIbp Canon Sampling SamplingProofs Lambda Ibp IbpProofs IbpProofs4 IbpProofs5 SamplingExamples Clean Machine Dispatch Inference SpecMachine SpecOrdinary SpecExperiments SpecMaxRun SpecIbpRun MachineProofs InferenceProofs PlainProofs EngineProofs MaxRunProofs2 IbpRunProofs IbpRunProofs2 MachineExamples OrdinaryExamples.
Local Open Scope R_scope.

Lemma C90_built_lemma o arrs clk src X N D L : training_data arrs src (A2 X) -> has_shape2 X N D -> tern2 X -> (Z.of_nat N <= 32767)%Z -> (Z.of_nat D <= 32767)%Z -> (0 < N)%nat -> (0 < D)%nat -> (0 < L)%nat ->
  exists w1 w2 A B lam, add_matrix o (World arrs [] [] [] false clk) src None (FBool true) = Ok w1 /\ add_layer o w1 L (Some 0%nat) None "OR-AND-IBP" = (w2, Ok tt) /\
    ibp_machine w2 N D L A B X lam /\ concentration w2 = 3 /\ anneal w2 = false /\ fixed (get_mat w2 1) = FBool false /\ fixed (get_mat w2 2) = FBool false /\ lfixed (lbda (get_lay w2 0)) = false.
Proof.
  intros HT HX HX3 BN BD HN HD HL. destruct (build_single o arrs clk src X N D L "OR-AND-IBP" HT HX HN HD HL eq_refl) as (S1 & A & B & [_ V Sh]).
  exists (built_w1 arrs clk src X), (built_w2 o arrs clk src X N D L "OR-AND-IBP"), A, B. eexists. split; [apply (build_matrix o arrs clk src X HT)|]. split; [apply (build_layer o arrs clk src X N D L "OR-AND-IBP" HT HX HN HD HL eq_refl eq_refl)|]. split; [|repeat split].
  constructor; auto; [|cbn; lra]. split; [reflexivity|]. unfold concentration. cbn. lra.
Qed.
Definition small_ibp (A B X F : mat) (lam q a : R) (f1 f2 lf : bool) : world :=
  World [A2 X; A2 A; A2 B]
    [Mat 0 None (FBool true) (zeros_like (A2 X)) (1 / 2) None [0%nat] None;
     Mat 1 (Some 0%nat) (FBool f1) (zeros_like (A2 A)) (1 / 2) (Some 0%nat) [] (Some (FIbp [0; 1]%nat));
     Mat 2 (Some 1%nat) (FBool f2) (A2 F) q (Some 0%nat) [] (Some (FLom "OR-AND" [1; 0]%nat q))]
    [Lay [1; 2]%nat 0 "OR-AND-IBP" (Par (LS lam) lf (1, 1) None) None (Some a) None 1 false false false false] [0%nat] false 0.
Lemma small_ibp_machine N D L A B X F lam q a f1 f2 lf : (0 < N)%nat -> (0 < D)%nat -> has_shape2 X N D -> tern2 X -> (Z.of_nat N <= 32767)%Z -> (Z.of_nat D <= 32767)%Z -> okmat N L A -> okmat D L B -> 0 < q < 1 -> 0 < a ->
  ibp_machine (small_ibp A B X F lam q a f1 f2 lf) N D L A B X lam.
Proof.
  intros HN HD HX HX3 BN BD HA HB Hq Ha. constructor; auto.
  - constructor; try reflexivity; [auto 10| | |].
    + intros i [-> | ->]; (split; [reflexivity|]); (split; [reflexivity|]); (split; [reflexivity|]); (split; [eexists; reflexivity|]); eexists; reflexivity.
    + intros [|[|[|i]]] Hi; cbn in *; lia.
    + intros [|[|[|i]]] [|[|[|j]]] Hi Hj Hij; cbn in *; lia.
  - split; [reflexivity|]. unfold concentration. cbn. lra.
Qed.
Definition ibp_draws (d : draws) : oracle := {| o_perm := o_perm demo; o_cell := o_cell demo; o_feature := o_feature demo; o_ibp := fun _ _ => d; o_init := o_init demo; o_argsort := o_argsort demo; o_memory := o_memory demo |}.
Lemma ibp_draws_random d : random (ibp_draws d).
Proof. exact demo_random. Qed.
Lemma small_run d A B X F lam q a f1 f2 lf : run_mat (ibp_draws d) (small_ibp A B X F lam q a f1 f2 lf) 1 =
  let '(A', B') := sample_2d_IBP A B X lam q a (fun _ => d) in Ok (tick (assign_val (assign_val (small_ibp A B X F lam q a f1 f2 lf) 1 (A2 A')) 2 (A2 B'))).
Proof.
  change (run_mat (ibp_draws d) (small_ibp A B X F lam q a f1 f2 lf) 1) with (bind (let '(A', B') := sample_2d_IBP A B X lam q a (fun _ => d) in Ok (Replace A' 2 B')) (fun e => Ok (tick (apply_effect (small_ibp A B X F lam q a f1 f2 lf) 1 e)))).
  destruct (sample_2d_IBP A B X lam q a (fun _ => d)) as [A' B']. reflexivity.
Qed.
Lemma small_after A B X F lam q a f1 f2 lf A' B' : let w' := tick (assign_val (assign_val (small_ibp A B X F lam q a f1 f2 lf) 1 (A2 A')) 2 (A2 B')) in
  value w' 1 = A2 A' /\ value w' 2 = A2 B' /\ fixed_entries (get_mat w' 2) = A2 F.
Proof. repeat split. Qed.
Lemma get2 A B : A2 A = A2 B -> A = B.
Proof. intros H. apply (f_equal (fun x => match x with A2 m => m | A3 _ => [] end)) in H. exact H. Qed.
Lemma empty_ok M : okmat 1 0 M -> M = [[]].
Proof. intros ((E & F) & _). destruct M as [|r [|]]; try discriminate E. inversion F as [|? ? G _]; subst. destruct r; [reflexivity|discriminate G]. Qed.
Lemma one_ok : okmat 1 1 [[1%Z]].
Proof. split; [split; [reflexivity|repeat constructor]|]. repeat (apply Forall_cons || apply Forall_nil); unfold pm1; auto. Qed.

Lemma C90_conditional_refuted_lemma out : is_output OR AND out -> exists o w w' X, random o /\ (forall k n, SpecR.is_draw (dk (o_ibp o k n))) /\ ibp_machine w 1 1 0 [[]] [[]] X 1 /\ bprior (get_mat w 2) = 1 / 10 /\ concentration w = 1 /\ run_mat o w 1 = Ok w' /\ ~ ibp_update false out o w 1 w'.
Proof.
  intros Ho. destruct (C70_refuted_lemma out Ho) as (X & Z_ & U & d & HZ & HU & HX & TX & Hd & E1 & E2). pose proof (empty_ok _ HZ) as ->. pose proof (empty_ok _ HU) as ->.
  set (w := small_ibp [[]] [[]] X [[]] 1 (1 / 10) 1 false false false). assert (H : ibp_machine w 1 1 0 [[]] [[]] X 1) by (apply small_ibp_machine; auto; try lia; lra).
  exists (ibp_draws d), w, (tick (assign_val (assign_val w 1 (A2 [[1%Z]])) 2 (A2 [[1%Z]]))), X. split; [apply ibp_draws_random|]. split; [intros; exact Hd|]. split; [exact H|]. split; [reflexivity|]. split; [reflexivity|]. split.
  - unfold w at 1. rewrite small_run. unfold sample_2d_IBP. cbn [nrows List.length seq fold_left ncols hd]. unfold nrows, ncols in *. cbn [List.length hd]. rewrite E1. reflexivity.
  - intros (N & D & L & A & B & Y & lam & F & H1 & _ & HU1). cbv zeta in HU1. destruct HU1 as [(_ & L' & A' & B' & EW & (s & s0 & sN & Hs))|(C & _)]; [|discriminate C].
    destruct (im_values _ _ _ _ _ _ _ _ H1) as (v0 & v1 & v2). apply get2 in v0, v1, v2. change (X = Y) in v0. change ([[]] = A) in v1. change ([[]] = B) in v2. subst A B Y. destruct (im_shapes _ _ _ _ _ _ _ _ H1) as (_ & ((b2 & b2') & _) & ((b3 & _) & _)). cbn in b2, b3. subst N D. inversion b2' as [|? ? G _]; subst. cbn [List.length] in *.
    destruct (im_layer _ _ _ _ _ _ _ _ H1) as (l1 & _). injection l1 as <-. specialize (Hs 0%nat ltac:(lia)). rewrite s0, sN in Hs. 
    assert (EA : A' = [[1%Z]]) by (apply (f_equal (fun x => value x 1)) in EW; apply get2 in EW; symmetry; exact EW). assert (EB : B' = [[1%Z]]) by (apply (f_equal (fun x => value x 2)) in EW; apply get2 in EW; symmetry; exact EW). clear EW. subst A' B'.
    destruct Hs as (keep & k & lw & S1 & HK & EL & _ & HR & _ & _ & EB). assert (EK : keep = []) by (destruct keep as [|x keep]; [reflexivity|]; destruct (proj1 (HK x) (or_introl eq_refl)); lia). subst keep. specialize (HR 0%nat ltac:(lia)). cbn [Nat.eqb map app row nth] in HR.
    assert (k = 1)%nat by (apply (f_equal (@List.length Z)) in HR; rewrite repeat_length in HR; cbn in HR; congruence). subst k. cbn [List.length Nat.add] in EL. subst L'. change (du (o_ibp (ibp_draws d) (clock w) 0%nat)) with (du d) in EB. change (bprior (get_mat w 2)) with (1 / 10) in EB.
    assert (C : [[1%Z]] = [[(-1)%Z]]) by (etransitivity; [exact EB|exact E2]). discriminate C.
Qed.
(** The second factor, fixed as a whole and entry by entry, loses its column. *)
Lemma C90_fixed_refuted_lemma lam q a x : 0 < q < 1 -> 0 < a -> tern x -> exists o w w', random o /\ (forall k n, SpecR.is_draw (dk (o_ibp o k n))) /\ ibp_machine w 1 1 1 [[1%Z]] [[1%Z]] [[x]] lam /\ bprior (get_mat w 2) = q /\ concentration w = a /\
  fixed (get_mat w 2) = FBool true /\ fixed_entries (get_mat w 2) = A2 [[1%Z]] /\ run_mat o w 1 = Ok w' /\ value w' 2 = A2 [[]].
Proof.
  intros Hq Ha Hx. pose (d := {| dz := fun _ => 0; dk := 0; du := fun _ _ => 0 |}). set (w := small_ibp [[1%Z]] [[1%Z]] [[x]] [[1%Z]] lam q a false true false).
  exists (ibp_draws d), w, (tick (assign_val (assign_val w 1 (A2 [[]])) 2 (A2 [[]]))). split; [apply ibp_draws_random|]. split; [intros; cbn; split; lra|]. split; [|split; [reflexivity|split; [reflexivity|split; [reflexivity|split; [reflexivity|split; [|reflexivity]]]]]].
  - apply small_ibp_machine; auto; try lia; try apply one_ok; [split; [reflexivity|repeat constructor]|]. repeat (apply Forall_cons || apply Forall_nil). exact Hx.
  - unfold w at 1. rewrite small_run. pose proof (C71_refuted_lemma [[x]] lam q (Some a) (fun _ => d) [] [] true eq_refl) as E. unfold IBP_sampler in E. rewrite E. reflexivity.
Qed.
(** The second factor outgrows the array of its fixed entries. *)
Lemma two_new lg : SpecR.is_draw (p_L_new lg 0 + p_L_new lg 1) /\ choose_L_new (p_L_new lg) (p_L_new lg 0 + p_L_new lg 1) = 2%nat.
Proof.
  rewrite !p_L_new_eq. pose proof (exp_pos (lg 0%nat)) as e0. pose proof (exp_pos (lg 1%nat)) as e1. pose proof (exp_pos (lg 2%nat)) as e2.
  assert (P0 : 0 < exp (lg 0%nat) / (exp (lg 0%nat) + exp (lg 1%nat) + exp (lg 2%nat))) by (apply Rdiv_lt_0_compat; lra). assert (P1 : 0 < exp (lg 1%nat) / (exp (lg 0%nat) + exp (lg 1%nat) + exp (lg 2%nat))) by (apply Rdiv_lt_0_compat; lra). split.
  - split; [lra|]. rewrite <- Rdiv_plus_distr. apply (Rmult_lt_reg_r (exp (lg 0%nat) + exp (lg 1%nat) + exp (lg 2%nat))); [lra|]. unfold Rdiv. rewrite Rmult_assoc, Rinv_l by lra. lra.
  - unfold choose_L_new. rewrite !p_L_new_eq. destruct (Rltb_spec (exp (lg 0%nat) / (exp (lg 0%nat) + exp (lg 1%nat) + exp (lg 2%nat)) + exp (lg 1%nat) / (exp (lg 0%nat) + exp (lg 1%nat) + exp (lg 2%nat))) (exp (lg 0%nat) / (exp (lg 0%nat) + exp (lg 1%nat) + exp (lg 2%nat)))); [lra|].
    match goal with |- context [Rltb ?a ?b] => destruct (Rltb_spec a b) end; [lra|reflexivity].
Qed.
Lemma C90_bounds_refuted_lemma lam q a x : 0 < q < 1 -> 0 < a -> tern x -> exists o w w' F B', random o /\ (forall k n, SpecR.is_draw (dk (o_ibp o k n))) /\ ibp_machine w 1 1 1 [[1%Z]] [[1%Z]] [[x]] lam /\ bprior (get_mat w 2) = q /\ concentration w = a /\
  run_mat o w 1 = Ok w' /\ value w' 2 = A2 B' /\ has_shape2 B' 1 2 /\ fixed_entries (get_mat w' 2) = A2 F /\ has_shape2 F 1 1.
Proof.
  intros Hq Ha Hx. set (lg := log_L_new lam q a 1 0 (tn_count [] [[]] [x] 1) (fn_count [] [[]] [x] 1)). destruct (two_new lg) as (Hd & H2). pose (d := {| dz := fun _ => 0; dk := p_L_new lg 0 + p_L_new lg 1; du := fun _ _ => 0 |}). set (w := small_ibp [[1%Z]] [[1%Z]] [[x]] [[0%Z]] lam q a false false false).
  set (B' := ibp_new_features [[1; 1]]%Z [[-1; -1]]%Z [[x]] lam 1 0 2 (fun _ _ => 0)).
  exists (ibp_draws d), w, (tick (assign_val (assign_val w 1 (A2 [[1; 1]]%Z)) 2 (A2 B'))), [[0%Z]], B'. split; [apply ibp_draws_random|]. split; [intros; exact Hd|]. split; [|split; [reflexivity|split; [reflexivity|split; [|split; [reflexivity|split; [|split; [reflexivity|split; [reflexivity|repeat constructor]]]]]]]].
  - apply small_ibp_machine; auto; try lia; try apply one_ok; [split; [reflexivity|repeat constructor]|]. repeat (apply Forall_cons || apply Forall_nil). exact Hx.
  - unfold w at 1. rewrite small_run. 
    assert (E : sample_2d_IBP [[1%Z]] [[1%Z]] [[x]] lam q a (fun _ => d) = ([[1; 1]]%Z, B')).
    { change (sample_2d_IBP [[1%Z]] [[1%Z]] [[x]] lam q a (fun _ => d)) with (let '(_, Z', U') := (let L_new := choose_L_new (p_L_new lg) (dk d) in if Nat.ltb 0 L_new then let Z3 := map (fun r => r ++ repeat (-1)%Z L_new) [[]] in let Z4 := upd Z3 0 (row [[]] 0 ++ repeat 1%Z L_new) in let U3 := map (fun r => r ++ repeat (-1)%Z L_new) [[]] in ((0 + L_new)%nat, Z4, ibp_new_features Z4 U3 [[x]] lam 1 0 L_new (du d)) else (0%nat, [[]], [[]])) in (Z', U')).
      change (dk d) with (p_L_new lg 0 + p_L_new lg 1). cbv zeta. rewrite H2. reflexivity. }
    rewrite E. reflexivity.
  - split; [reflexivity|]. repeat constructor.
Qed.
(** ** A trace is too narrow *)
Lemma always_two m lw k : (m <= 10)%nat -> (forall j, lw j = 1) -> selects3 (fun j => poisson (6 / INR 6) (m + j) * lw j) (199 / 200) k -> k = 2%nat.
Proof.
  intros Hm Hl (K2 & S1 & S2). assert (W : forall j, poisson (6 / INR 6) (m + j) * lw j = exp (Ropp 1) * / INR (fact (m + j))) by (intros j; rewrite Hl; unfold poisson; replace (6 / INR 6) with 1 by (cbn; lra); rewrite pow1; unfold Rdiv; ring).
  rewrite !(Rsum_ext (fun j => poisson (6 / INR 6) (m + j) * lw j) (fun j => exp (Ropp 1) * / INR (fact (m + j)))) in S1, S2 by (intros; apply W). rewrite !Rsum_scale in S1, S2. pose proof (exp_pos (Ropp 1)) as EP.
  assert (S2' : 199 / 200 * Rsum (fun j => / INR (fact (m + j))) (seq 0 3) < Rsum (fun j => / INR (fact (m + j))) (seq 0 (S k))) by (apply (Rmult_lt_reg_l (exp (Ropp 1))); [exact EP|lra]). clear S1 S2 W EP.
  assert (F0 : 0 < INR (fact (m + 2))) by (apply lt_0_INR, lt_O_fact). pose proof (Rinv_0_lt_compat _ F0) as IU. set (u := / INR (fact (m + 2))) in *.
  assert (M0 : 0 <= INR m <= 10) by (split; [apply pos_INR|replace 10 with (INR 10) by (cbn; lra); apply le_INR; exact Hm]).
  assert (E1 : / INR (fact (m + 1)) = (INR m + 2) * u).
  { unfold u. replace (m + 2)%nat with (S (m + 1)) by lia. change (fact (S (m + 1))) with (S (m + 1) * fact (m + 1))%nat. rewrite mult_INR, S_INR, plus_INR. cbn [INR]. pose proof (lt_0_INR _ (lt_O_fact (m + 1))). field. split; lra. }
  assert (E0 : / INR (fact (m + 0)) = (INR m + 1) * (INR m + 2) * u).
  { rewrite Rmult_assoc, <- E1. replace (m + 1)%nat with (S (m + 0)) by lia. change (fact (S (m + 0))) with (S (m + 0) * fact (m + 0))%nat. rewrite mult_INR, S_INR. rewrite Nat.add_0_r. pose proof (lt_0_INR _ (lt_O_fact m)). field. split; lra. }
  destruct k as [|[|[|k]]]; [| |reflexivity|lia]; exfalso; unfold Rsum in S2'; cbn [seq fold_right] in S2'; rewrite ?E0, ?E1 in S2'; fold u in S2'.
  - assert (199 / 200 * ((INR m + 1) * (INR m + 2) + (INR m + 2) + 1) < (INR m + 1) * (INR m + 2)) by (apply (Rmult_lt_reg_r u); [exact IU|lra]). nra.
  - assert (199 / 200 * ((INR m + 1) * (INR m + 2) + (INR m + 2) + 1) < (INR m + 1) * (INR m + 2) + (INR m + 2)) by (apply (Rmult_lt_reg_r u); [exact IU|lra]). nra.
Qed.
Definition six : mat := repeat [(-1)%Z] 6.
Definition blank : mat := repeat [0%Z] 6.
Lemma no_data lam q n cov lw : (n < 6)%nat -> new_columns_lik lam q (row blank n) 1 cov lw -> forall j, lw j = 1.
Proof. intros Hn (c & _ & H) j. rewrite H. unfold Rprod. cbn [seq fold_right]. assert (E : nth 0 (row blank n) 0%Z = 0%Z) by (do 6 (destruct n as [|n]; [reflexivity|]); lia). rewrite E, orb_true_r. lra. Qed.
Lemma grows out lam q d s : (forall n, dk (d n) = 199 / 200) -> fst (s 0%nat) = (1%nat, six) -> (forall n, (n < 6)%nat -> row_redrawn true out blank 6 1 lam q 6 n (d n) (s n) (s (S n))) ->
  forall n, (n < 6)%nat -> exists A B, s (S n) = (2 * S n, A, B)%nat /\ List.length A = 6%nat /\ (forall l, (l < 2 * S n)%nat -> exists m, (m < S n)%nat /\ at2 A m l = 1%Z) /\ (n = 5%nat -> List.length (row A 0) = 12%nat).
Proof.
  intros Hd H0 Hs. induction n as [|n IH]; intros Hn; specialize (Hs _ Hn).
  - destruct (s 0%nat) as [[L A] B]. cbn [fst] in H0. injection H0 as -> ->. destruct (s 1%nat) as [[L' A'] B']. destruct Hs as (keep & k & lw & S1 & HK & EL & LA & HR & NC & SE & _). rewrite Hd in SE. cbv beta iota zeta in NC.
    assert (EK : keep = []).
    { destruct keep as [|x keep]; [reflexivity|]. destruct (proj1 (HK x) (or_introl eq_refl)) as (Hx & n' & N1 & _ & N2). exfalso. replace x with 0%nat in N2 by lia. do 6 (destruct n' as [|n']; [discriminate N2|]). lia. }
    subst keep. cbn [List.length Nat.add] in *. pose proof (always_two 0 lw k ltac:(lia) (no_data _ _ _ _ _ Hn NC) SE) as ->. subst L'. exists A', B'. split; [reflexivity|]. split; [exact LA|]. split; [|lia].
    intros l Hl. exists 0%nat. split; [lia|]. unfold at2, at1. rewrite (HR 0%nat) by lia. destruct l as [|[|l]]; [reflexivity|reflexivity|lia].
  - destruct (IH ltac:(lia)) as (A & B & ES & _ & HU & _). rewrite ES in Hs. destruct (s (S (S n))) as [[L' A'] B']. destruct Hs as (keep & k & lw & S1 & HK & EL & LA & HR & NC & SE & _). rewrite Hd in SE. cbv beta iota zeta in NC.
    assert (EK : keep = seq 0 (2 * S n)).
    { apply sorted_unique; [exact S1|apply CleanProofs2.sorted_seq|]. intros x. rewrite HK, in_seq. split; [lia|]. intros Hx. split; [lia|]. destruct (HU x ltac:(lia)) as (m & M1 & M2). exists m. split; [lia|]. split; [lia|exact M2]. }
    assert (LK : List.length keep = (2 * S n)%nat) by (rewrite EK; apply seq_length). rewrite LK in *. cbn [List.length] in SE. pose proof (always_two (2 * S n) lw k ltac:(lia) (no_data _ _ _ _ _ Hn NC) SE) as ->. subst L'.
    exists A', B'. split; [apply (f_equal (fun x => (x, A', B'))); lia|]. split; [exact LA|]. split.
    + intros l Hl. destruct (Nat.lt_ge_cases l (2 * S n)) as [Hl2|Hl2].
      * destruct (HU l Hl2) as (m & M1 & M2). exists m. split; [lia|]. unfold at2, at1. rewrite HR by lia. destruct (Nat.eqb_spec m (S n)) as [|_]; [lia|]. unfold regroup. rewrite app_nth1 by (rewrite map_length, LK; exact Hl2). rewrite EK.
        rewrite (nth_indep _ 0%Z (nth 0 (row A m) 0%Z)) by (rewrite map_length, seq_length; exact Hl2). rewrite (map_nth (fun l => nth l (row A m) 0%Z)), seq_nth by exact Hl2. exact M2.
      * exists (S n). split; [lia|]. unfold at2, at1. rewrite HR by lia. rewrite Nat.eqb_refl. rewrite app_nth2 by (rewrite map_length, LK; exact Hl2). rewrite map_length, LK. destruct (l - 2 * S n)%nat as [|[|j]] eqn:Ej; [reflexivity|reflexivity|lia].
    + intros En. rewrite HR by lia. rewrite En. cbn [Nat.eqb]. unfold regroup. rewrite app_length, map_length, LK, repeat_length. lia.
Qed.
Definition at_once : settings := {| eps := 1 / 100; window := 2; burn_in_min := 0; burn_in_max := 0; print_step := 10; fix_lbda_iters := 0 |}.
Definition growing : world := small_ibp six [[(-1)%Z]] blank [[0%Z]] 1 (1 / 2) 6 false true true.
Definition plenty : oracle := ibp_draws {| dz := fun _ => 1 / 2; dk := 199 / 200; du := fun _ _ => 1 / 2 |}.
Lemma growing_machine : ibp_machine growing 6 1 1 six [[(-1)%Z]] blank 1.
Proof.
  apply small_ibp_machine; try lia; try lra.
  - split; [reflexivity|repeat constructor].
  - repeat (apply Forall_cons || apply Forall_nil); unfold tern; auto.
  - split; [split; [reflexivity|repeat constructor]|]. repeat (apply Forall_cons || apply Forall_nil); unfold pm1; auto.
  - split; [split; [reflexivity|repeat constructor]|]. repeat (apply Forall_cons || apply Forall_nil); unfold pm1; auto.
Qed.
Lemma C90_trace_refuted_lemma : exists o cfg w A, random o /\ (forall k n, SpecR.is_draw (dk (o_ibp o k n))) /\ usable cfg /\ ibp_machine w 6 1 1 A [[(-1)%Z]] blank 1 /\ anneal w = false /\
  forall fuel, (2 <= fuel)%nat -> infer fuel o cfg 1 (fresh_state w) = Some (Err ValueError).
Proof.
  exists plenty, at_once, growing, six. assert (HD : forall k n, SpecR.is_draw (dk (o_ibp plenty k n))) by (intros; cbn; split; lra). pose proof growing_machine as H.
  split; [apply ibp_draws_random|]. split; [exact HD|]. split; [unfold usable; cbn; lia|]. split; [exact H|]. split; [reflexivity|]. intros fuel Hf.
  assert (H1 : ibp_machine (tick growing) 6 1 1 six [[(-1)%Z]] blank 1) by (apply im_tick; exact H).
  destruct (i_run_mat (the_output OR AND) (the_output_ok OR AND) plenty (ibp_draws_random _) HD 6 1 blank (tick growing) 1 six [[(-1)%Z]] 1 1 H1 (or_introl eq_refl) eq_refl) as (w' & L' & A' & B' & E & Up & M' & _).
  assert (W : exists A1, value w' 1 = A2 A1 /\ ncols A1 = 12%nat).
  { destruct Up as (N & D & L & A & B & Y & lam & F & H2 & _ & HU1). cbv zeta in HU1. destruct HU1 as [(_ & L1 & A1 & B1 & EW & (s & s0 & sN & Hs))|(C & _)]; [|discriminate C].
    destruct (im_values _ _ _ _ _ _ _ _ H2) as (v0 & v1 & v2). apply get2 in v0, v1, v2. change (blank = Y) in v0. change (six = A) in v1. change ([[(-1)%Z]] = B) in v2. subst A B Y. destruct (im_shapes _ _ _ _ _ _ _ _ H2) as (_ & ((b2 & b2') & _) & ((b3 & _) & _)). change (6%nat = N) in b2. change (1%nat = D) in b3. subst N D. unfold six in b2'. cbn [repeat] in b2'. inversion b2' as [|? ? G _]; subst. cbn [List.length] in *.
    exists A1. split; [reflexivity|]. destruct (grows (the_output OR AND) lam (bprior (get_mat (tick growing) 2)) (o_ibp plenty (clock (tick growing))) s) with (n := 5%nat) as (A2' & B2 & E2 & LA & _ & LR); [intros; reflexivity|rewrite s0; reflexivity|exact Hs|lia|].
    rewrite sN in E2. injection E2 as _ <- _. specialize (LR eq_refl). destruct A1 as [|r A1]; [discriminate LA|exact LR]. }
  destruct W as (A1 & VW & WW). destruct fuel as [|[|fuel]]; try lia.
  set (s1 := fold_left rewind_l [] (fold_left (fun s i => set_mtr s i (mtr s i) 0) [1%nat] (set_wd (fresh_state growing) growing))).
  assert (EP : prepare (fresh_state growing) = Ok ([1%nat], [], s1)) by reflexivity.
  set (s2 := set_iters (fold_left rewind_l [] (set_wd s1 growing)) 1).
  assert (EB : burn_in (S (S fuel)) plenty at_once [1%nat] [] s1 = Some (Ok s2)) by reflexivity.
  set (s3 := set_mtr s2 1 (Some (MT (repeat (Some (A2 (repeat (repeat (-1)%Z 11) 6))) 1) (Some 11%nat))) 0).
  assert (EA : foldM (allocate_m 1) [1%nat] s2 = Ok s3) by reflexivity.
  unfold infer. rewrite EP, EB, EA, bindE. cbn [fold_left samples]. unfold sample_body, sweep.
  change (o_perm plenty (clock (wd s3)) [1%nat]) with [1%nat]. change (wd s3) with growing. cbn [foldM]. unfold call_mat. cbn [wd note set_wd]. rewrite E, !bindE.
  match goal with |- context [update_trace_m ?s 1] => assert (ET : update_trace_m s 1 = Err ValueError) end.
  { unfold update_trace_m. match goal with |- context [mtr ?s 1] => change (mtr s 1) with (Some (MT [Some (A2 (repeat (repeat (-1)%Z 11) 6))] (Some 11%nat))); change (mti s 1) with 0%nat; change (wd s) with w' end.
    cbn [mcells mwidth List.length Nat.ltb Nat.leb nth]. unfold read2. rewrite VW. cbn [as2]. rewrite bindE, WW. reflexivity. }
  rewrite ET. reflexivity.
Qed.
