(** Generated tensors (C91) and generated OR-AND products (C92). *)
From Coq Require Import String Lia Lra.
From Coquelicot Require Import RInt Hierarchy.
From Verif Require Import Base BaseLemmas BaseR BaseRLemmas Spec SpecR SpecF Fuzzy FuzzyProofs Invariance InvarianceProofs UnbiasedProofs Helpers SpecHelpers HelpersProofs Generators SpecGenerators GeneratorProofs.
Local Open Scope R_scope.

Lemma bool_eq_iff (a b : bool) : (a = true <-> b = true) -> a = b.
Proof. destruct a, b; intuition congruence. Qed.
Lemma C91_result rand L N D M noise density : (1 <= L)%nat ->
  let q := d_f density L 3 in let o := (N * L + D * L + M * L)%nat in
  exists Xn X F1 F2 F3, generate_random_tensor rand L [N; D; M] noise density = Ok (Xn, X, [F1; F2; F3], q) /\
    boxed Xn N D M /\ boxed X N D M /\
    (List.length F1 = N /\ List.length F2 = D /\ List.length F3 = M /\ Forall (fun r => List.length r = L) (F1 ++ F2 ++ F3)) /\
    (forall n l, (n < N)%nat -> (l < L)%nat -> nth l (nth n F1 []) false = Rltb (1 - q) (rand (n * L + l)%nat)) /\
    (forall n l, (n < D)%nat -> (l < L)%nat -> nth l (nth n F2 []) false = Rltb (1 - q) (rand (N * L + (n * L + l))%nat)) /\
    (forall n l, (n < M)%nat -> (l < L)%nat -> nth l (nth n F3 []) false = Rltb (1 - q) (rand (N * L + D * L + (n * L + l))%nat)) /\
    forall n d m, (n < N)%nat -> (d < D)%nat -> (m < M)%nat ->
      (bit X n d m = true <-> exists l, (l < L)%nat /\ nth l (nth n F1 []) false = true /\ nth l (nth d F2 []) false = true /\ nth l (nth m F3 []) false = true) /\
      bit Xn n d m = xorb (Rltb (rand (o + ((n * D + d) * M + m))%nat) noise) (bit X n d m).
Proof.
  intros HL q o. unfold generate_random_tensor. destruct (Nat.eqb_spec L 0) as [E|_]; [lia|]. fold q.
  destruct (random_bits_shape rand 0 N L q) as (A1 & A2). destruct (random_bits_shape rand (N * L) D L q) as (B1 & B2). destruct (random_bits_shape rand (N * L + D * L) M L q) as (C1 & C2).
  destruct (proj1 (C51_lemma (random_bits rand 0 N L q) (random_bits rand (N * L) D L q) (random_bits rand (N * L + D * L) M L q) L L L) eq_refl eq_refl) as (X & E & X1 & X2 & X3).
  cbn zeta. rewrite E. cbn [bind]. rewrite A1 in X1, X3. rewrite B1, C1 in X2, X3.
  destruct (C48_bool_lemma (fun k => rand (N * L + D * L + M * L + k)%nat) X noise N D M X1 X2) as (Xn & En & Y1 & Y2 & Y3). rewrite En. cbn [bind].
  exists Xn, X. do 3 eexists. split; [reflexivity|]. split; [split; assumption|]. split; [split; assumption|].
  split. { repeat split; try assumption. apply Forall_app. split; [assumption|]. apply Forall_app. split; assumption. }
  split. { intros n l Hn Hl. rewrite random_bits_nth by assumption. reflexivity. }
  split. { intros n l Hn Hl. rewrite random_bits_nth by assumption. reflexivity. }
  split. { intros n l Hn Hl. rewrite random_bits_nth by assumption. reflexivity. }
  intros n d m Hn Hd Hm. destruct (X3 n d m Hn Hd Hm) as (X4 & _). split; [exact X4|].
  destruct (Y3 n d m Hn Hd Hm) as (Z1 & Z2). unfold bit in *. destruct (Rltb_spec (rand (o + ((n * D + d) * M + m))%nat) noise) as [H|H].
  - rewrite (Z1 H). destruct (nth m (nth d (nth n X []) []) false); reflexivity.
  - rewrite (Z2 ltac:(unfold o in H; lra)). destruct (nth m (nth d (nth n X []) []) false); reflexivity.
Qed.
Lemma C91_cell rand L N D M noise density n d m : (1 <= L)%nat -> (n < N)%nat -> (d < D)%nat -> (m < M)%nat ->
  forall Xn X F q, generate_random_tensor rand L [N; D; M] noise density = Ok (Xn, X, F, q) ->
  bit X n d m = existsb (fun l => Rltb (1 - d_f density L 3) (rand (n * L + l)%nat) && Rltb (1 - d_f density L 3) (rand (N * L + (d * L + l))%nat) && Rltb (1 - d_f density L 3) (rand (N * L + D * L + (m * L + l))%nat)) (seq 0 L) /\
  bit Xn n d m = xorb (Rltb (rand (N * L + D * L + M * L + ((n * D + d) * M + m))%nat) noise) (bit X n d m).
Proof.
  intros HL Hn Hd Hm Xn X F q E. destruct (C91_result rand L N D M noise density HL) as (Xn' & X' & F1 & F2 & F3 & E' & _ & _ & _ & G1 & G2 & G3 & G4).
  rewrite E in E'. injection E' as <- <- -> ->. destruct (G4 n d m Hn Hd Hm) as (H1 & H2). split; [|exact H2].
  apply bool_eq_iff. rewrite H1, existsb_exists. split.
  - intros (l & Hl & K1 & K2 & K3). exists l. split; [apply in_seq; lia|]. rewrite <- G1, <- G2, <- G3 by assumption. rewrite K1, K2, K3. reflexivity.
  - intros (l & Hl & K). apply in_seq in Hl. apply andb_prop in K. destruct K as (K & K3). apply andb_prop in K. destruct K as (K1 & K2). exists l. rewrite G1, G2, G3 by (assumption || lia). repeat split; try assumption. lia.
Qed.

(** * Sums over the entries *)
Lemma is_E_sum {A} k (l : list A) (f : A -> list R -> R) (v : A -> R) : (forall a, In a l -> is_E k (f a) (v a)) -> is_E k (fun rs => Rsum (fun a => f a rs) l) (Rsum v l).
Proof.
  induction l as [|a l IH]; intros H; [exact (is_E_const k 0)|].
  eapply is_E_ext; [|replace (Rsum v (a :: l)) with (1 * v a + 1 * Rsum v l) by (cbn; unfold Rsum; ring); apply (is_E_lin k 1 1 (f a) (fun rs => Rsum (fun a => f a rs) l)); [apply H; left; reflexivity|apply IH; intros b Hb; apply H; right; exact Hb]].
  intros rs _ _. cbn. unfold Rsum. ring.
Qed.
Lemma Rsum_nth {A} (f : A -> R) d l : Rsum f l = Rsum (fun i => f (nth i l d)) (seq 0 (List.length l)).
Proof.
  induction l as [|a l IH]; [reflexivity|]. cbn [List.length]. rewrite <- cons_seq, <- seq_shift. change (Rsum f (a :: l)) with (f a + Rsum f l). rewrite IH.
  change (Rsum (fun i => f (nth i (a :: l) d)) (0%nat :: map S (seq 0 (List.length l)))) with (f a + Rsum (fun i => f (nth i (a :: l) d)) (map S (seq 0 (List.length l)))). rewrite Rsum_map. reflexivity.
Qed.
Lemma Rsum_ext_in {A} (f g : A -> R) ls : (forall i, In i ls -> f i = g i) -> Rsum f ls = Rsum g ls.
Proof. induction ls as [|i ls IH]; intros H; [reflexivity|]. cbn. rewrite (H i (or_introl eq_refl)). f_equal. apply IH. intros j Hj. apply H. right. exact Hj. Qed.
Lemma Rsum_concat {A} (f : A -> R) ls : Rsum f (concat ls) = Rsum (Rsum f) ls.
Proof. rewrite <- (map_id ls) at 1. rewrite <- flat_map_concat_map. apply Rsum_flat_map. Qed.
Lemma count_ind (l : list bool) : INR (List.length (filter (fun b => b) l)) = Rsum ind l.
Proof. induction l as [|b l IH]; [reflexivity|]. cbn [filter]. change (Rsum ind (b :: l)) with (ind b + Rsum ind l). rewrite <- IH. destruct b; cbn [List.length ind]; [rewrite S_INR; ring|ring]. Qed.
Lemma boxed_sum X N D M : boxed X N D M -> INR (List.length (filter (fun b => b) (concat (concat X)))) = Rsum (fun n => Rsum (fun d => Rsum (fun m => ind (bit X n d m)) (seq 0 M)) (seq 0 D)) (seq 0 N).
Proof.
  intros (HN & HX). rewrite count_ind, !Rsum_concat. rewrite (Rsum_nth _ []). rewrite HN. apply Rsum_ext_in. intros n Hn. apply in_seq in Hn.
  assert (HX' := HX). rewrite Forall_forall in HX. assert (In1 : In (nth n X []) X) by (apply nth_In; rewrite HN; lia). destruct (HX _ In1) as (H1 & H2). rewrite (Rsum_nth _ []), H1. apply Rsum_ext_in. intros d Hd. apply in_seq in Hd.
  rewrite Forall_forall in H2. assert (In2 : In (nth d (nth n X []) []) (nth n X [])) by (apply nth_In; rewrite H1; lia). specialize (H2 _ In2). rewrite (Rsum_nth _ false), H2. reflexivity.
Qed.
Lemma boxed_size {A} (X : list (list (list A))) N D M : boxed X N D M -> List.length (concat (concat X)) = (N * D * M)%nat.
Proof.
  intros (HN & HX). subst N. induction HX as [|s X (H1 & H2) HX IH]; [reflexivity|]. cbn [concat]. rewrite concat_app, app_length, IH. cbn [List.length].
  assert (E : List.length (concat s) = (D * M)%nat). { subst D. clear - H2. induction H2 as [|r s Hr H IH]; [reflexivity|]. cbn [concat List.length]. rewrite app_length, IH, Hr. lia. }
  rewrite E. lia.
Qed.
Lemma Rsum_const {A} c (l : list A) : Rsum (fun _ => c) l = INR (List.length l) * c.
Proof. induction l as [|a l IH]; [cbn; ring|]. change (Rsum (fun _ : A => c) (a :: l)) with (c + Rsum (fun _ : A => c) l). rewrite IH. cbn [List.length]. rewrite S_INR. ring. Qed.
Lemma share_mean k N D M (X : list R -> list (list (list bool))) v : (1 <= N * D * M)%nat -> (forall rs, List.length rs = k -> boxed (X rs) N D M) ->
  (forall n d m, (n < N)%nat -> (d < D)%nat -> (m < M)%nat -> is_E k (fun rs => ind (bit (X rs) n d m)) v) -> is_E k (fun rs => density_of (X rs)) v.
Proof.
  intros H1 HB HE.
  assert (G : is_E k (fun rs => Rsum (fun n => Rsum (fun d => Rsum (fun m => ind (bit (X rs) n d m)) (seq 0 M)) (seq 0 D)) (seq 0 N)) (INR (N * D * M) * v)).
  { replace (INR (N * D * M) * v) with (Rsum (fun _ => Rsum (fun _ => Rsum (fun _ => v) (seq 0 M)) (seq 0 D)) (seq 0 N)) by (rewrite !Rsum_const, !seq_length, !mult_INR; ring).
    apply (is_E_sum k (seq 0 N) (fun n rs => Rsum (fun d => Rsum (fun m => ind (bit (X rs) n d m)) (seq 0 M)) (seq 0 D))). intros n Hn. apply in_seq in Hn.
    apply (is_E_sum k (seq 0 D) (fun d rs => Rsum (fun m => ind (bit (X rs) n d m)) (seq 0 M))). intros d Hd. apply in_seq in Hd.
    apply (is_E_sum k (seq 0 M) (fun m rs => ind (bit (X rs) n d m))). intros m Hm. apply in_seq in Hm. apply HE; lia. }
  assert (P : 0 < INR (N * D * M)) by (apply lt_0_INR; lia).
  pose proof (is_E_lin k (/ INR (N * D * M)) 0 _ _ _ _ G (is_E_const k 0)) as Y. replace v with (/ INR (N * D * M) * (INR (N * D * M) * v) + 0 * 0) by (field; lra).
  eapply is_E_ext; [|exact Y]. intros rs Hl _. unfold density_of, share. rewrite (boxed_sum _ N D M (HB rs Hl)), (boxed_size _ N D M (HB rs Hl)). field. lra.
Qed.
Lemma reading_ok {A} (h : A -> R) r a : r = Ok a -> reading h r = h a.
Proof. intros ->. reflexivity. Qed.

Section MEANS.
Context (L N D M : nat) (noise density : R) (HL : (1 <= L)%nat) (Hd : 0 <= density <= 1) (Hp : 0 <= noise <= 1).
Let k := ((N + D + M) * L + N * D * M)%nat.
Let call (rs : list R) := generate_random_tensor (drawn rs) L [N; D; M] noise density.
Let q := d_f density L 3.
Lemma k_eq : k = (N * L + D * L + M * L + N * D * M)%nat. Proof. unfold k. lia. Qed.
Lemma clean_cell n d m : (n < N)%nat -> (d < D)%nat -> (m < M)%nat -> is_E k (fun rs => reading (fun '(_, X, _, _) => ind (bit X n d m)) (call rs)) density.
Proof.
  intros Hn Hdd Hm. destruct (d_f_spec density L Hd HL) as (Hq & Eq). replace density with (1 - (1 - q ^ 3) ^ L) by (unfold q; rewrite Eq; ring). rewrite k_eq.
  eapply is_E_ext; [|apply (is_E_cell N D M L q noise Hq Hp n d m Hn Hdd Hm)]. intros rs Hl _. unfold call.
  destruct (C91_result (drawn rs) L N D M noise density HL) as (Xn & X & F1 & F2 & F3 & E & _). rewrite (reading_ok _ _ _ E). cbv beta iota. destruct (C91_cell (drawn rs) L N D M noise density n d m HL Hn Hdd Hm _ _ _ _ E) as (H1 & _). rewrite H1. reflexivity.
Qed.
Lemma noisy_cell n d m : (n < N)%nat -> (d < D)%nat -> (m < M)%nat -> is_E k (fun rs => reading (fun '(X, _, _, _) => ind (bit X n d m)) (call rs)) (density * (1 - noise) + (1 - density) * noise).
Proof.
  intros Hn Hdd Hm. destruct (d_f_spec density L Hd HL) as (Hq & Eq). fold q in Hq, Eq. replace (density * (1 - noise) + (1 - density) * noise) with ((1 - (1 - q ^ 3) ^ L) * (1 - noise) + (1 - q ^ 3) ^ L * noise) by (rewrite Eq; ring). rewrite k_eq.
  eapply is_E_ext; [|apply (is_E_noisy N D M L q noise Hq Hp n d m Hn Hdd Hm)]. intros rs Hl _. unfold call.
  destruct (C91_result (drawn rs) L N D M noise density HL) as (Xn & X & F1 & F2 & F3 & E & _). rewrite (reading_ok _ _ _ E). cbv beta iota. destruct (C91_cell (drawn rs) L N D M noise density n d m HL Hn Hdd Hm _ _ _ _ E) as (H1 & H2). rewrite H2, H1. reflexivity.
Qed.
Lemma changed_cell n d m : (n < N)%nat -> (d < D)%nat -> (m < M)%nat -> is_E k (fun rs => reading (fun '(Xn, X, _, _) => ind (xorb (bit Xn n d m) (bit X n d m))) (call rs)) noise.
Proof.
  intros Hn Hdd Hm. destruct (d_f_spec density L Hd HL) as (Hq & _). fold q in Hq. rewrite k_eq.
  eapply is_E_ext; [|apply (is_E_flipped N D M L q noise Hq Hp n d m Hn Hdd Hm)]. intros rs Hl _. unfold call.
  destruct (C91_result (drawn rs) L N D M noise density HL) as (Xn & X & F1 & F2 & F3 & E & _). rewrite (reading_ok _ _ _ E). cbv beta iota. destruct (C91_cell (drawn rs) L N D M noise density n d m HL Hn Hdd Hm _ _ _ _ E) as (_ & H2). rewrite H2.
  unfold flipped, drawn. destruct (bit X n d m), (Rltb _ _); reflexivity.
Qed.
Definition tensors (rs : list R) : list (list (list bool)) * list (list (list bool)) := match call rs with Ok (Xn, X, _, _) => (Xn, X) | Err _ => ([], []) end.
Lemma C91_density_lemma : (1 <= N * D * M)%nat ->
  is_E k (fun rs => reading (fun '(_, X, _, _) => density_of X) (call rs)) density /\
  is_E k (fun rs => reading (fun '(Xn, _, _, _) => density_of Xn) (call rs)) (density * (1 - noise) + (1 - density) * noise).
Proof.
  intros H1. split.
  - eapply is_E_ext; [|apply (share_mean k N D M (fun rs => snd (tensors rs)) density H1)].
    + intros rs _ _. unfold tensors, call. destruct (C91_result (drawn rs) L N D M noise density HL) as (Xn & X & F1 & F2 & F3 & -> & _). reflexivity.
    + intros rs _. unfold tensors, call. destruct (C91_result (drawn rs) L N D M noise density HL) as (Xn & X & F1 & F2 & F3 & -> & _ & B & _). exact B.
    + intros n d m Hn Hdd Hm. eapply is_E_ext; [|apply (clean_cell n d m Hn Hdd Hm)]. intros rs _ _. unfold tensors, call. destruct (C91_result (drawn rs) L N D M noise density HL) as (Xn & X & F1 & F2 & F3 & -> & _). reflexivity.
  - eapply is_E_ext; [|apply (share_mean k N D M (fun rs => fst (tensors rs)) (density * (1 - noise) + (1 - density) * noise) H1)].
    + intros rs _ _. unfold tensors, call. destruct (C91_result (drawn rs) L N D M noise density HL) as (Xn & X & F1 & F2 & F3 & -> & _). reflexivity.
    + intros rs _. unfold tensors, call. destruct (C91_result (drawn rs) L N D M noise density HL) as (Xn & X & F1 & F2 & F3 & -> & B & _). exact B.
    + intros n d m Hn Hdd Hm. eapply is_E_ext; [|apply (noisy_cell n d m Hn Hdd Hm)]. intros rs _ _. unfold tensors, call. destruct (C91_result (drawn rs) L N D M noise density HL) as (Xn & X & F1 & F2 & F3 & -> & _). reflexivity.
Qed.
End MEANS.
Lemma C91_result_lemma rand L N D M noise density : (1 <= L)%nat ->
  exists Xn X F1 F2 F3 q, generate_random_tensor rand L [N; D; M] noise density = Ok (Xn, X, [F1; F2; F3], q) /\
    boxed Xn N D M /\ boxed X N D M /\
    (List.length F1 = N /\ List.length F2 = D /\ List.length F3 = M /\ Forall (fun r => List.length r = L) (F1 ++ F2 ++ F3)) /\
    forall n d m, (n < N)%nat -> (d < D)%nat -> (m < M)%nat ->
      (bit X n d m = true <-> exists l, (l < L)%nat /\ nth l (nth n F1 []) false = true /\ nth l (nth d F2 []) false = true /\ nth l (nth m F3 []) false = true) /\
      (bit Xn n d m <> bit X n d m <-> rand ((N + D + M) * L + ((n * D + d) * M + m))%nat < noise).
Proof.
  intros HL. destruct (C91_result rand L N D M noise density HL) as (Xn & X & F1 & F2 & F3 & E & B1 & B2 & S & _ & _ & _ & G). exists Xn, X, F1, F2, F3. eexists. split; [exact E|]. split; [exact B1|]. split; [exact B2|]. split; [exact S|].
  intros n d m Hn Hd Hm. destruct (G n d m Hn Hd Hm) as (G1 & G2). split; [exact G1|]. rewrite G2. replace (N * L + D * L + M * L + ((n * D + d) * M + m))%nat with ((N + D + M) * L + ((n * D + d) * M + m))%nat by lia.
  destruct (Rltb_spec (rand ((N + D + M) * L + ((n * D + d) * M + m))%nat) noise) as [H|H]; destruct (bit X n d m); cbn; intuition (congruence || lra).
Qed.
Lemma C91_density_all L N D M noise density : (1 <= L)%nat -> (1 <= N * D * M)%nat -> 0 <= density <= 1 -> 0 <= noise <= 1 ->
  let draws := ((N + D + M) * L + N * D * M)%nat in
  let call rs := generate_random_tensor (drawn rs) L [N; D; M] noise density in
  is_E draws (fun rs => reading (fun '(_, X, _, _) => density_of X) (call rs)) density /\
  is_E draws (fun rs => reading (fun '(Xn, _, _, _) => density_of Xn) (call rs)) (density * (1 - noise) + (1 - density) * noise).
Proof. intros HL H1 Hd Hp. exact (C91_density_lemma L N D M noise density HL Hd Hp H1). Qed.
Lemma C91_entries_lemma L N D M noise density n d m : (1 <= L)%nat -> 0 <= density <= 1 -> 0 <= noise <= 1 -> (n < N)%nat -> (d < D)%nat -> (m < M)%nat ->
  let draws := ((N + D + M) * L + N * D * M)%nat in
  let call rs := generate_random_tensor (drawn rs) L [N; D; M] noise density in
  is_E draws (fun rs => reading (fun '(_, X, _, _) => if bit X n d m then 1 else 0) (call rs)) density /\
  is_E draws (fun rs => reading (fun '(Xn, _, _, _) => if bit Xn n d m then 1 else 0) (call rs)) (density * (1 - noise) + (1 - density) * noise) /\
  is_E draws (fun rs => reading (fun '(Xn, X, _, _) => if Bool.eqb (bit Xn n d m) (bit X n d m) then 0 else 1) (call rs)) noise.
Proof.
  intros HL Hd Hp Hn Hdd Hm draws call. split; [apply (clean_cell L N D M noise density HL Hd Hp n d m Hn Hdd Hm)|]. split; [apply (noisy_cell L N D M noise density HL Hd Hp n d m Hn Hdd Hm)|].
  eapply is_E_ext; [|apply (changed_cell L N D M noise density HL Hd Hp n d m Hn Hdd Hm)]. intros rs _ _. unfold call. destruct (generate_random_tensor _ _ _ _ _) as [[[[Xn X] F] q0]|e]; [|reflexivity]. cbn [reading]. destruct (bit Xn n d m), (bit X n d m); reflexivity.
Qed.
Lemma is_E_one k q p N D M L i : 0 <= q <= 1 -> 0 <= p <= 1 -> k = (N * L + D * L + M * L + N * D * M)%nat -> (i < N * L + D * L + M * L)%nat -> is_E k (fun rs => ind (Rltb (1 - q) (nth i rs 0))) q.
Proof.
  intros Hq Hp Hk Hi. rewrite Hk. pose proof (is_E_bits _ _ (events N D M L q p Hq Hp) (fun bs => ind (nth i bs false))) as H. rewrite lenw in H.
  rewrite Ebl_nth in H by (rewrite lenw; lia). rewrite w_low in H by exact Hi. eapply is_E_ext; [|exact H]. intros rs Hl _. cbv beta. rewrite bit_low by assumption. reflexivity.
Qed.
Lemma C91_factors_lemma L N D M noise density i n l : (1 <= L)%nat -> 0 <= density <= 1 -> 0 <= noise <= 1 -> (i < 3)%nat -> (n < nth i [N; D; M] 0)%nat -> (l < L)%nat ->
  let draws := ((N + D + M) * L + N * D * M)%nat in
  let call rs := generate_random_tensor (drawn rs) L [N; D; M] noise density in
  exists q, 0 <= q <= 1 /\ (forall rs, exists Xn X fs, call rs = Ok (Xn, X, fs, q)) /\
    is_E draws (fun rs => reading (fun '(_, _, fs, _) => if nth l (nth n (nth i fs []) []) false then 1 else 0) (call rs)) q.
Proof.
  intros HL Hd Hp Hi Hn Hl draws call. destruct (d_f_spec density L Hd HL) as (Hq & _). exists (d_f density L 3). split; [exact Hq|]. split.
  - intros rs. destruct (C91_result (drawn rs) L N D M noise density HL) as (Xn & X & F1 & F2 & F3 & E & _). exists Xn, X, [F1; F2; F3]. exact E.
  - assert (Hk : draws = (N * L + D * L + M * L + N * D * M)%nat) by (unfold draws; lia).
    set (idx := (nth i [0; N * L; N * L + D * L] 0 + (n * L + l))%nat).
    assert (HI : (idx < N * L + D * L + M * L)%nat) by (unfold idx; destruct i as [|[|[|i]]]; cbn [nth] in *; [nia|nia|nia|lia]).
    eapply is_E_ext; [|apply (is_E_one draws (d_f density L 3) noise N D M L idx Hq Hp Hk HI)]. intros rs _ _. unfold call.
    destruct (C91_result (drawn rs) L N D M noise density HL) as (Xn & X & F1 & F2 & F3 & E & _ & _ & _ & G1 & G2 & G3 & _). rewrite (reading_ok _ _ _ E). cbv beta iota. unfold ind.
    destruct i as [|[|[|i]]]; [| | |lia]; cbn [nth] in *; [rewrite G1 by assumption|rewrite G2 by assumption|rewrite G3 by assumption]; reflexivity.
Qed.
Lemma C91_raises_lemma rand L dims noise density :
  (L = 0%nat -> generate_random_tensor rand L dims noise density = Err ZeroDivisionError) /\
  (L <> 0%nat -> List.length dims <> 3%nat -> generate_random_tensor rand L dims noise density = Err ValueError).
Proof.
  unfold generate_random_tensor. split; [intros ->; reflexivity|]. intros H1 H2. destruct (Nat.eqb_spec L 0); [contradiction|]. destruct dims as [|a [|b [|c [|e dims]]]]; try reflexivity. contradiction.
Qed.
