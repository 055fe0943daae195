(** Updates in double precision: expectations over computer draws against expectations over real draws. *)
From Coq Require Import Lra Psatz ZifyBool.
From Verif Require Import Base BaseR BaseLemmas BaseRLemmas SpecR Sampling SamplingProofs SpecFloat Invariance InvarianceProofs SpecFloatRun FloatSampling.
From Coquelicot Require Import RInt Hierarchy.
Local Open Scope R_scope.

Lemma Rabs_le_inv' a b : Rabs a <= b -> - b <= a <= b.
Proof. intros Q. pose proof (Rle_abs a). pose proof (Rle_abs (- a)) as Q2. rewrite Rabs_Ropp in Q2. lra. Qed.
Lemma Rabs_le' a b : - b <= a <= b -> Rabs a <= b.
Proof. apply Rabs_le. Qed.
(** ** Computer draws below a threshold *)
Definition below (M : nat) (x : R) : nat := List.length (filter (fun j => Rltb (INR j) x) (seq 0 M)).
Lemma below_S M x : below (S M) x = (below M x + if Rltb (INR M) x then 1 else 0)%nat.
Proof. unfold below. rewrite List.seq_S, filter_app, app_length. cbn [filter List.length Nat.add]. destruct (Rltb (INR M) x); reflexivity. Qed.
Lemma below_all M x : INR M <= x + 1 -> (M = 0%nat \/ INR M < x + 1) -> below M x = M.
Proof.
  induction M as [|M IH]; intros H H'; [reflexivity|]. rewrite below_S. destruct H' as [H'|H']; [discriminate|]. rewrite S_INR in *. rewrite IH; [|lra|right; lra]. destruct (Rltb_spec (INR M) x); lia || lra.
Qed.
Lemma below_none M x : x <= 0 -> below M x = 0%nat.
Proof. intros H. induction M as [|M IH]; [reflexivity|]. rewrite below_S, IH. destruct (Rltb_spec (INR M) x) as [Q|Q]; [|reflexivity]. pose proof (pos_INR M). lra. Qed.
Lemma below_bound M x : 0 <= x <= INR M -> x <= INR (below M x) <= x + 1.
Proof.
  induction M as [|M IH]; intros H; [cbn in H; change (below 0 x) with 0%nat; cbn; lra|]. rewrite S_INR in H. destruct (Rle_dec x (INR M)) as [Q|Q].
  - rewrite below_S. destruct (Rltb_spec (INR M) x); [lra|]. rewrite Nat.add_0_r. apply IH. lra.
  - rewrite below_all; rewrite ?S_INR; [lra|lra|right; lra].
Qed.
Lemma below_le M x : (below M x <= M)%nat.
Proof. induction M as [|M IH]; [apply Nat.le_refl|]. rewrite below_S. destruct (Rltb _ x); lia. Qed.
Definition grid_prob (M : nat) (a : R) : R := INR (below M (a * INR M)) / INR M.
Lemma grid_prob_range M a : (0 < M)%nat -> 0 <= grid_prob M a <= 1.
Proof.
  intros H. assert (0 < INR M) by (apply lt_0_INR; exact H). unfold grid_prob. pose proof (pos_INR (below M (a * INR M))). pose proof (le_INR _ _ (below_le M (a * INR M))).
  split; [apply Rmult_le_pos; [assumption|left; apply Rinv_0_lt_compat; assumption]|]. apply Rmult_le_reg_r with (INR M); [assumption|]. field_simplify; lra.
Qed.
Lemma grid_prob_close M a p d : (0 < M)%nat -> 0 <= p <= 1 -> Rabs (a - p) <= d -> Rabs (grid_prob M a - p) <= d + / INR M.
Proof.
  intros HM Hp Hd. assert (P : 0 < INR M) by (apply lt_0_INR; exact HM). pose proof (Rinv_0_lt_compat _ P) as PI. unfold grid_prob.
  assert (D : 0 <= d) by (pose proof (Rabs_pos (a - p)); lra). apply Rabs_le_inv' in Hd.
  destruct (Rle_dec a 0) as [Q|Q].
  - rewrite below_none by nra. unfold Rdiv. rewrite Rmult_0_l. apply Rabs_le'. lra.
  - destruct (Rle_dec 1 a) as [Q'|Q'].
    + rewrite below_all; [|nra|right; nra]. unfold Rdiv. rewrite Rinv_r by lra. apply Rabs_le'. lra.
    + pose proof (below_bound M (a * INR M) ltac:(split; nra)) as (B1 & B2). assert (a <= INR (below M (a * INR M)) / INR M <= a + / INR M).
      { split; apply Rmult_le_reg_r with (INR M); try exact P; field_simplify; try lra. }
      apply Rabs_le'. lra.
Qed.
Lemma sum_two {A} (p : A -> bool) u v l : Rsum (fun j => if p j then u else v) l = INR (List.length (filter p l)) * u + (INR (List.length l) - INR (List.length (filter p l))) * v.
Proof. induction l as [|a l IH]; [cbn; ring|]. rewrite Rsum_cons, IH. cbn [List.length filter]. destruct (p a); cbn [List.length]; rewrite !S_INR; ring. Qed.
Lemma grid_step M a u v : (0 < M)%nat -> Rsum (fun j => if Rltb (INR j / INR M) a then u else v) (seq 0 M) / INR M = grid_prob M a * u + (1 - grid_prob M a) * v.
Proof.
  intros HM. assert (P : 0 < INR M) by (apply lt_0_INR; exact HM). rewrite sum_two. rewrite seq_length.
  rewrite (filter_ext (fun j => Rltb (INR j / INR M) a) (fun j => Rltb (INR j) (a * INR M))).
  - unfold grid_prob, below. field. lra.
  - intros j. destruct (Rltb_spec (INR j / INR M) a) as [Q|Q], (Rltb_spec (INR j) (a * INR M)) as [Q'|Q']; try reflexivity; exfalso.
    + apply Q'. apply (Rmult_lt_compat_r (INR M)) in Q; [|exact P]. field_simplify in Q; lra.
    + apply Q. apply Rmult_lt_reg_r with (INR M); [exact P|]. field_simplify; lra.
Qed.

(** ** Loops over cells *)
Section Loops.
Context (step : mat -> nat -> nat -> R -> mat).
Fixpoint crun (cs : list (nat * nat)) (rs : list R) (m : mat) : mat :=
  match cs, rs with
  | (n, l) :: cs', r :: rs' => crun cs' rs' (step m n l r)
  | _, _ => m
  end.
Lemma fold_crun N L rs m : List.length rs = (N * L)%nat ->
  fold_left (fun Zc '(n, l) => step Zc n l (draws_of L rs n l)) (cells N L) m = crun (cells N L) rs m.
Proof.
  intros Hlen.
  assert (G : forall k cs rs' Z_, cs = skipn k (cells N L) -> rs' = skipn k rs -> (k + List.length cs = N * L)%nat ->
     fold_left (fun Zc '(n, l) => step Zc n l (draws_of L rs n l)) cs Z_ = crun cs rs' Z_).
  { intros k cs. revert k. induction cs as [|[n l] cs IH]; intros k rs' Z0 Ecs Ers Hk; [reflexivity|].
    simpl in Hk.
    assert (Hnth : nth k (cells N L) (0, 0)%nat = (n, l)).
    { rewrite <- (firstn_skipn k (cells N L)), <- Ecs. rewrite app_nth2; rewrite firstn_length, cells_length; [|lia].
      replace (k - Nat.min k (N * L))%nat with 0%nat by lia. reflexivity. }
    rewrite cells_nth_inv in Hnth by lia. injection Hnth as En El.
    assert (HL : L <> 0%nat) by nia.
    assert (Ed : draws_of L rs n l = nth k rs 0).
    { unfold draws_of. f_equal. rewrite <- En, <- El. rewrite (Nat.mul_comm _ L). symmetry. apply Nat.div_mod. exact HL. }
    assert (Er : rs' = nth k rs 0 :: skipn (S k) rs).
    { rewrite Ers. clear - Hlen Hk. assert (Hk' : (k < List.length rs)%nat) by lia. clear - Hk'. revert k Hk'.
      induction rs as [|a rs IH]; intros k Hk; [simpl in Hk; lia|]. destruct k as [|k]; [reflexivity|].
      simpl. apply IH. simpl in Hk; lia. }
    rewrite Er. simpl. rewrite Ed. apply (IH (S k)).
    - clear - Ecs. revert k Ecs. generalize (cells N L). intros c. induction c as [|a c IHc]; intros k E.
      + destruct k; discriminate.
      + destruct k as [|k]; [simpl in *; congruence|]. simpl in E. apply IHc in E. exact E.
    - reflexivity.
    - lia. }
  apply (G 0%nat); [reflexivity|reflexivity|]. rewrite cells_length. reflexivity.
Qed.
End Loops.

Section Expect.
Context (fixed : mat) (N L : nat) (h : mat -> R).
Context (Hh : forall m, 0 <= h m <= 1).
(** Expectation when cell (n,l) of [m] is flipped with probability [a m n l]. *)
Fixpoint expect (a : mat -> nat -> nat -> R) (cs : list (nat * nat)) (m : mat) : R :=
  match cs with
  | [] => h m
  | (n, l) :: cs' => if (at2 fixed n l =? 1)%Z then expect a cs' m else a m n l * expect a cs' (flip_cell n l m) + (1 - a m n l) * expect a cs' m
  end.
Lemma expect_range a cs m : (forall m n l, 0 <= a m n l <= 1) -> 0 <= expect a cs m <= 1.
Proof.
  intros Ha. revert m. induction cs as [|[n l] cs IH]; intros m; [apply Hh|]. cbn [expect]. destruct (_ =? 1)%Z; [apply IH|].
  pose proof (IH m). pose proof (IH (flip_cell n l m)). pose proof (Ha m n l). split; nra.
Qed.
Lemma expect_close a a' c cs m : (forall m n l, 0 <= a m n l <= 1) -> (forall m n l, 0 <= a' m n l <= 1) -> 0 <= c ->
  (forall m n l, okmat N L m -> (n < N)%nat -> (l < L)%nat -> Rabs (a m n l - a' m n l) <= c) ->
  okmat N L m -> (forall q, In q cs -> In q (cells N L)) -> Rabs (expect a cs m - expect a' cs m) <= INR (List.length cs) * c.
Proof.
  intros Ha Ha' Hc H. revert m. induction cs as [|[n l] cs IH]; intros m Hm Hin; [cbn; rewrite Rminus_diag_eq by reflexivity; rewrite Rabs_R0; lra|].
  destruct (proj1 (in_cells n l N L) (Hin _ (or_introl eq_refl))) as [Hn Hl]. assert (Hin' : forall q, In q cs -> In q (cells N L)) by (intros; apply Hin; right; assumption).
  cbn [expect List.length]. rewrite S_INR. pose proof (IH m Hm Hin') as I1. destruct (_ =? 1)%Z; [lra|].
  pose proof (IH (flip_cell n l m) (flip_ok N L n l m Hm Hn Hl) Hin') as I2. specialize (H m n l Hm Hn Hl).
  pose proof (expect_range a' cs m Ha') as R1. pose proof (expect_range a' cs (flip_cell n l m) Ha') as R2. pose proof (Ha m n l) as A1.
  apply Rabs_le_inv' in I1, I2, H. apply Rabs_le'.
  set (x := expect a cs m) in *. set (x' := expect a' cs m) in *. set (y := expect a cs (flip_cell n l m)) in *. set (y' := expect a' cs (flip_cell n l m)) in *. set (p := a m n l) in *. set (p' := a' m n l) in *. set (k := INR (List.length cs)) in *.
  assert (E : p * y + (1 - p) * x - (p' * y' + (1 - p') * x') = p * (y - y') + (1 - p) * (x - x') + (p - p') * (y' - x')) by ring. rewrite E.
  assert (- 1 <= y' - x' <= 1) by lra. assert (- (k * c) <= p * (y - y') + (1 - p) * (x - x') <= k * c) by (split; nra). assert (- c <= (p - p') * (y' - x') <= c) by (split; nra). lra.
Qed.
Lemma run_expect (step : mat -> nat -> nat -> R -> mat) a cs m : (forall m n l, 0 <= a m n l <= 1) ->
  (forall m n l r, okmat N L m -> (n < N)%nat -> (l < L)%nat -> 0 <= r < 1 -> step m n l r = if (at2 fixed n l =? 1)%Z then m else if Rltb r (a m n l) then flip_cell n l m else m) ->
  okmat N L m -> (forall q, In q cs -> In q (cells N L)) -> is_E (List.length cs) (fun rs => h (crun step cs rs m)) (expect a cs m).
Proof.
  intros Ha Hs. revert m. induction cs as [|[n l] cs IH]; intros m Hm Hin; [reflexivity|].
  destruct (proj1 (in_cells n l N L) (Hin _ (or_introl eq_refl))) as [Hn Hl]. assert (Hin' : forall q, In q cs -> In q (cells N L)) by (intros; apply Hin; right; assumption).
  cbn [List.length is_E expect crun]. destruct (at2 fixed n l =? 1)%Z eqn:F.
  - exists (fun _ => expect a cs m). split; [|apply is_RInt_01_const]. intros r Hr. rewrite Hs by (try assumption; lra). rewrite F. apply IH; assumption.
  - exists (fun r => if Rltb r (a m n l) then expect a cs (flip_cell n l m) else expect a cs m). split; [|apply is_RInt_step, Ha].
    intros r Hr. rewrite Hs by (try assumption; lra). rewrite F. destruct (Rltb r (a m n l)); [apply IH; [apply flip_ok; assumption|exact Hin']|apply IH; assumption].
Qed.
Lemma grid_expect M (step : mat -> nat -> nat -> R -> mat) a cs m : (0 < M)%nat ->
  (forall m n l r, okmat N L m -> (n < N)%nat -> (l < L)%nat -> 0 <= r < 1 -> step m n l r = if (at2 fixed n l =? 1)%Z then m else if Rltb r (a m n l) then flip_cell n l m else m) ->
  okmat N L m -> (forall q, In q cs -> In q (cells N L)) -> grid_mean M (List.length cs) (fun rs => h (crun step cs rs m)) = expect (fun m n l => grid_prob M (a m n l)) cs m.
Proof.
  intros HM Hs. assert (P : 0 < INR M) by (apply lt_0_INR; exact HM). revert m. induction cs as [|[n l] cs IH]; intros m Hm Hin; [reflexivity|].
  destruct (proj1 (in_cells n l N L) (Hin _ (or_introl eq_refl))) as [Hn Hl]. assert (Hin' : forall q, In q cs -> In q (cells N L)) by (intros; apply Hin; right; assumption).
  cbn [List.length grid_mean expect crun].
  assert (G : forall j, In j (seq 0 M) -> 0 <= INR j / INR M < 1).
  { intros j Hj. apply in_seq in Hj. assert (INR j < INR M) by (apply lt_INR; lia). pose proof (pos_INR j). split; [apply Rmult_le_pos; [assumption|left; apply Rinv_0_lt_compat; exact P]|]. apply Rmult_lt_reg_r with (INR M); [exact P|]. field_simplify; lra. }
  destruct (at2 fixed n l =? 1)%Z eqn:F.
  - rewrite (Rsum_ext _ (fun _ => expect (fun m n l => grid_prob M (a m n l)) cs m)).
    + rewrite Rsum_const, seq_length. field. lra.
    + intros j Hj. rewrite <- (IH m Hm Hin'). rewrite Hs by (try assumption; apply G; exact Hj). rewrite F. reflexivity.
  - rewrite <- (grid_step M (a m n l) _ _ HM). f_equal. apply Rsum_ext. intros j Hj. rewrite Hs by (try assumption; apply G; exact Hj). rewrite F.
    destruct (Rltb (INR j / INR M) (a m n l)); [apply IH; [apply flip_ok; assumption|exact Hin']|apply IH; assumption].
Qed.
End Expect.
