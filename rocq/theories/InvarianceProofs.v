From Coq Require Import String Lra Permutation FunctionalExtensionality.
From Coquelicot Require Import RInt Hierarchy.
From Verif Require Import Base BaseLemmas BaseR BaseRLemmas Spec SpecR Sampling SamplingProofs Invariance.
Local Open Scope R_scope.

(** Integral of a two-valued step function. *)
Lemma is_RInt_step (a u v : R) : 0 <= a <= 1 ->
  is_RInt (fun r => if Rltb r a then u else v) 0 1 (a * u + (1 - a) * v).
Proof.
  intros Ha. replace (a * u + (1 - a) * v) with (@plus R_NormedModule (@scal _ R_NormedModule (a - 0) u) (@scal _ R_NormedModule (1 - a) v))
    by (unfold plus, scal; simpl; unfold mult; simpl; lra).
  apply (@is_RInt_Chasles R_NormedModule _ 0 a 1).
  - apply (@is_RInt_ext R_NormedModule (fun _ => u)); [|apply @is_RInt_const].
    intros x. rewrite Rmin_left, Rmax_right by lra. intros Hx. destruct (Rltb_spec x a); [reflexivity|lra].
  - apply (@is_RInt_ext R_NormedModule (fun _ => v)); [|apply @is_RInt_const].
    intros x. rewrite Rmin_left, Rmax_right by lra. intros Hx. destruct (Rltb_spec x a); [lra|reflexivity].
Qed.
Lemma RInt_step (a u v : R) : 0 <= a <= 1 -> RInt (fun r => if Rltb r a then u else v) 0 1 = a * u + (1 - a) * v.
Proof. intros H. apply (@is_RInt_unique R_CompleteNormedModule), is_RInt_step, H. Qed.
Lemma RInt_01_const (k : R) : RInt (fun _ => k) 0 1 = k.
Proof. rewrite (RInt_const (V := R_CompleteNormedModule)). unfold scal; simpl; unfold mult; simpl. lra. Qed.

Lemma RInt_01_ext (f g : R -> R) : (forall r, 0 < r < 1 -> f r = g r) -> RInt f 0 1 = RInt g 0 1.
Proof.
  intros H. apply (RInt_ext (V := R_CompleteNormedModule)). intros x. rewrite Rmin_left, Rmax_right by lra. apply H.
Qed.

Lemma is_RInt_01_const (k : R) : is_RInt (fun _ => k) 0 1 k.
Proof.
  assert (E : scal (1 - 0) (k : R_NormedModule) = k) by (unfold scal; simpl; unfold mult; simpl; lra).
  pose proof (is_RInt_const (V := R_NormedModule) 0 1 k) as H. rewrite E in H. exact H.
Qed.

(** Expectation as a function. *)
Fixpoint Edraws (k : nat) (f : list R -> R) : R :=
  match k with
  | O => f []
  | S k' => RInt (fun r => Edraws k' (fun rs => f (r :: rs))) 0 1
  end.

(** * The state space *)
Lemma in_all_vecs L v : In v (all_vecs L) <-> List.length v = L /\ bin1 v.
Proof.
  revert v. induction L as [|L IH]; intros v; simpl.
  - split; [intros [<-|[]]; split; [reflexivity|constructor]|].
    intros [H _]. destruct v; [left; reflexivity|discriminate].
  - rewrite in_flat_map. split.
    + intros (w & Hw & Hv). apply IH in Hw. destruct Hw as [Hl Hb]. unfold bin1, pm1.
      destruct Hv as [<-|[<-|[]]]; (split; [simpl; congruence|constructor; auto]).
    + intros [Hl Hb]. destruct v as [|a v]; [discriminate|]. inversion Hb as [|? ? Ha Hb']; subst.
      exists v. split; [apply IH; split; [simpl in Hl; lia|exact Hb']|].
      destruct Ha as [-> | ->]; simpl; auto.
Qed.
Lemma nodup_flat {A B} (h : A -> list B) l : NoDup l -> (forall a, In a l -> NoDup (h a)) ->
  (forall a a' b, In a l -> In a' l -> In b (h a) -> In b (h a') -> a = a') -> NoDup (flat_map h l).
Proof.
  induction l as [|a l IH]; intros Hl Hh Hd; [constructor|]. simpl. inversion Hl; subst.
  assert (G : forall (x y : list B), NoDup x -> NoDup y -> (forall b, In b x -> ~ In b y) -> NoDup (x ++ y)).
  { induction x as [|c x IHx]; intros y Hx Hy Hn; [exact Hy|]. simpl. inversion Hx; subst. constructor.
    - rewrite in_app_iff. intros [C|C]; [contradiction|]. exact (Hn c (or_introl eq_refl) C).
    - apply IHx; auto. intros b Hb. apply Hn. right; exact Hb. }
  apply G.
  - apply Hh. left; reflexivity.
  - apply IH; auto. intros a' Ha'. apply Hh. right; exact Ha'.
    intros a1 a2 b H3 H4. apply Hd; right; assumption.
  - intros b Hb Hb'. apply in_flat_map in Hb'. destruct Hb' as (a' & Ha' & Hb').
    assert (a = a') by (apply (Hd a a' b); auto; [left; reflexivity|right; exact Ha']). subst. contradiction.
Qed.
Lemma nodup_all_vecs L : NoDup (all_vecs L).
Proof.
  induction L as [|L IH]; simpl; [repeat constructor; intros []|].
  apply nodup_flat; [exact IH| |].
  - intros v _. repeat constructor; simpl; [intros [E|[]]; discriminate|intros []].
  - intros a a' b _ _ [<-|[<-|[]]] [E|[E|[]]]; congruence.
Qed.
Lemma in_all_mats N L m : In m (all_mats N L) <-> okmat N L m.
Proof.
  revert m. induction N as [|N IH]; intros m; simpl.
  - split; [intros [<-|[]]; split; [split; [reflexivity|constructor]|constructor]|].
    intros [[H _] _]. destruct m; [left; reflexivity|discriminate].
  - rewrite in_flat_map. split.
    + intros (w & Hw & Hv). apply IH in Hw. apply in_map_iff in Hv. destruct Hv as (v & <- & Hv).
      apply in_all_vecs in Hv. destruct Hw as [[Hw1 Hw2] Hw3]. split; [split|].
      * simpl. lia.
      * constructor; [apply Hv|exact Hw2].
      * constructor; [apply Hv|exact Hw3].
    + intros [[H1 H2] H3]. destruct m as [|v m]; [discriminate|]. inversion H2; subst. inversion H3; subst.
      exists m. split; [apply IH; split; [split; [simpl in H1; lia|assumption]|assumption]|].
      apply in_map_iff. exists v. split; [reflexivity|]. apply in_all_vecs. split; [reflexivity|assumption].
Qed.
Lemma nodup_all_mats N L : NoDup (all_mats N L).
Proof.
  induction N as [|N IH]; simpl; [repeat constructor; intros []|].
  apply nodup_flat; [exact IH| |].
  - intros m _. apply FinFun.Injective_map_NoDup; [intros a b E; congruence|apply nodup_all_vecs].
  - intros a a' b _ _ H H'. apply in_map_iff in H, H'. destruct H as (v & <- & _), H' as (v' & E & _). congruence.
Qed.

(** Flipping a cell is a bijection of the state space. *)
Definition flip_cell (n l : nat) (Z_ : mat) : mat := set2 Z_ n l (- at2 Z_ n l)%Z.

Lemma set2_at2 Z_ n l : set2 Z_ n l (at2 Z_ n l) = Z_.
Proof. unfold set2, at2, at1. rewrite upd_nth_same. unfold row. apply upd_nth_same. Qed.
Lemma set2_set2 Z_ n l x y : set2 (set2 Z_ n l x) n l y = set2 Z_ n l y.
Proof.
  unfold set2. destruct (Nat.lt_ge_cases n (List.length Z_)) as [H|H].
  - rewrite upd_upd_same. unfold row. rewrite nth_upd_same by exact H. rewrite upd_upd_same. reflexivity.
  - rewrite !upd_oob by (rewrite ?upd_length; exact H). reflexivity.
Qed.
Lemma at2_set2_same Z_ N L n l x : has_shape2 Z_ N L -> (n < N)%nat -> (l < L)%nat -> at2 (set2 Z_ n l x) n l = x.
Proof. intros H Hn Hl. rewrite (at2_set2 Z_ N L) by assumption. rewrite !Nat.eqb_refl. reflexivity. Qed.

Lemma flip_ok N L n l Z_ : okmat N L Z_ -> (n < N)%nat -> (l < L)%nat -> okmat N L (flip_cell n l Z_).
Proof.
  intros H Hn Hl. apply okmat_set; [exact H|]. destruct (okmat_pm N L Z_ n l H Hn Hl) as [-> | ->]; unfold pm1; auto.
Qed.
Lemma flip_flip N L n l Z_ : okmat N L Z_ -> (n < N)%nat -> (l < L)%nat -> flip_cell n l (flip_cell n l Z_) = Z_.
Proof.
  intros H Hn Hl. unfold flip_cell. rewrite (at2_set2_same Z_ N L) by (try assumption; apply H).
  rewrite set2_set2, Z.opp_involutive. apply set2_at2.
Qed.
Lemma flip_perm N L n l : (n < N)%nat -> (l < L)%nat ->
  Permutation (map (flip_cell n l) (all_mats N L)) (all_mats N L).
Proof.
  intros Hn Hl. apply NoDup_Permutation.
  - assert (G : forall ls, NoDup ls -> (forall m, In m ls -> okmat N L m) -> NoDup (map (flip_cell n l) ls)).
    { induction ls as [|a ls IH]; intros Hd Hk; simpl; [constructor|]. inversion Hd; subst. constructor.
      - rewrite in_map_iff. intros (b & E & Hb). assert (a = b); [|congruence].
        rewrite <- (flip_flip N L n l a), <- (flip_flip N L n l b); auto; [congruence| |]; apply Hk; simpl; auto.
      - apply IH; auto. intros; apply Hk; right; assumption. }
    apply G; [apply nodup_all_mats|]. intros m. apply in_all_mats.
  - apply nodup_all_mats.
  - intros m. rewrite in_map_iff. split.
    + intros (b & <- & Hb). apply in_all_mats. apply in_all_mats in Hb. apply flip_ok; assumption.
    + intros Hm. apply in_all_mats in Hm. exists (flip_cell n l m). split; [apply (flip_flip N L); assumption|].
      apply in_all_mats. apply flip_ok; assumption.
Qed.
Lemma sum_flip N L n l f : (n < N)%nat -> (l < L)%nat ->
  Rsum (fun m => f (flip_cell n l m)) (all_mats N L) = Rsum f (all_mats N L).
Proof. intros Hn Hl. rewrite <- (Rsum_map (flip_cell n l)). apply Rsum_perm, flip_perm; assumption. Qed.

(** * One cell *)
(** Acceptance probability. *)
Definition acc (w : mat -> R) (Z_ : mat) (n l : nat) : R :=
  Rmin 1 (exp (- IZR (at2 Z_ n l) * log_odds w Z_ n l)).

Lemma acc_range w Z_ n l : 0 <= acc w Z_ n l <= 1.
Proof.
  unfold acc. split; [|apply Rmin_l]. apply Rmin_glb; [lra|]. left; apply exp_pos.
Qed.

(** P(flip)/P(stay) *)
Lemma odds_ratio w N L Z_ n l : okmat N L Z_ -> (n < N)%nat -> (l < L)%nat -> (forall m, okmat N L m -> 0 < w m) ->
  exp (- IZR (at2 Z_ n l) * log_odds w Z_ n l) = w (flip_cell n l Z_) / w Z_.
Proof.
  intros H Hn Hl Hw. unfold log_odds, flip_cell.
  assert (H1 : 0 < w (set2 Z_ n l 1)) by (apply Hw, okmat_set; [exact H|unfold pm1; auto]).
  assert (H2 : 0 < w (set2 Z_ n l (-1))) by (apply Hw, okmat_set; [exact H|unfold pm1; auto]).
  rewrite <- (set2_at2 Z_ n l) at 6.
  destruct (okmat_pm N L Z_ n l H Hn Hl) as [E | E]; rewrite E; cbn [Z.opp].
  - replace (- (1) * (ln (w (set2 Z_ n l 1)) - ln (w (set2 Z_ n l (-1)))))
      with (ln (w (set2 Z_ n l (-1))) - ln (w (set2 Z_ n l 1))) by ring.
    rewrite <- ln_div by assumption. apply exp_ln. apply Rdiv_lt_0_compat; assumption.
  - replace (- (-1) * (ln (w (set2 Z_ n l 1)) - ln (w (set2 Z_ n l (-1)))))
      with (ln (w (set2 Z_ n l 1)) - ln (w (set2 Z_ n l (-1)))) by ring.
    rewrite <- ln_div by assumption. apply exp_ln. apply Rdiv_lt_0_compat; assumption.
Qed.

Lemma detailed_balance w N L Z_ n l : okmat N L Z_ -> (n < N)%nat -> (l < L)%nat ->
  (forall m, okmat N L m -> 0 < w m) ->
  w Z_ * acc w Z_ n l = w (flip_cell n l Z_) * acc w (flip_cell n l Z_) n l.
Proof.
  intros H Hn Hl Hw. unfold acc.
  rewrite (odds_ratio w N L Z_), (odds_ratio w N L (flip_cell n l Z_)) by (try assumption; apply flip_ok; assumption).
  rewrite (flip_flip N L) by assumption.
  pose proof (Hw _ H) as P1. pose proof (Hw _ (flip_ok N L n l Z_ H Hn Hl)) as P2.
  set (a := w Z_) in *. set (b := w (flip_cell n l Z_)) in *. clearbody a b.
  assert (E : forall x y, 0 < x -> 0 < y -> x * Rmin 1 (y / x) = Rmin x y).
  { intros x y Hx Hy. unfold Rmin. destruct (Rle_dec 1 (y / x)) as [A|A], (Rle_dec x y) as [B|B].
    - lra.
    - exfalso. apply B. apply (Rmult_le_compat_l x) in A; [|lra]. replace (x * (y / x)) with y in A by (field; lra). lra.
    - exfalso. apply A. apply (Rmult_le_reg_l x); [lra|]. replace (x * (y / x)) with y by (field; lra). lra.
    - field. lra. }
  rewrite !E by assumption. apply Rmin_comm.
Qed.

Lemma mg_cell_expect w N L Z_ n l (g : mat -> R) : okmat N L Z_ -> (n < N)%nat -> (l < L)%nat ->
  RInt (fun r => g (set2 Z_ n l (mg_flip (log_odds w Z_ n l) (at2 Z_ n l) r))) 0 1 =
  acc w Z_ n l * g (flip_cell n l Z_) + (1 - acc w Z_ n l) * g Z_.
Proof.
  intros H Hn Hl. rewrite <- (RInt_step _ _ _ (acc_range w Z_ n l)). apply RInt_01_ext. intros r _.
  unfold mg_flip, acc. destruct (Rltb _ _); [reflexivity|]. rewrite set2_at2. reflexivity.
Qed.

Lemma mg_cell_invariant w N L n l (g : mat -> R) : (n < N)%nat -> (l < L)%nat ->
  (forall m, okmat N L m -> 0 < w m) ->
  Rsum (fun m => w m * RInt (fun r => g (set2 m n l (mg_flip (log_odds w m n l) (at2 m n l) r))) 0 1)
    (all_mats N L) = Rsum (fun m => w m * g m) (all_mats N L).
Proof.
  intros Hn Hl Hw.
  transitivity (Rsum (fun m => w (flip_cell n l m) * acc w (flip_cell n l m) n l * g (flip_cell n l m)
      + (w m * g m - w m * acc w m n l * g m)) (all_mats N L)).
  { apply Rsum_ext. intros m Hm. apply in_all_mats in Hm. rewrite (mg_cell_expect w N L) by assumption.
    rewrite <- (detailed_balance w N L) by assumption. ring. }
  rewrite Rsum_add, Rsum_sub.
  rewrite (sum_flip N L n l (fun m => w m * acc w m n l * g m)) by assumption. lra.
Qed.

(** * A sweep over a list of cells, one draw each *)
Fixpoint run (w : mat -> R) (fixed : mat) (cs : list (nat * nat)) (rs : list R) (Z_ : mat) : mat :=
  match cs, rs with
  | (n, l) :: cs', r :: rs' =>
      run w fixed cs' rs' (if (at2 fixed n l =? 1)%Z then Z_
                           else set2 Z_ n l (mg_flip (log_odds w Z_ n l) (at2 Z_ n l) r))
  | _, _ => Z_
  end.

Lemma run_invariant w N L fixed cs (h : mat -> R) : (forall m, okmat N L m -> 0 < w m) ->
  (forall c, In c cs -> In c (cells N L)) ->
  Rsum (fun m => w m * Edraws (List.length cs) (fun rs => h (run w fixed cs rs m))) (all_mats N L) =
  Rsum (fun m => w m * h m) (all_mats N L).
Proof.
  intros Hw. revert h. induction cs as [|[n l] cs IH]; intros h Hc; [reflexivity|].
  destruct (proj1 (in_cells n l N L) (Hc _ (or_introl eq_refl))) as [Hn Hl].
  assert (Hc' : forall c, In c cs -> In c (cells N L)) by (intros; apply Hc; right; assumption).
  simpl Edraws. pose (g := fun m => Edraws (List.length cs) (fun rs => h (run w fixed cs rs m))).
  destruct (at2 fixed n l =? 1)%Z eqn:E.
  - transitivity (Rsum (fun m => w m * g m) (all_mats N L)); [|apply IH; exact Hc'].
    apply Rsum_ext. intros m _. f_equal. unfold g. rewrite <- RInt_01_const. apply RInt_01_ext. intros r _.
    simpl run. try rewrite E. reflexivity.
  - transitivity (Rsum (fun m => w m * RInt (fun r => g (set2 m n l (mg_flip (log_odds w m n l) (at2 m n l) r))) 0 1)
      (all_mats N L)).
    + apply Rsum_ext. intros m _. apply f_equal. apply RInt_01_ext. intros r _. try rewrite E. reflexivity.
    + rewrite (mg_cell_invariant w N L n l g) by assumption. apply IH; exact Hc'.
Qed.

(** The reference sweep as a run over the list of all its draws. *)
Lemma nth_cells N L n l : (n < N)%nat -> (l < L)%nat -> nth (n * L + l) (cells N L) (0, 0)%nat = (n, l).
Proof.
  unfold cells. intros Hn Hl.
  assert (G : forall s N n, (n < N)%nat ->
     nth (n * L + l) (list_prod (seq s N) (seq 0 L)) (0, 0)%nat = ((s + n)%nat, l)).
  { clear n N Hn. intros s N. revert s. induction N as [|N IH]; intros s n Hn; [lia|]. simpl list_prod.
    destruct n as [|n].
    - rewrite app_nth1 by (rewrite map_length, seq_length; lia).
      rewrite (nth_indep _ _ (s, 0%nat)) by (rewrite map_length, seq_length; lia).
      rewrite (map_nth (fun y => (s, y)) (seq 0 L) 0%nat). rewrite seq_nth by lia. f_equal; lia.
    - rewrite app_nth2 by (rewrite map_length, seq_length; lia). rewrite map_length, seq_length.
      replace (S n * L + l - L)%nat with (n * L + l)%nat by lia. rewrite IH by lia. f_equal; lia. }
  apply (G 0%nat N n Hn).
Qed.
Lemma cells_length N L : List.length (cells N L) = (N * L)%nat.
Proof. unfold cells. rewrite prod_length, !seq_length. reflexivity. Qed.
Lemma cells_nth_inv N L k : (k < N * L)%nat ->
  nth k (cells N L) (0, 0)%nat = (k / L, k mod L)%nat.
Proof.
  intros Hk. assert (HL : L <> 0%nat) by nia.
  rewrite (Nat.div_mod k L HL) at 1. rewrite (Nat.mul_comm L). apply nth_cells.
  - apply Nat.div_lt_upper_bound; [exact HL|lia].
  - apply Nat.mod_upper_bound; exact HL.
Qed.

Lemma ref_sweep_run w fixed N L rs Z_ : List.length rs = (N * L)%nat ->
  ref_sweep w fixed (draws_of L rs) N L Z_ = run w fixed (cells N L) rs Z_.
Proof.
  intros Hlen. unfold ref_sweep.
  assert (G : forall k cs rs' Z_, cs = skipn k (cells N L) -> rs' = skipn k rs -> (k + List.length cs = N * L)%nat ->
     fold_left (fun Zc '(n, l) => if (at2 fixed n l =? 1)%Z then Zc
       else set2 Zc n l (mg_flip (log_odds w Zc n l) (at2 Zc n l) (draws_of L rs n l))) cs Z_ = run w fixed cs rs' Z_).
  { intros k cs. revert k. induction cs as [|[n l] cs IH]; intros k rs' Z0 Ecs Ers Hk; [reflexivity|].
    simpl in Hk.
    assert (Hnth : nth k (cells N L) (0, 0)%nat = (n, l)).
    { rewrite <- (firstn_skipn k (cells N L)), <- Ecs. rewrite app_nth2; rewrite firstn_length, cells_length; [|lia].
      replace (k - Nat.min k (N * L))%nat with 0%nat by lia. reflexivity. }
    rewrite cells_nth_inv in Hnth by lia. injection Hnth as En El.
    assert (HL : L <> 0%nat) by nia.
    assert (Ed : draws_of L rs n l = nth k rs 0).
    { unfold draws_of. f_equal. rewrite <- En, <- El. rewrite (Nat.mul_comm _ L). symmetry. apply Nat.div_mod. exact HL. }
    assert (Er : rs' = nth k rs 0 :: skipn (S k) rs).
    { rewrite Ers. clear - Hlen Hk. assert (Hk' : (k < List.length rs)%nat) by lia. clear - Hk'. revert k Hk'.
      induction rs as [|a rs IH]; intros k Hk; [simpl in Hk; lia|]. destruct k as [|k]; [reflexivity|].
      simpl. apply IH. simpl in Hk; lia. }
    rewrite Er. simpl. rewrite Ed. apply (IH (S k)).
    - clear - Ecs. revert k Ecs. generalize (cells N L). intros c. induction c as [|a c IHc]; intros k E.
      + destruct k; discriminate.
      + destruct k as [|k]; [simpl in *; congruence|]. simpl in E. apply IHc in E. exact E.
    - reflexivity.
    - lia. }
  apply (G 0%nat); [reflexivity|reflexivity|]. rewrite cells_length. reflexivity.
Qed.

Lemma Edraws_ext k f g : (forall rs, List.length rs = k -> Forall is_draw rs -> f rs = g rs) -> Edraws k f = Edraws k g.
Proof.
  revert f g. induction k as [|k IH]; intros f g H; simpl; [apply H; [reflexivity|constructor]|].
  apply RInt_01_ext. intros r Hr. apply IH. intros rs Hl HF. apply H; [simpl; congruence|].
  constructor; [unfold is_draw; lra|exact HF].
Qed.

Lemma ref_sweep_invariant w N L fixed (h : mat -> R) : (forall m, okmat N L m -> 0 < w m) ->
  Rsum (fun m => w m * Edraws (N * L) (fun rs => h (ref_sweep w fixed (draws_of L rs) N L m))) (all_mats N L) =
  Rsum (fun m => w m * h m) (all_mats N L).
Proof.
  intros Hw. rewrite <- (run_invariant w N L fixed (cells N L) h Hw) by auto. rewrite cells_length.
  apply Rsum_ext. intros m Hm. f_equal. apply Edraws_ext. intros rs Hl _. rewrite ref_sweep_run by exact Hl. reflexivity.
Qed.

Lemma draws_of_ok N L rs : List.length rs = (N * L)%nat -> Forall is_draw rs -> draws_ok (draws_of L rs) N L.
Proof.
  intros Hl HF n l Hn Hl'. unfold draws_of. apply (Forall_nth' _ rs _ 0 HF). nia.
Qed.

(** * Existence of the expectations *)
Lemma is_E_ext k f g v : (forall rs, List.length rs = k -> Forall is_draw rs -> f rs = g rs) -> is_E k f v -> is_E k g v.
Proof.
  revert f g v. induction k as [|k IH]; intros f g v H; cbn [is_E].
  - intros <-. symmetry. apply H; [reflexivity|constructor].
  - intros (e & He & HI). exists e. split; [|exact HI]. intros r Hr. apply (IH (fun rs => f (r :: rs))); [|apply He, Hr].
    intros rs Hl HF. apply H; [cbn; congruence|]. constructor; [unfold is_draw; lra|exact HF].
Qed.
Lemma is_E_const k c : is_E k (fun _ => c) c.
Proof.
  induction k as [|k IH]; [reflexivity|]. exists (fun _ => c). split; [intros; exact IH|]. apply is_RInt_01_const.
Qed.
Lemma run_is_E w fixed cs (h : mat -> R) m :
  is_E (List.length cs) (fun rs => h (run w fixed cs rs m)) (Edraws (List.length cs) (fun rs => h (run w fixed cs rs m))).
Proof.
  revert m. induction cs as [|[n l] cs IH]; intros m; [reflexivity|]. cbn [List.length is_E Edraws run].
  destruct (at2 fixed n l =? 1)%Z.
  - exists (fun _ => Edraws (List.length cs) (fun rs => h (run w fixed cs rs m))).
    split; [intros; apply IH|]. rewrite RInt_01_const. apply is_RInt_01_const.
  - pose (g := fun m => Edraws (List.length cs) (fun rs => h (run w fixed cs rs m))).
    exists (fun r => g (set2 m n l (mg_flip (log_odds w m n l) (at2 m n l) r))).
    split; [intros; apply IH|]. apply (@RInt_correct R_CompleteNormedModule).
    pose (a := Rmin 1 (exp (- IZR (at2 m n l) * log_odds w m n l))).
    assert (Ha : 0 <= a <= 1).
    { unfold a. split; [|apply Rmin_l]. apply Rmin_glb; [lra|]. left; apply exp_pos. }
    apply (@ex_RInt_ext R_NormedModule (fun r => if Rltb r a then g (set2 m n l (- at2 m n l)%Z) else g (set2 m n l (at2 m n l)))).
    + intros x _. unfold mg_flip. fold a. destruct (Rltb x a); reflexivity.
    + eexists. apply is_RInt_step, Ha.
Qed.
Lemma ref_sweep_is_E w fixed N L (h : mat -> R) m :
  is_E (N * L) (fun rs => h (ref_sweep w fixed (draws_of L rs) N L m))
       (Edraws (N * L) (fun rs => h (ref_sweep w fixed (draws_of L rs) N L m))).
Proof.
  rewrite <- (cells_length N L).
  assert (X : Edraws (List.length (cells N L)) (fun rs => h (ref_sweep w fixed (draws_of L rs) N L m)) =
              Edraws (List.length (cells N L)) (fun rs => h (run w fixed (cells N L) rs m))).
  { apply Edraws_ext. intros rs Hl _. rewrite cells_length in Hl. rewrite ref_sweep_run by exact Hl. reflexivity. }
  rewrite X. apply (is_E_ext _ (fun rs => h (run w fixed (cells N L) rs m))); [|apply run_is_E].
  intros rs Hl _. rewrite cells_length in Hl. rewrite ref_sweep_run by exact Hl. reflexivity.
Qed.
