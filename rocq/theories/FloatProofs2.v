(** Rounding errors of the loops and terms of FloatFuzzy.v. *)
From Coq Require Import Lra Psatz.
From Verif Require Import Base BaseR Fuzzy FloatFuzzy FloatProofs.
Local Open Scope R_scope.

Lemma in01_mul x y : in01 x -> in01 y -> in01 (x * y).
Proof. unfold in01. nra. Qed.
Lemma in01_sub x : in01 x -> in01 (1 - x).
Proof. unfold in01. lra. Qed.
Lemma in01_1 : in01 1. Proof. unfold in01. lra. Qed.
Lemma near_pos k x y : near k x y -> 0 <= k.
Proof. unfold near. intros H. pose proof (Rabs_pos (x - y)). pose proof eps_pos. nra. Qed.

(** ** Loops *)
Lemma prod_near (g h : nat -> R) c : 0 <= c -> c * eps <= / 4 -> forall ls, (forall l, In l ls -> in01 (g l) /\ near c (h l) (g l)) ->
  forall x y k, in01 y -> near k x y -> (k + (2 * c + 2) * INR (List.length ls)) * eps <= / 2 ->
  near (k + (2 * c + 2) * INR (List.length ls)) (fold_left (fun o l => rnd (o * h l)) ls x) (fold_left (fun o l => o * g l) ls y) /\ in01 (fold_left (fun o l => o * g l) ls y).
Proof.
  intros Hc Hs. pose proof eps_pos as P. induction ls as [|l ls IH]; intros H x y k Hy Hk HB.
  - cbn [fold_left List.length INR]. split; [|exact Hy]. apply (near_weaken k); [lra|exact Hk].
  - cbn [fold_left]. destruct (H l (or_introl eq_refl)) as (G1 & G2). assert (EL : INR (List.length (l :: ls)) = INR (List.length ls) + 1) by (cbn [List.length]; apply S_INR). rewrite EL in *.
    pose proof (pos_INR (List.length ls)) as PL. pose proof (near_pos _ _ _ Hk) as Pk. assert (Q : 0 <= (2 * c + 2) * INR (List.length ls)) by (apply Rmult_le_pos; lra). assert (Qe : 0 <= (2 * c + 2) * INR (List.length ls) * eps) by (apply Rmult_le_pos; lra).
    assert (Ke : k * eps <= / 2) by nra. pose proof (near_bound _ _ _ _ Hk Hy Ke) as Bx. pose proof (near_bound _ _ _ _ G2 G1 Hs) as Bh.
    assert (Bp : Rabs (x * h l) <= 2) by (rewrite Rabs_mult; pose proof (Rabs_pos x); pose proof (Rabs_pos (h l)); nra).
    assert (Hk' : near (k + (2 * c + 2)) (rnd (x * h l)) (y * g l)). { apply (near_weaken (2 * c + k * 1 + 2)); [lra|]. apply near_rnd; [apply near_mul; [exact Hk|exact G2|lra|apply in01_abs, G1]|lra|exact Bp]. }
    replace (k + (2 * c + 2) * (INR (List.length ls) + 1)) with (k + (2 * c + 2) + (2 * c + 2) * INR (List.length ls)) in * by ring.
    apply IH; [intros j Hj; apply H; right; exact Hj|apply in01_mul; assumption|exact Hk'|exact HB].
Qed.
Lemma sum_near (t s : nat -> R) d M : d * eps <= 1 -> forall ls, (forall l, In l ls -> in01 (t l) /\ near d (s l) (t l)) ->
  forall x y k, 0 <= y -> y + INR (List.length ls) <= M -> near k x y -> (k + (d + M + 3) * INR (List.length ls)) * eps <= 1 ->
  near (k + (d + M + 3) * INR (List.length ls)) (fold_left (fun o l => rnd (o + s l)) ls x) (fold_left (fun o l => o + t l) ls y).
Proof.
  intros Hd. pose proof eps_pos as P. induction ls as [|l ls IH]; intros H x y k Hy HM Hk HB.
  - cbn [fold_left List.length INR]. apply (near_weaken k); [lra|exact Hk].
  - cbn [fold_left]. destruct (H l (or_introl eq_refl)) as (G1 & G2). assert (EL : INR (List.length (l :: ls)) = INR (List.length ls) + 1) by (cbn [List.length]; apply S_INR). rewrite EL in *.
    pose proof (pos_INR (List.length ls)) as PL. pose proof (near_pos _ _ _ Hk) as Pk. pose proof (near_pos _ _ _ G2) as Pd. assert (Q : 0 <= (d + M + 3) * (INR (List.length ls) + 1)) by (apply Rmult_le_pos; lra). assert (Qe : 0 <= (d + M + 3) * (INR (List.length ls) + 1) * eps) by (apply Rmult_le_pos; lra).
    assert (Ke : k * eps <= 1) by nra. assert (Bx : Rabs x <= y + 1). { unfold near in Hk. replace x with ((x - y) + y) by ring. eapply Rle_trans; [apply Rabs_triang|]. rewrite (Rabs_pos_eq y) by exact Hy. lra. }
    pose proof (near_bound _ _ _ _ G2 G1 Hd) as Bs. assert (Bp : Rabs (x + s l) <= M + 3) by (eapply Rle_trans; [apply Rabs_triang|]; lra).
    assert (Hk' : near (k + (d + M + 3)) (rnd (x + s l)) (y + t l)). { apply (near_weaken (k + d + (M + 3))); [lra|]. apply near_rnd; [apply near_add; assumption|lra|exact Bp]. }
    replace (k + (d + M + 3) * (INR (List.length ls) + 1)) with (k + (d + M + 3) + (d + M + 3) * INR (List.length ls)) in * by ring.
    destruct G1 as (G1 & G1'). apply IH; [intros j Hj; apply H; right; exact Hj|lra|lra|exact Hk'|exact HB].
Qed.
Lemma skip_filter (op : R -> nat -> R) l ls x : fold_left (fun t l' => if negb (Nat.eqb l l') then op t l' else t) ls x = fold_left op (filter (fun l' => negb (Nat.eqb l l')) ls) x.
Proof. revert x. induction ls as [|j ls IH]; intros x; [reflexivity|]. cbn [fold_left filter]. destruct (negb (Nat.eqb l j)); cbn [fold_left]; apply IH. Qed.
Lemma filter_le {A} (f : A -> bool) ls : (List.length (filter f ls) <= List.length ls)%nat.
Proof. induction ls as [|j ls IH]; [reflexivity|]. cbn [filter]. destruct (f j); cbn [List.length]; lia. Qed.

Section Bounds.
  Context (L : nat) (HL : (Z.of_nat L <= 2 ^ 20)%Z).
  Lemma L_bound : 0 <= INR L <= 1048576.
  Proof. split; [apply pos_INR|]. rewrite INR_IZR_INZ. apply IZR_le. exact HL. Qed.
  Lemma c_small c : c <= 100 -> c * eps <= / 4.
  Proof. intros H. pose proof eps_small as E. change (IZR (2 ^ 53)) with 9007199254740992 in E. pose proof eps_pos. nra. Qed.
  Lemma cL_small c : 0 <= c <= 100 -> (2 * c + 2) * INR L * eps <= / 2.
  Proof.
    intros H. pose proof eps_small as E. change (IZR (2 ^ 53)) with 9007199254740992 in E. pose proof eps_pos as P. pose proof L_bound as B. assert ((2 * c + 2) * INR L <= 202 * 1048576) by (apply Rmult_le_compat; lra). nra.
  Qed.
  Lemma or_near (g h : nat -> R) c : 0 <= c <= 100 -> (forall l, (l < L)%nat -> in01 (g l) /\ near c (h l) (g l)) ->
    near ((2 * c + 2) * INR L + 2) (asub double 1 (a_prod double h L)) (asub exact 1 (a_prod exact g L)).
  Proof.
    intros Hc H. cbn [asub double exact]. unfold a_prod. cbn [amul double exact].
    destruct (prod_near g h c (proj1 Hc) (c_small c (proj2 Hc)) (seq 0 L)) with (x := 1) (y := 1) (k := 0) as (N & I); [intros l Hl; apply in_seq in Hl; apply H; lia|apply in01_1|apply near_refl|rewrite seq_length, Rplus_0_l; apply cL_small, Hc|].
    rewrite seq_length, Rplus_0_l in N. apply (near_weaken (0 + (2 * c + 2) * INR L + 2)); [lra|]. apply near_rnd; [apply near_sub; [apply near_refl|exact N]|lra|].
    pose proof (near_bound _ _ _ _ N I (cL_small c Hc)) as B. pose proof (near_sub 0 _ 1 1 _ _ (near_refl 1) N) as N'. pose proof (near_bound _ _ _ (/ 2) N' (in01_sub _ I)) as B'. rewrite Rplus_0_l in B'. specialize (B' (cL_small c Hc)). lra.
  Qed.
  Lemma skip_near (g h : nat -> R) c l : 0 <= c <= 100 -> (forall l, (l < L)%nat -> in01 (g l) /\ near c (h l) (g l)) ->
    near ((2 * c + 2) * INR L) (a_skip double h L l) (a_skip exact g L l) /\ in01 (a_skip exact g L l).
  Proof.
    intros Hc H. unfold a_skip. cbn [amul double exact]. rewrite (skip_filter (fun t l' => rnd (t * h l'))), (skip_filter (fun t l' => t * g l')). set (ls := filter _ _).
    assert (Hlen : INR (List.length ls) <= INR L) by (apply le_INR; eapply Nat.le_trans; [apply filter_le|rewrite seq_length; reflexivity]). pose proof eps_pos as P. pose proof (pos_INR (List.length ls)) as PL. assert (Q : (2 * c + 2) * INR (List.length ls) <= (2 * c + 2) * INR L) by (apply Rmult_le_compat_l; lra).
    destruct (prod_near g h c (proj1 Hc) (c_small c (proj2 Hc)) ls) with (x := 1) (y := 1) (k := 0) as (N & I); [intros j Hj; apply filter_In in Hj; destruct Hj as (Hj & _); apply in_seq in Hj; apply H; lia|apply in01_1|apply near_refl| |].
    - rewrite Rplus_0_l. eapply Rle_trans; [apply Rmult_le_compat_r; [lra|exact Q]|apply cL_small, Hc].
    - split; [|exact I]. rewrite Rplus_0_l in N. apply (near_weaken ((2 * c + 2) * INR (List.length ls))); [exact Q|exact N].
  Qed.
  Lemma xor_near (g h g' h' : nat -> R) c : 0 <= c <= 100 -> (forall l, (l < L)%nat -> in01 (g l) /\ near c (h l) (g l)) -> (forall l, (l < L)%nat -> in01 (g' l) /\ near c (h' l) (g' l)) ->
    near (((2 * (2 * c + 2) + 1) * INR L + c + 5) * INR L) (a_sum double (fun l => amul double (h' l) (a_skip double h L l)) L) (a_sum exact (fun l => amul exact (g' l) (a_skip exact g L l)) L).
  Proof.
    intros Hc H H'. unfold a_sum. cbn [aadd amul double exact]. pose proof L_bound as BL. pose proof eps_pos as P. pose proof eps_small as E. change (IZR (2 ^ 53)) with 9007199254740992 in E.
    set (d := 2 * ((2 * c + 2) * INR L) + c + 2). assert (Hd : 0 <= d <= 404 * 1048576 + 102). { assert (0 <= (2 * c + 2) * INR L <= 202 * 1048576) by (split; [apply Rmult_le_pos; lra|apply Rmult_le_compat; lra]). unfold d. lra. }
    assert (T : forall l, (l < L)%nat -> in01 (g' l * a_skip exact g L l) /\ near d (rnd (h' l * a_skip double h L l)) (g' l * a_skip exact g L l)).
    { intros l Hl. destruct (H' l Hl) as (G1 & G2). destruct (skip_near g h c l Hc H) as (N & I). split; [apply in01_mul; assumption|]. pose proof (near_bound _ _ _ _ G2 G1 (c_small c (proj2 Hc))) as B1. pose proof (near_bound _ _ _ _ N I (cL_small c Hc)) as B2.
      apply near_rnd; [|lra|rewrite Rabs_mult; pose proof (Rabs_pos (h' l)); pose proof (Rabs_pos (a_skip double h L l)); nra]. apply (near_weaken (2 * ((2 * c + 2) * INR L) + c * 1)); [unfold d; lra|]. apply near_mul; [exact G2|exact N|lra|apply in01_abs, I]. }
    assert (D : d * eps <= 1) by nra. assert (B : (d + INR L + 3) * INR L <= (405 * 1048576 + 105) * 1048576) by (apply Rmult_le_compat; lra).
    pose proof (sum_near (fun l => g' l * a_skip exact g L l) (fun l => rnd (h' l * a_skip double h L l)) d (INR L) D (seq 0 L)) as S. rewrite seq_length in S. specialize (S ltac:(intros l Hl; apply in_seq in Hl; apply T; lia) 0 0 0 (Rle_refl 0) ltac:(lra) (near_refl 0)). rewrite Rplus_0_l in S. specialize (S ltac:(nra)).
    replace (((2 * (2 * c + 2) + 1) * INR L + c + 5) * INR L) with ((d + INR L + 3) * INR L) by (unfold d; ring). exact S.
  Qed.
End Bounds.

(** ** Terms *)
Lemma t_sub k x y : near k x y -> in01 x -> near (k + 1) (rnd (1 - x)) (1 - y) /\ in01 (rnd (1 - x)).
Proof.
  intros N I. split; [|apply rnd_01, in01_sub, I]. apply near_rnd; [|lra|apply in01_abs, in01_sub, I]. apply (near_weaken (0 + k)); [lra|]. apply near_sub; [apply near_refl|exact N].
Qed.
Lemma t_mul k k' x y x' y' : near k x y -> near k' x' y' -> in01 x -> in01 x' -> in01 y' -> near (k + k' + 1) (rnd (x * x')) (y * y') /\ in01 (rnd (x * x')).
Proof.
  intros N N' I I' J. split; [|apply rnd_01, in01_mul; assumption]. apply near_rnd; [|lra|apply in01_abs, in01_mul; assumption]. apply (near_weaken (1 * k' + k * 1)); [lra|]. apply near_mul; [exact N|exact N'|apply in01_abs, I|apply in01_abs, J].
Qed.
Lemma t_add k k' B x y x' y' : near k x y -> near k' x' y' -> 1 <= B -> Rabs (x + x') <= B -> near (k + k' + B) (rnd (x + x')) (y + y').
Proof. intros N N' HB H. apply near_rnd; [apply near_add; assumption|exact HB|exact H]. Qed.

Lemma n_and x y : in01 x -> in01 y -> near 1 (rnd (x * y)) (x * y) /\ in01 (rnd (x * y)).
Proof. intros I J. destruct (t_mul 0 0 x x y y (near_refl x) (near_refl y) I J J) as (N & K). split; [apply (near_weaken (0 + 0 + 1)); [lra|exact N]|exact K]. Qed.
Lemma n_nand x y : in01 x -> in01 y -> near 2 (rnd (1 - rnd (x * y))) (1 - x * y) /\ in01 (rnd (1 - rnd (x * y))).
Proof. intros I J. destruct (n_and x y I J) as (N & K). destruct (t_sub _ _ _ N K) as (M & H). split; [apply (near_weaken (1 + 1)); [lra|exact M]|exact H]. Qed.
Lemma n_sub x : in01 x -> near 1 (rnd (1 - x)) (1 - x) /\ in01 (rnd (1 - x)).
Proof. intros I. destruct (t_sub 0 x x (near_refl x) I) as (N & H). split; [apply (near_weaken (0 + 1)); [lra|exact N]|exact H]. Qed.
Lemma n_half x y : in01 x -> in01 y -> near 2 (rnd (x * rnd (1 - y))) (x * (1 - y)) /\ in01 (rnd (x * rnd (1 - y))).
Proof.
  intros I J. destruct (n_sub y J) as (N & K). destruct (t_mul 0 1 x x _ _ (near_refl x) N I K (in01_sub _ J)) as (M & H). split; [apply (near_weaken (0 + 1 + 1)); [lra|exact M]|exact H].
Qed.
Lemma n_none x y : in01 x -> in01 y -> near 3 (rnd (rnd (1 - x) * rnd (1 - y))) ((1 - x) * (1 - y)) /\ in01 (rnd (rnd (1 - x) * rnd (1 - y))).
Proof.
  intros I J. destruct (n_sub x I) as (N & K). destruct (n_sub y J) as (N' & K'). destruct (t_mul 1 1 _ _ _ _ N N' K K' (in01_sub _ J)) as (M & H). split; [apply (near_weaken (1 + 1 + 1)); [lra|exact M]|exact H].
Qed.
Lemma sum01 x y : in01 x -> in01 y -> Rabs (x + y) <= 2.
Proof. unfold in01. intros. rewrite Rabs_pos_eq; lra. Qed.
Lemma n_xor x y : in01 x -> in01 y -> near 6 (rnd (rnd (x * rnd (1 - y)) + rnd (y * rnd (1 - x)))) (x * (1 - y) + y * (1 - x)).
Proof. intros I J. destruct (n_half x y I J) as (N & K). destruct (n_half y x J I) as (N' & K'). apply (near_weaken (2 + 2 + 2)); [lra|]. apply t_add; [exact N|exact N'|lra|apply sum01; assumption]. Qed.
Lemma n_nxor x y : in01 x -> in01 y -> near 6 (rnd (rnd (x * y) + rnd (rnd (1 - x) * rnd (1 - y)))) (x * y + (1 - x) * (1 - y)).
Proof. intros I J. destruct (n_and x y I J) as (N & K). destruct (n_none x y I J) as (N' & K'). apply (near_weaken (1 + 3 + 2)); [lra|]. apply t_add; [exact N|exact N'|lra|apply sum01; assumption]. Qed.
Lemma n_and3 x y w : in01 x -> in01 y -> in01 w -> near 2 (rnd (rnd (x * y) * w)) (x * y * w) /\ in01 (rnd (rnd (x * y) * w)).
Proof. intros I J K. destruct (n_and x y I J) as (N & H). destruct (t_mul 1 0 _ _ w w N (near_refl w) H K K) as (M & G). split; [apply (near_weaken (1 + 0 + 1)); [lra|exact M]|exact G]. Qed.
Lemma n_nand3 x y w : in01 x -> in01 y -> in01 w -> near 3 (rnd (1 - rnd (rnd (x * y) * w))) (1 - x * y * w) /\ in01 (rnd (1 - rnd (rnd (x * y) * w))).
Proof. intros I J K. destruct (n_and3 x y w I J K) as (N & H). destruct (t_sub _ _ _ N H) as (M & G). split; [apply (near_weaken (2 + 1)); [lra|exact M]|exact G]. Qed.
Lemma n_one3 x y w : in01 x -> in01 y -> in01 w -> near 4 (rnd (rnd (x * rnd (1 - y)) * rnd (1 - w))) (x * (1 - y) * (1 - w)) /\ in01 (rnd (rnd (x * rnd (1 - y)) * rnd (1 - w))).
Proof. intros I J K. destruct (n_half x y I J) as (N & H). destruct (n_sub w K) as (N' & H'). destruct (t_mul 2 1 _ _ _ _ N N' H H' (in01_sub _ K)) as (M & G). split; [apply (near_weaken (2 + 1 + 1)); [lra|exact M]|exact G]. Qed.
(** The three summands of NAND-XOR, as the code orders them. *)
Lemma n_xor3 x y w : in01 x -> in01 y -> in01 w ->
  near 17 (rnd (rnd (rnd (rnd (x * rnd (1 - y)) * rnd (1 - w)) + rnd (rnd (w * rnd (1 - x)) * rnd (1 - y))) + rnd (rnd (y * rnd (1 - w)) * rnd (1 - x))))
    (x * (1 - y) * (1 - w) + w * (1 - x) * (1 - y) + y * (1 - w) * (1 - x)).
Proof.
  intros I J K. destruct (n_one3 x y w I J K) as (N1 & H1). destruct (n_one3 w x y K I J) as (N2 & H2). destruct (n_one3 y w x J K I) as (N3 & H3).
  apply (near_weaken (4 + 4 + 2 + 4 + 3)); [lra|]. apply t_add; [apply t_add; [exact N1|exact N2|lra|apply sum01; assumption]|exact N3|lra|].
  assert (B : 0 <= rnd (rnd (rnd (x * rnd (1 - y)) * rnd (1 - w)) + rnd (rnd (w * rnd (1 - x)) * rnd (1 - y))) <= 2). { split; [apply rnd_pos; unfold in01 in *; lra|]. rewrite <- (rnd_int 2) by lia. apply rnd_le. unfold in01 in *. change (IZR 2) with 2. lra. }
  rewrite Rabs_pos_eq; unfold in01 in *; lra.
Qed.
Lemma abs_le x B : - B <= x <= B -> Rabs x <= B.
Proof. intros. apply Rabs_le. assumption. Qed.
Lemma near_range k x y lo hi : near k x y -> lo <= y <= hi -> k <= 100 -> lo - / 4 <= x <= hi + / 4.
Proof. unfold near. intros H B K. pose proof (c_small k K). pose proof (Rle_abs (x - y)). pose proof (Rle_abs (- (x - y))) as H2. rewrite Rabs_Ropp in H2. lra. Qed.
Lemma n_pxor x y w : in01 x -> in01 y -> in01 w -> near 64 (a_p_XOR double x y w) (a_p_XOR exact x y w).
Proof.
  intros I J K. unfold a_p_XOR. cbn [aadd asub amul double exact].
  assert (X : in01 (x * y)) by (apply in01_mul; assumption). assert (Y : in01 (x * y * w)) by (apply in01_mul; assumption). assert (V : in01 (y * w)) by (apply in01_mul; assumption). assert (W : in01 (x * w)) by (apply in01_mul; assumption). unfold in01 in I, J, K, X, Y, V, W.
  assert (A1 : near 3 (rnd (3 * x)) (3 * x)). { apply (near_weaken (0 + 3)); [lra|]. apply near_rnd; [apply near_refl|lra|apply abs_le; lra]. }
  pose proof (near_range _ _ _ 0 3 A1 ltac:(lra) ltac:(lra)) as R1.
  assert (A2 : near 7 (rnd (rnd (3 * x) * y)) (3 * x * y)). { apply (near_weaken (4 * 0 + 3 * 1 + 4)); [lra|]. apply near_rnd; [apply near_mul; [exact A1|apply near_refl|apply abs_le; lra|apply abs_le; lra]|lra|apply abs_le; nra]. }
  pose proof (near_range _ _ _ 0 3 A2 ltac:(lra) ltac:(lra)) as R2.
  assert (A3 : near 11 (rnd (rnd (rnd (3 * x) * y) * w)) (3 * x * y * w)). { apply (near_weaken (4 * 0 + 7 * 1 + 4)); [lra|]. apply near_rnd; [apply near_mul; [exact A2|apply near_refl|apply abs_le; lra|apply abs_le; lra]|lra|apply abs_le; nra]. }
  pose proof (near_range _ _ _ 0 3 A3 ltac:(lra) ltac:(lra)) as R3.
  destruct (n_and x y I J) as (B1 & I1). destruct (n_and y w J K) as (B2 & I2). destruct (n_and x w I K) as (B3 & I3). unfold in01 in I1, I2, I3.
  assert (C1 : near 4 (rnd (rnd (x * y) + rnd (y * w))) (x * y + y * w)). { apply (near_weaken (1 + 1 + 2)); [lra|]. apply t_add; [exact B1|exact B2|lra|apply abs_le; lra]. }
  pose proof (near_range _ _ _ 0 2 C1 ltac:(lra) ltac:(lra)) as S1.
  assert (C2 : near 9 (rnd (rnd (rnd (x * y) + rnd (y * w)) + rnd (x * w))) (x * y + y * w + x * w)). { apply (near_weaken (4 + 1 + 4)); [lra|]. apply t_add; [exact C1|exact B3|lra|apply abs_le; lra]. }
  pose proof (near_range _ _ _ 0 3 C2 ltac:(lra) ltac:(lra)) as S2.
  assert (C3 : near 25 (rnd (2 * rnd (rnd (rnd (x * y) + rnd (y * w)) + rnd (x * w)))) (2 * (x * y + y * w + x * w))). { apply (near_weaken (2 * 9 + 0 * 3 + 7)); [lra|]. apply near_rnd; [apply near_mul; [apply near_refl|exact C2|apply abs_le; lra|apply abs_le; lra]|lra|apply abs_le; lra]. }
  pose proof (near_range _ _ _ 0 6 C3 ltac:(lra) ltac:(lra)) as S3.
  set (m := rnd (rnd (rnd (3 * x) * y) * w)) in *. set (n := rnd (2 * rnd (rnd (rnd (x * y) + rnd (y * w)) + rnd (x * w)))) in *.
  assert (D1 : near 43 (rnd (m - n)) (3 * x * y * w - 2 * (x * y + y * w + x * w))). { apply (near_weaken (11 + 25 + 7)); [lra|]. apply near_rnd; [apply near_sub; assumption|lra|apply abs_le; lra]. }
  pose proof (near_range _ _ _ (-6) 3 D1 ltac:(lra) ltac:(lra)) as T1.
  assert (D2 : near 50 (rnd (rnd (m - n) + x)) (3 * x * y * w - 2 * (x * y + y * w + x * w) + x)). { apply (near_weaken (43 + 0 + 7)); [lra|]. apply t_add; [exact D1|apply near_refl|lra|apply abs_le; lra]. }
  pose proof (near_range _ _ _ (-6) 4 D2 ltac:(lra) ltac:(lra)) as T2.
  assert (D3 : near 57 (rnd (rnd (rnd (m - n) + x) + y)) (3 * x * y * w - 2 * (x * y + y * w + x * w) + x + y)). { apply (near_weaken (50 + 0 + 7)); [lra|]. apply t_add; [exact D2|apply near_refl|lra|apply abs_le; lra]. }
  pose proof (near_range _ _ _ (-6) 5 D3 ltac:(lra) ltac:(lra)) as T3.
  apply (near_weaken (57 + 0 + 7)); [lra|]. apply t_add; [exact D3|apply near_refl|lra|apply abs_le; lra].
Qed.
Lemma pxor01 x y w : in01 x -> in01 y -> in01 w -> in01 (a_p_XOR exact x y w).
Proof.
  intros I J K. unfold a_p_XOR. cbn [aadd asub amul exact]. replace (3 * x * y * w - 2 * (x * y + y * w + x * w) + x + y + w) with (x * (1 - y) * (1 - w) + (1 - x) * (y * (1 - w) + w * (1 - y))) by ring.
  assert (A : in01 ((1 - y) * (1 - w))) by (apply in01_mul; apply in01_sub; assumption). assert (B : in01 (y * (1 - w) + w * (1 - y))). { unfold in01 in *. split; nra. } rewrite Rmult_assoc. unfold in01 in *. split; nra.
Qed.
Lemma n_pnxor x y w : in01 x -> in01 y -> in01 w -> near 66 (asub double 1 (a_p_XOR double x y w)) (asub exact 1 (a_p_XOR exact x y w)).
Proof.
  intros I J K. pose proof (n_pxor x y w I J K) as N. pose proof (pxor01 x y w I J K) as P. pose proof (near_range _ _ _ 0 1 N P ltac:(lra)) as R. cbn [asub double exact]. apply (near_weaken (0 + 64 + 2)); [lra|]. apply near_rnd; [apply near_sub; [apply near_refl|exact N]|lra|apply abs_le; lra].
Qed.
