(** Fuzzy outputs in double precision: XOR outputs do not exceed 1. *)
From Coq Require Import Lra Psatz String ZifyBool.
From Verif Require Import BaseLemmas BaseRLemmas Base BaseR Spec SpecF SpecFloat Fuzzy FuzzyProofs FloatFuzzy FloatProofs FloatProofs2 FloatProofs3 FloatProofs4 FloatProofs6 FloatProofs7.
From Flocq Require Import Core.
Local Open Scope R_scope.

(** ** A probability of exactly one success close to 1 has one dominant entry *)
Definition none (x : list R) : R := Rprod (fun b => 1 - b) x.
Lemma none_one x : probs x -> 0 <= none x /\ 0 <= fuzzy_fn_XOR x /\ none x + fuzzy_fn_XOR x <= 1.
Proof.
  induction 1 as [|a x Ha Hx (I1 & I2 & I3)]; [unfold none, fuzzy_fn_XOR; cbn; lra|]. rewrite xor_cons. unfold none in *. rewrite Rprod_cons. cbn beta in Ha. fold (none x) in *.
  pose proof (Rmult_le_pos a (none x) ltac:(lra) I1). pose proof (Rmult_le_pos (1 - a) (none x) ltac:(lra) I1). pose proof (Rmult_le_pos (1 - a) (fuzzy_fn_XOR x) ltac:(lra) I2). pose proof (Rmult_le_pos a (fuzzy_fn_XOR x) ltac:(lra) I2). repeat split; lra.
Qed.
Lemma none_all e x : probs x -> 1 - e <= none x -> forall l, (l < List.length x)%nat -> nth l x 0 <= e.
Proof.
  induction 1 as [|a x Ha Hx IH]; intros H l Hl; [cbn in Hl; lia|]. destruct (none_one x Hx) as (Z1 & Z2 & Z3). unfold none in *. rewrite Rprod_cons in H. cbn beta in Ha, H. fold (none x) in *. destruct l as [|l]; cbn [nth List.length] in *.
  - assert ((1 - a) * none x <= 1 - a) by nra. lra.
  - apply IH; [|lia]. assert ((1 - a) * none x <= none x) by nra. lra.
Qed.
Lemma dominant e x : 0 <= e <= / 4 -> probs x -> 1 - e <= fuzzy_fn_XOR x -> exists j, (j < List.length x)%nat /\ 1 - e <= nth j x 0 /\ forall l, (l < List.length x)%nat -> l <> j -> nth l x 0 <= 2 * e.
Proof.
  intros He. induction 1 as [|a x Ha Hx IH]; intros H; [unfold fuzzy_fn_XOR in H; cbn in H; lra|]. rewrite xor_cons in H. destruct (none_one x Hx) as (Z1 & Z2 & Z3). fold (none x) in H. cbn beta in Ha.
  destruct (Rle_dec (1 - e) a) as [A|A].
  - exists 0%nat. split; [cbn; lia|]. split; [exact A|]. intros l Hl Hj. destruct l as [|l]; [lia|]. cbn [nth List.length] in *. apply (none_all (2 * e) x Hx); [|lia].
    assert (a * none x <= none x) by nra. assert ((1 - a) * fuzzy_fn_XOR x <= 1 - a) by nra. lra.
  - assert (B : a <= e).
    { destruct (Rle_dec a e) as [B|B]; [exact B|exfalso]. destruct (Rle_dec a (/ 2)); nra. }
    destruct IH as (j & Hj & J1 & J2); [nra|]. exists (S j). split; [cbn; lia|]. split; [exact J1|]. intros l Hl Hne. destruct l as [|l]; cbn [nth List.length] in *; [lra|apply J2; lia].
Qed.

(** ** Roundings near 1 *)
Lemma mult_eps k : (0 <= k <= 2 ^ 53)%Z -> rnd (IZR k * eps) = IZR k * eps.
Proof.
  intros H. destruct (Z.eq_dec k (2 ^ 53)) as [->|N]; [pose proof eps_small; replace (IZR (2 ^ 53) * eps) with 1 by lra; apply rnd_1|].
  apply rnd_fix. exists k, (-53)%Z. split; [lia|]. split; [lia|]. rewrite eps_val, bpow_rz. reflexivity.
Qed.
Lemma mult_tiny k : (0 <= k < 2 ^ 53)%Z -> rnd (IZR k * (eps * / 65536)) = IZR k * (eps * / 65536).
Proof.
  intros H. apply rnd_fix. exists k, (-69)%Z. split; [lia|]. split; [lia|]. f_equal. rewrite <- bpow_rz. replace (-69)%Z with (-53 + -16)%Z by reflexivity. rewrite bpow_plus, <- eps_val. f_equal. 
Qed.
Lemma below_one x : x < 1 - eps / 2 -> rnd x <= 1 - eps.
Proof.
  intros H. assert (P : rnd (1 - eps) = 1 - eps).
  { pose proof eps_small as E. replace (1 - eps) with (IZR (2 ^ 53 - 1) * eps) by (rewrite minus_IZR; lra). apply mult_eps. lia. }
  destruct (Rle_dec x (1 - eps)) as [Q|Q]; [rewrite <- P; apply rnd_le; exact Q|]. apply Req_le. pose proof eps_pos as EP. pose proof eps_small as E. change (IZR (2 ^ 53)) with 9007199254740992 in E.
  rewrite (rnd_at 0 (2 ^ 53 - 1)).
  - change (0 - 53)%Z with (-53)%Z. rewrite <- eps_val, minus_IZR. change (IZR (2 ^ 53)) with 9007199254740992. lra.
  - lia.
  - change (bpow radix2 (0 - 1)) with (/ 2). change (bpow radix2 0) with 1. rewrite Rabs_pos_eq; lra.
  - change (bpow radix2 (53 - 0)) with 9007199254740992. rewrite minus_IZR. change (IZR (2 ^ 53)) with 9007199254740992. apply Rabs_def1; nra.
Qed.
Lemma multiple x : / 2 <= x <= 1 -> rnd x = x -> exists n, (0 <= n <= 2 ^ 52)%Z /\ x = IZR (2 ^ 53 - n) * eps.
Proof.
  intros H D. apply rnd_fix in D. destruct D as (m & e & Hm & He & E). pose proof eps_pos as EP. pose proof eps_small as ES.
  assert (P : 0 < bpow radix2 e) by apply bpow_gt_0. rewrite <- bpow_rz in E.
  assert (M : (0 < m)%Z). { apply lt_IZR. apply (Rmult_lt_reg_r (bpow radix2 e)); [exact P|]. rewrite Rmult_0_l. lra. }
  assert (EE : (-53 <= e)%Z).
  { destruct (Z_le_gt_dec (-53) e) as [Q|Q]; [exact Q|exfalso]. assert (B : bpow radix2 e <= bpow radix2 (-54)) by (apply bpow_le; lia). assert (Hm' : IZR m <= IZR (2 ^ 53 - 1)) by (apply IZR_le; lia).
    assert (IZR m * bpow radix2 e <= IZR (2 ^ 53 - 1) * bpow radix2 (-54)) by (apply Rmult_le_compat; [apply (IZR_le 0); lia|lra|exact Hm'|exact B]).
    pose proof q_val as QV. unfold q in QV. pose proof (bpow_gt_0 radix2 (-54)). change (IZR (2 ^ 53 - 1)) with 9007199254740991 in *. lra. }
  assert (XX : x = IZR (m * 2 ^ (e + 53)) * eps). { rewrite mult_IZR, bp by lia. rewrite eps_val, Rmult_assoc, <- bpow_plus. rewrite E. f_equal. f_equal. ring. }
  exists (2 ^ 53 - m * 2 ^ (e + 53))%Z. split; [|rewrite XX; f_equal; f_equal; ring].
  rewrite XX in H. assert (B1 : (m * 2 ^ (e + 53) <= 2 ^ 53)%Z) by (apply le_IZR, (Rmult_le_reg_r eps); [exact EP|lra]).
  assert (B2 : (2 ^ 52 <= m * 2 ^ (e + 53))%Z). { apply le_IZR, (Rmult_le_reg_r eps); [exact EP|]. change (IZR (2 ^ 53)) with 9007199254740992 in ES. change (IZR (2 ^ 52)) with 4503599627370496. lra. }
  change (2 ^ 53)%Z with 9007199254740992%Z in *. change (2 ^ 52)%Z with 4503599627370496%Z in *. lia.
Qed.

(** ** Sums with one dominant term *)
Lemma sum_units (t : nat -> R) u (k N : Z) : (0 <= k)%Z -> (forall i, (0 <= i <= N)%Z -> rnd (IZR i * u) = IZR i * u) -> forall ls, (forall l, In l ls -> t l <= IZR k * u) ->
  forall s a, (0 <= a)%Z -> (a + k * Z.of_nat (List.length ls) <= N)%Z -> s <= IZR a * u -> fold_left (fun o l => rnd (o + t l)) ls s <= IZR (a + k * Z.of_nat (List.length ls)) * u.
Proof.
  intros Hk HU. induction ls as [|l ls IH]; intros Ht s a Ha HN Hs; cbn [fold_left List.length] in *; [rewrite Z.mul_0_r, Z.add_0_r; exact Hs|].
  replace (a + k * Z.of_nat (S (List.length ls)))%Z with ((a + k) + k * Z.of_nat (List.length ls))%Z in * by lia. apply IH; [intros j Hj; apply Ht; right; exact Hj|lia|exact HN|].
  rewrite <- (HU (a + k)%Z) by nia. apply rnd_le. rewrite plus_IZR. pose proof (Ht l (or_introl eq_refl)). lra.
Qed.
Lemma sum_absorb (t : nat -> R) X d : (forall x, x <= X + d -> rnd x <= X) -> forall ls, (forall l, In l ls -> t l <= d) -> forall s, s <= X -> fold_left (fun o l => rnd (o + t l)) ls s <= X.
Proof. intros HX. induction ls as [|l ls IH]; intros Ht s Hs; [exact Hs|]. cbn [fold_left]. apply IH; [intros j Hj; apply Ht; right; exact Hj|]. apply HX. pose proof (Ht l (or_introl eq_refl)). lra. Qed.
(** All terms but one at most a 2^-16th of what the dominant term lacks to 1. *)
Lemma sum_dominant (t : nat -> R) L j n : (Z.of_nat L <= 4096)%Z -> (j < L)%nat -> (0 <= n <= 2 ^ 52)%Z -> t j <= IZR (2 ^ 53 - n) * eps ->
  (forall l, (l < L)%nat -> l <> j -> t l <= rnd (IZR (Z.max 1 n) * (eps * / 65536))) -> fold_left (fun o l => rnd (o + t l)) (seq 0 L) 0 <= 1.
Proof.
  intros HL Hj Hn Tj T. pose proof eps_pos as EP. pose proof eps_small as ES. change (IZR (2 ^ 53)) with 9007199254740992 in ES.
  assert (SEQ : seq 0 L = seq 0 j ++ j :: seq (S j) (L - S j)) by (replace L with (j + S (L - S j))%nat at 1 by lia; rewrite seq_app; reflexivity). rewrite SEQ. rewrite fold_left_app. cbn [fold_left].
  assert (T1 : forall l, In l (seq 0 j) -> t l <= rnd (IZR (Z.max 1 n) * (eps * / 65536))) by (intros l Hl; apply in_seq in Hl; apply T; lia).
  assert (T2 : forall l, In l (seq (S j) (L - S j)) -> t l <= rnd (IZR (Z.max 1 n) * (eps * / 65536))) by (intros l Hl; apply in_seq in Hl; apply T; lia).
  destruct (Z_lt_le_dec n 16384) as [C|C].
  - (* small gap *)
    rewrite mult_tiny in T1, T2 by lia.
    assert (S1 : fold_left (fun o l => rnd (o + t l)) (seq 0 j) 0 <= IZR (0 + Z.max 1 n * Z.of_nat (List.length (seq 0 j))) * (eps * / 65536)) by (apply (sum_units t (eps * / 65536) (Z.max 1 n) (2 ^ 53 - 1)); [lia|intros i Hi; apply mult_tiny; lia|exact T1|lia|rewrite seq_length; nia|lra]).
    rewrite seq_length, Z.add_0_l, mult_IZR in S1. assert (Hj' : IZR (Z.of_nat j) <= 4096) by (apply IZR_le; lia). assert (Hj0 : 0 <= IZR (Z.of_nat j)) by (apply IZR_le; lia).
    set (s := fold_left (fun o l => rnd (o + t l)) (seq 0 j) 0) in *. rewrite minus_IZR in Tj. change (IZR (2 ^ 53)) with 9007199254740992 in Tj.
    destruct (Z.eq_dec n 0) as [->|N].
    + change (Z.max 1 0) with 1%Z in *. assert (s <= eps / 4) by nra.
      apply (sum_absorb t 1 (bpow radix2 (-54)) (fun x Hx => rnd_above_one x Hx)).
      * intros l Hl. specialize (T2 l Hl). assert (Q : eps = 2 * bpow radix2 (-54)) by (rewrite eps_val; change (bpow radix2 (-53)) with (/ 9007199254740992); change (bpow radix2 (-54)) with (/ 18014398509481984); lra). lra.
      * apply rnd_above_one. assert (Q : eps = 2 * bpow radix2 (-54)) by (rewrite eps_val; change (bpow radix2 (-53)) with (/ 9007199254740992); change (bpow radix2 (-54)) with (/ 18014398509481984); lra). lra.
    + replace (Z.max 1 n) with n in * by lia. assert (N1 : 1 <= IZR n) by (apply IZR_le; lia). assert (N2 : IZR n <= 16383) by (apply IZR_le; lia).
      apply Rle_trans with (1 - eps); [|lra]. apply (sum_absorb t (1 - eps) (eps / 4)).
      * intros x Hx. apply below_one. lra.
      * intros l Hl. specialize (T2 l Hl). nra.
      * apply below_one. assert (s <= IZR n * eps / 16) by nra. nra.
  - (* large gap *)
    set (k := (n / 16384)%Z). assert (Hk : (1 <= k /\ k * 16384 <= n < k * 16384 + 16384)%Z) by (unfold k; pose proof (Z.div_mod n 16384 ltac:(lia)); pose proof (Z.mod_pos_bound n 16384 ltac:(lia)); pose proof (Z.div_le_lower_bound n 16384 1 ltac:(lia) ltac:(lia)); lia).
    assert (KE : rnd (IZR (Z.max 1 n) * (eps * / 65536)) <= IZR k * eps).
    { rewrite <- (mult_eps k) by lia. apply rnd_le. replace (Z.max 1 n) with n by lia. assert (Q : IZR n <= IZR (k * 65536)) by (apply IZR_le; lia). rewrite mult_IZR in Q. nra. }
    assert (S1 : fold_left (fun o l => rnd (o + t l)) (seq 0 j) 0 <= IZR (0 + k * Z.of_nat (List.length (seq 0 j))) * eps) by (apply (sum_units t eps k (2 ^ 53)); [lia|intros i Hi; apply mult_eps; lia|intros l Hl; eapply Rle_trans; [apply T1, Hl|exact KE]|lia|rewrite seq_length; nia|lra]).
    rewrite seq_length in S1. set (s := fold_left (fun o l => rnd (o + t l)) (seq 0 j) 0) in *.
    assert (S2 : rnd (s + t j) <= IZR (0 + k * Z.of_nat j + (2 ^ 53 - n)) * eps) by (rewrite <- mult_eps by nia; apply rnd_le; rewrite plus_IZR; lra).
    assert (S3 : fold_left (fun o l => rnd (o + t l)) (seq (S j) (L - S j)) (rnd (s + t j)) <= IZR ((0 + k * Z.of_nat j + (2 ^ 53 - n)) + k * Z.of_nat (List.length (seq (S j) (L - S j)))) * eps).
    { apply (sum_units t eps k (2 ^ 53)); [lia|intros i Hi; apply mult_eps; lia|intros l Hl; eapply Rle_trans; [apply T2, Hl|exact KE]|nia|rewrite seq_length; nia|exact S2]. }
    eapply Rle_trans; [exact S3|]. rewrite seq_length. assert (Q : IZR (0 + k * Z.of_nat j + (2 ^ 53 - n) + k * Z.of_nat (L - S j)) <= 9007199254740992) by (apply IZR_le; nia). nra.
Qed.

(** ** The XOR loop *)
Lemma fold_dec (h : nat -> R) ls : (forall l, In l ls -> in01 (h l)) -> forall x, in01 x -> rnd x = x -> fold_left (fun o l => rnd (o * h l)) ls x <= x.
Proof.
  induction ls as [|l ls IH]; intros H x Hx D; [cbn; lra|]. cbn [fold_left]. pose proof (H l (or_introl eq_refl)) as Hl. eapply Rle_trans; [apply IH; [intros j Hj; apply H; right; exact Hj|apply rnd_01, in01_mul; assumption|apply rnd_rnd]|]. rewrite <- D at 2. apply mul_le_l; [apply Hx|exact Hl].
Qed.
Lemma fold_le (h : nat -> R) m ls : (forall l, In l ls -> in01 (h l)) -> rnd (h m) = h m -> In m ls -> forall x, in01 x -> fold_left (fun o l => rnd (o * h l)) ls x <= h m.
Proof.
  intros H D. induction ls as [|l ls IH]; intros Hm x Hx; [destruct Hm|]. cbn [fold_left]. pose proof (H l (or_introl eq_refl)) as Hl. destruct Hm as [->|Hm].
  - eapply Rle_trans; [apply fold_dec; [intros j Hj; apply H; right; exact Hj|apply rnd_01, in01_mul; assumption|apply rnd_rnd]|]. rewrite <- D at 2. apply mul_le_r; [exact Hx|apply Hl].
  - apply IH; [intros j Hj; apply H; right; exact Hj|exact Hm|apply rnd_01, in01_mul; assumption].
Qed.
Lemma terms_one (t g g' h h' : nat -> R) L c : (Z.of_nat L <= 4096)%Z -> 0 <= c <= 17 -> (forall l, (l < L)%nat -> 1 - g' l = g l) ->
  (forall l, (l < L)%nat -> in01 (g' l) /\ near c (h' l) (g' l) /\ in01 (h' l) /\ rnd (h' l) = h' l) ->
  (forall l, (l < L)%nat -> near c (h l) (g l) /\ in01 (h l) /\ rnd (h l) = h l) ->
  (forall l, (l < L)%nat -> 0 <= t l <= h' l /\ rnd (t l) = t l) -> (forall l j, (l < L)%nat -> (j < L)%nat -> l <> j -> t l <= rnd (h' l * h j)) ->
  near 1224826880 (fold_left (fun o l => rnd (o + t l)) (seq 0 L) 0) (fuzzy_fn_XOR (map g' (seq 0 L))) -> fold_left (fun o l => rnd (o + t l)) (seq 0 L) 0 <= 1.
Proof.
  intros HL Hc HG H' H TT TS HN. pose proof eps_pos as EP. pose proof eps_small as ES. change (IZR (2 ^ 53)) with 9007199254740992 in ES.
  destruct (Rle_dec (fold_left (fun o l => rnd (o + t l)) (seq 0 L) 0) 1) as [Q|Q]; [exact Q|]. apply Rnot_le_lt in Q.
  assert (PR : probs (map g' (seq 0 L))) by (apply Forall_forall; intros y Hy; apply in_map_iff in Hy; destruct Hy as (l & <- & Hl); apply in_seq in Hl; apply H'; lia).
  unfold near in HN. pose proof (Rle_abs (fold_left (fun o l => rnd (o + t l)) (seq 0 L) 0 - fuzzy_fn_XOR (map g' (seq 0 L)))) as RA.
  set (e := 1224826880 * eps) in *. assert (F : 1 - e <= fuzzy_fn_XOR (map g' (seq 0 L))) by lra.
  assert (He : 0 <= e <= / 4) by (unfold e; split; lra).
  destruct (dominant e (map g' (seq 0 L)) He PR F) as (j & Hj & J1 & J2). rewrite map_length, seq_length in Hj, J2.
  assert (NT : forall l, (l < L)%nat -> nth l (map g' (seq 0 L)) 0 = g' l) by (intros l Hl; exact (nth_map_seq g' L l 0 Hl)).
  destruct (H' j Hj) as (G1 & G2 & G3 & G4). destruct (H j Hj) as (A1 & A2 & A3). rewrite (NT j Hj) in J1. destruct (TT j Hj) as ((TJ0 & TJ) & TD).
  assert (HJ : h j <= 1 - h' j + 34 * eps).
  { unfold near in G2, A1. pose proof (Rle_abs (h j - g j)). pose proof (Rle_abs (h' j - g' j)). pose proof (HG j Hj). assert (c * eps <= 17 * eps) by (apply Rmult_le_compat_r; lra). lra. }
  assert (EX : exists n, (0 <= n <= 2 ^ 52)%Z /\ t j <= IZR (2 ^ 53 - n) * eps /\ h j <= 35 * (IZR (Z.max 1 n) * eps)).
  { destruct (Rle_dec (/ 2) (t j)) as [C|C].
    - destruct (multiple (t j)) as (n & Hn & En); [split; [exact C|destruct G3; lra]|exact TD|]. exists n. split; [exact Hn|]. split; [lra|]. rewrite minus_IZR in En. change (IZR (2 ^ 53)) with 9007199254740992 in En.
      assert (M1 : 1 <= IZR (Z.max 1 n)) by (apply IZR_le; lia). assert (M2 : IZR n <= IZR (Z.max 1 n)) by (apply IZR_le; lia). nra.
    - exists (2 ^ 52)%Z. split; [lia|]. change (IZR (2 ^ 53 - 2 ^ 52)) with 4503599627370496. change (IZR (Z.max 1 (2 ^ 52))) with 4503599627370496. destruct A2. split; lra. }
  destruct EX as (n & Hn & T1 & HJ2). apply (sum_dominant t L j n HL Hj Hn T1). intros l Hl Hne. eapply Rle_trans; [apply (TS l j Hl Hj Hne)|]. apply rnd_le.
  destruct (H' l Hl) as (_ & B2 & B3 & _). pose proof (J2 l Hl Hne) as B4. rewrite (NT l Hl) in B4. unfold near in B2. pose proof (Rle_abs (h' l - g' l)) as R2.
  assert (SM : h' l <= 2 * e + 17 * eps) by (assert (c * eps <= 17 * eps) by (apply Rmult_le_compat_r; lra); lra). assert (M1 : 1 <= IZR (Z.max 1 n)) by (apply IZR_le; lia). set (M := IZR (Z.max 1 n)) in *.
  apply Rle_trans with ((2 * e + 17 * eps) * (35 * (M * eps))); [apply Rmult_le_compat; [apply B3|apply A2|exact SM|exact HJ2]|].
  assert (Y : (2 * e + 17 * eps) * 35 <= / 65536) by (unfold e; lra). assert (0 <= M * eps) by (apply Rmult_le_pos; lra). replace ((2 * e + 17 * eps) * (35 * (M * eps))) with ((2 * e + 17 * eps) * 35 * (M * eps)) by ring. replace (M * (eps * / 65536)) with (/ 65536 * (M * eps)) by ring. apply Rmult_le_compat_r; assumption.
Qed.
Lemma xor_one (g g' h h' : nat -> R) L c : (Z.of_nat L <= 4096)%Z -> 0 <= c <= 17 -> (forall l, 1 - g' l = g l) ->
  (forall l, (l < L)%nat -> in01 (g' l) /\ near c (h' l) (g' l) /\ in01 (h' l) /\ rnd (h' l) = h' l) ->
  (forall l, (l < L)%nat -> near c (h l) (g l) /\ in01 (h l) /\ rnd (h l) = h l) ->
  a_sum double (fun l => amul double (h' l) (a_skip double h L l)) L <= 1.
Proof.
  intros HL Hc HG H' H. pose proof eps_pos as EP.
  assert (X : a_sum exact (fun l => amul exact (g' l) (a_skip exact g L l)) L = fuzzy_fn_XOR (map g' (seq 0 L))) by (apply (xor_form g' g g' L (fun l => g' l * a_skip exact g L l)); [reflexivity|exact HG|intros l; apply Rmult_comm]).
  assert (HN : near (((2 * (2 * c + 2) + 1) * INR L + c + 5) * INR L) (a_sum double (fun l => amul double (h' l) (a_skip double h L l)) L) (a_sum exact (fun l => amul exact (g' l) (a_skip exact g L l)) L)).
  { apply (xor_near L ltac:(lia) g h g' h' c ltac:(lra)); intros l Hl; [destruct (H l Hl) as (A & _); split; [rewrite <- HG; destruct (H' l Hl) as ((B1 & B2) & _); unfold in01; split; lra|exact A]|destruct (H' l Hl) as (A & B & _); split; assumption]. }
  rewrite X in HN. assert (BL : 0 <= INR L <= 4096) by (split; [apply pos_INR|rewrite INR_IZR_INZ; apply IZR_le; exact HL]).
  assert (BB : ((2 * (2 * c + 2) + 1) * INR L + c + 5) * INR L <= 1224826880).
  { apply Rle_trans with (((2 * (2 * 17 + 2) + 1) * 4096 + 17 + 5) * 4096); [|lra]. apply Rmult_le_compat; [|lra| |lra]; [assert (0 <= (2 * (2 * c + 2) + 1) * INR L) by (apply Rmult_le_pos; lra); lra|].
    assert ((2 * (2 * c + 2) + 1) * INR L <= (2 * (2 * 17 + 2) + 1) * 4096) by (apply Rmult_le_compat; lra). lra. }
  apply (near_weaken _ _ _ _ BB) in HN.
  assert (KS : forall l m, (m < L)%nat -> m <> l -> a_skip double h L l <= h m).
  { intros l m Hm Hne. unfold a_skip. cbn [amul double]. rewrite (skip_filter (fun t l' => rnd (t * h l'))). apply fold_le; [intros k Hk; apply filter_In in Hk; destruct Hk as (Hk & _); apply in_seq in Hk; apply H; lia|apply H, Hm|apply filter_In; split; [apply in_seq; lia|destruct (Nat.eqb_spec l m); [congruence|reflexivity]]|unfold in01; split; lra]. }
  assert (KI : forall l, in01 (a_skip double h L l)).
  { intros l. unfold a_skip. cbn [amul double]. rewrite (skip_filter (fun t l' => rnd (t * h l'))). apply prod_range; [intros k Hk; apply filter_In in Hk; destruct Hk as (Hk & _); apply in_seq in Hk; apply H; lia|unfold in01; split; lra]. }
  apply (terms_one (fun l => rnd (h' l * a_skip double h L l)) g g' h h' L c HL Hc (fun l _ => HG l) H' H).
  - intros l Hl. destruct (H' l Hl) as (G1 & G2 & G3 & G4). split; [|apply rnd_rnd]. split; [apply rnd_pos, Rmult_le_pos; [apply G3|apply KI]|]. rewrite <- G4 at 2. apply mul_le_l; [apply G3|apply KI].
  - intros l j Hl Hj Hne. apply rnd_le, Rmult_le_compat_l; [apply H', Hl|apply KS; [exact Hj|congruence]].
  - exact HN.
Qed.
(** Exactly one of three. *)
Lemma three_one x y w : in01 x -> in01 y -> in01 w -> rnd x = x -> rnd y = y -> rnd w = w ->
  in01 (rnd (rnd (rnd (rnd (x * rnd (1 - y)) * rnd (1 - w)) + rnd (rnd (w * rnd (1 - x)) * rnd (1 - y))) + rnd (rnd (y * rnd (1 - w)) * rnd (1 - x)))).
Proof.
  intros I J K Dx Dy Dw. destruct (n_sub x I) as (Nx & Sx). destruct (n_sub y J) as (Ny & Sy). destruct (n_sub w K) as (Nw & Sw).
  destruct (n_one3 x y w I J K) as (_ & O1). destruct (n_one3 w x y K I J) as (_ & O2). destruct (n_one3 y w x J K I) as (_ & O3).
  split; [apply rnd_pos; apply Rplus_le_le_0_compat; [apply rnd_pos, Rplus_le_le_0_compat; [apply O1|apply O2]|apply O3]|].
  set (t := fun l => nth l [rnd (rnd (x * rnd (1 - y)) * rnd (1 - w)); rnd (rnd (w * rnd (1 - x)) * rnd (1 - y)); rnd (rnd (y * rnd (1 - w)) * rnd (1 - x))] 0).
  set (g' := fun l => nth l [x; w; y] 0). set (h := fun l => nth l [rnd (1 - x); rnd (1 - w); rnd (1 - y)] 0).
  assert (P3 : forall P : nat -> Prop, P 0%nat -> P 1%nat -> P 2%nat -> forall l, (l < 3)%nat -> P l) by (intros P P0 P1 P2 l Hl; destruct l as [|[|[|l]]]; [assumption|assumption|assumption|lia]).
  assert (B : forall a b d, in01 a -> in01 b -> in01 d -> rnd a = a -> 0 <= rnd (rnd (a * b) * d) <= a /\ rnd (rnd (a * b) * d) <= rnd (a * b) /\ rnd (rnd (a * b) * d) <= rnd (a * d)).
  { intros a b d Ia Ib Id Da. assert (M : in01 (rnd (a * b))) by (apply rnd_01, in01_mul; assumption). pose proof (mul_le_l _ d (proj1 M) Id) as M1. rewrite rnd_rnd in M1. pose proof (mul_le_l a b (proj1 Ia) Ib) as M2. rewrite Da in M2.
    split; [split; [apply rnd_pos, Rmult_le_pos; [apply M|apply Id]|lra]|]. split; [exact M1|]. apply rnd_le, Rmult_le_compat_r; [apply Id|exact M2]. }
  pose proof (B x _ _ I Sy Sw Dx) as (T1 & T1a & T1b). pose proof (B w _ _ K Sx Sy Dw) as (T2 & T2a & T2b). pose proof (B y _ _ J Sw Sx Dy) as (T3 & T3a & T3b).
  assert (Q : fold_left (fun o l => rnd (o + t l)) (seq 0 3) 0 <= 1).
  { apply (terms_one t (fun l => 1 - g' l) g' h g' 3 1 ltac:(lia) ltac:(lra) (fun l _ => eq_refl)).
    - apply P3; unfold g'; cbn [nth]; (split; [assumption|split; [apply (near_weaken 0); [lra|apply near_refl]|split; assumption]]).
    - apply P3; unfold g', h; cbn [nth]; (split; [assumption|split; [assumption|apply rnd_rnd]]).
    - apply P3; unfold t, g'; cbn [nth]; (split; [assumption|apply rnd_rnd]).
    - intros l j Hl Hj. revert j Hj. revert l Hl. apply (P3 (fun l => forall j, (j < 3)%nat -> l <> j -> t l <= rnd (g' l * h j))); apply (P3 (fun j => _ <> j -> t _ <= rnd (g' _ * h j))); intros Hne; try (contradiction Hne; reflexivity); unfold t, g', h; cbn [nth]; assumption.
    - pose proof (n_xor3 x y w I J K) as N. replace (fuzzy_fn_XOR (map g' (seq 0 3))) with (x * (1 - y) * (1 - w) + w * (1 - x) * (1 - y) + y * (1 - w) * (1 - x)).
      + unfold t. cbn [seq fold_left nth]. rewrite Rplus_0_l, rnd_rnd. apply (near_weaken 17); [lra|exact N].
      + unfold g'. cbn [seq map nth]. rewrite !xor_cons. unfold fuzzy_fn_XOR, Rprod. cbn. ring. }
  unfold t in Q. cbn [seq fold_left nth] in Q. rewrite Rplus_0_l, rnd_rnd in Q. exact Q.
Qed.

(** ** All models *)
Lemma range2_one o i : In (o, i) implemented -> exists f, a_output_2d double (model_name o i) = Some f /\
  forall z u L, List.length z = L -> List.length u = L -> probs z -> probs u -> doubles z -> doubles u -> (o = XOR -> Z.of_nat L <= 4096)%Z -> 0 <= f z u <= 1.
Proof.
  intros H. destruct (range2 o i H) as (f & Ef & R). exists f. split; [exact Ef|]. intros z u L Hz Hu Pz Pu Dz Du HL. destruct (R z u L Hz Hu Pz Pu Dz Du) as (R0 & R1). split; [exact R0|]. clear R R0. revert Ef. subst L. symmetry in Hu.
  assert (N1 : forall l, (l < List.length z)%nat -> in01 (rat z l) /\ in01 (rat u l)) by (intros l Hl; split; apply rat01; [exact Pz|exact Hl|exact Pu|rewrite <- Hu; exact Hl]).
  assert (RR : forall a b c d : R, near a b c -> 0 <= a -> near a (rnd d) c -> near a (rnd d) c) by (intros; assumption).
  destruct H as [H|[H|[H|[H|[H|[H|[H|[H|[]]]]]]]]]; injection H as <- <-; intros Ef; try (apply R1; discriminate); specialize (HL eq_refl); injection Ef as <-.
  - apply (xor_one (fun l => 1 - rat z l * rat u l) (fun l => rat z l * rat u l) (fun l => rnd (1 - rnd (rat z l * rat u l))) (fun l => rnd (rat z l * rat u l)) _ 6 HL ltac:(lra) (fun l => eq_refl)); intros l Hl; destruct (N1 l Hl) as (I & J); destruct (n_and _ _ I J) as (A1 & A2); destruct (n_nand _ _ I J) as (B1 & B2).
    + split; [apply in01_mul; assumption|]. split; [apply (near_weaken 1); [lra|exact A1]|]. split; [exact A2|apply rnd_rnd].
    + split; [apply (near_weaken 2); [lra|exact B1]|]. split; [exact B2|apply rnd_rnd].
  - unfold a_XOR_XOR. rewrite (sum_comm double _ _ _ double_comm).
    apply (xor_one (fun l => rat z l * rat u l + (1 - rat z l) * (1 - rat u l)) (fun l => (1 - rat z l) * rat u l + (1 - rat u l) * rat z l)
      (fun l => rnd (rnd (rat z l * rat u l) + rnd (rnd (1 - rat z l) * rnd (1 - rat u l)))) (fun l => rnd (rnd (rnd (1 - rat z l) * rat u l) + rnd (rnd (1 - rat u l) * rat z l))) _ 6 HL ltac:(lra) ltac:(intros l; cbn beta; ring)); intros l Hl; destruct (N1 l Hl) as (I & J).
    + rewrite !(Rmult_comm (rnd (1 - _))), !(Rmult_comm (1 - _)). rewrite (Rplus_comm (rnd _)), (Rplus_comm (rat u l * _)). split; [unfold in01 in *; split; nra|]. split; [apply n_xor; assumption|]. split; [apply xor_range; [assumption|assumption|apply rat_double, Dz|apply rat_double, Du]|apply rnd_rnd].
    + split; [apply n_nxor; assumption|]. split; [apply nxor_range; [assumption|assumption|apply rat_double, Dz]|apply rnd_rnd].
  - unfold a_XOR_NXOR. rewrite (sum_comm double _ _ _ double_comm).
    apply (xor_one (fun l => rat z l * (1 - rat u l) + (1 - rat z l) * rat u l) (fun l => rat z l * rat u l + (1 - rat u l) * (1 - rat z l))
      (fun l => rnd (rnd (rat z l * rnd (1 - rat u l)) + rnd (rnd (1 - rat z l) * rat u l))) (fun l => rnd (rnd (rat z l * rat u l) + rnd (rnd (1 - rat u l) * rnd (1 - rat z l)))) _ 6 HL ltac:(lra) ltac:(intros l; cbn beta; ring)); intros l Hl; destruct (N1 l Hl) as (I & J).
    + rewrite (Rmult_comm (rnd (1 - rat u l))), (Rmult_comm (1 - rat u l)). split; [unfold in01 in *; split; nra|]. split; [apply n_nxor; assumption|]. split; [apply nxor_range; [assumption|assumption|apply rat_double, Dz]|apply rnd_rnd].
    + rewrite (Rmult_comm (rnd (1 - rat z l))), (Rmult_comm (1 - rat z l)). split; [apply n_xor; assumption|]. split; [apply xor_range; [assumption|assumption|apply rat_double, Dz|apply rat_double, Du]|apply rnd_rnd].
  - apply (xor_one (fun l => rat z l * rat u l) (fun l => 1 - rat z l * rat u l) (fun l => rnd (rat z l * rat u l)) (fun l => rnd (1 - rnd (rat z l * rat u l))) _ 6 HL ltac:(lra) ltac:(intros l; cbn beta; ring)); intros l Hl; destruct (N1 l Hl) as (I & J); destruct (n_and _ _ I J) as (A1 & A2); destruct (n_nand _ _ I J) as (B1 & B2).
    + split; [apply in01_sub, in01_mul; assumption|]. split; [apply (near_weaken 2); [lra|exact B1]|]. split; [exact B2|apply rnd_rnd].
    + split; [apply (near_weaken 1); [lra|exact A1]|]. split; [exact A2|apply rnd_rnd].
Qed.
Lemma range3_one o i : In (o, i) implemented -> In (o, i) [(OR, AND); (OR, NAND); (NAND, XOR); (XOR, AND); (XOR, NAND)] -> exists f, a_output_3d double (model_name o i) = Some f /\
  forall z u v L, List.length z = L -> List.length u = L -> List.length v = L -> probs z -> probs u -> probs v -> doubles z -> doubles u -> doubles v -> (o = XOR -> Z.of_nat L <= 4096)%Z -> 0 <= f z u v <= 1.
Proof.
  intros Him H.
  assert (N1 : forall z u v l, probs z -> probs u -> probs v -> (l < List.length z)%nat -> List.length z = List.length u -> List.length z = List.length v -> in01 (rat z l) /\ in01 (rat u l) /\ in01 (rat v l)).
  { intros z u v l Pz Pu Pv Hl E E'. split; [|split]; apply rat01; [exact Pz|exact Hl|exact Pu|rewrite <- E; exact Hl|exact Pv|rewrite <- E'; exact Hl]. }
  assert (RG : i = AND \/ i = NAND -> exists f, a_output_3d double (model_name o i) = Some f /\ forall z u v L, List.length z = L -> List.length u = L -> List.length v = L -> probs z -> probs u -> probs v -> 0 <= f z u v /\ (o <> XOR -> f z u v <= 1)) by (intros Q; apply (range3 o i Him Q)).
  destruct H as [H|[H|[H|[H|[H|[]]]]]]; injection H as <- <-.
  - destruct (RG (or_introl eq_refl)) as (f & Ef & R). exists f. split; [exact Ef|]. intros z u v L Hz Hu Hv Pz Pu Pv _ _ _ _. destruct (R z u v L Hz Hu Hv Pz Pu Pv) as (A & B). split; [exact A|apply B; discriminate].
  - destruct (RG (or_intror eq_refl)) as (f & Ef & R). exists f. split; [exact Ef|]. intros z u v L Hz Hu Hv Pz Pu Pv _ _ _ _. destruct (R z u v L Hz Hu Hv Pz Pu Pv) as (A & B). split; [exact A|apply B; discriminate].
  - eexists. split; [reflexivity|]. intros z u v L <- Hu Hv Pz Pu Pv Dz Du Dv _. symmetry in Hu, Hv. apply (or_range (fun l => rnd (rnd (rnd (rnd (rat z l * rnd (1 - rat u l)) * rnd (1 - rat v l)) + rnd (rnd (rat v l * rnd (1 - rat z l)) * rnd (1 - rat u l))) + rnd (rnd (rat u l * rnd (1 - rat v l)) * rnd (1 - rat z l))))).
    intros l Hl. destruct (N1 z u v l Pz Pu Pv Hl Hu Hv) as (I & J & K). apply three_one; try assumption; apply rat_double; assumption.
  - destruct (RG (or_introl eq_refl)) as (f & Ef & R). exists f. split; [exact Ef|]. intros z u v L Hz Hu Hv Pz Pu Pv _ _ _ HL. destruct (R z u v L Hz Hu Hv Pz Pu Pv) as (A & _). split; [exact A|]. specialize (HL eq_refl). injection Ef as <-. subst L. symmetry in Hu, Hv.
    apply (xor_one (fun l => 1 - rat z l * rat u l * rat v l) (fun l => rat z l * rat u l * rat v l) (fun l => rnd (1 - rnd (rnd (rat z l * rat u l) * rat v l))) (fun l => rnd (rnd (rat z l * rat u l) * rat v l)) _ 6 HL ltac:(lra) (fun l => eq_refl)); intros l Hl; destruct (N1 z u v l Pz Pu Pv Hl Hu Hv) as (I & J & K); destruct (n_and3 _ _ _ I J K) as (A1 & A2); destruct (n_nand3 _ _ _ I J K) as (B1 & B2).
    + split; [apply in01_mul; [apply in01_mul; assumption|assumption]|]. split; [apply (near_weaken 2); [lra|exact A1]|]. split; [exact A2|apply rnd_rnd].
    + split; [apply (near_weaken 3); [lra|exact B1]|]. split; [exact B2|apply rnd_rnd].
  - destruct (RG (or_intror eq_refl)) as (f & Ef & R). exists f. split; [exact Ef|]. intros z u v L Hz Hu Hv Pz Pu Pv _ _ _ HL. destruct (R z u v L Hz Hu Hv Pz Pu Pv) as (A & _). split; [exact A|]. specialize (HL eq_refl). injection Ef as <-. subst L. symmetry in Hu, Hv.
    apply (xor_one (fun l => rat z l * rat u l * rat v l) (fun l => 1 - rat z l * rat u l * rat v l) (fun l => rnd (rnd (rat z l * rat u l) * rat v l)) (fun l => rnd (1 - rnd (rnd (rat z l * rat u l) * rat v l))) _ 6 HL ltac:(lra) ltac:(intros l; cbn beta; ring)); intros l Hl; destruct (N1 z u v l Pz Pu Pv Hl Hu Hv) as (I & J & K); destruct (n_and3 _ _ _ I J K) as (A1 & A2); destruct (n_nand3 _ _ _ I J K) as (B1 & B2).
    + split; [apply in01_sub, in01_mul; [apply in01_mul; assumption|assumption]|]. split; [apply (near_weaken 3); [lra|exact B1]|]. split; [exact B2|apply rnd_rnd].
    + split; [apply (near_weaken 2); [lra|exact A1]|]. split; [exact A2|apply rnd_rnd].
Qed.

Lemma lop_dec (a b : lop) : {a = b} + {a <> b}. Proof. decide equality. Qed.
Lemma range3_all o i : In (o, i) implemented -> In (o, i) [(OR, AND); (OR, NAND); (NAND, XOR); (XOR, AND); (XOR, NAND)] -> exists f, a_output_3d double (model_name o i) = Some f /\
  forall z u v L, List.length z = L -> List.length u = L -> List.length v = L -> probs z -> probs u -> probs v -> doubles z -> doubles u -> doubles v -> 0 <= f z u v /\ (o <> XOR \/ (Z.of_nat L <= 4096)%Z -> f z u v <= 1).
Proof.
  intros Him H. destruct (range3_one o i Him H) as (f & Ef & R). exists f. split; [exact Ef|]. intros z u v L Hz Hu Hv Pz Pu Pv Dz Du Dv.
  assert (A : o <> XOR \/ (Z.of_nat L <= 4096)%Z -> 0 <= f z u v <= 1) by (intros Q; apply (R z u v L Hz Hu Hv Pz Pu Pv Dz Du Dv); intros E; destruct Q as [Q|Q]; [contradiction|exact Q]).
  split; [|intros Q; apply (A Q)]. destruct (lop_dec o XOR) as [E|E]; [|apply A; left; exact E].
  assert (Q : i = AND \/ i = NAND) by (subst o; destruct H as [H|[H|[H|[H|[H|[]]]]]]; injection H as ?; try discriminate; subst i; [left|right]; reflexivity).
  destruct (range3 o i Him Q) as (f' & Ef' & R'). rewrite Ef in Ef'. injection Ef' as <-. apply (R' z u v L Hz Hu Hv Pz Pu Pv).
Qed.
Lemma C114_range_all_lemma : forall o i, In (o, i) implemented -> exists f, a_output_2d double (model_name o i) = Some f /\
  forall z u L, List.length z = L -> List.length u = L -> probs z -> probs u -> Forall is_double z -> Forall is_double u ->
  0 <= f z u /\ (o <> XOR \/ (Z.of_nat L <= 4096)%Z -> f z u <= 1).
Proof.
  intros o i H. destruct (range2_one o i H) as (f & Ef & R). destruct (range2 o i H) as (f' & Ef' & R'). rewrite Ef in Ef'. injection Ef' as <-. exists f. split; [exact Ef|]. intros z u L Hz Hu Pz Pu Dz Du. apply doubles_spec in Dz, Du. split; [apply (R' z u L Hz Hu Pz Pu Dz Du)|]. intros Q. apply (R z u L Hz Hu Pz Pu Dz Du). intros E. destruct Q as [Q|Q]; [contradiction|exact Q].
Qed.
Lemma C114_range3_all_lemma : forall o i, In (o, i) implemented -> In (o, i) [(OR, AND); (OR, NAND); (NAND, XOR); (XOR, AND); (XOR, NAND)] -> exists f, a_output_3d double (model_name o i) = Some f /\
  forall z u v L, List.length z = L -> List.length u = L -> List.length v = L -> probs z -> probs u -> probs v -> Forall is_double z -> Forall is_double u -> Forall is_double v ->
  0 <= f z u v /\ (o <> XOR \/ (Z.of_nat L <= 4096)%Z -> f z u v <= 1).
Proof.
  intros o i Him H. destruct (range3_all o i Him H) as (f & Ef & R). exists f. split; [exact Ef|]. intros z u v L Hz Hu Hv Pz Pu Pv Dz Du Dv. apply doubles_spec in Dz, Du, Dv. apply R; assumption.
Qed.
Lemma probs_double zs : doubles (map double_prob zs).
Proof. unfold doubles. apply Forall_map, Forall_forall. intros xs _. apply rnd_rnd. Qed.
Lemma C115_output_all_lemma : forall o i, In (o, i) implemented -> exists f, a_output_2d double (model_name o i) = Some f /\
  forall zs us L p, List.length zs = L -> List.length us = L -> (Z.of_nat L <= 2 ^ 20)%Z ->
  Forall (fun xs => samples xs /\ (1 <= Z.of_nat (List.length xs) <= 2 ^ 53)%Z) (zs ++ us) ->
  is_prob o i 2 L (fun k l => nth l (nth k [map share zs; map share us] []) 0) p ->
  (0 <= f (map double_prob zs) (map double_prob us) /\ (o <> XOR \/ (Z.of_nat L <= 4096)%Z -> f (map double_prob zs) (map double_prob us) <= 1)) /\
  Rabs (f (map double_prob zs) (map double_prob us) - p) <= match o with XOR => 29 * INR L * INR L + 16 * INR L | _ => 19 * INR L + 2 end * roundoff.
Proof.
  intros o i H. destruct (C115_output_lemma o i H) as (f & Ef & E). exists f. split; [exact Ef|]. intros zs us L p Hz Hu HL G P. split; [|apply E; assumption]. apply Forall_app in G. destruct G as (G1 & G2).
  assert (LEN : forall v, List.length v = L -> List.length (map double_prob v) = L) by (intros v Q; rewrite map_length; exact Q).
  destruct (range2_one o i H) as (f' & Ef' & R). rewrite Ef in Ef'. injection Ef' as <-. destruct (range2 o i H) as (f' & Ef' & R'). rewrite Ef in Ef'. injection Ef' as <-.
  split; [apply (R' _ _ L (LEN _ Hz) (LEN _ Hu) (good_probs _ G1) (good_probs _ G2) (probs_double zs) (probs_double us))|].
  intros Q. apply (R _ _ L (LEN _ Hz) (LEN _ Hu) (good_probs _ G1) (good_probs _ G2) (probs_double zs) (probs_double us)). intros X. destruct Q as [Q|Q]; [contradiction|exact Q].
Qed.
(** Ties go to the even neighbour. *)
Lemma C114_ties_lemma : rnd (1 + roundoff) = 1 /\ rnd (1 + 3 * roundoff) = 1 + 4 * roundoff.
Proof.
  assert (E : roundoff * IZR (2 ^ 52) = / 2).
  { unfold roundoff. replace (IZR (2 ^ 53)) with (2 * IZR (2 ^ 52)) by (rewrite <- mult_IZR; reflexivity). field. apply IZR_neq. discriminate. }
  assert (P : 0 < roundoff <= / 16) by (unfold roundoff; split; [apply Rinv_0_lt_compat, IZR_lt; reflexivity|apply Rinv_le_contravar; [lra|apply IZR_le; vm_compute; discriminate]]).
  assert (B : bpow radix2 (1 - 53) = 2 * roundoff).
  { change (/ IZR (2 ^ 52) = 2 * roundoff). unfold roundoff. replace (IZR (2 ^ 53)) with (2 * IZR (2 ^ 52)) by (rewrite <- mult_IZR; reflexivity). field. apply IZR_neq. discriminate. }
  assert (S : forall k, 0 <= k <= 3 -> bpow radix2 (1 - 1) <= Rabs (1 + k * roundoff) < bpow radix2 1) by (intros k Hk; assert (0 <= k * roundoff <= 3 * / 16) by nra; rewrite Rabs_right by lra; cbn; lra).
  split.
  - replace (1 + roundoff) with (1 + 1 * roundoff) by ring. rewrite (rnd_tie 1 (2 ^ 52)); [rewrite B; replace (IZR (2 ^ 52) * (2 * roundoff)) with (2 * (roundoff * IZR (2 ^ 52))) by ring; rewrite E; lra|lia|apply S; lra|reflexivity|].
    change (bpow radix2 (53 - 1)) with (IZR (2 ^ 52)). replace ((1 + 1 * roundoff) * IZR (2 ^ 52) - IZR (2 ^ 52)) with (/ 2) by (rewrite <- E; ring). rewrite Rabs_right; lra.
  - rewrite (rnd_tie 1 (2 ^ 52 + 2)); [rewrite B, plus_IZR; replace ((IZR (2 ^ 52) + 2) * (2 * roundoff)) with (2 * (roundoff * IZR (2 ^ 52)) + 4 * roundoff) by ring; rewrite E; lra|lia|apply S; lra|reflexivity|].
    change (bpow radix2 (53 - 1)) with (IZR (2 ^ 52)). rewrite plus_IZR. replace ((1 + 3 * roundoff) * IZR (2 ^ 52) - (IZR (2 ^ 52) + 2)) with (3 * (roundoff * IZR (2 ^ 52)) - 2) by ring. rewrite E, Rabs_left; lra.
Qed.
