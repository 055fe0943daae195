(** Fuzzy outputs in double precision: statements against the specification. *)
From Coq Require Import Lra Psatz String ZifyBool.
From Verif Require Import BaseLemmas Base BaseR Spec SpecF SpecFloat Fuzzy FuzzyProofs DensityProofs FloatFuzzy FloatProofs FloatProofs2 FloatProofs3 FloatProofs4 FloatProofs5 FloatProofs6.
From Flocq Require Import Core.
Local Open Scope R_scope.

Lemma bpow_rz e : bpow radix2 e = powerRZ 2 e.
Proof. destruct e as [|p|p]; [reflexivity| |]; cbn [bpow powerRZ]; [|f_equal]; rewrite Zpower_pos_powerRZ; reflexivity. Qed.
Lemma double_format x : is_double x <-> generic_format radix2 (FLT_exp (-1074) 53) x.
Proof.
  split.
  - intros (m & e & Hm & He & ->). apply generic_format_FLT. apply (FLT_spec _ _ _ _ (Float radix2 m e)); [unfold F2R; cbn [Fnum Fexp]; rewrite bpow_rz; reflexivity|exact Hm|exact He].
  - intros H. apply FLT_format_generic in H; [|reflexivity]. destruct H as [[m e] Hx Hm He]. exists m, e. split; [exact Hm|]. split; [exact He|]. rewrite Hx. unfold F2R. cbn [Fnum Fexp]. rewrite bpow_rz. reflexivity.
Qed.
Lemma rnd_fix x : rnd x = x <-> is_double x.
Proof.
  rewrite double_format. split; intros H.
  - rewrite <- H. apply generic_format_round; [apply FLT_exp_valid; reflexivity|apply valid_rnd_N].
  - apply round_generic; [apply valid_rnd_N|exact H].
Qed.
Lemma C114_rounding_lemma x : is_double (rnd x) /\ (forall y, is_double y -> Rabs (rnd x - x) <= Rabs (y - x)) /\ (is_double x -> rnd x = x).
Proof.
  split; [apply rnd_fix, rnd_rnd|]. split; [|apply rnd_fix]. intros y Hy.
  assert (V : Valid_exp (FLT_exp (-1074) 53)) by (apply FLT_exp_valid; reflexivity).
  destruct (round_N_pt radix2 (FLT_exp (-1074) 53) (fun x => negb (Z.even x)) x) as (_ & H). apply H. apply double_format. exact Hy.
Qed.
Lemma doubles_spec v : Forall is_double v -> doubles v.
Proof. intros H. unfold doubles. eapply Forall_impl; [|exact H]. intros a Ha. apply rnd_fix. exact Ha. Qed.

Lemma C114_error_lemma o i : In (o, i) implemented -> exists f, a_output_2d double (model_name o i) = Some f /\
  forall z u L p, List.length z = L -> List.length u = L -> probs z -> probs u -> (Z.of_nat L <= 2 ^ 20)%Z -> is_prob o i 2 L (fun k l => nth l (nth k [z; u] []) 0) p ->
  Rabs (f z u - p) <= match o with XOR => 29 * INR L * INR L + 11 * INR L | _ => 14 * INR L + 2 end * roundoff.
Proof.
  intros H. destruct (error2 o i H) as (f & Ef & f' & Ef' & E). exists f. split; [exact Ef|]. intros z u L p Hz Hu Pz Pu HL P.
  destruct (C19_lemma o i H) as (g & Eg & Hg & _). rewrite Ef' in Eg. injection Eg as <-. destruct (Hg z u L Hz Hu) as (Q & _). rewrite (prob_unique _ _ _ _ _ _ _ P Q).
  specialize (E z u L Hz Hu Pz Pu HL). unfold near in E. unfold roundoff. fold eps. eapply Rle_trans; [exact E|]. apply Rmult_le_compat_r; [left; apply eps_pos|]. unfold bound. destruct o; lra.
Qed.
Lemma C114_error3_lemma o i : In (o, i) implemented -> (o, i) <> (OR, XOR) -> exists f, a_output_3d double (model_name o i) = Some f /\
  forall z u v L p, List.length z = L -> List.length u = L -> List.length v = L -> probs z -> probs u -> probs v -> (Z.of_nat L <= 2 ^ 20)%Z -> is_prob o i 3 L (fun k l => nth l (nth k [z; u; v] []) 0) p ->
  Rabs (f z u v - p) <= match o with XOR => 269 * INR L * INR L + 71 * INR L | _ => 36 * INR L + 2 end * roundoff.
Proof.
  intros H NE. destruct (error3 o i H NE) as (f & Ef & f' & Ef' & E). exists f. split; [exact Ef|]. intros z u v L p Hz Hu Hv Pz Pu Pv HL P.
  destruct (C20_lemma o i H NE) as (g & Eg & Hg & _). rewrite Ef' in Eg. injection Eg as <-. destruct (Hg z u v L Hz Hu Hv) as (Q & _). rewrite (prob_unique _ _ _ _ _ _ _ P Q).
  specialize (E z u v L Hz Hu Hv Pz Pu Pv HL). unfold near in E. unfold roundoff. fold eps. eapply Rle_trans; [exact E|]. apply Rmult_le_compat_r; [left; apply eps_pos|]. unfold bound, inner_error. destruct o; lra.
Qed.
Lemma C114_range_lemma o i : In (o, i) implemented -> exists f, a_output_2d double (model_name o i) = Some f /\
  forall z u L, List.length z = L -> List.length u = L -> probs z -> probs u -> Forall is_double z -> Forall is_double u -> 0 <= f z u /\ (o <> XOR -> f z u <= 1).
Proof. intros H. destruct (range2 o i H) as (f & E & R). exists f. split; [exact E|]. intros z u L Hz Hu Pz Pu Dz Du. apply (R z u L); try assumption; apply doubles_spec; assumption. Qed.
Lemma C114_certain_lemma o i : In (o, i) implemented -> exists f, a_output_2d double (model_name o i) = Some f /\
  forall a b L x, List.length a = L -> List.length b = L -> (Z.of_nat L <= 2 ^ 20)%Z -> lom_output o i [a; b] L x -> f (certain a) (certain b) = (1 + IZR x) / 2.
Proof.
  intros H. destruct (certain2 o i H) as (f & Ef & f' & Ef' & E). exists f. split; [exact Ef|]. intros a b L x Ha Hb HL X. rewrite (E a b L Ha Hb HL).
  destruct (C19_lemma o i H) as (g & Eg & _ & Hg). rewrite Ef' in Eg. injection Eg as <-. apply (Hg a b L x); assumption.
Qed.
Lemma C114_certain3_lemma o i : In (o, i) implemented -> (o, i) <> (OR, XOR) -> exists f, a_output_3d double (model_name o i) = Some f /\
  forall a b c L x, List.length a = L -> List.length b = L -> List.length c = L -> (Z.of_nat L <= 2 ^ 20)%Z -> lom_output o i [a; b; c] L x -> f (certain a) (certain b) (certain c) = (1 + IZR x) / 2.
Proof.
  intros H NE. destruct (certain3 o i H NE) as (f & Ef & f' & Ef' & E). exists f. split; [exact Ef|]. intros a b c L x Ha Hb Hc HL X. rewrite (E a b c L Ha Hb Hc HL).
  destruct (C20_lemma o i H NE) as (g & Eg & _ & Hg). rewrite Ef' in Eg. injection Eg as <-. apply (Hg a b c L x); assumption.
Qed.

(** ** Means *)
Lemma hits_ones xs : hits xs = ones xs.
Proof. unfold hits, ones. induction xs as [|x xs IH]; [reflexivity|]. cbn [filter count_occ]. destruct (Z.eqb_spec 1 x), (Z.eq_dec x 1); try lia; cbn [List.length]; lia. Qed.
Lemma C115_mean_lemma xs : samples xs -> (1 <= Z.of_nat (List.length xs) <= 2 ^ 53)%Z ->
  Rabs (double_mean xs - (2 * share xs - 1)) <= roundoff /\ -1 <= double_mean xs <= 1 /\ (double_mean xs = 1 <-> hits xs = List.length xs) /\ (double_mean xs = -1 <-> hits xs = 0%nat).
Proof.
  intros H HB. destruct (sample_mean_lemma xs _ eq_refl HB H) as (E & M & _ & _ & O & Z0). rewrite hits_ones. split; [|split; [exact M|split; [exact O|exact Z0]]].
  assert (0 < INR (List.length xs)) by (apply (lt_INR 0); lia). unfold share. rewrite hits_ones. replace (2 * (INR (ones xs) / INR (List.length xs)) - 1) with ((2 * INR (ones xs) - INR (List.length xs)) / INR (List.length xs)) by (field; lra). exact E.
Qed.
Lemma C115_map_lemma xs : samples xs -> (1 <= Z.of_nat (List.length xs) <= 2 ^ 53)%Z -> (double_map xs = 1%Z <-> (List.length xs < 2 * hits xs)%nat) /\ (double_map xs = (-1)%Z <-> (2 * hits xs <= List.length xs)%nat).
Proof.
  intros H HB. destruct (sample_mean_lemma xs _ eq_refl HB H) as (_ & _ & P & _). rewrite hits_ones. unfold double_map. destruct Rlt_dec as [Q|Q].
  - apply P in Q. split; split; intros; try lia; discriminate.
  - assert (~ (List.length xs < 2 * ones xs)%nat) by (intros C; apply Q, P, C). split; split; intros; try lia; discriminate.
Qed.
Lemma C115_prob_lemma xs : samples xs -> (1 <= Z.of_nat (List.length xs) <= 2 ^ 53)%Z -> double_mc xs = double_prob xs /\
  0 <= double_prob xs <= 1 /\ is_double (double_prob xs) /\ Rabs (double_prob xs - share xs) <= 5 / 2 * roundoff /\ (hits xs = List.length xs -> double_prob xs = 1) /\ (hits xs = 0%nat -> double_prob xs = 0).
Proof.
  intros H HB. split; [unfold double_mc, double_prob, double_mean; rewrite Rplus_comm; reflexivity|]. destruct (sample_prob_lemma xs _ eq_refl HB H) as (R & D & E & O & Z0). unfold share. rewrite hits_ones. split; [exact R|]. split; [apply rnd_fix, D|]. split; [exact E|split; [exact O|exact Z0]].
Qed.

(** ** From saved samples to outputs *)
Lemma Ebl_lip d x : probs x -> forall y G, probs y -> Forall2 (fun a b => Rabs (a - b) <= d) x y -> (forall bs, 0 <= G bs <= 1) -> Rabs (Ebl x G - Ebl y G) <= INR (List.length x) * d.
Proof.
  induction 1 as [|a x Ha Hx IH]; intros y G Py F HG; inversion F as [|? b ? y' Hab F']; subst; [cbn; rewrite Rminus_diag_eq, Rabs_R0 by reflexivity; lra|]. cbn [Ebl]. inversion Py as [|? ? Hb Py']; subst.
  pose proof (IH y' (fun bs => G (true :: bs)) Py' F' (fun bs => HG _)) as I1. pose proof (IH y' (fun bs => G (false :: bs)) Py' F' (fun bs => HG _)) as I2.
  destruct (Ebl_range y' (fun bs => G (true :: bs)) 0 1 Py' (fun bs => HG _)) as (A1 & A2). destruct (Ebl_range y' (fun bs => G (false :: bs)) 0 1 Py' (fun bs => HG _)) as (B1 & B2).
  set (X1 := Ebl x (fun bs => G (true :: bs))) in *. set (X2 := Ebl x (fun bs => G (false :: bs))) in *. set (Y1 := Ebl y' (fun bs => G (true :: bs))) in *. set (Y2 := Ebl y' (fun bs => G (false :: bs))) in *.
  cbn [List.length]. rewrite S_INR. replace (a * X1 + (1 - a) * X2 - (b * Y1 + (1 - b) * Y2)) with (a * (X1 - Y1) + (1 - a) * (X2 - Y2) + (a - b) * (Y1 - Y2)) by ring.
  eapply Rle_trans; [apply Rabs_triang|]. rewrite Rmult_plus_distr_r, Rmult_1_l. apply Rplus_le_compat.
  - eapply Rle_trans; [apply Rabs_triang|]. rewrite !Rabs_mult, (Rabs_pos_eq a), (Rabs_pos_eq (1 - a)) by lra.
    apply Rle_trans with (a * (INR (List.length x) * d) + (1 - a) * (INR (List.length x) * d)); [apply Rplus_le_compat; apply Rmult_le_compat_l; lra|lra].
  - rewrite Rabs_mult. assert (Q : Rabs (Y1 - Y2) <= 1) by (apply Rabs_le; lra). apply Rle_trans with (Rabs (a - b) * 1); [apply Rmult_le_compat_l; [apply Rabs_pos|exact Q]|lra].
Qed.
Lemma flop_lip d o x y : probs x -> probs y -> Forall2 (fun a b => Rabs (a - b) <= d) x y -> Rabs (flop o x - flop o y) <= INR (List.length x) * d.
Proof. intros Px Py F. rewrite <- !Ebl_lop. apply Ebl_lip; try assumption. intros bs. unfold b2r. destruct lopb; lra. Qed.
Lemma Forall2_map_seq {A B} (P : A -> B -> Prop) f g n : (forall k, (k < n)%nat -> P (f k) (g k)) -> Forall2 P (map f (seq 0 n)) (map g (seq 0 n)).
Proof. intros H. assert (G : forall l, (forall k, In k l -> (k < n)%nat) -> Forall2 P (map f l) (map g l)) by (induction l as [|k l IH]; intros Hl; [constructor|]; cbn [map]; constructor; [apply H, Hl; left; reflexivity|apply IH; intros j Hj; apply Hl; right; exact Hj]). apply G. intros k Hk. apply in_seq in Hk. lia. Qed.
Lemma fuzz_lip d o i K L p p' : (forall k l, (k < K)%nat -> (l < L)%nat -> 0 <= p k l <= 1 /\ 0 <= p' k l <= 1 /\ Rabs (p k l - p' k l) <= d) -> Rabs (fuzz o i K L p - fuzz o i K L p') <= INR L * (INR K * d).
Proof.
  intros H. unfold fuzz.
  assert (PI : forall (g : nat -> nat -> R) l, (forall k l, (k < K)%nat -> (l < L)%nat -> 0 <= g k l <= 1) -> (l < L)%nat -> probs (map (fun k => g k l) (seq 0 K))).
  { intros g l Hg Hl. apply Forall_forall. intros y Hy. apply in_map_iff in Hy. destruct Hy as (k & <- & Hk). apply in_seq in Hk. apply Hg; lia. }
  pose proof (flop_lip (INR K * d) o (map (fun l => flop i (map (fun k => p k l) (seq 0 K))) (seq 0 L)) (map (fun l => flop i (map (fun k => p' k l) (seq 0 K))) (seq 0 L))) as Q. rewrite map_length, seq_length in Q. apply Q.
  - apply Forall_forall. intros y Hy. apply in_map_iff in Hy. destruct Hy as (l & <- & Hl). apply in_seq in Hl. apply flop_range, PI; [intros; apply H; assumption|lia].
  - apply Forall_forall. intros y Hy. apply in_map_iff in Hy. destruct Hy as (l & <- & Hl). apply in_seq in Hl. apply flop_range, PI; [intros; apply H; assumption|lia].
  - apply Forall2_map_seq. intros l Hl. pose proof (flop_lip d i (map (fun k => p k l) (seq 0 K)) (map (fun k => p' k l) (seq 0 K))) as Q'. rewrite map_length, seq_length in Q'. apply Q'; try (apply PI; [intros; apply H; assumption|exact Hl]). apply Forall2_map_seq. intros k Hk. apply H; assumption.
Qed.
Lemma share_range xs : (1 <= Z.of_nat (List.length xs))%Z -> 0 <= share xs <= 1.
Proof.
  intros H. unfold share. rewrite hits_ones. pose proof (ones_le xs) as Q. apply le_INR in Q. pose proof (pos_INR (ones xs)). assert (P : 0 < INR (List.length xs)) by (apply (lt_INR 0); lia).
  split; [apply Rmult_le_pos; [assumption|left; apply Rinv_0_lt_compat; exact P]|]. apply (Rmult_le_reg_r (INR (List.length xs))); [exact P|]. unfold Rdiv. rewrite Rmult_assoc, Rinv_l, Rmult_1_r by lra. lra.
Qed.
Definition good (xs : list Z) : Prop := samples xs /\ (1 <= Z.of_nat (List.length xs) <= 2 ^ 53)%Z.
Lemma good_nth (v : list (list Z)) l : Forall good v -> (l < List.length v)%nat -> let x := nth l (map double_prob v) 0 in let y := nth l (map share v) 0 in 0 <= x <= 1 /\ 0 <= y <= 1 /\ Rabs (x - y) <= 5 / 2 * roundoff.
Proof.
  intros H Hl. cbv zeta. rewrite (nth_indep _ 0 (double_prob [])) by (rewrite map_length; exact Hl). rewrite (nth_indep (map share v) 0 (share [])) by (rewrite map_length; exact Hl). rewrite !map_nth.
  pose proof (Forall_nth' _ v l [] H Hl) as (S & B). destruct (C115_prob_lemma _ S B) as (_ & R & _ & E & _). split; [exact R|]. split; [apply share_range; lia|exact E].
Qed.
Lemma good_probs v : Forall good v -> probs (map double_prob v).
Proof. intros H. apply Forall_map. eapply Forall_impl; [|exact H]. intros xs (S & B). apply (C115_prob_lemma xs S B). Qed.
Lemma abs_tri a b c x y : Rabs (a - b) <= x -> Rabs (b - c) <= y -> Rabs (a - c) <= x + y.
Proof. intros H1 H2. replace (a - c) with ((a - b) + (b - c)) by ring. eapply Rle_trans; [apply Rabs_triang|lra]. Qed.
Lemma C115_output_lemma o i : In (o, i) implemented -> exists f, a_output_2d double (model_name o i) = Some f /\
  forall zs us L p, List.length zs = L -> List.length us = L -> (Z.of_nat L <= 2 ^ 20)%Z -> Forall (fun xs => samples xs /\ (1 <= Z.of_nat (List.length xs) <= 2 ^ 53)%Z) (zs ++ us) ->
  is_prob o i 2 L (fun k l => nth l (nth k [map share zs; map share us] []) 0) p ->
  Rabs (f (map double_prob zs) (map double_prob us) - p) <= match o with XOR => 29 * INR L * INR L + 16 * INR L | _ => 19 * INR L + 2 end * roundoff.
Proof.
  intros H. destruct (C114_error_lemma o i H) as (f & Ef & E). exists f. split; [exact Ef|]. intros zs us L p Hz Hu HL G P. apply Forall_app in G. destruct G as (G1 & G2).
  specialize (E (map double_prob zs) (map double_prob us) L _ ltac:(rewrite map_length; exact Hz) ltac:(rewrite map_length; exact Hu) (good_probs _ G1) (good_probs _ G2) HL (prob_fuzz o i 2 L _)).
  rewrite (prob_unique _ _ _ _ _ _ _ P (prob_fuzz o i 2 L _)).
  pose proof (fuzz_lip (5 / 2 * roundoff) o i 2 L (fun k l => nth l (nth k [map double_prob zs; map double_prob us] []) 0) (fun k l => nth l (nth k [map share zs; map share us] []) 0)) as Q.
  eapply Rle_trans; [eapply abs_tri; [exact E|apply Q]|].
  - intros k l Hk Hl. destruct k as [|[|k]]; [| |lia]; cbn [nth]; [apply good_nth; [exact G1|rewrite Hz; exact Hl]|apply good_nth; [exact G2|rewrite Hu; exact Hl]].
  - cbn [INR]. destruct o; lra.
Qed.
Lemma C115_output3_lemma : exists f, a_output_3d double (model_name OR AND) = Some f /\
  forall zs us vs L p, List.length zs = L -> List.length us = L -> List.length vs = L -> (Z.of_nat L <= 2 ^ 20)%Z -> Forall (fun xs => samples xs /\ (1 <= Z.of_nat (List.length xs) <= 2 ^ 53)%Z) (zs ++ us ++ vs) ->
  is_prob OR AND 3 L (fun k l => nth l (nth k [map share zs; map share us; map share vs] []) 0) p ->
  0 <= f (map double_prob zs) (map double_prob us) (map double_prob vs) <= 1 /\ Rabs (f (map double_prob zs) (map double_prob us) (map double_prob vs) - p) <= (44 * INR L + 2) * roundoff.
Proof.
  assert (H : In (OR, AND) implemented) by (cbn; auto). destruct (C114_error3_lemma OR AND H ltac:(discriminate)) as (f & Ef & E). exists f. split; [exact Ef|]. intros zs us vs L p Hz Hu Hv HL G P. apply Forall_app in G. destruct G as (G1 & G). apply Forall_app in G. destruct G as (G2 & G3).
  destruct (range3 OR AND H ltac:(left; reflexivity)) as (f2 & Ef2 & R). rewrite Ef in Ef2. injection Ef2 as <-.
  assert (LEN : forall v, List.length v = L -> List.length (map double_prob v) = L) by (intros v Q; rewrite map_length; exact Q).
  split; [destruct (R _ _ _ L (LEN _ Hz) (LEN _ Hu) (LEN _ Hv) (good_probs _ G1) (good_probs _ G2) (good_probs _ G3)) as (R1 & R2); split; [exact R1|apply R2; discriminate]|].
  specialize (E _ _ _ L _ (LEN _ Hz) (LEN _ Hu) (LEN _ Hv) (good_probs _ G1) (good_probs _ G2) (good_probs _ G3) HL (prob_fuzz OR AND 3 L _)).
  rewrite (prob_unique _ _ _ _ _ _ _ P (prob_fuzz OR AND 3 L _)).
  pose proof (fuzz_lip (5 / 2 * roundoff) OR AND 3 L (fun k l => nth l (nth k [map double_prob zs; map double_prob us; map double_prob vs] []) 0) (fun k l => nth l (nth k [map share zs; map share us; map share vs] []) 0)) as Q.
  eapply Rle_trans; [eapply abs_tri; [exact E|apply Q]|].
  - intros k l Hk Hl. destruct k as [|[|[|k]]]; [| | |lia]; cbn [nth]; [apply good_nth; [exact G1|rewrite Hz; exact Hl]|apply good_nth; [exact G2|rewrite Hu; exact Hl]|apply good_nth; [exact G3|rewrite Hv; exact Hl]].
  - cbn [INR]. assert (0 <= INR L) by apply pos_INR. assert (0 < roundoff) by apply eps_pos. nra.
Qed.
