(** C95-C99: analysis helpers. *)
From Coq Require Import String Lra Lia Permutation.
From Verif Require Import Base BaseLemmas BaseR BaseRLemmas Spec SpecF SpecMax SpecMaxF SpecHelpers Fuzzy FuzzyProofs MaxMachine Density DensityProofs Helpers HelpersProofs Tools SpecTools.
Local Open Scope R_scope.

(** * factor_density *)
Lemma density_ok o i L K f : exists v, expected_density (model_name o i) L K f = Ok v.
Proof. destruct o, i; eexists; reflexivity. Qed.
Definition fold_guesses (model : string) L K X sol gs r := fold_left (fun r g => bind r (try_guess model L K X g (sol g))) gs r.
Lemma fold_guesses_err model L K X sol gs e : fold_guesses model L K X sol gs (Err e) = Err e.
Proof. induction gs as [|g gs IH]; [reflexivity|exact IH]. Qed.
Lemma fold_guesses_ok model L K X sol (r : R -> R) gs s : (forall g, In g gs -> (exists v, expected_density model L K g = Ok v) /\ residual model L K X (sol g) = Ok (r g)) ->
  exists s', fold_guesses model L K X sol gs (Ok s) = Ok s' /\ fst s' <= fst s /\ (forall g, In g gs -> fst s' <= r g) /\ (s' = s \/ exists g, In g gs /\ s' = (r g, Some (sol g))).
Proof.
  revert s. induction gs as [|g gs IH]; intros s H; [exists s; split; [reflexivity|]; split; [lra|]; split; [intros g []|auto]|].
  destruct (H g (or_introl eq_refl)) as ((v & E1) & E2). set (s1 := if Rltb (r g) (fst s) then (r g, Some (sol g)) else s).
  destruct (IH s1 (fun g' Hg => H g' (or_intror Hg))) as (s' & E & H1 & H2 & H3). exists s'. split; [cbn [fold_guesses fold_left]; unfold fold_guesses in *; cbn [fold_left bind]; unfold try_guess at 2; rewrite E1; cbn [bind]; rewrite E2; cbn [bind]; exact E|].
  assert (G : fst s1 <= fst s /\ fst s1 <= r g) by (unfold s1, Rltb; destruct (Rlt_dec _ _); cbn; lra). split; [lra|]. split; [intros g' [<-|Hg]; [lra|apply H2, Hg]|].
  destruct H3 as [->|(g' & Hg & ->)]; [|right; exists g'; split; [right; exact Hg|reflexivity]]. unfold s1. destruct (Rltb _ _); [right; exists g; split; [left|]; reflexivity|left; reflexivity].
Qed.
Lemma residual_inside model L K X t v : 0 <= t <= 1 -> expected_density model L K t = Ok v -> residual model L K X t = Ok (Rabs (v - X)).
Proof. intros H E. unfold residual, Rltb. destruct (Rlt_dec t 0); [lra|]. destruct (Rlt_dec 1 t); [lra|]. rewrite E. reflexivity. Qed.
Lemma C95_lemma o i K L X sol : (1 <= L)%nat -> (1 <= K)%nat -> ((o = XOR \/ o = NXOR) /\ i = XOR -> K = 2%nat \/ L = 1%nat) -> 0 <= X <= 1 -> (forall g, In g guesses -> 0 <= sol g <= 1) ->
  exists g d, In g guesses /\ factor_density (model_name o i) L K X sol = Ok (sol g) /\ is_prob o i K L (fun _ _ => sol g) d /\
    (forall g' d', In g' guesses -> is_prob o i K L (fun _ _ => sol g') d' -> Rabs (d - X) <= Rabs (d' - X)) /\
    ((exists g', In g' guesses /\ is_prob o i K L (fun _ _ => sol g') X) -> d = X).
Proof.
  intros HL HK HX H0 HS. set (r := fun g => Rabs (fuzz o i K L (fun _ _ => sol g) - X)).
  assert (ED : forall f, expected_density (model_name o i) L K f = Ok (fuzz o i K L (fun _ _ => f))). { intros f. destruct (C52_lemma o i K L f HL HK HX) as (v & E & P). rewrite E. f_equal. apply (prob_unique o i K L (fun _ _ => f)); [exact P|apply prob_fuzz]. }
  assert (RG : forall g, In g guesses -> r g <= 1). { intros g Hg. unfold r. pose proof (fuzz_range o i K L (fun _ _ => sol g) ltac:(intros; apply HS, Hg)). apply Rabs_le. lra. }
  destruct (fold_guesses_ok (model_name o i) L K X sol r guesses (10 ^ 10, None)) as (s' & E & H1 & H2 & H3). { intros g Hg. split; [eexists; apply ED|]. apply residual_inside; [apply HS, Hg|apply ED]. }
  assert (G1 : fst s' <= 1). { pose proof (H2 (1 / 100) ltac:(cbn; auto)). pose proof (RG (1 / 100) ltac:(cbn; auto)). lra. }
  destruct H3 as [->|(g & Hg & ->)]; [cbn [fst] in G1; lra|]. cbn [fst] in *. exists g, (fuzz o i K L (fun _ _ => sol g)). split; [exact Hg|]. split; [unfold factor_density; change (fold_left _ _ _) with (fold_guesses (model_name o i) L K X sol guesses (Ok (10 ^ 10, None))); rewrite E; reflexivity|]. split; [apply prob_fuzz|].
  assert (HM : forall g' d', In g' guesses -> is_prob o i K L (fun _ _ => sol g') d' -> r g <= Rabs (d' - X)). { intros g' d' Hg' P. rewrite (prob_unique _ _ _ _ _ _ _ P (prob_fuzz o i K L (fun _ _ => sol g'))). apply H2, Hg'. }
  split; [exact HM|]. intros (g' & Hg' & P). specialize (HM g' X Hg' P). replace (X - X) with 0 in HM by ring. rewrite Rabs_R0 in HM. unfold r in HM. pose proof (Rabs_pos (fuzz o i K L (fun _ _ => sol g) - X)). destruct (Req_dec (fuzz o i K L (fun _ _ => sol g) - X) 0) as [E0|E0]; [lra|]. apply Rabs_pos_lt in E0. lra.
Qed.
Lemma C95_outside_lemma o i K L X sol : (exists g, In g guesses /\ (sol g < 0 \/ 1 < sol g)) -> factor_density (model_name o i) L K X sol = Err TypeError.
Proof.
  intros HE. unfold factor_density. change (fold_left _ _ ?r) with (fold_guesses (model_name o i) L K X sol guesses r). assert (G : fold_guesses (model_name o i) L K X sol guesses (Ok (10 ^ 10, None)) = Err TypeError); [|rewrite G; reflexivity].
  generalize (10 ^ 10, None : option R). revert HE. generalize guesses. intros gs. induction gs as [|g gs IH]; intros (g' & Hg & H) s; [destruct Hg|]. unfold fold_guesses in *. cbn [fold_left bind]. unfold try_guess at 2. destruct (density_ok o i L K g) as (v & ->). cbn [bind].
  assert (Q : (sol g < 0 \/ 1 < sol g) \/ 0 <= sol g <= 1) by lra. destruct Q as [Q|Q].
  - assert (residual (model_name o i) L K X (sol g) = Err TypeError) as ->; [|apply fold_guesses_err]. unfold residual, Rltb. destruct (Rlt_dec _ _); [reflexivity|]. destruct (Rlt_dec _ _); [reflexivity|]. lra.
  - destruct (density_ok o i L K (sol g)) as (v' & E). rewrite (residual_inside _ _ _ _ _ _ Q E). cbn [bind]. apply IH. destruct Hg as [<-|Hg]; [lra|]. exists g'. auto.
Qed.

(** * split_tensor_train_test_old *)
Lemma existsb_in i l : existsb (Nat.eqb i) l = true <-> In i l.
Proof. rewrite existsb_exists. split; [intros (x & H1 & H2); apply Nat.eqb_eq in H2; congruence|intros H; exists i; split; [exact H|apply Nat.eqb_refl]]. Qed.
Lemma count_members n c : NoDup c -> (forall x, In x c -> (x < n)%nat) -> List.length (filter (fun i => existsb (Nat.eqb i) c) (seq 0 n)) = List.length c.
Proof.
  intros H1 H2. apply Permutation_length. apply NoDup_Permutation; [apply NoDup_filter, seq_NoDup|exact H1|]. intros x. rewrite filter_In, existsb_in, in_seq. split; [tauto|]. intros H. specialize (H2 x H). split; [lia|exact H].
Qed.
Lemma combine_seq_filter (p : nat -> bool) (l : list nat) a : map snd (filter (fun q => p (fst q)) (combine (seq a (List.length l)) l)) = map (fun k => nth k l 0%nat) (map (fun k => (k - a)%nat) (filter p (seq a (List.length l)))).
Proof.
  revert a. induction l as [|x l IH]; intros a; [reflexivity|]. cbn [List.length seq combine filter fst]. assert (G : map (fun k => nth k (x :: l) 0%nat) (map (fun k => (k - a)%nat) (filter p (seq (S a) (List.length l)))) = map (fun k => nth k l 0%nat) (map (fun k => (k - S a)%nat) (filter p (seq (S a) (List.length l))))).
  { rewrite !map_map. apply map_ext_in. intros k Hk. apply filter_In in Hk. destruct Hk as (Hk & _). apply in_seq in Hk. replace (k - a)%nat with (S (k - S a)) by lia. reflexivity. }
  destruct (p a); cbn [map snd]; rewrite IH, <- G; [|reflexivity]. rewrite Nat.sub_diag. reflexivity.
Qed.
Lemma C96_lemma v split S idx : 0 <= split <= 1 -> let n := List.length v in is_floor S (split * INR n) -> is_draw n S idx -> let nobs := List.length (filter (fun x => negb (x =? 0)%Z) v) in
  exists tr mask, split_tensor_train_test_old true v split idx = Ok (tr, mask) /\ List.length tr = n /\ List.length mask = n /\
    (forall i, (i < n)%nat -> at1 tr i = (if nth i mask false then 0%Z else at1 v i) /\ (nth i mask false = true -> at1 v i <> 0%Z)) /\
    List.length (filter (fun b => b) mask) = List.length (filter (fun k => Nat.ltb k nobs) idx).
Proof.
  intros H0 n HF (D1 & D2 & D3) nobs. unfold split_tensor_train_test_old. cbn [negb]. fold n. destruct (trunc_floor (split * INR n)) as (S' & ET & HF'); [apply Rmult_le_pos; [lra|apply pos_INR]|].
  assert (S' = S). { destruct HF as (A1 & A2), HF' as (B1 & B2). assert (INR S' < INR (Datatypes.S S)) by (rewrite S_INR; lra). assert (INR S < INR (Datatypes.S S')) by (rewrite S_INR; lra). apply INR_lt in H, H1. lia. } subst S'.
  assert (HSn : (S <= n)%nat). { destruct HF as (A1 & _). apply INR_le. pose proof (pos_INR n). nra. }
  unfold choice. rewrite ET. replace (Z.of_nat S <? 0)%Z with false by (symmetry; apply Z.ltb_ge; lia). replace (Z.of_nat n <? Z.of_nat S)%Z with false by (symmetry; apply Z.ltb_ge; lia). cbn [orb bind].
  set (nz := positions (fun x => negb (x =? 0)%Z) v). set (chosen := map snd _). set (mask := map (fun i => existsb (Nat.eqb i) chosen) (seq 0 n)).
  assert (NZ : NoDup nz) by (apply NoDup_filter, seq_NoDup). assert (NZI : forall x, In x nz <-> (x < n)%nat /\ at1 v x <> 0%Z) by (intros x; unfold nz, positions; rewrite filter_In, in_seq, Bool.negb_true_iff, Z.eqb_neq; unfold n; intuition lia).
  assert (CH : chosen = map (fun k => nth k nz 0%nat) (filter (fun k => existsb (Nat.eqb k) idx) (seq 0 (List.length nz)))).
  { unfold chosen. rewrite (combine_seq_filter (fun k => existsb (Nat.eqb k) idx) nz 0). f_equal. rewrite <- (map_id (filter _ _)) at 2. apply map_ext. intros k. lia. }
  assert (CI : forall x, In x chosen -> In x nz) by (intros x Hx; rewrite CH in Hx; apply in_map_iff in Hx; destruct Hx as (k & <- & Hk); apply filter_In in Hk; destruct Hk as (Hk & _); apply in_seq in Hk; apply nth_In; lia).
  assert (CN : NoDup chosen).
  { rewrite CH. assert (G : forall l, NoDup l -> (forall k, In k l -> (k < List.length nz)%nat) -> NoDup (map (fun k => nth k nz 0%nat) l)).
    { induction l as [|k l IH]; intros HN HB; [constructor|]. inversion HN; subst. cbn. constructor; [|apply IH; [assumption|intros; apply HB; right; assumption]]. intros C. apply in_map_iff in C. destruct C as (k' & E & Hk'). assert (k' = k); [|subst; contradiction]. rewrite NoDup_nth in NZ. apply NZ; [apply HB; right; exact Hk'|apply HB; left; reflexivity|exact E]. }
    apply G; [apply NoDup_filter, seq_NoDup|]. intros k Hk. apply filter_In in Hk. destruct Hk as (Hk & _). apply in_seq in Hk. lia. }
  assert (MI : forall i, (i < n)%nat -> nth i mask false = existsb (Nat.eqb i) chosen) by (intros i Hi; unfold mask; rewrite (nth_indep _ _ (existsb (Nat.eqb 0) chosen)) by (rewrite map_length, seq_length; exact Hi); rewrite (map_nth (fun i => existsb (Nat.eqb i) chosen)), seq_nth by exact Hi; reflexivity).
  exists (training v mask), mask. split; [reflexivity|]. split; [unfold training; rewrite map_length; apply seq_length|]. split; [unfold mask; rewrite map_length; apply seq_length|]. split.
  - intros i Hi. split.
    + unfold training. unfold at1 at 1. fold n. rewrite (nth_indep _ _ ((fun i => if nth i mask false then 0%Z else at1 v i) 0%nat)) by (rewrite map_length, seq_length; exact Hi). rewrite (map_nth (fun i => if nth i mask false then 0%Z else at1 v i)), seq_nth by exact Hi. reflexivity.
    + rewrite MI by exact Hi. rewrite existsb_in. intros Hc. apply (NZI i), CI, Hc.
  - unfold mask. assert (G : forall (f : nat -> bool) l, List.length (filter (fun b => b) (map f l)) = List.length (filter f l)) by (intros f; induction l as [|x l IH]; [reflexivity|]; cbn; destruct (f x); cbn; rewrite IH; reflexivity).
    rewrite G, count_members; [|exact CN|intros x Hx; apply (NZI x), CI, Hx]. rewrite CH, map_length.
    assert (EN : List.length nz = nobs). { unfold nz, nobs, positions. rewrite <- (map_length (at1 v)). f_equal. unfold at1. clear. induction v as [|x v IH] using rev_ind; [reflexivity|]. rewrite app_length, seq_app, !filter_app, map_app. cbn [List.length seq Nat.add]. f_equal.
      - etransitivity; [|exact IH]. rewrite (filter_ext_in _ (fun i => negb (nth i v 0 =? 0)%Z)) by (intros i Hi; apply in_seq in Hi; rewrite app_nth1 by lia; reflexivity). apply map_ext_in. intros i Hi. apply filter_In in Hi. destruct Hi as (Hi & _). apply in_seq in Hi. rewrite app_nth1 by lia. reflexivity.
      - cbn [filter]. rewrite nth_middle. destruct (negb _); cbn [map]; rewrite ?nth_middle; reflexivity. }
    rewrite EN. apply Permutation_length. apply NoDup_Permutation; [apply NoDup_filter, seq_NoDup|apply NoDup_filter, D1|]. intros k. rewrite !filter_In, existsb_in, in_seq, Nat.ltb_lt. intuition lia.
Qed.

Lemma filter_all_length {A} (p : A -> bool) l : Forall (fun x => p x = true) l -> filter p l = l.
Proof. induction 1 as [|x l H _ IH]; [reflexivity|]. cbn. rewrite H, IH. reflexivity. Qed.
Lemma C96_complete_lemma v split S idx : 0 <= split <= 1 -> is_floor S (split * INR (List.length v)) -> is_draw (List.length v) S idx -> Forall (fun x => x <> 0%Z) v ->
  exists tr mask, split_tensor_train_test_old true v split idx = Ok (tr, mask) /\ List.length (filter (fun b => b) mask) = S.
Proof.
  intros H0 HF HD HV. destruct (C96_lemma v split S idx H0 HF HD) as (tr & mask & E & _ & _ & _ & HC). exists tr, mask. split; [exact E|]. rewrite HC, (filter_all_length (fun x => negb (x =? 0)%Z)) by (eapply Forall_impl; [|exact HV]; intros x Hx; cbn in Hx; apply Bool.negb_true_iff, Z.eqb_neq, Hx).
  destruct HD as (_ & D2 & D3). rewrite filter_all_length; [exact D3|]. eapply Forall_impl; [|exact D2]. intros k Hk. apply Nat.ltb_lt, Hk.
Qed.
Lemma C96_refuted_lemma v split S : 0 <= split <= 1 -> is_floor S (split * INR (List.length v)) -> (1 <= S)%nat -> (S <= List.length (filter (fun x => x =? 0)%Z v))%nat ->
  exists idx tr mask, is_draw (List.length v) S idx /\ split_tensor_train_test_old true v split idx = Ok (tr, mask) /\ List.length (filter (fun b => b) mask) = 0%nat.
Proof.
  intros H0 HF H1 HM. assert (EL : (List.length (filter (fun x => x =? 0)%Z v) + List.length (filter (fun x => negb (x =? 0)%Z) v) = List.length v)%nat) by (clear; induction v as [|x v IH]; [reflexivity|]; cbn; destruct (x =? 0)%Z; cbn; lia).
  set (idx := seq (List.length v - S) S). assert (HD : is_draw (List.length v) S idx) by (split; [apply seq_NoDup|split; [apply Forall_forall; intros k Hk; apply in_seq in Hk; lia|apply seq_length]]).
  destruct (C96_lemma v split S idx H0 HF HD) as (tr & mask & E & _ & _ & _ & HC). exists idx, tr, mask. split; [exact HD|]. split; [exact E|]. rewrite HC. assert (G : forall l, (forall k, In k l -> (List.length (filter (fun x => negb (x =? 0)%Z) v) <= k)%nat) -> filter (fun k => Nat.ltb k (List.length (filter (fun x => negb (x =? 0)%Z) v))) l = []).
  { induction l as [|k l IH]; intros HB; [reflexivity|]. cbn [filter]. replace (Nat.ltb k _) with false by (symmetry; apply Nat.ltb_ge, HB; left; reflexivity). apply IH. intros k' Hk. apply HB. right. exact Hk. }
  rewrite G; [reflexivity|]. intros k Hk. unfold idx in Hk. apply in_seq in Hk. lia.
Qed.

(** * maxmachine_forward_pass *)
Definition lift_step (w : nat -> R) (x : R) (l : nat) : R := if Req_EM_T x 0 then x + w l else x.
Lemma lift_stop w ls x : x <> 0 -> fold_left (lift_step w) ls x = x.
Proof. intros H. induction ls as [|l ls IH]; [reflexivity|]. cbn. unfold lift_step at 2. destruct (Req_EM_T x 0); [contradiction|exact IH]. Qed.
Lemma lift_first w ls : ((forall l, In l ls -> w l = 0) /\ fold_left (lift_step w) ls 0 = 0) \/ exists a, (a < List.length ls)%nat /\ (forall b, (b < a)%nat -> w (nth b ls 0%nat) = 0) /\ w (nth a ls 0%nat) <> 0 /\ fold_left (lift_step w) ls 0 = w (nth a ls 0%nat).
Proof.
  induction ls as [|l ls IH]; [left; split; [intros l []|reflexivity]|]. cbn [fold_left]. unfold lift_step at 2 4. destruct (Req_EM_T 0 0) as [_|C]; [|contradiction C; reflexivity]. rewrite Rplus_0_l. destruct (Req_dec (w l) 0) as [E|E].
  - rewrite E. destruct IH as [(H1 & H2)|(a & H1 & H2 & H3 & H4)]; [left; split; [intros l' [<-|Hl]; auto|exact H2]|]. right. exists (S a). cbn [List.length nth]. split; [lia|]. split; [intros [|b] Hb; [exact E|apply H2; lia]|]. auto.
  - right. exists 0%nat. cbn [List.length nth]. split; [lia|]. split; [lia|]. split; [exact E|apply lift_stop, E].
Qed.
Lemma rat2_build' N D f n d : (n < N)%nat -> (d < D)%nat -> rat2 (rmat_build N D f) n d = f n d.
Proof.
  intros Hn Hd. unfold rat2, rmat_build, rat. rewrite (nth_indep _ [] (map (f 0%nat) (seq 0 D))) by (rewrite map_length, seq_length; exact Hn). rewrite (map_nth (fun n => map (f n) (seq 0 D))), seq_nth by exact Hn.
  rewrite (nth_indep _ 0 (f (0 + n)%nat 0%nat)) by (rewrite map_length, seq_length; exact Hd). rewrite (map_nth (f (0 + n)%nat)), seq_nth by exact Hd. reflexivity.
Qed.
Lemma forward_entry argsort u z alpha n d : (n < nrows z)%nat -> (d < nrows u)%nat -> let x := fold_left (lift_step (fun l => rat alpha l * (rat2 z n l * rat2 u d l))) (argsort (map Ropp (butlast alpha))) 0 in
  rat2 (maxmachine_forward_pass argsort u z alpha) n d = if Req_EM_T x 0 then last alpha 0 else x.
Proof.
  intros Hn Hd. cbn zeta. unfold maxmachine_forward_pass. rewrite rat2_build' by assumption. assert (G : forall ls x0, rat2 (fold_left (fun x l => rmat_build (nrows z) (nrows u) (fun n d => if Req_EM_T (rat2 x n d) 0 then rat2 x n d + rat alpha l * (rat2 z n l * rat2 u d l) else rat2 x n d)) ls x0) n d = fold_left (lift_step (fun l => rat alpha l * (rat2 z n l * rat2 u d l))) ls (rat2 x0 n d)).
  { induction ls as [|l ls IH]; intros x0; [reflexivity|]. cbn [fold_left]. rewrite IH, rat2_build' by assumption. reflexivity. }
  rewrite G, rat2_build' by assumption. reflexivity.
Qed.
Lemma rat2_IZR m i j : rat2 (map (map IZR) m) i j = IZR (at2 m i j).
Proof. unfold rat2, rat, at2. change (@nil R) with (map IZR []). rewrite (map_nth (map IZR)). apply (map_nth IZR). Qed.
Lemma removelast_nth (alpha : list R) l L : List.length alpha = S L -> (l < L)%nat -> nth l (removelast alpha) 0 = nth l alpha 0.
Proof. intros HA Hl. destruct alpha as [|a alpha] using rev_ind; [discriminate|]. rewrite app_length in HA. cbn in HA. rewrite removelast_last. symmetry. apply app_nth1. lia. Qed.
Lemma removelast_len (alpha : list R) L : List.length alpha = S L -> List.length (removelast alpha) = L.
Proof. intros HA. destruct alpha as [|a alpha] using rev_ind; [discriminate|]. rewrite app_length in HA. cbn in HA. rewrite removelast_last. lia. Qed.
Lemma last_nth' (alpha : list R) L : List.length alpha = S L -> last alpha 0 = nth L alpha 0.
Proof. intros HA. destruct alpha as [|a alpha] using rev_ind; [discriminate|]. rewrite app_length in HA. cbn in HA. rewrite last_last. replace L with (List.length alpha) by lia. symmetry. apply nth_middle. Qed.
Lemma C97_lemma argsort alpha u z N D L : List.length alpha = S L -> (forall l, (l < L)%nat -> 0 < nth l alpha 0) -> zero_one_matrix N L z -> zero_one_matrix D L u -> is_argsort (map Ropp (removelast alpha)) (argsort (map Ropp (removelast alpha))) ->
  forall n d, (n < N)%nat -> (d < D)%nat -> max_output alpha (row z n) (row u d) L (rat2 (maxmachine_forward_pass argsort (map (map IZR) u) (map (map IZR) z) alpha) n d).
Proof.
  intros HA HP ((Z1 & _) & ZB) ((U1 & _) & UB) (AP & AS) n d Hn Hd. rewrite forward_entry by (unfold nrows, mat, vec in *; rewrite map_length; lia).
  set (w := fun l => rat alpha l * (rat2 (map (map IZR) z) n l * rat2 (map (map IZR) u) d l)). unfold butlast. set (ls := argsort _) in *. rewrite map_length, (removelast_len _ L HA) in AP.
  assert (IN : forall l, In l ls <-> (l < L)%nat). { intros l. split; intros H; [apply (Permutation_in _ AP), in_seq in H; lia|apply (Permutation_in _ (Permutation_sym AP)), in_seq; lia]. }
  assert (W : forall l, (l < L)%nat -> (active (row z n) (row u d) l /\ w l = nth l alpha 0) \/ (~ active (row z n) (row u d) l /\ w l = 0)).
  { intros l Hl. unfold w, active, rat. rewrite !rat2_IZR. change (nth l (row z n) 0%Z) with (at2 z n l). change (nth l (row u d) 0%Z) with (at2 u d l). destruct (ZB n l Hn Hl) as [-> | ->], (UB d l Hd Hl) as [-> | ->]; try (right; split; [intros (? & ?); discriminate|ring]). left. split; [auto|ring]. }
  destruct (lift_first w ls) as [(H1 & ->)|(a & H1 & H2 & H3 & ->)].
  - destruct (Req_EM_T 0 0) as [_|C]; [|contradiction C; reflexivity]. right. split; [|apply last_nth', HA]. intros l Hl Ha. destruct (W l Hl) as [(_ & E)|(C & _)]; [|contradiction]. specialize (HP l Hl). rewrite H1 in E by (apply IN, Hl). lra.
  - destruct (Req_EM_T _ 0) as [C|_]; [contradiction|]. left. assert (Hl : (nth a ls 0 < L)%nat) by (apply IN, nth_In, H1). destruct (W _ Hl) as [(Ha & E)|(_ & E)]; [|contradiction]. rewrite E. split; [exists (nth a ls 0%nat); auto|]. intros l' Hl' Ha'.
    destruct (In_nth ls l' 0%nat (proj2 (IN l') Hl')) as (b & Hb & <-). destruct (Nat.lt_trichotomy a b) as [Q|[<-|Q]]; [|lra|].
    + specialize (AS a b ltac:(lia)). rewrite (nth_indep _ 0 (- 0)), (nth_indep _ 0 (- 0)) in AS by (rewrite map_length, (removelast_len _ L HA); assumption). rewrite !map_nth, !(removelast_nth _ _ L) in AS by assumption. lra.
    + specialize (H2 b Q). destruct (W _ Hl') as [(_ & E')|(C & _)]; [|contradiction]. specialize (HP _ Hl'). lra.
Qed.
Lemma argsort_one (ord : list nat) a : is_argsort [a] ord -> ord = [0%nat].
Proof. intros (P & _). cbn in P. apply Permutation_length_1_inv, Permutation_sym, P. Qed.
Lemma forward_one argsort a b (p q : R) : is_argsort [- a] (argsort [- a]) -> maxmachine_forward_pass argsort [[q]] [[p]] [a; b] = [[if Req_EM_T (a * (p * q)) 0 then b else a * (p * q)]].
Proof.
  intros HA. apply argsort_one in HA. unfold maxmachine_forward_pass, butlast. cbn [removelast map]. rewrite HA. unfold nrows. cbn [fold_left List.length]. unfold rmat_build. cbn [map seq]. do 2 f_equal. unfold rat2, rat. cbn [nth last]. destruct (Req_EM_T 0 0) as [_|C]; [|contradiction C; reflexivity]. rewrite Rplus_0_l. reflexivity.
Qed.
Lemma C97_expect_lemma argsort a b p q v : is_argsort [- a] (argsort [- a]) -> a <> 0 -> b <> 0 -> 0 < p < 1 -> 0 < q < 1 -> is_expected_top [a; b] 1 (fun k _ => if Nat.eqb k 0 then p else q) b v -> rat2 (maxmachine_forward_pass argsort [[q]] [[p]] [a; b]) 0 0 <> v.
Proof.
  intros HA Ha Hb Hp Hq HE. rewrite (forward_one _ _ _ _ _ HA). unfold rat2, rat. cbn [nth].
  assert (EV : v = p * q * a + (1 - p * q) * b).
  { rewrite <- (HE (fun t => if nth 0 (nth 0 t []) false && nth 1 (nth 0 t []) false then a else b)%bool).
    - unfold Rsum, table_weight, tables. cbn. ring.
    - intros t _. unfold top, both_on. destruct (nth 0 (nth 0 t []) false) eqn:E0, (nth 1 (nth 0 t []) false) eqn:E1; cbn [andb]; [left; exists 0%nat; split; [lia|]; split; [auto|]; split; [reflexivity|]; intros l' Hl _; replace l' with 0%nat by lia; cbn; lra|right; split; [|reflexivity]; intros l Hl (C0 & C1); replace l with 0%nat in * by lia; congruence..]. }
  assert (P1 : 0 < p * q) by nra. assert (P2 : p * q < 1) by nra. destruct (Req_EM_T _ 0) as [C|C]; [apply Rmult_integral in C; lra|]. rewrite EV. intros E. assert (Q : (1 - p * q) * b = 0) by lra. apply Rmult_integral in Q. lra.
Qed.

(** * find_centers_of_ordered_list *)
Lemma unique_repeat u k ls seen : (1 <= k)%nat -> ~ In u seen -> unique seen (repeat u k ++ ls) = u :: unique (u :: seen) ls.
Proof.
  intros Hk Hu. destruct k as [|k]; [lia|]. cbn [repeat app unique]. replace (existsb (Z.eqb u) seen) with false; [f_equal|symmetry; apply Bool.not_true_is_false; intros C; apply existsb_exists in C; destruct C as (x & C & E); apply Z.eqb_eq in E; congruence].
  clear Hk. induction k as [|k IH]; [reflexivity|]. cbn [repeat app unique existsb]. rewrite Z.eqb_refl. exact IH.
Qed.
Lemma unique_labels rs : forall seen, runs_ok rs -> (forall u, In u (map fst rs) -> ~ In u seen) -> unique seen (labels_of rs) = map fst rs.
Proof.
  induction rs as [|(u, k) rs IH]; intros seen (R1 & R2) HS; [reflexivity|]. inversion R1; inversion R2; subst. unfold labels_of. cbn [map concat fst snd]. rewrite unique_repeat; [|assumption|apply HS; left; reflexivity]. cbn [map fst]. f_equal. apply IH; [split; assumption|]. intros u' Hu [<-|C]; [contradiction|]. apply (HS u'); [right; exact Hu|exact C].
Qed.
Lemma filter_none {A} (p : A -> bool) l : (forall x, In x l -> p x = false) -> filter p l = [].
Proof. induction l as [|x l IH]; intros H; [reflexivity|]. cbn. rewrite (H x (or_introl eq_refl)). apply IH. intros y Hy. apply H. right. exact Hy. Qed.
Lemma where_run (a : list Z) u k b : ~ In u a -> ~ In u b -> filter (fun i => (nth i (a ++ repeat u k ++ b) 0 =? u)%Z) (seq 0 (List.length (a ++ repeat u k ++ b))) = seq (List.length a) k.
Proof.
  intros HA HB. rewrite !app_length, repeat_length, !seq_app, !filter_app. cbn [Nat.add]. rewrite filter_none; [|intros i Hi; apply in_seq in Hi; rewrite app_nth1 by lia; apply Z.eqb_neq; intros C; apply HA; rewrite <- C; apply nth_In; lia]. rewrite (filter_none _ (seq _ (List.length b))).
  - rewrite app_nil_r. cbn [app]. apply filter_all_length. apply Forall_forall. intros i Hi. apply in_seq in Hi. rewrite app_nth2 by lia. rewrite app_nth1 by (rewrite repeat_length; lia). apply Z.eqb_eq. apply (repeat_spec k). apply nth_In. rewrite repeat_length. lia.
  - intros i Hi. apply in_seq in Hi. rewrite !app_nth2 by (rewrite ?repeat_length; lia). apply Z.eqb_neq. intros C. apply HB. rewrite <- C. apply nth_In. rewrite repeat_length. lia.
Qed.
Lemma sum_seq k : forall a, (2 * fold_right Nat.add 0 (seq a k) + k = k * (2 * a + k))%nat.
Proof. induction k as [|k IH]; intros a; [reflexivity|]. cbn [seq fold_right]. specialize (IH (S a)). nia. Qed.
Lemma mean_seq a k : (1 <= k)%nat -> (fold_right Nat.add 0 (seq a k) / List.length (seq a k) = a + (k - 1) / 2)%nat.
Proof.
  intros Hk. rewrite seq_length. pose proof (sum_seq k a) as E. symmetry. pose proof (Nat.div_mod (k - 1) 2 ltac:(lia)) as E2. pose proof (Nat.mod_upper_bound (k - 1) 2 ltac:(lia)). set (q := ((k - 1) / 2)%nat) in *. set (m := ((k - 1) mod 2)%nat) in *. set (s := fold_right _ _ _) in *.
  assert (L1 : (k * (a + q) <= s)%nat) by nia. apply (Nat.div_unique s k (a + q) (s - k * (a + q))); [nia|lia].
Qed.
Lemma labels_app r1 r2 : labels_of (r1 ++ r2) = labels_of r1 ++ labels_of r2.
Proof. unfold labels_of. rewrite map_app, concat_app. reflexivity. Qed.
Lemma in_labels u rs : In u (labels_of rs) -> In u (map fst rs).
Proof. unfold labels_of. rewrite in_concat. intros (l & Hl & Hu). apply in_map_iff in Hl. destruct Hl as ((u', k) & <- & Hr). cbn [fst snd] in Hu. apply repeat_spec in Hu. subst. apply in_map_iff. exists (u', k). auto. Qed.
Lemma labels_length rs : List.length (labels_of rs) = fold_right Nat.add 0%nat (map snd rs).
Proof. induction rs as [|(u, k) rs IH]; [reflexivity|]. unfold labels_of in *. cbn [map concat fst snd fold_right]. rewrite app_length, repeat_length, IH. reflexivity. Qed.
Lemma C98_lemma rs : runs_ok rs -> List.length (find_centers_of_ordered_list (labels_of rs)) = List.length rs /\
  forall j, (j < List.length rs)%nat -> nth j (find_centers_of_ordered_list (labels_of rs)) 0%nat = (start rs j + (snd (nth j rs (0%Z, 0%nat)) - 1) / 2)%nat.
Proof.
  intros HR. unfold find_centers_of_ordered_list. rewrite (unique_labels rs [] HR) by (intros u _ []). rewrite map_map. split; [apply map_length|]. intros j Hj. set (F := fun r : Z * nat => _). rewrite (nth_indep _ 0%nat (F (0%Z, 0%nat))) by (rewrite map_length; exact Hj). rewrite (map_nth F). unfold F.
  destruct (nth_split rs (0%Z, 0%nat) Hj) as (r1 & r2 & ER & EL). destruct (nth j rs (0%Z, 0%nat)) as (u, k). cbn [fst snd]. destruct HR as (R1 & R2). rewrite ER in R1, R2. rewrite map_app in R1. cbn [map fst] in R1. apply Forall_app in R2. destruct R2 as (_ & R2). inversion R2 as [|? ? R3 _]; subst x l. cbn [snd] in R3.
  assert (N1 : ~ In u (labels_of r1) /\ ~ In u (labels_of r2)). { split; intros C; apply in_labels in C; apply NoDup_remove_2 in R1; apply R1, in_or_app; auto. } destruct N1 as (N1 & N2).
  assert (ELS : labels_of rs = labels_of r1 ++ repeat u k ++ labels_of r2) by (rewrite ER, labels_app; reflexivity). rewrite ELS, where_run by assumption. rewrite mean_seq by exact R3. rewrite labels_length. unfold start. rewrite ER, <- EL, firstn_app, Nat.sub_diag, firstn_all. cbn [firstn]. rewrite app_nil_r. reflexivity.
Qed.

(** * get_roc_auc *)
Lemma C99_lemma roc data train prediction : needs_scores roc -> get_roc_auc roc data train prediction = Err ValueError.
Proof. intros H. unfold get_roc_auc, exhaust. cbn [map]. apply H. destruct (filter _ _); [left; reflexivity|right]. cbn. lia. Qed.
Lemma C95_unknown_lemma model : (forall o i, model <> model_name o i) -> forall L K X sol, factor_density model L K X sol = Err UnboundLocalError.
Proof. intros H L K X sol. unfold factor_density. cbn [fold_left bind]. unfold try_guess. rewrite !(C52_unknown model H). reflexivity. Qed.
Lemma C97_coding_lemma argsort a b : is_argsort [- a] (argsort [- a]) -> 0 < a -> 0 <= b -> none_active [1]%Z [-1]%Z 1 /\ rat2 (maxmachine_forward_pass argsort [[-1]] [[1]] [a; b]) 0 0 = - a /\ ~ max_output [a; b] [1]%Z [-1]%Z 1 (- a).
Proof.
  intros HA Ha Hb. assert (NA : none_active [1]%Z [-1]%Z 1) by (intros l Hl (_ & C); replace l with 0%nat in C by lia; discriminate). split; [exact NA|]. rewrite (forward_one _ _ _ _ _ HA). split; [unfold rat2, rat; cbn [nth]; destruct (Req_EM_T _ 0); lra|].
  intros [((l & Hl & Hact & _) & _)|(_ & C)]; [exact (NA l Hl Hact)|cbn in C; lra].
Qed.
Lemma C97_zero_lemma argsort b : is_argsort [- 0] (argsort [- 0]) -> b <> 0 -> rat2 (maxmachine_forward_pass argsort [[1]] [[1]] [0; b]) 0 0 = b /\ ~ max_output [0; b] [1]%Z [1]%Z 1 b.
Proof.
  intros HA Hb. rewrite (forward_one _ _ _ _ _ HA). split; [unfold rat2, rat; cbn [nth]; destruct (Req_EM_T _ 0); lra|]. intros [((l & Hl & _ & C) & _)|(C & _)]; [replace l with 0%nat in C by lia; cbn in C; lra|]. apply (C 0%nat); [lia|split; reflexivity].
Qed.
Lemma C98_unordered_lemma : exists x ls, In x ls /\ nth (nth 0 (find_centers_of_ordered_list (x :: ls)) 0%nat) (x :: ls) 0%Z <> x.
Proof. exists 1%Z, [2; 1]%Z. split; [cbn; auto|vm_compute; discriminate]. Qed.
