(** Proofs of C100 and C101. *)
From Coq Require Import String Lia Lra Permutation.
From Coquelicot Require Import RInt Hierarchy.
From Verif Require Import Base BaseLemmas BaseR BaseRLemmas Spec SpecR Invariance InvarianceProofs HierProofs Canon Clean Machine Dispatch Inference SpecMachine SpecOrdinary SpecPass SpecPredict SpecErgodic MachineProofs MachineProofs2 InferenceProofs BuiltProofs InferenceProofs2 InferenceProofs6 TraceProofs ProgressProofs PlainProofs DispatchProofs SamplingProofs.
From Verif Require Import OrdinaryProofs OrdinaryProofs2 OrdinaryProofs3 OrdinaryProofs4 OrdinaryProofs5 OrdinaryProofs6 OrdinaryProofs7 PassProofs RunProofs UnbiasedProofs ErgodicProofs ErgodicProofs2.
Local Open Scope R_scope.

(** Plans as sequences of orders *)
Lemma plan_split o (Hp : fair o) fs a b : forall t, plan o fs (a + b) t = (plan o fs a t ++ plan o fs b (tpos fs t a))%list.
Proof.
  induction a as [|a IH]; intros t; [unfold tpos; cbn [Nat.add Nat.mul plan app]; rewrite Nat.add_0_r; reflexivity|]. cbn [Nat.add]. rewrite !plan_S by exact Hp. rewrite IH, <- app_assoc. do 3 f_equal. unfold tpos. cbn [Nat.mul]. lia.
Qed.
Lemma plan_orders o (Hp : fair o) fs n : forall t, exists orders, map snd (plan o fs n t) = concat orders /\ List.length orders = n /\ Forall (fun order => Permutation order fs) orders.
Proof.
  induction n as [|n IH]; intros t; [exists []; auto|]. rewrite plan_S by exact Hp. destruct (IH (Datatypes.S t + List.length fs)%nat) as (os & E1 & E2 & E3). exists (o_perm o t fs :: os). rewrite map_app, snd_combine, E1; [|rewrite seq_length; symmetry; apply Permutation_length, Hp]. split; [reflexivity|]. split; [cbn; lia|]. constructor; [apply Hp|exact E3].
Qed.
Lemma C100_lemma outs o0 s : outputs outs -> random o0 -> ordinary o0 (wd s) -> (forall l, (l < List.length (layers (wd s)))%nat -> lfixed (lbda (get_lay (wd s) l)) = true) ->
  let w := wd s in let fs := unfixed w in let states := choices (map (values_of w) fs) in let weight := fun c => joint outs (puts w fs c) in
  settles outs w fs -> forall B eps, 0 < eps -> exists T, forall o cfg n, random o -> usable cfg -> annealable cfg w -> exists F, forall fuel j, (F <= fuel)%nat -> (j < n)%nat -> (T <= burn_in_passes cfg + S j)%nat ->
  let pl := plan o fs (burn_in_passes cfg + n) (clock w) in
  forall h c, (forall c, In c states -> Rabs (h c) <= B) -> In c states ->
  exists E, is_EE (map (draws_needed w) (map snd pl)) (fun rss => after_run fs j h (infer fuel (with_plan o w pl rss) cfg n (set_wd s (puts w fs c)))) E /\ Rabs (E - average_over weight states h) <= eps.
Proof.
  intros Ho Hr0 H HL w fs states weight HT B eps He. pose proof (ordinary_sound _ _ Hr0 H) as SO. fold w in SO. destruct (run_slots outs w Ho SO HL) as (Hd & HF & W & SW & HA & EVs & EJ & ED & EF & HS). fold fs in Hd, HF, HA, EVs, EJ, HS.
  assert (EJ' : (fun c => joint outs (puts W fs c)) = weight) by (apply FunctionalExtensionality.functional_extensionality; exact EJ).
  destruct (settles_same outs w W fs EVs EJ' EF HT B eps He) as (T & HTT). exists T. intros o cfg n Hr HU HAn. exists (enough cfg). intros fuel j Hfu Hj Hbj pl h c Hh Hc. specialize (HS o cfg n s fuel eq_refl Hr HU HAn Hfu c). fold pl states in HS.
  destruct (plan_prefix o (proj1 Hr) fs (burn_in_passes cfg + S j) (n - S j) (clock w)) as (r & Er). replace (burn_in_passes cfg + S j + (n - S j))%nat with (burn_in_passes cfg + n)%nat in Er by lia. fold pl in Er.
  destruct (plan_orders o (proj1 Hr) fs (burn_in_passes cfg + S j) (clock w)) as (orders & E1 & E2 & E3).
  assert (Hc' : In c (choices (map (values_of W) fs))) by (rewrite EVs; exact Hc).
  pose proof (pass_EE outs W SW fs Hd HA (fun c _ => h c) h (map snd r) (concat orders)) as G. rewrite EJ' in G. exists (ops (flip_site fs) (free_site W) weight (sites_of W (concat orders)) h c). split.
  - specialize (G ltac:(intros i Hi; rewrite <- E1 in Hi; eapply plan_in; [apply Hr|exact Hi]) (fun c _ => is_EE_const _ (h c)) c Hc'). rewrite <- E1 in G |- *. rewrite <- map_app, <- Er, ED in G. eapply is_EE_ext; [|exact G]. intros rss HR. cbn beta. destruct (HS rss Hc HR) as (s' & F1 & F2). rewrite F1. unfold after_run. rewrite (F2 j Hj). reflexivity.
  - specialize (HTT orders E3 ltac:(lia) h ltac:(rewrite EVs; exact Hh) c Hc'). rewrite EVs, EJ' in HTT. exact HTT.
Qed.

(** ** The law of large numbers *)
Definition close (T i j : nat) : bool := ((i <? j + T) && (j <? i + T))%nat.
Lemma close_count T i n : Rsum (fun j => if close T i j then 1 else 0) (seq 0 n) <= INR (2 * T).
Proof.
  assert (E : forall l, Rsum (fun j => if close T i j then 1 else 0) l = INR (List.length (filter (close T i) l))).
  { induction l as [|j l IH]; [reflexivity|]. rewrite Rsum_cons, IH. cbn [filter]. destruct (close T i j); [cbn [List.length]; rewrite S_INR; lra|lra]. }
  rewrite E. apply le_INR. assert (G : (List.length (filter (close T i) (seq 0 n)) <= List.length (seq (i - T) (2 * T)))%nat); [|rewrite seq_length in G; exact G].
  apply NoDup_incl_length; [apply NoDup_filter, seq_NoDup|]. intros j Hj. apply filter_In in Hj. destruct Hj as (_ & Hj). unfold close in Hj. apply Bool.andb_true_iff in Hj. destruct Hj as (H1 & H2). apply Nat.ltb_lt in H1, H2. apply in_seq. lia.
Qed.
Lemma Rsum_sq {A} (f : A -> R) l : Rsum f l * Rsum f l = Rsum (fun p => f (fst p) * f (snd p)) (list_prod l l).
Proof.
  assert (G : forall l1 l2, Rsum f l1 * Rsum f l2 = Rsum (fun p => f (fst p) * f (snd p)) (list_prod l1 l2)); [|apply G].
  induction l1 as [|a l1 IH]; intros l2; [cbn; ring|]. cbn [list_prod]. rewrite Rsum_app, <- IH, Rsum_cons, Rsum_map. cbn [fst snd]. rewrite Rsum_scale. ring.
Qed.
Lemma Rsum_prod {A} (f : A * A -> R) l1 l2 : Rsum f (list_prod l1 l2) = Rsum (fun a => Rsum (fun b => f (a, b)) l2) l1.
Proof. induction l1 as [|a l1 IH]; [reflexivity|]. cbn [list_prod]. rewrite Rsum_app, IH, Rsum_cons, Rsum_map. reflexivity. Qed.
Lemma is_EE_choice {A} (l : list A) (eqd : forall a b : A, {a = b} + {a <> b}) ks (f : A -> list (list R) -> R) (P : A -> R -> Prop) : (forall a, In a l -> exists v, is_EE ks (f a) v /\ P a v) -> exists V, forall a, In a l -> is_EE ks (f a) (V a) /\ P a (V a).
Proof.
  induction l as [|x l IH]; intros H; [exists (fun _ => 0); intros a []|]. destruct IH as (V & HV); [intros a Ha; apply H; right; exact Ha|]. destruct (H x (or_introl eq_refl)) as (v & Hv). exists (fun a => if eqd a x then v else V a). intros a Ha. destruct (eqd a x) as [->|Hn]; [exact Hv|]. destruct Ha as [->|Ha]; [congruence|]. apply HV, Ha.
Qed.

Lemma C101_lemma outs o0 s : outputs outs -> random o0 -> ordinary o0 (wd s) -> (forall l, (l < List.length (layers (wd s)))%nat -> lfixed (lbda (get_lay (wd s) l)) = true) ->
  let w := wd s in let fs := unfixed w in let states := choices (map (values_of w) fs) in let weight := fun c => joint outs (puts w fs c) in
  settles outs w fs -> forall B eps, 0 < eps -> exists n0, forall o cfg n, (n0 <= n)%nat -> random o -> usable cfg -> annealable cfg w -> exists F, forall fuel, (F <= fuel)%nat ->
  let pl := plan o fs (burn_in_passes cfg + n) (clock w) in
  forall h c, (forall c, In c states -> Rabs (h c) <= B) -> In c states ->
  exists E, is_EE (map (draws_needed w) (map snd pl)) (fun rss => (run_mean fs n h (infer fuel (with_plan o w pl rss) cfg n (set_wd s (puts w fs c))) - average_over weight states h) ^ 2) E /\ E <= eps.
Proof.
  intros Ho Hr0 H HL w fs states weight HT B eps He. pose proof (ordinary_sound _ _ Hr0 H) as SO. fold w in SO. destruct (run_slots outs w Ho SO HL) as (Hd & HF & W & SW & HA & EVs & EJ & ED & EF & HS). fold fs in Hd, HF, HA, EVs, EJ, HS.
  assert (EJ' : (fun c => joint outs (puts W fs c)) = weight) by (apply FunctionalExtensionality.functional_extensionality; exact EJ).
  set (D := 2 * Rabs B + 1). assert (HD : 0 < D) by (unfold D; pose proof (Rabs_pos B); lra). set (e1 := eps / (2 * D)). assert (He1 : 0 < e1) by (unfold e1; apply Rdiv_lt_0_compat; lra).
  destruct (settles_same outs w W fs EVs EJ' EF HT B e1 He1) as (T & HTT).
  destruct (archimed (INR (2 * T) * (D * D) / (eps / 2))) as (AR & _). set (n0 := S (Z.to_nat (up (INR (2 * T) * (D * D) / (eps / 2))))). exists n0. intros o cfg n Hn Hr HU HAn. exists (enough cfg). intros fuel Hfu pl h c Hh Hc.
  assert (Hn0 : INR (2 * T) * (D * D) <= eps / 2 * INR n).
  { assert (Q : INR (2 * T) * (D * D) / (eps / 2) <= INR n). { apply Rle_trans with (IZR (up (INR (2 * T) * (D * D) / (eps / 2)))); [lra|]. rewrite (INR_IZR_INZ n). apply IZR_le. unfold n0 in Hn. lia. } apply (Rmult_le_compat_l (eps / 2)) in Q; [|lra]. replace (eps / 2 * (INR (2 * T) * (D * D) / (eps / 2))) with (INR (2 * T) * (D * D)) in Q by (field; lra). exact Q. }
  assert (Np : 0 < INR n) by (apply lt_0_INR; unfold n0 in Hn; lia).
  specialize (HS o cfg n s fuel eq_refl Hr HU HAn Hfu c). fold pl states in HS. set (BI := burn_in_passes cfg) in *. set (m := average_over weight states h) in *. set (g := fun c => h c - m).
  assert (Wpos : forall c, In c states -> 0 < weight c) by (intros x Hx; unfold weight; rewrite <- EJ; apply (J_pos outs W SW fs Hd HA); rewrite EVs; exact Hx).
  assert (Hm : - B <= m <= B).
  { unfold m, average_over. apply (mean_between states weight Wpos); [intros E; rewrite E in Hc; exact Hc|]. intros x Hx. specialize (Hh x Hx). pose proof (Rle_abs (h x)). pose proof (Rle_abs (- h x)). rewrite Rabs_Ropp in *. lra. }
  assert (B0 : 0 <= B) by (pose proof (Hh c Hc); pose proof (Rabs_pos (h c)); lra).
  assert (Hg : forall x, In x states -> - D <= g x <= D). { intros x Hx. unfold g, D. rewrite (Rabs_pos_eq B B0). specialize (Hh x Hx). pose proof (Rle_abs (h x)). pose proof (Rle_abs (- h x)). rewrite Rabs_Ropp in *. lra. }
  assert (Hst : forall c, In c states <-> In c (choices (map (values_of W) fs))) by (intros x; rewrite EVs; reflexivity).
  assert (Ag : forall a, (a <= n)%nat -> forall i, In i (map snd (plan o fs a (clock w))) -> In i fs) by (intros a _ i Hi; eapply plan_in; [apply Hr|exact Hi]).
  pose (course := fun rss j => pass outs W fs (map snd (plan o fs (BI + S j) (clock w))) c rss).
  assert (Pair : forall i j, (i <= j)%nat -> (j < n)%nat -> exists v, is_EE (map (draws_needed w) (map snd pl)) (fun rss => g (course rss i) * g (course rss j)) v /\ Rabs v <= (if close T i j then D * D else 0) + D * e1).
  { intros i j Hij Hj. set (d := (j - i)%nat). assert (EP : plan o fs (BI + S j) (clock w) = (plan o fs (BI + S i) (clock w) ++ plan o fs d (tpos fs (clock w) (BI + S i)))%list) by (rewrite <- plan_split by apply Hr; f_equal; unfold d; lia).
    assert (EL : pl = (plan o fs (BI + S i) (clock w) ++ (plan o fs d (tpos fs (clock w) (BI + S i)) ++ plan o fs (n - S j) (tpos fs (clock w) (BI + S j))))%list) by (rewrite app_assoc, <- EP, <- plan_split by apply Hr; unfold pl; f_equal; lia).
    set (a := map snd (plan o fs (BI + S i) (clock w))) in *. set (b := map snd (plan o fs d (tpos fs (clock w) (BI + S i)))) in *. set (r := map snd (plan o fs (n - S j) (tpos fs (clock w) (BI + S j)))).
    assert (ELs : map snd pl = (a ++ (b ++ r))%list) by (rewrite EL, !map_app; reflexivity).
    assert (Ha : forall x, In x a -> In x fs) by (intros x Hx; eapply plan_in; [apply Hr|exact Hx]). assert (Hb : forall x, In x b -> In x fs) by (intros x Hx; eapply plan_in; [apply Hr|exact Hx]).
    pose (V := fun c' => g c' * ops (flip_site fs) (free_site W) weight (sites_of W b) g c').
    assert (G1 : forall c', In c' (choices (map (values_of W) fs)) -> is_EE (map (draws_needed W) (b ++ r)) (fun rss => g c' * g (pass outs W fs b c' rss)) (V c')).
    { intros c' Hc'. pose proof (pass_EE outs W SW fs Hd HA (fun x _ => g x) g r b Hb (fun x _ => is_EE_const _ (g x)) c' Hc') as Q. rewrite EJ' in Q. cbn beta in Q. pose proof (is_EE_lin _ (g c') 0 _ _ _ _ Q Q) as Q2. eapply is_EE_ext; [|replace (V c') with (g c' * ops (flip_site fs) (free_site W) weight (sites_of W b) g c' + 0 * ops (flip_site fs) (free_site W) weight (sites_of W b) g c') by (unfold V; ring); exact Q2]. intros rss _. cbn beta. ring. }
    pose proof (pass_EE outs W SW fs Hd HA (fun c' rss => g c' * g (pass outs W fs b c' rss)) V (b ++ r) a Ha G1 c (proj1 (Hst c) Hc)) as G2. rewrite EJ', ED, <- ELs in G2. eexists. split.
    - eapply is_EE_ext; [|exact G2]. intros rss _. cbn beta. unfold course. rewrite EP, map_app. fold a b. rewrite pass_app. reflexivity.
    - assert (Inc : forall l, (forall x, In x l -> In x fs) -> forall q, In q (sites_of W l) -> In q (sites_of W fs)) by (intros l Hl (x & y & z) Hq; apply in_sites in Hq; apply in_sites; split; [apply Hl|]; apply Hq).
      assert (Rng : forall l lo hi f, (forall x, In x l -> In x fs) -> (forall x, In x states -> lo <= f x <= hi) -> forall x, In x states -> lo <= ops (flip_site fs) (free_site W) weight (sites_of W l) f x <= hi).
      { intros l lo hi f Hl Hf0 x Hx. apply (ops_range states (flip_site fs) (free_site W) (sites_of W fs) weight); [| |apply Inc, Hl|exact Hf0|exact Hx].
        - intros q x' Hq Hfr Hx'. apply Hst. apply flip_site_in; [exact Hq|exact Hfr|apply Hst, Hx'].
        - exact Wpos. }
      assert (Bd : forall x, In x states -> Rabs (V x) <= (if close T i j then D * D else 0) + D * e1).
      { intros x Hx. unfold V. rewrite Rabs_mult. assert (A1 : Rabs (g x) <= D) by (apply Rabs_le; apply Hg, Hx). pose proof (Rabs_pos (g x)) as A0. destruct (close T i j) eqn:EC.
        - assert (A2 : Rabs (ops (flip_site fs) (free_site W) weight (sites_of W b) g x) <= D) by (apply Rabs_le; apply (Rng b (- D) D g Hb Hg x Hx)). pose proof (Rabs_pos (ops (flip_site fs) (free_site W) weight (sites_of W b) g x)). assert (0 < D * e1) by (apply Rmult_lt_0_compat; assumption). nra.
        - destruct (plan_orders o (proj1 Hr) fs d (tpos fs (clock w) (BI + S i))) as (orders & F1 & F2 & F3). fold b in F1. specialize (HTT orders F3). unfold close in EC. assert (HTd : (T <= List.length orders)%nat) by (rewrite F2; unfold d; apply Bool.andb_false_iff in EC; destruct EC as [EC|EC]; apply Nat.ltb_ge in EC; lia).
          specialize (HTT HTd h ltac:(intros y Hy; apply Hh, Hst, Hy) x (proj1 (Hst x) Hx)). rewrite <- F1, EJ', EVs in HTT. fold states in HTT. fold m in HTT. unfold g at 2. rewrite ops_shift. pose proof (Rabs_pos (ops (flip_site fs) (free_site W) weight (sites_of W b) h x - m)). nra. }
      apply Rabs_le. apply (Rng a _ _ V Ha). 2: exact Hc. intros x Hx. specialize (Bd x Hx). pose proof (Rle_abs (V x)). pose proof (Rle_abs (- V x)). rewrite Rabs_Ropp in *. lra. }
  assert (Pair' : forall p, In p (list_prod (seq 0 n) (seq 0 n)) -> exists v, is_EE (map (draws_needed w) (map snd pl)) (fun rss => g (course rss (fst p)) * g (course rss (snd p))) v /\ Rabs v <= (if close T (fst p) (snd p) then D * D else 0) + D * e1).
  { intros (i, j) Hp. apply in_prod_iff in Hp. destruct Hp as (Hi & Hj). apply in_seq in Hi, Hj. cbn [fst snd]. destruct (Nat.le_ge_cases i j) as [Hle|Hle]; [apply Pair; lia|]. destruct (Pair j i Hle ltac:(lia)) as (v & V1 & V2). exists v. split; [eapply is_EE_ext; [|exact V1]; intros rss _; cbn beta; ring|]. replace (close T i j) with (close T j i) by (unfold close; apply Bool.andb_comm). exact V2. }
  destruct (is_EE_choice (list_prod (seq 0 n) (seq 0 n)) ltac:(intros (a1, a2) (b1, b2); destruct (Nat.eq_dec a1 b1), (Nat.eq_dec a2 b2); [left; congruence|right; congruence..]) (map (draws_needed w) (map snd pl)) (fun p rss => g (course rss (fst p)) * g (course rss (snd p))) (fun p v => Rabs v <= (if close T (fst p) (snd p) then D * D else 0) + D * e1) Pair') as (V & HV).
  exists (/ (INR n * INR n) * Rsum V (list_prod (seq 0 n) (seq 0 n))). split.
  - eapply is_EE_ext; [|apply (is_EE_sum _ (/ (INR n * INR n)) (list_prod (seq 0 n) (seq 0 n)) (fun p rss => g (course rss (fst p)) * g (course rss (snd p))) V); intros p Hp; apply HV, Hp].
    intros rss HR. cbn beta. rewrite <- (Rsum_sq (fun j => g (course rss j))). destruct (HS rss Hc HR) as (s' & F1 & F2). rewrite F1. unfold run_mean.
    assert (EQ : Rsum (fun j => h (recorded fs j s')) (seq 0 n) = Rsum (fun j => g (course rss j)) (seq 0 n) + INR n * m).
    { rewrite (Rsum_ext _ (fun j => g (course rss j) + m)). { rewrite Rsum_add. f_equal. rewrite Rsum_const, seq_length. ring. } intros j Hj. apply in_seq in Hj. unfold g, course. rewrite (F2 j) by lia. ring. }
    rewrite EQ. cbn [pow]. field. lra.
  - assert (Hsum : Rsum V (list_prod (seq 0 n) (seq 0 n)) <= INR n * (D * D * INR (2 * T) + INR n * (D * e1))).
    { rewrite Rsum_prod. apply Rle_trans with (Rsum (fun _ : nat => D * D * INR (2 * T) + INR n * (D * e1)) (seq 0 n)); [|rewrite Rsum_const, seq_length; lra]. apply Rsum_le. intros i Hi. apply Rle_trans with (Rsum (fun j => D * D * (if close T i j then 1 else 0) + D * e1) (seq 0 n)).
      - apply Rsum_le. intros j Hj. destruct (HV (i, j) (proj2 (in_prod_iff _ _ _ _) (conj Hi Hj))) as (_ & HB). cbn [fst snd] in HB. pose proof (Rle_abs (V (i, j))). destruct (close T i j); lra.
      - rewrite Rsum_add, Rsum_scale, Rsum_const, seq_length. pose proof (close_count T i n). assert (0 <= D * D) by nra. nra. }
    apply (Rmult_le_reg_l (INR n * INR n)); [nra|]. rewrite <- Rmult_assoc, Rinv_r, Rmult_1_l by nra. eapply Rle_trans; [exact Hsum|]. assert (EE : D * e1 = eps / 2) by (unfold e1; field; lra). rewrite EE. nra.
Qed.

(** Without ties *)
Lemma no_ties_settles outs o0 s : outputs outs -> random o0 -> ordinary o0 (wd s) -> (forall l, (l < List.length (layers (wd s)))%nat -> lfixed (lbda (get_lay (wd s) l)) = true) -> no_ties (posterior outs s) (configurations s) -> settles outs (wd s) (unfixed (wd s)).
Proof.
  intros Ho Hr0 H HL HT. set (w := wd s) in *. set (fs := unfixed w). pose proof (ordinary_sound _ _ Hr0 H) as SO. fold w in SO. destruct (run_slots outs w Ho SO HL) as (Hd & HF & W & SW & HA & EVs & EJ & ED & EF & HS). fold fs in Hd, HF, HA, EVs, EJ, HS.
  assert (EJ' : (fun c => joint outs (puts W fs c)) = (fun c => joint outs (puts w fs c))) by (apply FunctionalExtensionality.functional_extensionality; exact EJ).
  apply (settles_same outs W w fs); [symmetry; exact EVs|symmetry; exact EJ'|intros i; destruct (EF i); split; symmetry; assumption|]. apply (sites_converge outs W SW fs Hd HA). rewrite EVs, EJ'. exact HT.
Qed.
Lemma C100_settled outs o0 s : outputs outs -> random o0 -> ordinary o0 (wd s) -> (forall l, (l < List.length (layers (wd s)))%nat -> lfixed (lbda (get_lay (wd s) l)) = true) -> settles outs (wd s) (unfixed (wd s)) -> forgets outs s.
Proof. intros H1 H2 H3 H4 H5. exact (C100_lemma outs o0 s H1 H2 H3 H4 H5). Qed.
Lemma C101_settled outs o0 s : outputs outs -> random o0 -> ordinary o0 (wd s) -> (forall l, (l < List.length (layers (wd s)))%nat -> lfixed (lbda (get_lay (wd s) l)) = true) -> settles outs (wd s) (unfixed (wd s)) -> consistent outs s /\ consistent_means outs s.
Proof.
  intros H1 H2 H3 H4 H5. pose proof (C101_lemma outs o0 s H1 H2 H3 H4 H5) as G. split; [exact G|]. intros eps He. destruct (G 1 eps He) as (n0 & Hn0). exists (S n0). intros o cfg n Hn Hr HU HA. destruct (Hn0 o cfg n ltac:(lia) Hr HU HA) as (F & HF). exists F. intros fuel Hfu i r col c Hi Hir Hic Hc.
  destruct (HF fuel Hfu (fun c => IZR (at2 (nth (place i (unfixed (wd s))) c []) r col)) c) as (E & E1 & E2); [|exact Hc|].
  - intros x Hx. cbn beta. destruct (state_cell (wd s) (unfixed (wd s)) x i Hx Hi) as (O & _). destruct (okmat_pm _ _ _ r col O Hir Hic) as [-> | ->]; unfold Rabs; destruct (Rcase_abs _); lra.
  - exists E. split; [|exact E2]. eapply is_EE_ext; [|exact E1]. intros rss HR. cbn beta. f_equal. f_equal. apply (reported_is_mean o cfg n s fuel Hr (ordinary_sound _ _ H2 H3) HU ltac:(lia) i r col Hi Hir Hic c rss Hc HR).
Qed.

Lemma C100_all outs o0 s : outputs outs -> random o0 -> ordinary o0 (wd s) -> (forall l, (l < List.length (layers (wd s)))%nat -> lfixed (lbda (get_lay (wd s) l)) = true) -> no_ties (posterior outs s) (configurations s) -> forgets outs s.
Proof. intros H1 H2 H3 H4 H5. exact (C100_settled outs o0 s H1 H2 H3 H4 (no_ties_settles outs o0 s H1 H2 H3 H4 H5)). Qed.
Lemma C101_all outs o0 s : outputs outs -> random o0 -> ordinary o0 (wd s) -> (forall l, (l < List.length (layers (wd s)))%nat -> lfixed (lbda (get_lay (wd s) l)) = true) -> no_ties (posterior outs s) (configurations s) -> consistent outs s /\ consistent_means outs s.
Proof. intros H1 H2 H3 H4 H5. exact (C101_settled outs o0 s H1 H2 H3 H4 (no_ties_settles outs o0 s H1 H2 H3 H4 H5)). Qed.
