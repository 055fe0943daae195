(** Proof of C102: runs forget where they started if and only if the machine is mixing. *)
From Coq Require Import String Lia Lra Permutation Relations Classical_Prop.
From Coquelicot Require Import RInt Hierarchy.
From Verif Require Import Base BaseLemmas BaseR BaseRLemmas Spec SpecR Invariance InvarianceProofs HierProofs Canon Clean Machine Dispatch Inference SpecMachine SpecOrdinary SpecPass SpecPredict SpecErgodic MachineProofs MachineProofs2 InferenceProofs BuiltProofs InferenceProofs2 InferenceProofs6 TraceProofs ProgressProofs PlainProofs DispatchProofs SamplingProofs.
From Verif Require Import OrdinaryProofs OrdinaryProofs2 OrdinaryProofs3 OrdinaryProofs4 OrdinaryProofs5 OrdinaryProofs6 OrdinaryProofs7 PassProofs RunProofs UnbiasedProofs ErgodicProofs ErgodicProofs2 ErgodicProofs3 ErgodicProofs4 ErgodicProofs5.
Local Open Scope R_scope.

Lemma bounded {A} (P : A -> nat -> Prop) (l : list A) : exists K, forall a, In a l -> (exists k, P a k) -> exists k, (k <= K)%nat /\ P a k.
Proof.
  induction l as [|x l (K & IH)]; [exists 0%nat; intros a []|]. destruct (classic (exists k, P x k)) as [(k & Hk)|Hn].
  - exists (Nat.max K k). intros a [<-|Ha] He; [exists k; split; [lia|exact Hk]|]. destruct (IH a Ha He) as (k' & H1 & H2). exists k'. split; [lia|exact H2].
  - exists K. intros a [<-|Ha] He; [contradiction|]. apply IH; assumption.
Qed.
Lemma in_choices {A} (ls : list (list A)) : forall c, In c (choices ls) <-> Forall2 (fun x l => In x l) c ls.
Proof.
  induction ls as [|l ls IH]; intros c; cbn [choices]; [split; [intros [<-|[]]; constructor|intros H; inversion H; left; reflexivity]|]. rewrite in_flat_map. split.
  - intros (x & Hx & H). apply in_map_iff in H. destruct H as (y & <- & Hy). constructor; [exact Hx|apply IH, Hy].
  - intros H. inversion H; subst. eexists. split; [eassumption|]. apply in_map. apply IH. assumption.
Qed.
Lemma choices_repeat {A} (l : list A) n c : List.length c = n -> (forall x, In x c -> In x l) -> In c (choices (repeat l n)).
Proof. intros <- H. apply in_choices. induction c as [|x c IH]; cbn; [constructor|]. constructor; [apply H; left; reflexivity|]. apply IH. intros y Hy. apply H. right. exact Hy. Qed.
Lemma ops_filter {C Q} (flip : Q -> C -> C) (free : Q -> bool) (w : C -> R) qs h : ops flip free w qs h = ops flip free w (filter free qs) h.
Proof.
  induction qs as [|q qs IH]; [reflexivity|]. cbn [filter]. destruct (free q) eqn:E; cbn [ops fold_right]; fold (ops flip free w qs h); fold (ops flip free w (filter free qs) h); rewrite IH; [reflexivity|]. unfold op. rewrite E. reflexivity.
Qed.
Lemma is_EE_unique ks f u v : is_EE ks f u -> is_EE ks f v -> u = v.
Proof.
  intros H1 H2. pose proof (is_EE_lin ks 1 (-1) f f u v H1 H2) as H. assert (E : 1 * u + -1 * v = 0); [|lra]. apply (is_EE_only ks _ _ 0) in H; [exact H|]. intros rss _. cbn beta. ring.
Qed.
(** A set of the states that are related to a given one *)
Lemma class_of {C} (eqd : forall a b : C, {a = b} + {a <> b}) (P : C -> Prop) (l : list C) : exists A : C -> bool, forall c, In c l -> (A c = true <-> P c).
Proof.
  induction l as [|x l (A & IH)]; [exists (fun _ => true); intros c []|]. destruct (classic (P x)) as [HP|HP].
  - exists (fun c => if eqd c x then true else A c). intros c Hc. destruct (eqd c x) as [->|Hn]; [tauto|]. destruct Hc as [->|Hc]; [congruence|apply IH, Hc].
  - exists (fun c => if eqd c x then false else A c). intros c Hc. destruct (eqd c x) as [->|Hn]; [split; [discriminate|contradiction]|]. destruct Hc as [->|Hc]; [congruence|apply IH, Hc].
Qed.

Section Machine.
Context (outs : string -> list vec -> nat -> Z) (o0 : oracle) (s : state) (Ho : outputs outs) (Hr0 : random o0) (H : ordinary o0 (wd s)) (HL : forall l, (l < List.length (layers (wd s)))%nat -> lfixed (lbda (get_lay (wd s) l)) = true).
Let w := wd s.
Let fs := unfixed w.
Let states := configurations s.
Let weight := posterior outs s.
Lemma posterior_pos c : In c states -> 0 < weight c.
Proof.
  intros Hc. pose proof (ordinary_sound _ _ Hr0 H) as SO. fold w in SO. destruct (run_slots outs w Ho SO HL) as (Hd & HF & W & SW & HA & EVs & EJ & _). fold fs in Hd, HF, HA, EVs, EJ. unfold weight, posterior. fold w fs. rewrite <- EJ. apply (J_pos outs W SW fs Hd HA). rewrite EVs. exact Hc.
Qed.
Lemma run_value o cfg n fuel j h c : random o -> usable cfg -> annealable cfg w -> (enough cfg <= fuel)%nat -> (j < n)%nat -> In c states ->
  is_EE (run_draws s o cfg n) (fun rss => after_run fs j h (run_from s fuel o cfg n c rss)) (ops (flip_site fs) (free_site w) weight (sites_of w (map snd (plan o fs (burn_in_passes cfg + S j) (clock w)))) h c).
Proof.
  intros Hr HU HAn Hfu Hj Hc. pose proof (ordinary_sound _ _ Hr0 H) as SO. fold w in SO. destruct (run_slots outs w Ho SO HL) as (Hd & HF & W & SW & HA & EVs & EJ & ED & EF & HS). fold fs in Hd, HF, HA, EVs, EJ, HS.
  assert (EJ' : (fun c => joint outs (puts W fs c)) = weight) by (apply FunctionalExtensionality.functional_extensionality; exact EJ).
  assert (E1 : free_site W = free_site w) by (apply FunctionalExtensionality.functional_extensionality; intros q; unfold free_site; rewrite (proj1 (EF _)); reflexivity). assert (E2 : forall l, sites_of W l = sites_of w l) by (intros l; unfold sites_of; apply flat_map_ext; intros i; unfold cellsq; rewrite (proj2 (EF i)); reflexivity).
  specialize (HS o cfg n s fuel eq_refl Hr HU HAn Hfu c). set (pl := plan o fs (burn_in_passes cfg + n) (clock w)) in *.
  destruct (plan_prefix o (proj1 Hr) fs (burn_in_passes cfg + S j) (n - S j) (clock w)) as (r & Er). replace (burn_in_passes cfg + S j + (n - S j))%nat with (burn_in_passes cfg + n)%nat in Er by lia. fold pl in Er.
  assert (Hc' : In c (choices (map (values_of W) fs))) by (rewrite EVs; exact Hc).
  pose proof (pass_EE outs W SW fs Hd HA (fun c _ => h c) h (map snd r) (map snd (plan o fs (burn_in_passes cfg + S j) (clock w)))) as G. rewrite EJ' in G.
  specialize (G ltac:(intros i Hi; eapply plan_in; [apply Hr|exact Hi]) (fun c _ => is_EE_const _ (h c)) c Hc'). rewrite <- map_app, <- Er, ED, E1, E2 in G. eapply is_EE_ext; [|exact G]. intros rss HR. cbn beta. destruct (HS rss Hc HR) as (s' & F1 & F2). unfold run_from. fold w fs pl. rewrite F1. unfold after_run. rewrite (F2 j Hj). reflexivity.
Qed.
Lemma fs_nodup : NoDup fs.
Proof. pose proof (ordinary_sound _ _ Hr0 H) as SO. destruct (run_slots outs w Ho SO HL) as (Hd & _). exact Hd. Qed.

(** Updates and flips *)
Lemma updates_sites ms : update_sequence s ms = filter (free_site w) (sites_of w ms).
Proof. reflexivity. Qed.
Lemma updates_app a b : update_sequence s (a ++ b) = (update_sequence s a ++ update_sequence s b)%list.
Proof. rewrite !updates_sites. unfold sites_of. rewrite flat_map_app, filter_app. reflexivity. Qed.
Lemma updates_concat orders : update_sequence s (concat orders) = concat (map (update_sequence s) orders).
Proof. induction orders as [|a l IH]; [reflexivity|]. cbn [concat map]. rewrite updates_app, IH. reflexivity. Qed.
Lemma updates_good ms : (forall i, In i ms -> In i fs) -> good (free_site w) (sites_of w fs) (update_sequence s ms).
Proof.
  intros Hm (i & n & l) Hq. rewrite updates_sites in Hq. apply filter_In in Hq. destruct Hq as (Hq & Hf). split; [|exact Hf]. apply in_sites in Hq. apply in_sites. split; [apply Hm|]; apply Hq.
Qed.
Lemma orders_in orders : Forall (fun order => Permutation order fs) orders -> forall i, In i (concat orders) -> In i fs.
Proof. intros HO i Hi. apply in_concat in Hi. destruct Hi as (l & Hl & Hi). rewrite Forall_forall in HO. eapply Permutation_in; [apply HO, Hl|exact Hi]. Qed.

Let is_pass (qs : list site) : Prop := exists order, Permutation order fs /\ qs = update_sequence s order.
Lemma passes_orders ps : Forall is_pass ps -> exists orders, Forall (fun order => Permutation order fs) orders /\ ps = map (update_sequence s) orders.
Proof.
  induction ps as [|p ps IH]; intros HP; [exists []; auto|]. pose proof (Forall_inv HP) as (o & P1 & P2). pose proof (Forall_inv_tail HP) as HP2. destruct (IH HP2) as (os & O1 & O2). exists (o :: os). split; [constructor; assumption|]. cbn [map]. rewrite P2, O2. reflexivity.
Qed.
Lemma mixing_settles : mixing outs s -> settles outs w fs.
Proof.
  intros (m & HM) B eps He.
  set (all := choices (repeat (choices (repeat fs (List.length fs))) m)).
  assert (Hall : forall orders, List.length orders = m -> Forall (fun order => Permutation order fs) orders -> In orders all).
  { intros orders Hl HO. apply choices_repeat; [exact Hl|]. intros o Hi. rewrite Forall_forall in HO. specialize (HO o Hi). apply choices_repeat; [apply Permutation_length, HO|]. intros x Hx. eapply Permutation_in; [exact HO|exact Hx]. }
  destruct (bounded (fun orders k => k = List.length (update_sequence s (concat orders))) all) as (n & Hn).
  destruct (bounded (fun a k => path (edge states (flip_site fs) weight (update_sequence s (concat (fst a)))) k (fst (snd a)) (snd (snd a))) (list_prod all (list_prod states states))) as (K & HK).
  destruct (converges2 states (states_nodup w fs) (flip_site fs) (free_site w) (sites_of w fs) weight (flip_site_in w fs) (flip_site_inv w fs) posterior_pos is_pass) with (m := m) (n := n) (K := K) (B := B) (eps := eps) as (T & HT).
  - intros qs (o & P1 & ->). apply updates_good. intros i Hi. eapply Permutation_in; [exact P1|exact Hi].
  - intros ps HP Hl. destruct (passes_orders ps HP) as (orders & O1 & ->). rewrite map_length in Hl. rewrite <- updates_concat. split.
    + destruct (Hn orders (Hall orders Hl O1)) as (k & K1 & K2); [eexists; reflexivity|]. rewrite K2 in K1. exact K1.
    + intros x y Hx Hy. destruct (HK (orders, (x, y))) as (k & K1 & K2); [apply in_prod; [apply Hall; assumption|apply in_prod; assumption]| |exists k; split; [exact K1|exact K2]]. apply linked_path. exact (HM orders Hl O1 x y Hx Hy).
  - exact He.
  - exists T. intros orders HO HLn h Hh c Hc. specialize (HT (map (update_sequence s) orders)). rewrite map_length, <- updates_concat in HT. rewrite ops_filter. apply HT; [|exact HLn|exact Hh|exact Hc]. apply Forall_forall. intros p Hp. apply in_map_iff in Hp. destruct Hp as (o & <- & Hp). rewrite Forall_forall in HO. exists o. split; [apply HO, Hp|reflexivity].
Qed.

(** A random stream with given orders of the updates *)
Lemma with_orders_random o orders : random o -> Forall (fun order => Permutation order fs) orders -> random (with_orders s o orders).
Proof.
  intros Hr HO. destruct Hr as (_ & R2). split; [|exact R2]. intros k l. cbn [with_orders o_perm]. fold w. fold fs. destruct (list_eq_dec Nat.eq_dec l fs) as [->|]; [|apply Permutation_refl]. destruct (Nat.lt_ge_cases ((k - clock w) / Datatypes.S (List.length fs)) (List.length orders)) as [Hlt|Hge]; [|rewrite nth_overflow by exact Hge; apply Permutation_refl]. rewrite Forall_forall in HO. apply HO, nth_In, Hlt.
Qed.
Lemma with_orders_plan o orders : random o -> Forall (fun order => Permutation order fs) orders -> map snd (plan (with_orders s o orders) fs (List.length orders) (clock w)) = concat orders.
Proof.
  intros Hr HO. assert (G : forall k, (k <= List.length orders)%nat -> map snd (plan (with_orders s o orders) fs k (clock w + (List.length orders - k) * Datatypes.S (List.length fs))) = concat (skipn (List.length orders - k) orders)).
  { induction k as [|k IH]; intros Hk; [rewrite Nat.sub_0_r, skipn_all; reflexivity|]. set (i := (List.length orders - Datatypes.S k)%nat) in *. assert (Hi : (i < List.length orders)%nat) by lia. rewrite plan_S by apply (with_orders_random o orders Hr HO).
    assert (EP : o_perm (with_orders s o orders) (clock w + i * Datatypes.S (List.length fs)) fs = nth i orders fs). { cbn [with_orders o_perm]. fold w. fold fs. destruct (list_eq_dec Nat.eq_dec fs fs) as [_|C]; [|congruence]. f_equal. replace (clock w + i * Datatypes.S (List.length fs) - clock w)%nat with (i * Datatypes.S (List.length fs))%nat by lia. apply Nat.div_mul. lia. }
    rewrite EP. rewrite map_app, snd_combine by (rewrite seq_length; rewrite Forall_forall in HO; apply Permutation_length; symmetry; apply HO, nth_In, Hi).
    replace (List.length orders - k)%nat with (Datatypes.S i) in IH by lia. specialize (IH ltac:(lia)). replace (Datatypes.S (clock w + i * Datatypes.S (List.length fs)) + List.length fs)%nat with (clock w + Datatypes.S i * Datatypes.S (List.length fs))%nat by lia. rewrite IH.
    assert (ES : skipn i orders = nth i orders fs :: skipn (Datatypes.S i) orders). { clearbody i. clear - Hi. revert i Hi. induction orders as [|a l IH]; intros i Hi; [cbn in Hi; lia|]. destruct i as [|i]; [reflexivity|]. cbn [skipn nth]. apply IH. cbn in Hi. lia. }
    rewrite ES. reflexivity. }
  specialize (G _ (le_n _)). rewrite Nat.sub_diag in G. cbn [Nat.mul skipn] in G. rewrite Nat.add_0_r in G. exact G.
Qed.
Definition plain_settings : settings := {| eps := 1; window := 1; burn_in_min := 0; burn_in_max := 0; print_step := 1; fix_lbda_iters := 0 |}.

Lemma forgets_mixing : forgets outs s -> mixing outs s.
Proof.
  intros HF. destruct (pos_bound weight states posterior_pos) as (wm & W1 & W2). set (Wt := Rsum weight states). assert (Wt0 : 0 <= Wt) by (apply Rsum_nonneg; intros c Hc; left; apply posterior_pos, Hc).
  assert (He : 0 < wm / (Wt + 1) / 2) by (assert (0 < wm / (Wt + 1)) by (apply Rdiv_lt_0_compat; lra); lra). destruct (HF 1 _ He) as (T & HT). exists (Datatypes.S T). intros orders HLn HO c c' Hc Hc'. destruct (classic (clos_refl_sym_trans _ (told_apart outs s (update_sequence s (concat orders))) c c')) as [Y|Nn]; [exact Y|exfalso].
  destruct (class_of (list_eq_dec (list_eq_dec (list_eq_dec Z.eq_dec))) (clos_refl_sym_trans _ (told_apart outs s (update_sequence s (concat orders))) c) states) as (A & HA).
  set (h := fun x => if A x then 1 else 0). assert (HU : usable plain_settings) by (unfold usable; cbn; lia). assert (HAn : annealable plain_settings w) by (intros _ G; cbn in G; lia).
  destruct (HT (with_orders s o0 orders) plain_settings (Datatypes.S T) (with_orders_random o0 orders Hr0 HO) HU HAn) as (F & HFu). specialize (HFu (Nat.max F (enough plain_settings)) T ltac:(lia) ltac:(lia) ltac:(lia) h c).
  destruct HFu as (E & E1 & E2); [intros x _; unfold h; destruct (A x); unfold Rabs; destruct (Rcase_abs _); lra|exact Hc|].
  pose proof (run_value (with_orders s o0 orders) plain_settings (Datatypes.S T) (Nat.max F (enough plain_settings)) T h c (with_orders_random o0 orders Hr0 HO) HU HAn ltac:(lia) ltac:(lia) Hc) as RV. assert (EV := is_EE_unique _ _ _ _ E1 RV). clear E1 RV.
  assert (EB : burn_in_passes plain_settings = 0%nat) by reflexivity. rewrite EB in EV. cbn [Nat.add] in EV. rewrite <- HLn, (with_orders_plan o0 orders Hr0 HO), ops_filter in EV. change (filter (free_site w) (sites_of w (concat orders))) with (update_sequence s (concat orders)) in EV.
  pose proof (updates_good (concat orders) (orders_in orders HO)) as HG.
  rewrite (moves states (flip_site fs) (free_site w) (sites_of w fs) weight (flip_site_in w fs) posterior_pos (update_sequence s (concat orders)) h HG) in EV; [| |exact Hc].
  - assert (h2 : E = 0 \/ E = 1) by (rewrite EV; unfold h; destruct (A _); auto). unfold average_over in E2. fold states weight Wt in E2.
    assert (M1 : wm <= Rsum (fun c => weight c * h c) states). { eapply Rle_trans; [apply (W2 c Hc)|]. assert (Hh : h c = 1) by (unfold h; rewrite (proj2 (HA c Hc)); [reflexivity|apply rst_refl]). replace (weight c) with (weight c * h c) by (rewrite Hh; ring). apply (Rsum_one (fun c => weight c * h c)); [|exact Hc]. intros y Hy. pose proof (posterior_pos y Hy). unfold h. destruct (A y); lra. }
    assert (M2 : Rsum (fun c => weight c * h c) states <= Wt - wm). { assert (Q : wm <= Rsum (fun c => weight c * (1 - h c)) states). { eapply Rle_trans; [apply (W2 c' Hc')|]. assert (Hh : h c' = 0) by (unfold h; destruct (A c') eqn:EA; [apply (HA c' Hc') in EA; contradiction|reflexivity]). replace (weight c') with (weight c' * (1 - h c')) by (rewrite Hh; ring). apply (Rsum_one (fun c => weight c * (1 - h c))); [|exact Hc']. intros y Hy. pose proof (posterior_pos y Hy). unfold h. destruct (A y); lra. }
      rewrite (Rsum_ext _ (fun c => weight c - weight c * h c)) in Q by (intros; ring). rewrite Rsum_sub in Q. fold Wt in Q. lra. }
    set (p := Rsum (fun c => weight c * h c) states) in *. assert (Wp : 0 < Wt) by lra. set (d := wm / (Wt + 1)) in *. assert (D1 : d * (Wt + 1) = wm) by (unfold d; field; lra).
    assert (D2 : d * Wt < wm) by lra. assert (P1 : p / Wt * Wt = p) by (field; lra). set (a := p / Wt) in *. assert (A1 : d < a) by nra. assert (A2 : a < 1 - d) by nra. destruct h2 as [->| ->]; unfold Rabs in E2; destruct (Rcase_abs _); lra.
  - intros b b' Hb. assert (Hbb : In b states /\ In b' states).
    { destruct Hb as (q1 & q & q2 & x & EQ & Hx & _ & -> & ->). rewrite EQ in HG. apply good_app in HG. destruct HG as (_ & HG). apply good_cons in HG. destruct HG as (G1 & G2 & G3). split; apply (negs_in states (flip_site fs) (free_site w) (sites_of w fs) (flip_site_in w fs) q2 G3); [exact Hx|apply flip_site_in; assumption]. }
    destruct Hbb as (B1 & B2). unfold h. assert (EA : A b = A b'); [|rewrite EA; reflexivity]. apply Bool.eq_true_iff_eq. rewrite (HA b B1), (HA b' B2). split; intros G; (eapply rst_trans; [exact G|]); [apply rst_step; exact Hb|apply rst_sym, rst_step; exact Hb].
Qed.
End Machine.

Lemma C102_forgets outs o s : outputs outs -> random o -> ordinary o (wd s) -> (forall l, (l < List.length (layers (wd s)))%nat -> lfixed (lbda (get_lay (wd s) l)) = true) -> (forgets outs s <-> mixing outs s).
Proof.
  intros H1 H2 H3 H4. split; [apply (forgets_mixing outs o s H1 H2 H3 H4)|]. intros HM. apply (C100_settled outs o s H1 H2 H3 H4). apply (mixing_settles outs o s H1 H2 H3 H4 HM).
Qed.
Lemma C102_consistent outs o s : outputs outs -> random o -> ordinary o (wd s) -> (forall l, (l < List.length (layers (wd s)))%nat -> lfixed (lbda (get_lay (wd s) l)) = true) -> mixing outs s -> consistent outs s /\ consistent_means outs s.
Proof. intros H1 H2 H3 H4 HM. apply (C101_settled outs o s H1 H2 H3 H4). apply (mixing_settles outs o s H1 H2 H3 H4 HM). Qed.
