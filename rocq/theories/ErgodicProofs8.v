(** Proof of C103: with random orders, runs forget where they started if and only if all configurations are linked. *)
From Coq Require Import String Lia Lra Permutation Relations Classical_Prop.
From Coquelicot Require Import RInt Hierarchy.
From Verif Require Import Base BaseLemmas BaseR BaseRLemmas Spec SpecR Invariance InvarianceProofs HierProofs Canon Clean Machine Dispatch Inference SpecMachine SpecOrdinary SpecPass SpecPredict SpecErgodic MachineProofs MachineProofs2 InferenceProofs BuiltProofs InferenceProofs2 InferenceProofs6 TraceProofs ProgressProofs PlainProofs DispatchProofs SamplingProofs.
From Verif Require Import OrdinaryProofs OrdinaryProofs2 OrdinaryProofs3 OrdinaryProofs4 OrdinaryProofs5 OrdinaryProofs6 OrdinaryProofs7 PassProofs RunProofs UnbiasedProofs ErgodicProofs ErgodicProofs2 ErgodicProofs3 ErgodicProofs4 ErgodicProofs5 ErgodicProofs6 ErgodicProofs7.
Local Open Scope R_scope.

Lemma choices_map {A B} (g : A -> B) l m : choices (repeat (map g l) m) = map (map g) (choices (repeat l m)).
Proof.
  induction m as [|m IH]; [reflexivity|]. cbn [repeat choices]. rewrite IH. set (r := choices (repeat l m)). clearbody r. clear IH. induction l as [|x l IH]; [reflexivity|]. cbn [map flat_map]. rewrite map_app, IH. f_equal. rewrite !map_map. reflexivity.
Qed.
Lemma in_choices_repeat {A} (l : list A) m c : In c (choices (repeat l m)) -> List.length c = m /\ forall x, In x c -> In x l.
Proof.
  intros H. apply in_choices in H. remember (repeat l m) as ls eqn:E. revert m E. induction H as [|x l' c ls Hx H IH]; intros m E; [destruct m; [split; [reflexivity|intros x []]|discriminate]|]. destruct m as [|m]; [discriminate|]. cbn in E. injection E as -> E. destruct (IH m E) as (I1 & I2). split; [cbn; lia|]. intros y [<-|Hy]; [exact Hx|apply I2, Hy].
Qed.
Lemma negs_app {C Q} (flip : Q -> C -> C) a b c : negs flip (a ++ b) c = negs flip b (negs flip a c).
Proof. apply fold_left_app. Qed.
(** Negating in another order *)
Lemma negs_perm {C Q} (St : list C) (flip : Q -> C -> C) (free : Q -> bool) sites : (forall q c, In q sites -> free q = true -> In c St -> In (flip q c) St) ->
  (forall q q' c, In q sites -> In q' sites -> free q = true -> free q' = true -> In c St -> flip q (flip q' c) = flip q' (flip q c)) -> forall p p', Permutation p p' -> good free sites p -> forall c, In c St -> negs flip p c = negs flip p' c.
Proof.
  intros HF HC p p' HP. induction HP as [|q p p' HP IH|q q' p|p1 p2 p3 H1 IH1 H2 IH2]; intros HG c Hc; [reflexivity| | |].
  - apply good_cons in HG. destruct HG as (G1 & G2 & G3). cbn [negs fold_left]. apply (IH G3). apply HF; assumption.
  - apply good_cons in HG. destruct HG as (G1 & G2 & G3). apply good_cons in G3. destruct G3 as (G3 & G4 & G5). cbn [negs fold_left]. f_equal. apply HC; assumption.
  - rewrite IH1 by assumption. apply IH2; [|exact Hc]. intros q Hq. apply HG. eapply Permutation_in; [symmetry; exact H1|exact Hq].
Qed.
Lemma flips_commute w fs : NoDup fs -> forall q q' c, In q (sites_of w fs) -> In q' (sites_of w fs) -> free_site w q = true -> free_site w q' = true -> In c (choices (map (values_of w) fs)) -> flip_site fs q (flip_site fs q' c) = flip_site fs q' (flip_site fs q c).
Proof.
  intros Hd q q' c Hq Hq' Hf Hf' Hc. pose proof (flip_site_in w fs q c Hq Hf Hc) as C1. pose proof (flip_site_in w fs q' c Hq' Hf' Hc) as C2. pose proof (flip_site_in w fs q _ Hq Hf C2) as C3. pose proof (flip_site_in w fs q' _ Hq' Hf' C1) as C4.
  destruct (states_shapes w fs _ C3) as (X1 & X2). destruct (states_shapes w fs _ C4) as (Y1 & Y2). set (x := flip_site fs q (flip_site fs q' c)) in *. set (y := flip_site fs q' (flip_site fs q c)) in *. apply (nth_ext x y [] []); [congruence|]. intros k Hk. assert (Hkf : (k < List.length fs)%nat) by (unfold mat, vec in *; lia).
  apply (okmat_eq (nrows (matrix_of w (nth k fs 0%nat))) (ncols (matrix_of w (nth k fs 0%nat)))); [apply X2; exact Hkf|apply Y2; exact Hkf|]. intros n l Hn Hl.
  assert (Hin : In (nth k fs 0%nat, (n, l)) (sites_of w fs)) by (apply in_sites; split; [apply nth_In; exact Hkf|auto]). assert (EP : place (nth k fs 0%nat) fs = k). { destruct (place_ok (nth k fs 0%nat) fs (nth_In _ _ Hkf)) as (Q1 & Q2). apply (proj1 (NoDup_nth fs 0%nat) Hd); [exact Q1|exact Hkf|exact Q2]. }
  assert (E : entry fs x (nth k fs 0%nat, (n, l)) = entry fs y (nth k fs 0%nat, (n, l))); [|unfold entry in E; cbn [fst snd] in E; rewrite EP in E; exact E].
  unfold x, y. rewrite !(entry_flip w fs) by assumption. destruct q as (i & a & b), q' as (i' & a' & b'). set (z := nth k fs 0%nat). cbn [fst snd]. 
  repeat match goal with |- context [Nat.eq_dec ?u ?v] => destruct (Nat.eq_dec u v); try subst; try congruence end; repeat match goal with |- context [Nat.eqb ?u ?v] => destruct (Nat.eqb_spec u v); try subst; cbn [andb]; try congruence; try reflexivity end.
Qed.

Section Machine.
Context (outs : string -> list vec -> nat -> Z) (o0 : oracle) (s : state) (Ho : outputs outs) (Hr0 : random o0) (H : ordinary o0 (wd s)) (HL : forall l, (l < List.length (layers (wd s)))%nat -> lfixed (lbda (get_lay (wd s) l)) = true).
Let w := wd s.
Let fs := unfixed w.
Let states := configurations s.
Let weight := posterior outs s.
Let wpos := posterior_pos outs o0 s Ho Hr0 H HL.
Context (perms : list (list nat)) (Hp : all_orders s perms).
Let Ps := map (update_sequence s) perms.
Let M := mops (flip_site fs) (free_site w) weight Ps.
Let ups (orders : list (list nat)) (h : list mat -> R) (c : list mat) : R := ops (flip_site fs) (free_site w) weight (update_sequence s (concat orders)) h c.
Lemma perms_some : perms <> [].
Proof. destruct Hp as (_ & HP). intros E. assert (G : In fs perms) by (apply HP; apply Permutation_refl). rewrite E in G. exact G. Qed.
Lemma Ps_some : Ps <> [].
Proof. unfold Ps. pose proof perms_some. destruct perms; [congruence|discriminate]. Qed.
Lemma Ps_good p : In p Ps -> good (free_site w) (sites_of w fs) p.
Proof. intros HP. apply in_map_iff in HP. destruct HP as (o & <- & Hi). apply updates_good. intros i Hi2. destruct Hp as (_ & HP). apply HP in Hi. eapply Permutation_in; [exact Hi|exact Hi2]. Qed.
Lemma M_orders m h c : M m h c = mean_orders perms m (fun orders => ups orders h c).
Proof.
  unfold M, mops, Ps. rewrite choices_map, Avg_map. apply (Avg_ext (choices (repeat perms m))). intros orders _. unfold ups. rewrite updates_concat. reflexivity.
Qed.
Lemma orders_ok m orders : In orders (choices (repeat perms m)) -> List.length orders = m /\ Forall (fun order => Permutation order fs) orders.
Proof. intros Hi. apply in_choices_repeat in Hi. destruct Hi as (H1 & H2). split; [exact H1|]. apply Forall_forall. intros o Hoo. apply Hp, H2, Hoo. Qed.
(** Plans of given orders *)
Lemma orders_plan o orders : random o -> Forall (fun order => Permutation order fs) orders -> forall k i, (i + k <= List.length orders)%nat -> map snd (plan (with_orders s o orders) fs k (clock w + i * Datatypes.S (List.length fs))) = concat (firstn k (skipn i orders)).
Proof.
  intros Hr HO. induction k as [|k IH]; intros i Hi; [reflexivity|]. rewrite plan_S by apply (with_orders_random s o orders Hr HO).
  assert (EP : o_perm (with_orders s o orders) (clock w + i * Datatypes.S (List.length fs)) fs = nth i orders fs). { cbn [with_orders o_perm]. fold w. fold fs. destruct (list_eq_dec Nat.eq_dec fs fs) as [_|C]; [|congruence]. f_equal. replace (clock w + i * Datatypes.S (List.length fs) - clock w)%nat with (i * Datatypes.S (List.length fs))%nat by lia. apply Nat.div_mul. lia. }
  rewrite EP. rewrite map_app, snd_combine by (rewrite seq_length; rewrite Forall_forall in HO; apply Permutation_length; symmetry; apply HO, nth_In; lia).
  replace (Datatypes.S (clock w + i * Datatypes.S (List.length fs)) + List.length fs)%nat with (clock w + Datatypes.S i * Datatypes.S (List.length fs))%nat by lia. rewrite IH by lia.
  assert (ES : skipn i orders = nth i orders fs :: skipn (Datatypes.S i) orders). { assert (Hi' : (i < List.length orders)%nat) by lia. clear - Hi'. revert i Hi'. induction orders as [|a l IH]; intros i Hi; [cbn in Hi; lia|]. destruct i as [|i]; [reflexivity|]. cbn [skipn nth]. apply IH. cbn in Hi. lia. }
  rewrite ES. reflexivity.
Qed.
Lemma orders_value o cfg n fuel j h c orders : random o -> usable cfg -> annealable cfg w -> (enough cfg <= fuel)%nat -> (j < n)%nat -> In c states -> In orders (choices (repeat perms (burn_in_passes cfg + n))) ->
  is_EE (run_draws s (with_orders s o orders) cfg n) (fun rss => after_run fs j h (run_from s fuel (with_orders s o orders) cfg n c rss)) (ups (firstn (burn_in_passes cfg + S j) orders) h c).
Proof.
  intros Hr HU HA Hfu Hj Hc Hi. destruct (orders_ok _ _ Hi) as (O1 & O2). pose proof (run_value outs o0 s Ho Hr0 H HL (with_orders s o orders) cfg n fuel j h c (with_orders_random s o orders Hr O2) HU HA Hfu Hj Hc) as G. fold w in G. fold fs in G.
  pose proof (orders_plan o orders Hr O2 (burn_in_passes cfg + S j) 0 ltac:(lia)) as E. cbn [Nat.mul skipn] in E. rewrite Nat.add_0_r in E. rewrite E, ops_filter in G. exact G.
Qed.
Lemma mean_first a b h c : mean_orders perms (a + b) (fun orders => ups (firstn a orders) h c) = M a h c.
Proof.
  rewrite M_orders. unfold mean_orders. etransitivity; [apply (Avg_app perms a b _ perms_some)|]. apply (Avg_ext (choices (repeat perms a))). intros x Hx. destruct (orders_ok _ _ Hx) as (X1 & _). rewrite (Avg_ext _ _ (fun _ => ups x h c)); [apply Avg_const, choices_some, perms_some|]. intros y _. cbn beta. f_equal. rewrite <- X1, firstn_app, Nat.sub_diag, firstn_all. cbn [firstn]. apply app_nil_r.
Qed.
Lemma M_settles : linked outs s -> forall B eps, 0 < eps -> exists T, forall t, (T <= t)%nat -> forall h, (forall c, In c states -> Rabs (h c) <= B) -> forall c, In c states -> Rabs (M t h c - average_over weight states h) <= eps.
Proof.
  intros HK. set (E := fun m => medge states (flip_site fs) weight Ps m).
  assert (One : forall b b', (exists orders, Forall (fun order => Permutation order fs) orders /\ told_apart outs s (update_sequence s (concat orders)) b b') -> exists m, E m b b').
  { intros b b' (orders & O1 & O2). exists (List.length orders), (map (update_sequence s) orders). split; [|rewrite <- updates_concat; exact O2]. unfold Ps. rewrite choices_map. apply in_map. apply choices_repeat; [reflexivity|]. intros x Hx. rewrite Forall_forall in O1. apply Hp, O1, Hx. }
  assert (Path : forall x y, In x states -> In y states -> exists m k, path (E m) k x y).
  { intros x y Hx Hy. specialize (HK x y Hx Hy). apply linked_path in HK. destruct HK as (k & HP). clear Hx Hy. induction HP as [x|k x y z HE HP (m2 & k2 & M2)]; [exists 0%nat, 0%nat; constructor|].
    destruct HE as [HE|HE]; destruct (One _ _ HE) as (m1 & M1); exists (Nat.max m1 m2), (S k2); (econstructor; [|eapply (path_more states (flip_site fs) (free_site w) (sites_of w fs) weight Ps Ps_some Ps_good); [|exact M2]; lia]); [left|right]; (eapply (medge_more states (flip_site fs) (free_site w) (sites_of w fs) weight Ps Ps_some Ps_good); [|exact M1]; lia). }
  destruct (bounded (fun p m => exists k, path (E m) k (fst p) (snd p)) (list_prod states states)) as (m & Hm). destruct (bounded (fun p k => path (E m) k (fst p) (snd p)) (list_prod states states)) as (K & HKb).
  apply (mconverges states (states_nodup w fs) (flip_site fs) (free_site w) (sites_of w fs) weight (flip_site_in w fs) (flip_site_inv w fs) wpos Ps Ps_some Ps_good m K).
  intros x y Hx Hy. apply (HKb (x, y)); [apply in_prod; assumption|]. cbn [fst snd]. destruct (Hm (x, y)) as (m' & L1 & k & L2); [apply in_prod; assumption|apply Path; assumption|]. exists k. eapply (path_more states (flip_site fs) (free_site w) (sites_of w fs) weight Ps Ps_some Ps_good); [exact L1|exact L2].
Qed.
Lemma linked_forgets : linked outs s -> forall B eps, 0 < eps -> exists T, forall o cfg n, random o -> usable cfg -> annealable cfg w -> exists F, forall fuel j, (F <= fuel)%nat -> (j < n)%nat -> (T <= burn_in_passes cfg + S j)%nat ->
  forall h c, (forall c, In c states -> Rabs (h c) <= B) -> In c states ->
  exists E, (forall orders, In orders (choices (repeat perms (burn_in_passes cfg + n))) -> is_EE (run_draws s (with_orders s o orders) cfg n) (fun rss => after_run fs j h (run_from s fuel (with_orders s o orders) cfg n c rss)) (E orders)) /\
    Rabs (mean_orders perms (burn_in_passes cfg + n) E - average_over weight states h) <= eps.
Proof.
  intros HK B eps He. destruct (M_settles HK B eps He) as (T & HT). exists T. intros o cfg n Hr HU HA. exists (enough cfg). intros fuel j Hfu Hj HTj h c Hh Hc. exists (fun orders => ups (firstn (burn_in_passes cfg + S j) orders) h c). split; [intros orders Hi; apply orders_value; assumption|].
  replace (burn_in_passes cfg + n)%nat with (burn_in_passes cfg + S j + (n - S j))%nat by lia. rewrite mean_first. apply HT; assumption.
Qed.

(** Pairs of samples *)
Lemma pair_value o cfg n fuel i j (g : list mat -> R) c orders : random o -> usable cfg -> annealable cfg w -> (enough cfg <= fuel)%nat -> (i <= j)%nat -> (j < n)%nat -> In c states -> In orders (choices (repeat perms (burn_in_passes cfg + n))) ->
  is_EE (run_draws s (with_orders s o orders) cfg n) (fun rss => after_run fs i g (run_from s fuel (with_orders s o orders) cfg n c rss) * after_run fs j g (run_from s fuel (with_orders s o orders) cfg n c rss))
    (ups (firstn (burn_in_passes cfg + S i) orders) (fun c' => g c' * ups (firstn (j - i) (skipn (burn_in_passes cfg + S i) orders)) g c') c).
Proof.
  intros Hr HU HAn Hfu Hij Hj Hc Hi. destruct (orders_ok _ _ Hi) as (O1 & O2). set (o' := with_orders s o orders). assert (Hr' : random o') by (apply with_orders_random; assumption). set (BI := burn_in_passes cfg) in *.
  pose proof (ordinary_sound _ _ Hr0 H) as SO. fold w in SO. destruct (run_slots outs w Ho SO HL) as (Hd & HF & W & SW & HA & EVs & EJ & ED & EF & HS). fold fs in Hd, HF, HA, EVs, EJ, HS.
  assert (EJ' : (fun c => joint outs (puts W fs c)) = weight) by (apply FunctionalExtensionality.functional_extensionality; exact EJ).
  assert (E1 : free_site W = free_site w) by (apply FunctionalExtensionality.functional_extensionality; intros q; unfold free_site; rewrite (proj1 (EF _)); reflexivity). assert (E2 : forall l, sites_of W l = sites_of w l) by (intros l; unfold sites_of; apply flat_map_ext; intros x; unfold cellsq; rewrite (proj2 (EF x)); reflexivity).
  specialize (HS o' cfg n s fuel eq_refl Hr' HU HAn Hfu c). set (pl := plan o' fs (BI + n) (clock w)) in *. assert (Hst : forall c, In c states <-> In c (choices (map (values_of W) fs))) by (intros x; rewrite EVs; reflexivity).
  set (a := concat (firstn (BI + S i) orders)). set (b := concat (firstn (j - i) (skipn (BI + S i) orders))). set (r := concat (firstn (n - S j) (skipn (BI + S j) orders))).
  assert (PL : forall k t, (t + k <= BI + n)%nat -> map snd (plan o' fs k (clock w + t * S (List.length fs))) = concat (firstn k (skipn t orders))) by (intros k t Hk; apply (orders_plan o orders Hr O2); rewrite O1; exact Hk).
  assert (P0 : forall k, (k <= BI + n)%nat -> map snd (plan o' fs k (clock w)) = concat (firstn k orders)) by (intros k Hk; specialize (PL k 0%nat Hk); cbn [Nat.mul skipn] in PL; rewrite Nat.add_0_r in PL; exact PL).
  assert (Ej : concat (firstn (BI + S j) orders) = (a ++ b)%list). { unfold a, b. rewrite <- concat_app. f_equal. replace (BI + S j)%nat with (BI + S i + (j - i))%nat by lia. clear. revert orders. induction (BI + S i)%nat as [|k IH]; intros l; [reflexivity|]. destruct l as [|x l]; [rewrite !firstn_nil; reflexivity|]. cbn [Nat.add firstn skipn app]. rewrite IH. reflexivity. }
  assert (En : map snd pl = (a ++ (b ++ r))%list). { unfold pl. rewrite P0, app_assoc, <- Ej by lia. unfold r. rewrite <- concat_app. f_equal. replace (BI + n)%nat with (BI + S j + (n - S j))%nat by lia. clear. revert orders. induction (BI + S j)%nat as [|k IH]; intros l; [reflexivity|]. destruct l as [|x l]; [rewrite !firstn_nil; reflexivity|]. cbn [Nat.add firstn skipn app]. rewrite IH. reflexivity. }
  assert (Fin : forall k t x, In x (concat (firstn k (skipn t orders))) -> In x fs). { intros k t x Hx. apply (orders_in s orders O2). rewrite <- (firstn_skipn t orders), concat_app. apply in_or_app. right. rewrite <- (firstn_skipn k (skipn t orders)), concat_app. apply in_or_app. left. exact Hx. }
  assert (Ha : forall x, In x a -> In x fs) by (intros x Hx; apply (Fin (BI + S i)%nat 0%nat); exact Hx). assert (Hb : forall x, In x b -> In x fs) by (intros x; apply Fin).
  pose (V := fun c' => g c' * ops (flip_site fs) (free_site W) weight (sites_of W b) g c').
  assert (G1 : forall c', In c' (choices (map (values_of W) fs)) -> is_EE (map (draws_needed W) (b ++ r)) (fun rss => g c' * g (pass outs W fs b c' rss)) (V c')).
  { intros c' Hc'. pose proof (pass_EE outs W SW fs Hd HA (fun x _ => g x) g r b Hb (fun x _ => is_EE_const _ (g x)) c' Hc') as Q. rewrite EJ' in Q. cbn beta in Q. pose proof (is_EE_lin _ (g c') 0 _ _ _ _ Q Q) as Q2. eapply is_EE_ext; [|replace (V c') with (g c' * ops (flip_site fs) (free_site W) weight (sites_of W b) g c' + 0 * ops (flip_site fs) (free_site W) weight (sites_of W b) g c') by (unfold V; ring); exact Q2]. intros rss _. cbn beta. ring. }
  pose proof (pass_EE outs W SW fs Hd HA (fun c' rss => g c' * g (pass outs W fs b c' rss)) V (b ++ r) a Ha G1 c (proj1 (Hst c) Hc)) as G2. rewrite EJ', ED, <- En in G2.
  assert (EVal : ops (flip_site fs) (free_site W) weight (sites_of W a) V c = ups (firstn (BI + S i) orders) (fun c' => g c' * ups (firstn (j - i) (skipn (BI + S i) orders)) g c') c).
  { unfold ups. fold a b. change (update_sequence s a) with (filter (free_site w) (sites_of w a)). change (update_sequence s b) with (filter (free_site w) (sites_of w b)). rewrite <- ops_filter, <- E1, <- !E2. f_equal. apply FunctionalExtensionality.functional_extensionality. intros c'. unfold V. rewrite E2. rewrite ops_filter. reflexivity. }
  rewrite EVal in G2. eapply is_EE_ext; [|exact G2]. intros rss HR. cbn beta. destruct (HS rss Hc HR) as (s' & F1 & F2). assert (F1' : run_from s fuel o' cfg n c rss = Some (Ok s')) by exact F1. rewrite F1'. unfold after_run. rewrite (F2 i) by lia. rewrite (F2 j Hj). fold BI. rewrite !P0 by lia. fold a. rewrite Ej, pass_app. reflexivity.
Qed.
Lemma mean_pair a b r (g : list mat -> R) c : mean_orders perms (a + (b + r)) (fun orders => ups (firstn a orders) (fun c' => g c' * ups (firstn b (skipn a orders)) g c') c) = M a (fun c' => g c' * M b g c') c.
Proof.
  rewrite M_orders. unfold mean_orders. etransitivity; [apply (Avg_app perms a (b + r) _ perms_some)|]. apply (Avg_ext (choices (repeat perms a))). intros x Hx. destruct (orders_ok _ _ Hx) as (X1 & _).
  transitivity (Avg (choices (repeat perms (b + r))) (fun y => ups x (fun c' => g c' * ups (firstn b y) g c') c)).
  - apply Avg_ext. intros y _. cbn beta. rewrite <- X1, firstn_app, Nat.sub_diag, firstn_all, skipn_app, Nat.sub_diag, skipn_all. cbn [firstn skipn app]. rewrite app_nil_r. reflexivity.
  - unfold ups at 1. etransitivity; [apply (ops_avg (flip_site fs) (free_site w) weight (update_sequence s (concat x)) (choices (repeat perms (b + r))) (fun y c' => g c' * ups (firstn b y) g c') c)|]. unfold ups at 2. f_equal. apply FunctionalExtensionality.functional_extensionality. intros c'. rewrite Avg_scale. f_equal. apply mean_first.
Qed.
Lemma mean_lin a m k f g : mean_orders perms m (fun x => a * f x + k * g x) = a * mean_orders perms m f + k * mean_orders perms m g.
Proof. apply (Avg_lin (choices (repeat perms m))). Qed.

Lemma linked_consistent : linked outs s -> forall B eps, 0 < eps -> exists n0, forall o cfg n, (n0 <= n)%nat -> random o -> usable cfg -> annealable cfg w -> exists F, forall fuel, (F <= fuel)%nat ->
  forall h c, (forall c, In c states -> Rabs (h c) <= B) -> In c states ->
  exists E, (forall orders, In orders (choices (repeat perms (burn_in_passes cfg + n))) -> is_EE (run_draws s (with_orders s o orders) cfg n) (fun rss => (run_mean fs n h (run_from s fuel (with_orders s o orders) cfg n c rss) - average_over weight states h) ^ 2) (E orders)) /\
    mean_orders perms (burn_in_passes cfg + n) E <= eps.
Proof.
  intros HK B eps He. set (D := 2 * Rabs B + 1). assert (HD : 0 < D) by (unfold D; pose proof (Rabs_pos B); lra). set (e1 := eps / (2 * D)). assert (He1 : 0 < e1) by (unfold e1; apply Rdiv_lt_0_compat; lra).
  destruct (M_settles HK B e1 He1) as (T & HT). destruct (archimed (INR (2 * T) * (D * D) / (eps / 2))) as (AR & _). set (n0 := S (Z.to_nat (up (INR (2 * T) * (D * D) / (eps / 2))))). exists n0. intros o cfg n Hn Hr HU HAn. exists (enough cfg). intros fuel Hfu h c Hh Hc. set (BI := burn_in_passes cfg).
  assert (Hn0 : INR (2 * T) * (D * D) <= eps / 2 * INR n).
  { assert (Q : INR (2 * T) * (D * D) / (eps / 2) <= INR n). { apply Rle_trans with (IZR (up (INR (2 * T) * (D * D) / (eps / 2)))); [lra|]. rewrite (INR_IZR_INZ n). apply IZR_le. unfold n0 in Hn. lia. } apply (Rmult_le_compat_l (eps / 2)) in Q; [|lra]. replace (eps / 2 * (INR (2 * T) * (D * D) / (eps / 2))) with (INR (2 * T) * (D * D)) in Q by (field; lra). exact Q. }
  assert (Np : 0 < INR n) by (apply lt_0_INR; unfold n0 in Hn; lia). set (m := average_over weight states h). set (g := fun c => h c - m).
  assert (B0 : 0 <= B) by (pose proof (Hh c Hc); pose proof (Rabs_pos (h c)); lra).
  assert (Hm : - B <= m <= B). { unfold m, average_over. apply (mean_between states weight wpos); [intros E; rewrite E in Hc; exact Hc|]. intros x Hx. specialize (Hh x Hx). pose proof (Rle_abs (h x)). pose proof (Rle_abs (- h x)). rewrite Rabs_Ropp in *. lra. }
  assert (Hg : forall x, In x states -> - D <= g x <= D). { intros x Hx. unfold g, D. rewrite (Rabs_pos_eq B B0). specialize (Hh x Hx). pose proof (Rle_abs (h x)). pose proof (Rle_abs (- h x)). rewrite Rabs_Ropp in *. lra. }
  set (pairs := list_prod (seq 0 n) (seq 0 n)). pose (lo := fun p : nat * nat => Nat.min (fst p) (snd p)). pose (hi := fun p : nat * nat => Nat.max (fst p) (snd p)).
  pose (V := fun p orders => ups (firstn (BI + S (lo p)) orders) (fun c' => g c' * ups (firstn (hi p - lo p) (skipn (BI + S (lo p)) orders)) g c') c).
  exists (fun orders => / (INR n * INR n) * Rsum (fun p => V p orders) pairs). split.
  - intros orders Hi. eapply is_EE_ext; [|apply (is_EE_sum _ (/ (INR n * INR n)) pairs (fun p rss => after_run fs (lo p) g (run_from s fuel (with_orders s o orders) cfg n c rss) * after_run fs (hi p) g (run_from s fuel (with_orders s o orders) cfg n c rss)) (fun p => V p orders))].
    + intros rss HR. cbn beta. pose proof (ordinary_sound _ _ Hr0 H) as SO. destruct (run_slots outs w Ho SO HL) as (Hd & HF & W & SW & HA & EVs & EJ & ED & EF & HS). destruct (orders_ok _ _ Hi) as (O1 & O2).
      destruct (HS (with_orders s o orders) cfg n s fuel eq_refl (with_orders_random s o orders Hr O2) HU HAn Hfu c rss Hc HR) as (s' & F1 & _). assert (F1' : run_from s fuel (with_orders s o orders) cfg n c rss = Some (Ok s')) by exact F1. rewrite F1'. unfold after_run, run_mean.
      assert (EP : Rsum (fun p => g (recorded fs (lo p) s') * g (recorded fs (hi p) s')) pairs = Rsum (fun p => g (recorded fs (fst p) s') * g (recorded fs (snd p) s')) pairs). { apply Rsum_ext. intros (i, j) _. unfold lo, hi. cbn [fst snd]. destruct (Nat.le_ge_cases i j) as [L1|L1]; [rewrite Nat.min_l, Nat.max_r by exact L1; ring|rewrite Nat.min_r, Nat.max_l by exact L1; ring]. }
      rewrite EP. unfold pairs. rewrite <- (Rsum_sq (fun j => g (recorded fs j s'))). assert (EQ : Rsum (fun j => g (recorded fs j s')) (seq 0 n) = Rsum (fun j => h (recorded fs j s')) (seq 0 n) - INR n * m) by (unfold g; rewrite Rsum_sub, Rsum_const, seq_length; reflexivity). rewrite EQ. cbn [pow]. field. lra.
    + intros (i, j) Hij. apply in_prod_iff in Hij. destruct Hij as (I1 & I2). apply in_seq in I1, I2. unfold V. apply pair_value; try assumption; unfold lo, hi; cbn [fst snd]; lia.
  - assert (EM : mean_orders perms (BI + n) (fun orders => / (INR n * INR n) * Rsum (fun p => V p orders) pairs) = / (INR n * INR n) * Rsum (fun p => M (BI + S (lo p)) (fun c' => g c' * M (hi p - lo p) g c') c) pairs).
    { etransitivity; [apply (Avg_scale (choices (repeat perms (BI + n))))|]. f_equal. etransitivity; [apply (Avg_sum (choices (repeat perms (BI + n))) pairs (fun orders p => V p orders))|]. apply Rsum_ext. intros (i, j) Hij. apply in_prod_iff in Hij. destruct Hij as (I1 & I2). apply in_seq in I1, I2. rewrite <- (mean_pair (BI + S (lo (i, j))) (hi (i, j) - lo (i, j)) (n - S (hi (i, j)))). replace (BI + S (lo (i, j)) + (hi (i, j) - lo (i, j) + (n - S (hi (i, j)))))%nat with (BI + n)%nat by (unfold lo, hi; cbn [fst snd]; lia). reflexivity. }
    rewrite EM. pose proof (mops_range states (flip_site fs) (free_site w) (sites_of w fs) weight (flip_site_in w fs) wpos Ps Ps_some Ps_good) as RG.
    assert (Bd : forall p, In p pairs -> M (BI + S (lo p)) (fun c' => g c' * M (hi p - lo p) g c') c <= (if close T (fst p) (snd p) then D * D else 0) + D * e1).
    { intros p _. apply (RG (- ((if close T (fst p) (snd p) then D * D else 0) + D * e1)) ((if close T (fst p) (snd p) then D * D else 0) + D * e1)); [|exact Hc]. intros x Hx. cut (Rabs (g x * M (hi p - lo p) g x) <= (if close T (fst p) (snd p) then D * D else 0) + D * e1); [intros AB; pose proof (Rle_abs (g x * M (hi p - lo p) g x)); pose proof (Rle_abs (- (g x * M (hi p - lo p) g x))); rewrite Rabs_Ropp in *; lra|].
      rewrite Rabs_mult. assert (A1 : Rabs (g x) <= D) by (apply Rabs_le; apply Hg, Hx). pose proof (Rabs_pos (g x)) as A0. destruct (close T (fst p) (snd p)) eqn:EC.
      - assert (A2 : Rabs (M (hi p - lo p) g x) <= D) by (apply Rabs_le; apply (RG (- D) D); [exact Hg|exact Hx]). pose proof (Rabs_pos (M (hi p - lo p) g x)). assert (0 < D * e1) by (apply Rmult_lt_0_compat; assumption). nra.
      - assert (HTd : (T <= hi p - lo p)%nat) by (unfold close in EC; unfold hi, lo; apply Bool.andb_false_iff in EC; destruct EC as [EC|EC]; apply Nat.ltb_ge in EC; lia). specialize (HT _ HTd h Hh x Hx). fold m in HT. assert (A2 : M (hi p - lo p) g x = M (hi p - lo p) h x - m) by (unfold g, M; apply mops_shift; exact Ps_some). rewrite A2. pose proof (Rabs_pos (M (hi p - lo p) h x - m)). nra. }
    assert (Hsum : Rsum (fun p => M (BI + S (lo p)) (fun c' => g c' * M (hi p - lo p) g c') c) pairs <= INR n * (D * D * INR (2 * T) + INR n * (D * e1))).
    { eapply Rle_trans; [apply Rsum_le, Bd|]. unfold pairs. rewrite Rsum_prod. apply Rle_trans with (Rsum (fun _ : nat => D * D * INR (2 * T) + INR n * (D * e1)) (seq 0 n)); [|rewrite Rsum_const, seq_length; lra]. apply Rsum_le. intros i Hi. apply Rle_trans with (Rsum (fun j => D * D * (if close T i j then 1 else 0) + D * e1) (seq 0 n)).
      - apply Rsum_le. intros j Hj. cbn [fst snd]. destruct (close T i j); lra.
      - rewrite Rsum_add, Rsum_scale, Rsum_const, seq_length. pose proof (close_count T i n). assert (0 <= D * D) by nra. nra. }
    apply (Rmult_le_reg_l (INR n * INR n)); [nra|]. rewrite <- Rmult_assoc, Rinv_r, Rmult_1_l by nra. eapply Rle_trans; [exact Hsum|]. assert (EE : D * e1 = eps / 2) by (unfold e1; field; lra). rewrite EE. nra.
Qed.
End Machine.

Lemma all_orders_exist s : exists perms, all_orders s perms.
Proof.
  set (fs := unfixed (wd s)). set (eqd := list_eq_dec Nat.eq_dec). destruct (class_of eqd (fun l => Permutation l fs) (choices (repeat fs (List.length fs)))) as (A & HA). exists (nodup eqd (filter A (choices (repeat fs (List.length fs))))). split; [apply NoDup_nodup|]. intros order. rewrite nodup_In, filter_In. fold fs. split.
  - intros (H1 & H2). apply HA; assumption.
  - intros HP. assert (G : In order (choices (repeat fs (List.length fs)))) by (apply choices_repeat; [apply Permutation_length, HP|intros x Hx; eapply Permutation_in; [exact HP|exact Hx]]). split; [exact G|]. apply HA; assumption.
Qed.
Section Necessity.
Context (outs : string -> list vec -> nat -> Z) (o0 : oracle) (s : state) (Ho : outputs outs) (Hr0 : random o0) (H : ordinary o0 (wd s)) (HL : forall l, (l < List.length (layers (wd s)))%nat -> lfixed (lbda (get_lay (wd s) l)) = true).
Let w := wd s.
Let fs := unfixed w.
Let states := configurations s.
Let weight := posterior outs s.
Let wpos := posterior_pos outs o0 s Ho Hr0 H HL.
(** Whatever the orders, m passes negate every free entry m times. *)
Lemma negs_orders orders : Forall (fun order => Permutation order fs) orders -> forall c, In c states -> negs (flip_site fs) (update_sequence s (concat orders)) c = negs (flip_site fs) (update_sequence s (concat (repeat fs (List.length orders)))) c.
Proof.
  pose proof (fs_nodup outs o0 s Ho Hr0 H HL) as Hd. fold w in Hd. fold fs in Hd. induction orders as [|o l IH]; intros HO c Hc; [reflexivity|]. pose proof (Forall_inv HO) as O1. pose proof (Forall_inv_tail HO) as O2. cbn [List.length repeat concat]. rewrite !updates_app, !(negs_app (flip_site fs)).
  assert (E : negs (flip_site fs) (update_sequence s o) c = negs (flip_site fs) (update_sequence s fs) c).
  { apply (negs_perm states (flip_site fs) (free_site w) (sites_of w fs) (flip_site_in w fs) (flips_commute w fs Hd)); [|apply updates_good; intros i Hi; eapply Permutation_in; [exact O1|exact Hi]|exact Hc]. rewrite !updates_sites. apply (sites_order w fs) in O1. fold w. clear - O1. generalize dependent (sites_of w fs). generalize (sites_of w o). intros l1 l2 O1. induction O1 as [|x l l' P IH|x y l|l1 l2 l3 P1 I1 P2 I2]; cbn [filter]; [apply perm_nil| | |eapply perm_trans; eassumption]; destruct (free_site w x); try (apply perm_skip); try exact IH; try (destruct (free_site w y)); try apply perm_swap; apply Permutation_refl. }
  rewrite E. apply (IH O2). apply (negs_in states (flip_site fs) (free_site w) (sites_of w fs) (flip_site_in w fs)); [apply updates_good; auto|exact Hc].
Qed.
Lemma forgets_linked : forgets_on_average outs s -> linked outs s.
Proof.
  intros HF c c' Hc Hc'. match goal with |- clos_refl_sym_trans _ ?R _ _ => set (Rel := R) end. destruct (classic (clos_refl_sym_trans _ Rel c c')) as [Y|Nn]; [exact Y|exfalso]. destruct (all_orders_exist s) as (perms & Hp).
  destruct (pos_bound weight states wpos) as (wm & W1 & W2). set (Wt := Rsum weight states). assert (Wt0 : 0 <= Wt) by (apply Rsum_nonneg; intros x Hx; left; apply wpos, Hx).
  assert (He : 0 < wm / (Wt + 1) / 2) by (assert (0 < wm / (Wt + 1)) by (apply Rdiv_lt_0_compat; lra); lra). destruct (HF perms Hp 1 _ He) as (T & HT).
  destruct (class_of (list_eq_dec (list_eq_dec (list_eq_dec Z.eq_dec))) (clos_refl_sym_trans _ Rel c) states) as (A & HA).
  set (h := fun x => if A x then 1 else 0). assert (HU : usable plain_settings) by (unfold usable; cbn; lia). assert (HAn : annealable plain_settings w) by (intros _ G; cbn in G; lia).
  destruct (HT o0 plain_settings (Datatypes.S T) Hr0 HU HAn) as (F & HFu). specialize (HFu (Nat.max F (enough plain_settings)) T ltac:(lia) ltac:(lia) ltac:(lia) h c).
  destruct HFu as (E & E1 & E2); [intros x _; unfold h; destruct (A x); unfold Rabs; destruct (Rcase_abs _); lra|exact Hc|].
  set (v := h (negs (flip_site fs) (update_sequence s (concat (repeat fs (S T)))) c)).
  assert (EV : forall orders, In orders (choices (repeat perms (burn_in_passes plain_settings + S T))) -> E orders = v).
  { intros orders Hi. pose proof (orders_value outs o0 s Ho Hr0 H HL perms Hp o0 plain_settings (S T) (Nat.max F (enough plain_settings)) T h c orders Hr0 HU HAn ltac:(lia) ltac:(lia) Hc Hi) as RV. rewrite (is_EE_unique _ _ _ _ (E1 orders Hi) RV). clear RV. destruct (orders_ok s perms Hp _ _ Hi) as (O1 & O2).
    assert (EB : burn_in_passes plain_settings = 0%nat) by reflexivity. rewrite EB in O1 |- *. cbn [Nat.add] in *. rewrite <- O1, firstn_all. pose proof (updates_good s (concat orders) (orders_in s orders O2)) as HG. fold w in HG. fold fs in HG.
    etransitivity; [apply (moves states (flip_site fs) (free_site w) (sites_of w fs) weight (flip_site_in w fs) wpos (update_sequence s (concat orders)) h HG); [|exact Hc]|].
    - intros b b' Hb. assert (Hbb : In b states /\ In b' states).
      { destruct Hb as (q1 & q & q2 & x & EQ & Hx & _ & -> & ->). rewrite EQ in HG. apply good_app in HG. destruct HG as (_ & HG). apply good_cons in HG. destruct HG as (G1 & G2 & G3). split; apply (negs_in states (flip_site fs) (free_site w) (sites_of w fs) (flip_site_in w fs) q2 G3); [exact Hx|apply flip_site_in; assumption]. }
      destruct Hbb as (B1 & B2). assert (HR : Rel b b') by (exists orders; split; [exact O2|exact Hb]). unfold h. assert (EA : A b = A b'); [|rewrite EA; reflexivity]. apply Bool.eq_true_iff_eq. rewrite (HA b B1), (HA b' B2). split; intros G; (eapply rst_trans; [exact G|]); [apply rst_step; exact HR|apply rst_sym, rst_step; exact HR].
    - unfold v. f_equal. rewrite <- O1. apply negs_orders; [exact O2|exact Hc]. }
  assert (EM : mean_orders perms (burn_in_passes plain_settings + S T) E = v). { unfold mean_orders. etransitivity; [apply (Avg_ext (choices (repeat perms (burn_in_passes plain_settings + S T))) E (fun _ => v)); exact EV|]. apply Avg_const, choices_some. apply (perms_some s perms Hp). }
  rewrite EM in E2. assert (h2 : v = 0 \/ v = 1) by (unfold v, h; destruct (A _); auto). unfold average_over in E2. fold states weight Wt in E2.
  assert (M1 : wm <= Rsum (fun c => weight c * h c) states). { eapply Rle_trans; [apply (W2 c Hc)|]. assert (Hh : h c = 1) by (unfold h; rewrite (proj2 (HA c Hc)); [reflexivity|apply rst_refl]). replace (weight c) with (weight c * h c) by (rewrite Hh; ring). apply (Rsum_one (fun c => weight c * h c)); [|exact Hc]. intros y Hy. pose proof (wpos y Hy) as Wy. fold weight in Wy. unfold h. destruct (A y); lra. }
  assert (M2 : Rsum (fun c => weight c * h c) states <= Wt - wm). { assert (Q : wm <= Rsum (fun c => weight c * (1 - h c)) states). { eapply Rle_trans; [apply (W2 c' Hc')|]. assert (Hh : h c' = 0) by (unfold h; destruct (A c') eqn:EA; [apply (HA c' Hc') in EA; contradiction|reflexivity]). replace (weight c') with (weight c' * (1 - h c')) by (rewrite Hh; ring). apply (Rsum_one (fun c => weight c * (1 - h c))); [|exact Hc']. intros y Hy. pose proof (wpos y Hy) as Wy. fold weight in Wy. unfold h. destruct (A y); lra. }
    rewrite (Rsum_ext _ (fun c => weight c - weight c * h c)) in Q by (intros; ring). rewrite Rsum_sub in Q. fold Wt in Q. lra. }
  set (p := Rsum (fun c => weight c * h c) states) in *. assert (Wp : 0 < Wt) by lra. set (d := wm / (Wt + 1)) in *. assert (D1 : d * (Wt + 1) = wm) by (unfold d; field; lra).
  assert (D2 : d * Wt < wm) by lra. assert (P1 : p / Wt * Wt = p) by (field; lra). set (a := p / Wt) in *. assert (A1 : d < a) by nra. assert (A2 : a < 1 - d) by nra. destruct h2 as [->| ->]; unfold Rabs in E2; destruct (Rcase_abs _); lra.
Qed.
End Necessity.

Lemma C103_forgets outs o s : outputs outs -> random o -> ordinary o (wd s) -> (forall l, (l < List.length (layers (wd s)))%nat -> lfixed (lbda (get_lay (wd s) l)) = true) -> (forgets_on_average outs s <-> linked outs s).
Proof.
  intros H1 H2 H3 H4. split; [apply (forgets_linked outs o s H1 H2 H3 H4)|]. intros HK perms Hp. exact (linked_forgets outs o s H1 H2 H3 H4 perms Hp HK).
Qed.
Lemma C103_consistent outs o0 s : outputs outs -> random o0 -> ordinary o0 (wd s) -> (forall l, (l < List.length (layers (wd s)))%nat -> lfixed (lbda (get_lay (wd s) l)) = true) -> linked outs s -> consistent_on_average outs s /\ consistent_means_on_average outs s.
Proof.
  intros H1 H2 H3 H4 HK. assert (G : consistent_on_average outs s) by (intros perms Hp; exact (linked_consistent outs o0 s H1 H2 H3 H4 perms Hp HK)). split; [exact G|]. intros perms Hp eps He. destruct (G perms Hp 1 eps He) as (n0 & Hn0). exists (S n0). intros o cfg n Hn Hr HU HA. destruct (Hn0 o cfg n ltac:(lia) Hr HU HA) as (F & HF). exists F. intros fuel Hfu i r col c Hi Hir Hic Hc.
  destruct (HF fuel Hfu (fun c => IZR (at2 (nth (place i (unfixed (wd s))) c []) r col)) c) as (E & E1 & E2); [|exact Hc|].
  - intros x Hx. cbn beta. destruct (state_cell (wd s) (unfixed (wd s)) x i Hx Hi) as (O & _). destruct (okmat_pm _ _ _ r col O Hir Hic) as [-> | ->]; unfold Rabs; destruct (Rcase_abs _); lra.
  - exists E. split; [|exact E2]. intros orders Hor. eapply is_EE_ext; [|exact (E1 orders Hor)]. intros rss HR. cbn beta. f_equal. f_equal. apply (reported_is_mean (with_orders s o orders) cfg n s fuel); try assumption; [|exact (ordinary_sound _ _ H2 H3)|lia]. apply with_orders_random; [exact Hr|]. apply (orders_ok s perms Hp _ _ Hor).
Qed.
Lemma mixing_linked outs s : mixing outs s -> linked outs s.
Proof.
  intros (m & HM) c c' Hc Hc'. assert (HO : Forall (fun order => Permutation order (unfixed (wd s))) (repeat (unfixed (wd s)) m)) by (apply Forall_forall; intros o Ho; apply repeat_spec in Ho; subst; apply Permutation_refl). specialize (HM _ (repeat_length _ _) HO c c' Hc Hc'). clear Hc Hc'. induction HM as [x y HE|x|x y _ IH|x y z _ I1 _ I2]; [apply rst_step; exists (repeat (unfixed (wd s)) m); split; assumption|apply rst_refl|apply rst_sym; exact IH|eapply rst_trans; eassumption].
Qed.
