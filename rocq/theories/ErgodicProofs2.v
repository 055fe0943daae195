(** The sweeps of a machine as sequences of single-site flips (for C100, C101). *)
From Coq Require Import String Lia Lra Permutation.
From Coquelicot Require Import RInt Hierarchy.
From Verif Require Import Base BaseLemmas BaseR BaseRLemmas Spec SpecR Invariance InvarianceProofs HierProofs Canon Clean Machine Dispatch Inference SpecMachine SpecOrdinary SpecPass SpecErgodic MachineProofs MachineProofs2 InferenceProofs BuiltProofs InferenceProofs2 InferenceProofs6 TraceProofs ProgressProofs PlainProofs DispatchProofs SamplingProofs.
From Verif Require Import OrdinaryProofs OrdinaryProofs2 OrdinaryProofs3 OrdinaryProofs4 OrdinaryProofs5 OrdinaryProofs6 OrdinaryProofs7 PassProofs RunProofs ErgodicProofs.
Local Open Scope R_scope.

Lemma nodup_choices {A} (ls : list (list A)) : (forall l, In l ls -> NoDup l) -> NoDup (choices ls).
Proof.
  induction ls as [|l ls IH]; intros H; cbn [choices]; [repeat constructor; intros []|]. apply nodup_flat; [apply H; left; reflexivity| |].
  - intros a _. apply FinFun.Injective_map_NoDup; [intros x y E; congruence|]. apply IH. intros l' Hl'. apply H. right. exact Hl'.
  - intros a a' b _ _ H1 H2. apply in_map_iff in H1, H2. destruct H1 as (x & <- & _), H2 as (y & E & _). congruence.
Qed.
Lemma filter_less {A} (f g : A -> bool) l q : (forall x, In x l -> f x = true -> g x = true) -> In q l -> g q = true -> f q = false -> (List.length (filter f l) < List.length (filter g l))%nat.
Proof.
  intros H Hq Hg Hf. assert (G : forall l, (forall x, In x l -> f x = true -> g x = true) -> (List.length (filter f l) <= List.length (filter g l))%nat).
  { clear. induction l as [|x l IH]; intros H; [cbn; lia|]. cbn [filter]. specialize (IH (fun y Hy => H y (or_intror Hy))). pose proof (H x (or_introl eq_refl)) as G. destruct (f x); [rewrite G by reflexivity; cbn; lia|]. destruct (g x); cbn; lia. }
  induction l as [|x l IH]; [destruct Hq|]. cbn [filter]. destruct Hq as [->|Hq].
  - rewrite Hf, Hg. cbn. specialize (G l (fun y Hy => H y (or_intror Hy))). lia.
  - specialize (IH (fun y Hy => H y (or_intror Hy)) Hq). pose proof (H x (or_introl eq_refl)) as E. destruct (f x); [rewrite E by reflexivity; cbn; lia|]. destruct (g x); cbn; lia.
Qed.
Lemma okmat_eq N L A B : okmat N L A -> okmat N L B -> (forall n l, (n < N)%nat -> (l < L)%nat -> at2 A n l = at2 B n l) -> A = B.
Proof.
  intros ((A1 & A2) & _) ((B1 & B2) & _) H. unfold nrows in *. apply (nth_ext A B [] []); [congruence|]. intros n Hn. assert (HnB : (n < List.length B)%nat) by (unfold mat, vec in *; lia). rewrite Forall_forall in A2, B2. pose proof (A2 (nth n A []) (nth_In _ _ Hn)) as LA. pose proof (B2 (nth n B []) (nth_In _ _ HnB)) as LB. apply (nth_ext _ _ 0%Z 0%Z); [unfold mat, vec in *; lia|]. intros l Hl. apply (H n l); unfold mat, vec in *; lia.
Qed.

Section Sites.
Context (outs : string -> list vec -> nat -> Z) (Houts : outputs outs) (w : world) (S : sound w) (fs : list nat) (Hd : NoDup fs) (Hf : forall i, In i fs -> armed w i).
Let J (c : list mat) : R := joint outs (puts w fs c).
Let states := choices (map (values_of w) fs).
Let N i := nrows (matrix_of w i).
Let L i := ncols (matrix_of w i).
Definition site : Type := (nat * (nat * nat))%type.
Definition flip_site (q : site) (c : list mat) : list mat := let k := place (fst q) fs in upd c k (flip_cell (fst (snd q)) (snd (snd q)) (nth k c [])).
Definition free_site (q : site) : bool := negb (at2 (fixed_of w (fst q)) (fst (snd q)) (snd (snd q)) =? 1)%Z.
Definition cellsq (i : nat) : list site := map (fun p => (i, p)) (cells (nrows (matrix_of w i)) (ncols (matrix_of w i))).
Definition sites_of (order : list nat) : list site := flat_map cellsq order.
Lemma in_sites order i n l : In (i, (n, l)) (sites_of order) <-> In i order /\ (n < N i)%nat /\ (l < L i)%nat.
Proof.
  unfold sites_of, cellsq. rewrite in_flat_map. split.
  - intros (j & Hj & H). apply in_map_iff in H. destruct H as (p & E & H). injection E as -> ->. apply in_cells in H. auto.
  - intros (Hi & Hn & Hl). exists i. split; [exact Hi|]. apply in_map. apply in_cells. auto.
Qed.
Lemma states_nodup : NoDup states.
Proof. unfold states. apply nodup_choices. intros l Hl. apply in_map_iff in Hl. destruct Hl as (i & <- & _). unfold values_of. apply NoDup_filter, nodup_all_mats. Qed.
Lemma state_cell c i : In c states -> In i fs -> okmat (N i) (L i) (nth (place i fs) c []) /\ agrees (fixed_of w i) (matrix_of w i) (N i) (L i) (nth (place i fs) c []) = true.
Proof. intros Hc Hi. apply states_ok in Hc. destruct Hc as (_ & Hc). destruct (place_ok i fs Hi) as (P1 & P2). specialize (Hc _ P1). cbn zeta in Hc. rewrite P2 in Hc. exact Hc. Qed.
Lemma agrees_cell F A0 n0 l0 A n l : agrees F A0 n0 l0 A = true -> (n < n0)%nat -> (l < l0)%nat -> (at2 F n l =? 1)%Z = true -> at2 A n l = at2 A0 n l.
Proof. intros H Hn Hl HF. unfold agrees in H. rewrite forallb_forall in H. specialize (H (n, l) (proj2 (in_cells n l n0 l0) (conj Hn Hl))). cbn in H. rewrite HF in H. apply Z.eqb_eq in H. exact H. Qed.
Lemma flip_site_in q c : In q (sites_of fs) -> free_site q = true -> In c states -> In (flip_site q c) states.
Proof.
  destruct q as (i & n & l). intros Hq HF Hc. apply in_sites in Hq. destruct Hq as (Hi & Hn & Hl). destruct (state_cell c i Hc Hi) as (O & AG). destruct (place_ok i fs Hi) as (P1 & P2). pose proof Hc as Hc'. apply states_ok in Hc'. destruct Hc' as (H1 & H2). apply states_ok. unfold flip_site. cbn [fst snd] in *. split; [rewrite upd_length; exact H1|]. intros k Hk. cbn zeta. destruct (Nat.eq_dec k (place i fs)) as [->|Hne]; [|rewrite nth_upd_other by exact Hne; apply H2; exact Hk].
  rewrite nth_upd_same by lia. rewrite P2. fold (N i) (L i). split; [apply flip_ok; assumption|]. unfold agrees. apply forallb_forall. intros (a, b) Hab. apply in_cells in Hab. destruct Hab as (Ha & Hb). apply Bool.orb_true_iff. destruct (at2 (fixed_of w i) a b =? 1)%Z eqn:E; [right|left; reflexivity]. apply Z.eqb_eq.
  unfold flip_cell. rewrite (at2_set2 _ (N i) (L i)) by (try assumption; apply O). destruct ((a =? n)%nat && (b =? l)%nat)%bool eqn:EE; [|apply (agrees_cell _ _ _ _ _ _ _ AG Ha Hb E)]. apply Bool.andb_true_iff in EE. destruct EE as (E1 & E2). apply Nat.eqb_eq in E1, E2. subst a b. unfold free_site in HF. cbn [fst snd] in HF. rewrite E in HF. discriminate.
Qed.
Lemma flip_site_inv q c : In q (sites_of fs) -> free_site q = true -> In c states -> flip_site q (flip_site q c) = c.
Proof.
  destruct q as (i & n & l). intros Hq HF Hc. apply in_sites in Hq. destruct Hq as (Hi & Hn & Hl). destruct (state_cell c i Hc Hi) as (O & _). destruct (place_ok i fs Hi) as (P1 & P2). destruct (states_shapes w fs c Hc) as (H1 & _). unfold flip_site. cbn [fst snd] in *. rewrite nth_upd_same by lia. rewrite upd_upd. rewrite (flip_flip (N i) (L i)) by assumption. apply upd_own.
Qed.
Lemma J_pos c : In c states -> 0 < J c.
Proof. intros Hc. destruct (states_shapes w fs c Hc) as (H1 & H2). apply (states_puts outs w S fs Hd Hf c H1 H2). Qed.

(** One matrix *)
Lemma step_ops c i (h : list mat -> R) : In c states -> In i fs -> Edraws (N i * L i) (fun rs => h (pass_step outs w fs c i rs)) = ops flip_site free_site J (cellsq i) h c.
Proof.
  intros Hc Hi. destruct (place_ok i fs Hi) as (P1 & P2). destruct (states_shapes w fs c Hc) as (H1 & H2). destruct (state_cell c i Hc Hi) as (O & _). set (k := place i fs) in *. set (W := fun A' => J (upd c k A')).
  assert (HW : forall m, okmat (N i) (L i) m -> 0 < W m) by (intros m Hm; apply (weight_pos outs w S fs Hd Hf c i m Hc Hi Hm)).
  assert (G : forall cs A, (forall p, In p cs -> In p (cells (N i) (L i))) -> okmat (N i) (L i) A -> Edraws (List.length cs) (fun rs => h (upd c k (run W (fixed_of w i) cs rs A))) = ops flip_site free_site J (map (fun p => (i, p)) cs) h (upd c k A)).
  { induction cs as [|(n, l) cs IH]; intros A Hcs HA; [reflexivity|]. destruct (proj1 (in_cells n l _ _) (Hcs _ (or_introl eq_refl))) as (Hn & Hl). assert (Hcs' : forall p, In p cs -> In p (cells (N i) (L i))) by (intros; apply Hcs; right; assumption).
    cbn [List.length Edraws map ops fold_right]. fold (ops flip_site free_site J (map (fun p => (i, p)) cs) h). unfold op, free_site at 1. cbn [fst snd]. destruct (at2 (fixed_of w i) n l =? 1)%Z eqn:E; cbn [negb].
    - rewrite <- IH by assumption. rewrite <- RInt_01_const. apply RInt_01_ext. intros r _. cbn [run]. rewrite E. reflexivity.
    - set (g := fun A' => ops flip_site free_site J (map (fun p => (i, p)) cs) h (upd c k A')).
      transitivity (RInt (fun r => g (set2 A n l (mg_flip (log_odds W A n l) (at2 A n l) r))) 0 1).
      + apply RInt_01_ext. intros r _. unfold g. rewrite <- IH; [|exact Hcs'|apply okmat_set; [exact HA|]; unfold mg_flip; destruct (okmat_pm _ _ A n l HA Hn Hl) as [-> | ->]; destruct (Rltb _ _); unfold pm1; auto]. cbn [run]. rewrite E. reflexivity.
      + rewrite (mg_cell_expect W (N i) (L i) A n l g HA Hn Hl). unfold g, flip_site, accq, acc. cbn [fst snd]. fold k. rewrite nth_upd_same by lia. rewrite upd_upd. rewrite (odds_ratio W (N i) (L i)) by assumption. reflexivity. }
  specialize (G (cells (N i) (L i)) (nth k c []) (fun p Hp => Hp) O). rewrite cells_length, upd_own in G. transitivity (Edraws (N i * L i) (fun rs => h (upd c k (run W (fixed_of w i) (cells (N i) (L i)) rs (nth k c []))))); [|exact G]. apply Edraws_ext. intros rs Hl _. unfold pass_step. cbn zeta. fold k. fold (N i) (L i). rewrite ref_sweep_run by exact Hl. reflexivity.
Qed.
Lemma pass_EE (F : list mat -> list (list R) -> R) (V : list mat -> R) rest : forall order, (forall i, In i order -> In i fs) -> (forall c, In c states -> is_EE (map (draws_needed w) rest) (F c) (V c)) ->
  forall c, In c states -> is_EE (map (draws_needed w) (order ++ rest)) (fun rss => F (pass outs w fs order c rss) (skipn (List.length order) rss)) (ops flip_site free_site J (sites_of order) V c).
Proof.
  induction order as [|i order IH]; intros Ho HF c Hc; [cbn; apply HF, Hc|]. cbn [map is_EE app]. exists (fun rs => ops flip_site free_site J (sites_of order) V (pass_step outs w fs c i rs)). pose proof (Ho i (or_introl eq_refl)) as Hi. split.
  - intros rs _ _. cbn [pass hd tl List.length skipn]. apply (IH (fun j Hj => Ho j (or_intror Hj)) HF). apply (step_states outs w S fs Hd Hf); assumption.
  - unfold sites_of. cbn [flat_map]. fold (sites_of order). rewrite ops_app. rewrite <- step_ops by assumption. unfold draws_needed. fold (N i) (L i). unfold pass_step. cbn zeta. apply (ref_sweep_is_E (fun A' => J (upd c (place i fs) A')) (fixed_of w i) (N i) (L i) (fun A => ops flip_site free_site J (sites_of order) V (upd c (place i fs) A))).
Qed.

(** All configurations are connected by flips. *)
Definition entry (c : list mat) (q : site) : Z := at2 (nth (place (fst q) fs) c []) (fst (snd q)) (snd (snd q)).
Lemma entry_flip c q q' : In c states -> In q (sites_of fs) -> In q' (sites_of fs) -> entry (flip_site q c) q' = if (if Nat.eq_dec (fst q') (fst q) then (fst (snd q') =? fst (snd q))%nat && (snd (snd q') =? snd (snd q))%nat else false)%bool then (- entry c q)%Z else entry c q'.
Proof.
  destruct q as (i & n & l), q' as (j & a & b). intros Hc Hq Hq'. apply in_sites in Hq, Hq'. destruct Hq as (Hi & Hn & Hl), Hq' as (Hj & Ha & Hb). destruct (state_cell c i Hc Hi) as (O & _). destruct (place_ok i fs Hi) as (P1 & P2). destruct (place_ok j fs Hj) as (P3 & P4). destruct (states_shapes w fs c Hc) as (H1 & _). unfold entry, flip_site. cbn [fst snd]. destruct (Nat.eq_dec j i) as [->|Hne].
  - rewrite nth_upd_same by lia. unfold flip_cell. rewrite (at2_set2 _ (N i) (L i)) by (try assumption; apply O). reflexivity.
  - rewrite nth_upd_other; [reflexivity|]. intros E. apply Hne. rewrite <- P4, E. exact P2.
Qed.
Lemma connected (A : list mat -> bool) : (forall q x, In q (sites_of fs) -> free_site q = true -> In x states -> A x = A (flip_site q x)) -> forall x y, In x states -> In y states -> A x = A y.
Proof.
  intros H x y Hx Hy. set (differ := fun x q => negb (entry x q =? entry y q)%Z). remember (List.length (filter (differ x) (sites_of fs))) as m eqn:Em. revert x Hx Em. induction m as [m IH] using (well_founded_induction Nat.lt_wf_0). intros x Hx Em.
  destruct (existsb (differ x) (sites_of fs)) eqn:EE.
  - apply existsb_exists in EE. destruct EE as (q & Hq & Hdq). unfold differ in Hdq. apply Bool.negb_true_iff, Z.eqb_neq in Hdq. destruct q as (i & n & l). pose proof Hq as Hq'. apply in_sites in Hq'. destruct Hq' as (Hi & Hn & Hl). destruct (state_cell x i Hx Hi) as (OX & AX). destruct (state_cell y i Hy Hi) as (OY & AY).
    assert (Fr : free_site (i, (n, l)) = true). { unfold free_site. cbn [fst snd]. destruct (at2 (fixed_of w i) n l =? 1)%Z eqn:E; [|reflexivity]. exfalso. apply Hdq. unfold entry. cbn [fst snd]. rewrite (agrees_cell _ _ _ _ _ _ _ AX Hn Hl E), (agrees_cell _ _ _ _ _ _ _ AY Hn Hl E). reflexivity. }
    rewrite (H _ x Hq Fr Hx). apply (IH (List.length (filter (differ (flip_site (i, (n, l)) x)) (sites_of fs)))); [|apply flip_site_in; assumption|reflexivity]. rewrite Em.
    assert (ES : differ (flip_site (i, (n, l)) x) (i, (n, l)) = false).
    { unfold differ. rewrite entry_flip by assumption. cbn [fst snd]. destruct (Nat.eq_dec i i) as [_|C]; [|congruence]. rewrite !Nat.eqb_refl. cbn [andb]. apply Bool.negb_false_iff, Z.eqb_eq. unfold entry in *. cbn [fst snd] in *. destruct (okmat_pm _ _ _ n l OX Hn Hl) as [EX|EX], (okmat_pm _ _ _ n l OY Hn Hl) as [EY|EY]; rewrite EX, EY in *; try reflexivity; congruence. }
    apply (filter_less _ _ _ (i, (n, l))); [|exact Hq|unfold differ; apply Bool.negb_true_iff, Z.eqb_neq, Hdq|exact ES].
    intros q Hq2 Hd2. destruct q as (j & a & b). unfold differ in *. rewrite entry_flip in Hd2 by assumption. cbn [fst snd] in Hd2. destruct (Nat.eq_dec j i) as [->|Hne]; [|exact Hd2]. destruct ((a =? n)%nat && (b =? l)%nat)%bool eqn:EB; [|exact Hd2]. apply Bool.andb_true_iff in EB. destruct EB as (E1 & E2). apply Nat.eqb_eq in E1, E2. subst a b. apply Bool.negb_true_iff, Z.eqb_neq, Hdq.
  - f_equal. destruct (states_shapes w fs x Hx) as (X1 & X2). destruct (states_shapes w fs y Hy) as (Y1 & Y2). apply (nth_ext x y [] []); [congruence|]. intros k Hk. assert (Hkf : (k < List.length fs)%nat) by (unfold mat, vec in *; lia). apply (okmat_eq (N (nth k fs 0%nat)) (L (nth k fs 0%nat))); [apply X2; exact Hkf|apply Y2; exact Hkf|]. intros n l Hn Hl.
    assert (Hin : In (nth k fs 0%nat, (n, l)) (sites_of fs)) by (apply in_sites; split; [apply nth_In; exact Hkf|auto]). destruct (differ x (nth k fs 0%nat, (n, l))) eqn:ED; [assert (existsb (differ x) (sites_of fs) = true) by (apply existsb_exists; eauto); congruence|]. unfold differ, entry in ED. apply Bool.negb_false_iff, Z.eqb_eq in ED. cbn [fst snd] in ED.
    assert (EP : place (nth k fs 0%nat) fs = k). { destruct (place_ok (nth k fs 0%nat) fs (nth_In _ _ Hkf)) as (Q1 & Q2). apply (proj1 (NoDup_nth fs 0%nat) Hd); [exact Q1|exact Hkf|exact Q2]. } rewrite EP in ED. exact ED.
Qed.
Lemma sites_order order : Permutation order fs -> Permutation (sites_of order) (sites_of fs).
Proof. intros H. unfold sites_of. apply Permutation_flat_map. exact H. Qed.
Lemma eqc_ok : exists eqc : list mat -> list mat -> bool, forall a b, eqc a b = true <-> a = b.
Proof. exists (fun a b => if list_eq_dec (list_eq_dec (list_eq_dec Z.eq_dec)) a b then true else false). intros a b. destruct (list_eq_dec (list_eq_dec (list_eq_dec Z.eq_dec)) a b); split; intros; auto; try discriminate; contradiction. Qed.
(** Passes of single-site flips converge, whatever their orders. *)
Definition settles : Prop :=
  forall B eps, 0 < eps -> exists T, forall orders, Forall (fun order => Permutation order fs) orders -> (T <= List.length orders)%nat -> forall h, (forall c, In c states -> Rabs (h c) <= B) -> forall c, In c states ->
  Rabs (ops flip_site free_site J (sites_of (concat orders)) h c - average_over J states h) <= eps.
Lemma sites_converge : no_ties J states -> settles.
Proof.
  intros HT B eps He. destruct eqc_ok as (eqc & Heq).
  destruct (converges eqc Heq states states_nodup flip_site free_site (sites_of fs) J flip_site_in flip_site_inv J_pos) with (B := B) (eps := eps) as (T & H).
  - intros q c Hq HF Hc E. apply (HT c (flip_site q c) Hc (flip_site_in q c Hq HF Hc)); [|symmetry; exact E]. destruct q as (i & n & l). apply in_sites in Hq. destruct Hq as (Hi & Hn & Hl). destruct (place_ok i fs Hi) as (P1 & _). destruct (states_shapes w fs c Hc) as (H1 & _). destruct (state_cell c i Hc Hi) as (O & _). exists (place i fs), n, l. destruct (okmat_cols _ _ _ O) as (C1 & C2). split; [lia|]. split; [lia|]. split; [lia|]. reflexivity.
  - exact connected.
  - exact He.
  - exists T. intros orders HO HL h Hh c Hc. specialize (H (map sites_of orders)). rewrite map_length in H. specialize (H ltac:(apply Forall_forall; intros p Hp; apply in_map_iff in Hp; destruct Hp as (o & <- & Ho); rewrite Forall_forall in HO; apply sites_order, HO, Ho) HL h Hh c Hc).
    assert (EC : concat (map sites_of orders) = sites_of (concat orders)) by (clear; induction orders as [|o l IH]; [reflexivity|]; cbn [map concat]; unfold sites_of at 3; rewrite flat_map_app; fold (sites_of o) (sites_of (concat l)); rewrite IH; reflexivity). rewrite EC in H. exact H.
Qed.
End Sites.

Lemma settles_same outs w W fs : map (values_of W) fs = map (values_of w) fs -> (fun c => joint outs (puts W fs c)) = (fun c => joint outs (puts w fs c)) -> (forall i, fixed_of W i = fixed_of w i /\ matrix_of W i = matrix_of w i) -> settles outs w fs -> settles outs W fs.
Proof.
  intros EV EJ EF H B eps He. destruct (H B eps He) as (T & HT). exists T. intros orders HO HL h. rewrite EV, EJ. intros Hh c Hc. specialize (HT orders HO HL h Hh c Hc).
  assert (E1 : free_site W = free_site w) by (apply FunctionalExtensionality.functional_extensionality; intros q; unfold free_site; rewrite (proj1 (EF _)); reflexivity). assert (E2 : forall l, sites_of W l = sites_of w l) by (intros l; unfold sites_of; apply flat_map_ext; intros i; unfold cellsq; rewrite (proj2 (EF i)); reflexivity). rewrite E1, E2. exact HT.
Qed.
