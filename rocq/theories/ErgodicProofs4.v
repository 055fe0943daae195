(** Proof of C100_refuted: a machine all of whose configurations are equally probable only ever negates itself. *)
From Coq Require Import String Lia Lra Permutation.
From Coquelicot Require Import RInt Hierarchy.
From Verif Require Import Base BaseLemmas BaseR BaseRLemmas Spec SpecR Invariance InvarianceProofs HierProofs Canon Clean Machine Dispatch Inference SpecMachine SpecOrdinary SpecPass SpecPredict SpecErgodic MachineProofs MachineProofs2 InferenceProofs BuiltProofs InferenceProofs2 InferenceProofs6 TraceProofs ProgressProofs PlainProofs DispatchProofs SamplingProofs.
From Verif Require Import OrdinaryProofs OrdinaryProofs2 OrdinaryProofs3 OrdinaryProofs4 OrdinaryProofs5 OrdinaryProofs6 OrdinaryProofs7 PassProofs RunProofs UnbiasedProofs ErgodicProofs ErgodicProofs2 ErgodicProofs3.
Local Open Scope R_scope.

(** A constant has only itself as expectation. *)
Lemma is_E_only k : forall f v x, (forall rs, List.length rs = k -> Forall is_draw rs -> f rs = x) -> is_E k f v -> v = x.
Proof.
  induction k as [|k IH]; intros f v x H; cbn [is_E]; [intros <-; apply H; [reflexivity|constructor]|]. intros (g & Hg & HI). assert (E : forall r, 0 < r < 1 -> g r = x) by (intros r Hr; apply (IH (fun rs => f (r :: rs))); [intros rs Hl HF; apply H; [cbn; congruence|constructor; [unfold is_draw; lra|exact HF]]|apply Hg, Hr]).
  assert (I2 : is_RInt (fun _ => x) 0 1 v) by (apply (is_RInt_ext (V := R_NormedModule) g); [intros y; rewrite Rmin_left, Rmax_right by lra; apply E|exact HI]).
  pose proof (is_RInt_unique (V := R_CompleteNormedModule) _ _ _ _ I2) as U. rewrite RInt_01_const in U. symmetry. exact U.
Qed.
Lemma is_EE_only ks : forall f v x, (forall rss, Forall (Forall is_draw) rss -> f rss = x) -> is_EE ks f v -> v = x.
Proof.
  induction ks as [|k ks IH]; intros f v x H; cbn [is_EE]; [intros <-; apply H; constructor|]. intros (g & Hg & HI). apply (is_E_only k g v x); [|exact HI]. intros rs Hl HF. apply (IH (fun rss => f (rs :: rss))); [intros rss HR; apply H; constructor; assumption|apply Hg; assumption].
Qed.

Section Ties.
Context (outs : string -> list vec -> nat -> Z) (Houts : outputs outs) (w : world) (S : sound w) (fs : list nat) (Hd : NoDup fs) (Hf : forall i, In i fs -> armed w i).
Let J (c : list mat) : R := joint outs (puts w fs c).
Let states := choices (map (values_of w) fs).
Let N i := nrows (matrix_of w i).
Let L i := ncols (matrix_of w i).
Context (flat : forall c c', In c states -> In c' states -> J c = J c').
Lemma run_all_flip c i r : (forall n l, is_draw (r n l)) -> In c states -> In i fs -> forall cs, (forall p, In p cs -> In p (cells (N i) (L i))) -> NoDup cs -> forall A, In (upd c (place i fs) A) states ->
  let A' := fold_left (fun Zc '(n, l) => if (at2 (fixed_of w i) n l =? 1)%Z then Zc else set2 Zc n l (mg_flip (log_odds (fun A => J (upd c (place i fs) A)) Zc n l) (at2 Zc n l) (r n l))) cs A in In (upd c (place i fs) A') states /\
  forall a b, (a < N i)%nat -> (b < L i)%nat -> at2 A' a b = if (existsb (fun p => (fst p =? a)%nat && (snd p =? b)%nat)%bool cs && negb (at2 (fixed_of w i) a b =? 1)%Z)%bool then (- at2 A a b)%Z else at2 A a b.
Proof.
  intros Hdr Hc Hi. destruct (place_ok i fs Hi) as (P1 & P2). destruct (states_shapes w fs c Hc) as (L1 & _). set (k := place i fs) in *.
  assert (OA : forall A, In (upd c k A) states -> okmat (N i) (L i) A). { intros A HA. destruct (states_shapes w fs _ HA) as (_ & H2). specialize (H2 k P1). rewrite nth_upd_same, P2 in H2 by lia. exact H2. }
  induction cs as [|(n, l) cs IH]; intros Hcs Hnd A HA; cbn zeta; [split; [exact HA|reflexivity]|]. apply NoDup_cons_iff in Hnd. destruct Hnd as (Hn1 & Hn2).
  destruct (proj1 (in_cells n l _ _) (Hcs _ (or_introl eq_refl))) as (Hn & Hl). cbn [fold_left]. specialize (IH (fun p Hp => Hcs p (or_intror Hp)) Hn2).
  assert (NE : existsb (fun p => (fst p =? n)%nat && (snd p =? l)%nat)%bool cs = false). { destruct (existsb _ cs) eqn:E; [|reflexivity]. apply existsb_exists in E. destruct E as ((p1 & p2) & Hp & E). cbn [fst snd] in E. apply Bool.andb_true_iff in E. destruct E as (E1 & E2). apply Nat.eqb_eq in E1, E2. subst p1 p2. contradiction. }
  destruct (at2 (fixed_of w i) n l =? 1)%Z eqn:EF.
  - destruct (IH A HA) as (I1 & I2). split; [exact I1|]. intros a b Ha Hb. rewrite (I2 a b Ha Hb). cbn [existsb fst snd]. destruct ((n =? a)%nat && (l =? b)%nat)%bool eqn:E; [|reflexivity]. apply Bool.andb_true_iff in E. destruct E as (E1 & E2). apply Nat.eqb_eq in E1, E2. subst a b. rewrite EF, NE. reflexivity.
  - assert (HFl : In (upd c k (flip_cell n l A)) states).
    { pose proof (flip_site_in w fs (i, (n, l)) (upd c k A)) as G. unfold flip_site in G. cbn [fst snd] in G. fold k in G. rewrite nth_upd_same, upd_upd in G by lia. apply G; [apply in_sites; auto|unfold free_site; cbn [fst snd]; rewrite EF; reflexivity|exact HA]. }
    pose proof (OA A HA) as O. assert (EQ : set2 A n l (mg_flip (log_odds (fun A => J (upd c k A)) A n l) (at2 A n l) (r n l)) = flip_cell n l A).
    { assert (E0 : log_odds (fun A => J (upd c k A)) A n l = 0).
      { unfold log_odds. assert (E1 : forall v, v = at2 A n l \/ v = (- at2 A n l)%Z -> In (upd c k (set2 A n l v)) states) by (intros v [-> | ->]; [rewrite set2_at2; exact HA|exact HFl]).
        rewrite (flat (upd c k (set2 A n l 1)) (upd c k (set2 A n l (-1)))); [ring| |]; apply E1; destruct (okmat_pm _ _ A n l O Hn Hl) as [-> | ->]; auto. }
      unfold mg_flip. rewrite E0, Rmult_0_r, exp_0. rewrite Rmin_left by lra. destruct (Rltb (r n l) 1) eqn:ER; [reflexivity|]. pose proof (Hdr n l) as Hr1. unfold is_draw in Hr1. apply Rltb_f in ER. lra. }
    rewrite EQ. destruct (IH _ HFl) as (I1 & I2). split; [exact I1|]. intros a b Ha Hb. rewrite (I2 a b Ha Hb). cbn [existsb fst snd]. unfold flip_cell. rewrite (at2_set2 A (N i) (L i)) by (try assumption; apply O). rewrite (Nat.eqb_sym n a), (Nat.eqb_sym l b). destruct ((a =? n)%nat && (b =? l)%nat)%bool eqn:E; [|reflexivity]. apply Bool.andb_true_iff in E. destruct E as (E1 & E2). apply Nat.eqb_eq in E1, E2. subst a b. rewrite NE, EF. reflexivity.
Qed.
Lemma cells_nodup a b : NoDup (cells a b).
Proof.
  unfold cells. assert (G : forall l1 l2 : list nat, NoDup l1 -> NoDup l2 -> NoDup (list_prod l1 l2)); [|apply G; apply seq_NoDup].
  induction l1 as [|x l1 IH]; intros l2 H1 H2; [constructor|]. inversion H1 as [|? ? N1 N2]; subst. cbn [list_prod]. assert (H : forall (u v : list (nat * nat)), NoDup u -> NoDup v -> (forall p, In p u -> ~ In p v) -> NoDup (u ++ v)).
  { induction u as [|p u IHu]; intros v Hu Hv Hn; [exact Hv|]. inversion Hu; subst. cbn. constructor; [rewrite in_app_iff; intros [C|C]; [contradiction|exact (Hn p (or_introl eq_refl) C)]|]. apply IHu; auto. intros q Hq. apply Hn. right. exact Hq. }
  apply H; [apply FinFun.Injective_map_NoDup; [intros p q E; congruence|exact H2]|apply IH; assumption|]. intros (p & q) Hp Hq. apply in_map_iff in Hp. destruct Hp as (y & E & _). injection E as <- _. apply in_prod_iff in Hq. apply N1, Hq.
Qed.
Definition negated (b : bool) (i : nat) (A A' : mat) : Prop :=
  forall r k, (r < N i)%nat -> (k < L i)%nat -> at2 A' r k = if ((at2 (fixed_of w i) r k =? 1)%Z || b)%bool then at2 A r k else (- at2 A r k)%Z.
Lemma draws_of_draw l rs : Forall is_draw rs -> forall a b, is_draw (draws_of l rs a b).
Proof. intros H a b. unfold draws_of. destruct (nth_in_or_default (a * l + b) rs 0) as [G| ->]; [rewrite Forall_forall in H; apply H, G|unfold is_draw; lra]. Qed.
Lemma step_negates c i rs : In c states -> In i fs -> Forall is_draw rs ->
  In (pass_step outs w fs c i rs) states /\ negated false i (nth (place i fs) c []) (nth (place i fs) (pass_step outs w fs c i rs) []) /\ forall k, k <> place i fs -> nth k (pass_step outs w fs c i rs) [] = nth k c [].
Proof.
  intros Hc Hi HR. destruct (place_ok i fs Hi) as (P1 & P2). destruct (states_shapes w fs c Hc) as (L1 & _). unfold pass_step. cbn zeta. fold (N i) (L i). unfold ref_sweep.
  destruct (run_all_flip c i (draws_of (L i) rs) (draws_of_draw _ _ HR) Hc Hi (cells (N i) (L i)) (fun p Hp => Hp) (cells_nodup _ _) (nth (place i fs) c [])) as (I1 & I2); [rewrite upd_own; exact Hc|]. split; [exact I1|]. split; [|intros k Hk; rewrite nth_upd_other by exact Hk; reflexivity].
  rewrite nth_upd_same by lia. intros r k Hr Hk. etransitivity; [exact (I2 r k Hr Hk)|]. assert (EX : existsb (fun p => (fst p =? r)%nat && (snd p =? k)%nat)%bool (cells (N i) (L i)) = true) by (apply existsb_exists; exists (r, k); split; [apply in_cells; auto|cbn; rewrite !Nat.eqb_refl; reflexivity]). rewrite EX. cbn [andb]. destruct (at2 (fixed_of w i) r k =? 1)%Z; reflexivity.
Qed.
Lemma hd_draws rss : Forall (Forall is_draw) rss -> Forall is_draw (hd [] rss) /\ Forall (Forall is_draw) (tl rss).
Proof. intros H. destruct H; cbn; auto. Qed.
Lemma pass_negates order : (forall i, In i order -> In i fs) -> NoDup order -> forall c rss, In c states -> Forall (Forall is_draw) rss ->
  In (pass outs w fs order c rss) states /\ forall k, (k < List.length fs)%nat -> let i := nth k fs 0%nat in (In i order -> negated false i (nth k c []) (nth k (pass outs w fs order c rss) [])) /\ (~ In i order -> nth k (pass outs w fs order c rss) [] = nth k c []).
Proof.
  induction order as [|i order IH]; intros Ho Hn c rss Hc HR; cbn [pass]; [split; [exact Hc|]; intros k Hk; cbn zeta; split; [intros []|reflexivity]|]. apply NoDup_cons_iff in Hn. destruct Hn as (Hn1 & Hn2). destruct (hd_draws rss HR) as (H1 & H2). pose proof (Ho i (or_introl eq_refl)) as Hi.
  destruct (step_negates c i (hd [] rss) Hc Hi H1) as (G1 & G2 & G3). destruct (IH (fun j Hj => Ho j (or_intror Hj)) Hn2 _ (tl rss) G1 H2) as (I1 & I2). split; [exact I1|]. intros k Hk. cbn zeta. destruct (I2 k Hk) as (I3 & I4). destruct (place_ok i fs Hi) as (P1 & P2).
  destruct (Nat.eq_dec k (place i fs)) as [E|E].
  - assert (Ek : nth k fs 0%nat = i) by (rewrite E; exact P2). rewrite Ek in *. split; [intros _|intros C; exfalso; apply C; left; reflexivity]. rewrite (I4 Hn1). rewrite E. exact G2.
  - rewrite (G3 k E) in I3, I4. assert (Ne : nth k fs 0%nat <> i). { intros C. apply E. apply (proj1 (NoDup_nth fs 0%nat) Hd); [exact Hk|exact P1|congruence]. } split; [intros [C|C]; [congruence|apply I3, C]|intros C; apply I4; intros D; apply C; right; exact D].
Qed.
Lemma negated_trans b b' i A A' A'' : negated b i A A' -> negated b' i A' A'' -> negated (Bool.eqb b b') i A A''.
Proof. intros H1 H2 r k Hr Hk. rewrite (H2 r k Hr Hk), (H1 r k Hr Hk). destruct (at2 (fixed_of w i) r k =? 1)%Z, b, b'; cbn; lia. Qed.
Lemma passes_negate orders : Forall (fun order => Permutation order fs) orders -> forall c rss, In c states -> Forall (Forall is_draw) rss ->
  In (pass outs w fs (concat orders) c rss) states /\ forall k, (k < List.length fs)%nat -> negated (Nat.even (List.length orders)) (nth k fs 0%nat) (nth k c []) (nth k (pass outs w fs (concat orders) c rss) []).
Proof.
  induction 1 as [|order orders HP _ IH]; intros c rss Hc HR; cbn [concat pass List.length]; [split; [exact Hc|]; intros k Hk r b _ _; rewrite Bool.orb_true_r; reflexivity|]. rewrite pass_app.
  destruct (pass_negates order) with (c := c) (rss := rss) as (G1 & G2); [intros i Hi; eapply Permutation_in; [exact HP|exact Hi]|eapply Permutation_NoDup; [apply Permutation_sym, HP|exact Hd]|exact Hc|exact HR|].
  destruct (IH _ (skipn (List.length order) rss) G1) as (I1 & I2); [apply Forall_forall; intros x Hx; rewrite Forall_forall in HR; apply HR; rewrite <- (firstn_skipn (List.length order) rss); apply in_or_app; right; exact Hx|]. split; [exact I1|]. intros k Hk. destruct (G2 k Hk) as (G3 & _). specialize (G3 ltac:(eapply Permutation_in; [apply Permutation_sym, HP|apply nth_In, Hk])).
  pose proof (negated_trans _ _ _ _ _ _ G3 (I2 k Hk)) as Q. rewrite Nat.even_succ, <- Nat.negb_even. destruct (Nat.even (List.length orders)); exact Q.
Qed.
End Ties.

Lemma ties_lemma outs o0 s : outputs outs -> random o0 -> ordinary o0 (wd s) -> (forall l, (l < List.length (layers (wd s)))%nat -> lfixed (lbda (get_lay (wd s) l)) = true) ->
  (forall c c', In c (configurations s) -> In c' (configurations s) -> posterior outs s c = posterior outs s c') -> only_negates s.
Proof.
  intros Ho Hr0 H HL HC. pose proof (ordinary_sound _ _ Hr0 H) as SO. destruct (run_slots outs (wd s) Ho SO HL) as (Hd & HF & W & SW & HA & EVs & EJ & ED & EX & HS). intros o cfg n Hr HU HAn. exists (enough cfg). intros fuel c rss Hfu Hc HR. destruct (HS o cfg n s fuel eq_refl Hr HU HAn Hfu c rss Hc HR) as (s' & E1 & E2). exists s'. split; [exact E1|]. intros j k a b Hj Hk i Ha Hb. rewrite (E2 j Hj).
  destruct (plan_orders o (proj1 Hr) (unfixed (wd s)) (burn_in_passes cfg + S j) (clock (wd s))) as (orders & F1 & F2 & F3). rewrite F1.
  destruct (passes_negate outs W (unfixed (wd s)) Hd) with (orders := orders) (c := c) (rss := rss) as (_ & G).
  - intros c1 c2 H1 H2. rewrite EVs in H1, H2. rewrite !EJ. apply (HC c1 c2 H1 H2).
  - exact F3.
  - rewrite EVs. exact Hc.
  - exact HR.
  - specialize (G k Hk a b). destruct (EX i) as (X1 & X2). fold i in G. rewrite X1, X2, F2 in G. exact (G Ha Hb).
Qed.
