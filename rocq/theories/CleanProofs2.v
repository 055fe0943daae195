(** Proofs for C31-C35, continued. *)
From Coq Require Import String Sorted.
From Verif Require Import Base BaseLemmas BaseR Spec Outputs OutputsProofs Lops LopsProofs HelpersProofs Clean SpecClean CleanProofs.
Local Open Scope Z_scope.

Lemma col_ent (m : mat) l : map (ent (Some l)) m = column m l.
Proof. reflexivity. Qed.
Lemma inact_spec fs l : inact_b fs (Some l) = true <-> inactive (vals fs) l.
Proof.
  unfold inact_b, inactive, vals. rewrite existsb_exists. split.
  - intros (f & Hf & E). exists (cf_val f). split; [apply in_map; exact Hf|]. rewrite col_ent in E. rewrite forallb_forall in E. intros x Hx. specialize (E x Hx). lia.
  - intros (m & Hm & E). apply in_map_iff in Hm. destruct Hm as (f & <- & Hf). exists f. split; [exact Hf|]. rewrite col_ent. apply forallb_forall. intros x Hx. rewrite (E x Hx). reflexivity.
Qed.
Lemma inact_none fs : fs <> [] -> inact_b fs None = true.
Proof.
  destruct fs as [|f l]; [congruence|]. intros _. unfold inact_b. cbn [existsb]. apply orb_true_iff. left. apply forallb_forall. intros x Hx.
  apply in_map_iff in Hx. destruct Hx as (r & <- & _). reflexivity.
Qed.
Lemma combine_eq {A} (f g : A -> Z) l : forallb (fun p => fst p =? snd p) (combine (map f l) (map g l)) = true <-> map f l = map g l.
Proof.
  induction l as [|a l IH]; [cbn; tauto|]. cbn [map combine forallb fst snd]. rewrite andb_true_iff, Z.eqb_eq, IH. split.
  - intros [-> ->]. reflexivity.
  - intros E. injection E as E1 E2. auto.
Qed.
Lemma share_spec fs l l' : share_b fs (Some l) (Some l') = true <-> shares (vals fs) l l'.
Proof.
  unfold share_b, shares, vals, share_f. rewrite existsb_exists. split.
  - intros (f & Hf & E). apply combine_eq in E. exists (cf_val f). split; [apply in_map; exact Hf|exact E].
  - intros (m & Hm & E). apply in_map_iff in Hm. destruct Hm as (f & <- & Hf). exists f. split; [exact Hf|]. apply combine_eq. exact E.
Qed.
Lemma share_none_l fs d : share_b fs None d = true -> inact_b fs d = true.
Proof.
  unfold share_b, inact_b, share_f. rewrite !existsb_exists. intros (f & Hf & E). apply combine_eq in E. exists f. split; [exact Hf|]. rewrite <- E.
  apply forallb_forall. intros x Hx. apply in_map_iff in Hx. destruct Hx as (r & <- & _). reflexivity.
Qed.
Definition ds0 (L : nat) : list (option nat) := map Some (seq 0 L).
Lemma ds0_nth L l : (l < L)%nat -> nth l (ds0 L) None = Some l.
Proof. intros H. unfold ds0. rewrite (nth_map_lt Some (seq 0 L) l 0%nat None) by (rewrite seq_length; exact H). rewrite seq_nth by exact H. reflexivity. Qed.
Lemma ds0_length L : List.length (ds0 L) = L.
Proof. unfold ds0. rewrite map_length, seq_length. reflexivity. Qed.
Lemma vw_start L m : has_cols m L -> vw (ds0 L) m = m.
Proof.
  intros H. unfold vw. rewrite <- (map_id m) at 2. apply map_ext_in. intros r Hr. unfold has_cols in H. rewrite Forall_forall in H. specialize (H r Hr).
  unfold ds0. rewrite map_map. cbn [ent]. apply (list_ext _ _ 0); [rewrite map_length, seq_length; symmetry; exact H|].
  intros i Hi. rewrite map_length, seq_length in Hi. rewrite (nth_map_seq (fun l => nth l r 0)) by exact Hi. reflexivity.
Qed.
Lemma vws_start L fs : Forall (fun m => m <> [] /\ has_cols m L) (vals fs) -> vws (ds0 L) fs = fs.
Proof.
  intros H. unfold vws. rewrite <- (map_id fs) at 2. apply map_ext_in. intros f Hf. rewrite Forall_forall in H.
  assert (H' := H (cf_val f) (in_map cf_val fs f Hf)). unfold vwf. rewrite (vw_start L) by apply H'. destruct f; reflexivity.
Qed.
Lemma aligned_rows fs L : aligned (vals fs) L -> fs <> [] /\ Forall (fun f => cf_val f <> []) fs /\ vws (ds0 L) fs = fs.
Proof.
  intros [H1 H2]. split; [intros ->; apply H1; reflexivity|]. split; [|apply vws_start; exact H2]. apply Forall_forall. intros f Hf.
  rewrite Forall_forall in H2. apply (H2 (cf_val f)). apply in_map. exact Hf.
Qed.
Lemma in_sorted_del l j : StronglySorted lt l -> StronglySorted lt (del j l).
Proof.
  intros H. revert j. induction H as [|a l Hl IH HF]; intros j; [destruct j; constructor|]. destruct j as [|j]; [exact Hl|].
  change (StronglySorted lt (a :: del j l)). constructor; [apply IH|]. apply Forall_forall. intros x Hx. apply in_del in Hx. rewrite Forall_forall in HF. apply HF. exact Hx.
Qed.
Definition D (reset : bool) (L : nat) (ds : list (option nat)) : Prop :=
  if reset then List.length ds = L /\ forall l, (l < L)%nat -> nth l ds None = None \/ nth l ds None = Some l
  else exists keep, ds = map Some keep /\ subset_of L keep.
Lemma nth_upd_any {A} (l : list A) i j x d : (j < List.length l)%nat -> nth i (upd l j x) d = if Nat.eqb i j then x else nth i l d.
Proof.
  revert i j. induction l as [|a l IH]; intros i j H; [cbn in H; lia|]. destruct j as [|j], i as [|i]; cbn; try reflexivity.
  apply IH. cbn in H. lia.
Qed.
Lemma D_act reset L ds j : D reset L ds -> (j < List.length ds)%nat -> D reset L (act reset ds j).
Proof.
  unfold D, act. destruct reset.
  - intros [H1 H2] Hj. split; [rewrite upd_length; exact H1|]. intros l Hl. rewrite nth_upd_any by exact Hj. destruct (Nat.eqb l j); [left; reflexivity|apply H2; exact Hl].
  - intros (keep & -> & H1 & H2) _. exists (del j keep). split; [apply del_map|]. split; [apply in_sorted_del; exact H1|].
    apply Forall_forall. intros x Hx. apply in_del in Hx. rewrite Forall_forall in H2. apply H2. exact Hx.
Qed.
Lemma sorted_seq n k : StronglySorted lt (seq k n).
Proof. revert k. induction n as [|n IH]; intros k; cbn; constructor; [apply IH|]. apply Forall_forall. intros x Hx. apply in_seq in Hx. lia. Qed.
Lemma D_start reset L : D reset L (ds0 L).
Proof.
  unfold D. destruct reset.
  - split; [apply ds0_length|]. intros l Hl. right. apply ds0_nth. exact Hl.
  - exists (seq 0 L). split; [reflexivity|]. split; [apply sorted_seq|]. apply Forall_forall. intros x Hx. apply in_seq in Hx. lia.
Qed.
Lemma vw_row ds m n : (n < List.length m)%nat -> nth n (vw ds m) [] = map (fun d => ent d (nth n m [])) ds.
Proof. intros Hn. exact (nth_map_lt (fun r => map (fun d => ent d r) ds) m n [] [] Hn). Qed.
Lemma vw_at ds m n l : (n < List.length m)%nat -> (l < List.length ds)%nat -> at2 (vw ds m) n l = ent (nth l ds None) (nth n m []).
Proof.
  intros Hn Hl. unfold at2, row, at1. etransitivity; [exact (f_equal (fun r => nth l r 0) (vw_row ds m n Hn))|].
  exact (nth_map_lt (fun d => ent d (nth n m [])) ds l None 0 Hl).
Qed.
Lemma not_true_eq b : b <> true -> b = false. Proof. destruct b; congruence. Qed.

Lemma in_act reset (ds : list (option nat)) j x : In (Some x) ds -> (j < List.length ds)%nat -> In (Some x) (act reset ds j) \/ nth j ds None = Some x.
Proof.
  intros H Hj. unfold act. destruct reset; [|apply in_del_other; assumption].
  apply (In_nth _ _ None) in H. destruct H as (i & Hi & E). destruct (Nat.eq_dec i j) as [->|Hn]; [right; exact E|]. left.
  replace (Some x) with (nth i (upd ds j None) None); [apply nth_In; rewrite upd_length; exact Hi|]. rewrite nth_upd_any by exact Hj. destruct (Nat.eqb_spec i j); [lia|exact E].
Qed.
(** Lost dimensions were superfluous. *)
Definition cov (fs : list cfactor) (L l : nat) (ds : list (option nat)) : Prop :=
  forall x, (x < L)%nat -> In (Some x) ds \/ inactive (vals fs) x \/ exists j x0, (j < l)%nat /\ nth j ds None = Some x0 /\ (x0 < x)%nat /\ shares (vals fs) x0 x.
Lemma cov_more fs L l l' ds : (l <= l')%nat -> cov fs L l ds -> cov fs L l' ds.
Proof. intros Hl H x Hx. destruct (H x Hx) as [G|[G|(j & x0 & G1 & G2)]]; [auto|auto|]. right. right. exists j, x0. split; [lia|exact G2]. Qed.
Lemma nth_act reset (ds : list (option nat)) j i : (i < j)%nat -> (j < List.length ds)%nat -> nth i (act reset ds j) None = nth i ds None.
Proof. intros Hi Hj. unfold act. destruct reset; [rewrite nth_upd_any by exact Hj; destruct (Nat.eqb_spec i j); [lia|reflexivity]|]. rewrite nth_del. destruct (Nat.ltb_spec i j); [reflexivity|lia]. Qed.
Lemma cov_inactive fs L reset ds l : cov fs L 0 ds -> (l < List.length ds)%nat -> inact_b fs (nth l ds None) = true -> cov fs L 0 (act reset ds l).
Proof.
  intros H Hl Hi x Hx. destruct (H x Hx) as [G|[G|(j & x0 & G & _)]]; [|auto|lia]. destruct (in_act reset ds l x G Hl) as [K|K]; [auto|]. right. left. rewrite K in Hi. apply inact_spec. exact Hi.
Qed.
Lemma D_lt reset L ds i j a b : D reset L ds -> (i < j)%nat -> (j < List.length ds)%nat -> nth i ds None = Some a -> nth j ds None = Some b -> (a < b)%nat.
Proof.
  unfold D. destruct reset.
  - intros (H1 & H2) Hi Hj Ea Eb. destruct (H2 i ltac:(lia)) as [K|K]; [congruence|]. destruct (H2 j ltac:(lia)) as [K'|K']; [congruence|]. rewrite K in Ea. rewrite K' in Eb. injection Ea as <-. injection Eb as <-. exact Hi.
  - intros (keep & -> & HS & _) Hi Hj Ea Eb. rewrite map_length in Hj. rewrite (nth_map_lt Some keep i 0%nat None ltac:(lia)) in Ea. rewrite (nth_map_lt Some keep j 0%nat None Hj) in Eb. injection Ea as <-. injection Eb as <-.
    clear - HS Hi Hj. revert i j Hi Hj. induction HS as [|c l HS IH HF]; intros i j Hi Hj; [cbn in Hj; lia|]. destruct j as [|j]; [lia|]. cbn [List.length] in Hj. destruct i as [|i]; cbn [nth]; [|apply IH; lia]. rewrite Forall_forall in HF. apply HF. apply nth_In. lia.
Qed.
Lemma cov_shared fs L reset ds l l' : D reset L ds -> cov fs L (S l) ds -> (l < l')%nat -> (l' < List.length ds)%nat -> share_b fs (nth l ds None) (nth l' ds None) = true -> cov fs L (S l) (act reset ds l').
Proof.
  intros HD H Hl Hl' Hs x Hx. destruct (H x Hx) as [G|[G|(j & x0 & G1 & G2 & G3)]]; [|auto|].
  - destruct (in_act reset ds l' x G Hl') as [K|K]; [auto|]. right. destruct (nth l ds None) as [a|] eqn:Ea.
    + right. exists l, a. split; [lia|]. rewrite nth_act by assumption. split; [exact Ea|]. split; [exact (D_lt reset L ds l l' a x HD Hl Hl' Ea K)|]. rewrite K in Hs. apply share_spec. exact Hs.
    + left. apply share_none_l in Hs. rewrite K in Hs. apply inact_spec. exact Hs.
  - right. right. exists j, x0. rewrite nth_act by lia. auto.
Qed.

Lemma clean_main fs L reset clean : aligned (vals fs) L -> reset || clean = true -> forall fuel, (L < fuel)%nat ->
  exists ds red, clean_up_codes fuel fs reset clean = Some (Ok (vws ds fs, red)) /\ D reset L ds /\ (List.length ds <= L)%nat /\
    (red = true -> redundant (vals fs) L /\ (reset = false -> (List.length ds < L)%nat)) /\ (red = false -> ds = ds0 L /\ ~ redundant (vals fs) L) /\ cov fs L (List.length ds) ds.
Proof.
  intros HA Hrc fuel Hf. destruct (aligned_rows fs L HA) as (Hne & Hrow & Hst).
  set (B := fun (ds : list (option nat)) (red : bool) => D reset L ds /\ (List.length ds <= L)%nat /\ (red = true -> redundant (vals fs) L /\ (reset = false -> (List.length ds < L)%nat))).
  assert (BA : forall ds j r, B ds r -> (j < List.length ds)%nat -> (r = false -> redundant (vals fs) L) -> B (act reset ds j) true).
  { intros ds j r (B1 & B2 & B3) Hj Hr. split; [apply D_act; assumption|]. pose proof (act_length reset ds j Hj). split; [lia|]. intros _. split.
    - destruct r; [apply B3; reflexivity|apply Hr; reflexivity].
    - intros ->. unfold act. rewrite del_length by assumption. lia. }
  destruct (clean_rule fs Hne Hrow reset clean
    (fun l ds red => (B ds red /\ cov fs L 0 ds) /\ (red = false -> ds = ds0 L /\ forall j, (j < l)%nat -> (j < L)%nat -> ~ inactive (vals fs) j))
    (fun l ds red => (B ds red /\ cov fs L l ds) /\ (red = false -> ds = ds0 L /\ (forall j, (j < L)%nat -> ~ inactive (vals fs) j) /\ forall a b, (a < l)%nat -> (a < b < L)%nat -> ~ shares (vals fs) a b))
    (fun l l' ds red => (B ds red /\ cov fs L (S l) ds) /\ (red = false -> ds = ds0 L /\ (forall j, (j < L)%nat -> ~ inactive (vals fs) j) /\ (forall a b, (a < l)%nat -> (a < b < L)%nat -> ~ shares (vals fs) a b) /\
       forall b, (l < b < l')%nat -> (b < L)%nat -> ~ shares (vals fs) l b))) with (fuel := fuel) (ds := ds0 L) as (l' & ds & red & E & ((HB & HV) & HJ) & HL).
  - exact Hrc.
  - intros l ds red ((HB & HV) & HJ) Hl. split.
    + intros Hi. split; [|discriminate]. split; [|apply cov_inactive; assumption]. apply (BA ds l red HB Hl). intros ->. destruct (HJ eq_refl) as [-> _]. rewrite ds0_length in Hl. left. exists l. split; [exact Hl|].
      apply inact_spec. rewrite <- (ds0_nth L l Hl). exact Hi.
    + intros Hi. split; [auto|]. intros ->. destruct (HJ eq_refl) as [-> HJ2]. split; [reflexivity|]. intros j Hj HjL. rewrite ds0_length in Hl.
      destruct (Nat.eq_dec j l) as [->|Hn]; [|apply HJ2; lia]. intros C. apply inact_spec in C. rewrite ds0_nth in Hi by assumption. congruence.
  - intros l ds red ((HB & HV) & HJ) Hl. split; [auto|]. intros ->. destruct (HJ eq_refl) as [-> HJ2]. rewrite ds0_length in Hl. split; [reflexivity|]. split; [|lia]. intros j Hj. apply HJ2; lia.
  - intros l ds red ((HB & HV) & HJ) Hl. split; [split; [exact HB|apply (cov_more _ _ l); [lia|exact HV]]|]. intros ->. destruct (HJ eq_refl) as (H1 & H2 & H3). split; [exact H1|]. split; [exact H2|]. split; [exact H3|]. intros b Hb. lia.
  - intros l l' ds red ((HB & HV) & HJ) Hll Hl. split.
    + intros Hi. split; [|discriminate]. split; [|apply cov_shared; try assumption; apply HB]. apply (BA ds l' red HB Hl). intros ->. destruct (HJ eq_refl) as [-> _]. rewrite ds0_length in Hl. right. exists l, l'. split; [lia|].
      apply share_spec. rewrite <- (ds0_nth L l), <- (ds0_nth L l') by lia. exact Hi.
    + intros Hi. split; [auto|]. intros ->. destruct (HJ eq_refl) as (-> & H2 & H3 & H4). rewrite ds0_length in Hl. split; [reflexivity|]. split; [exact H2|]. split; [exact H3|].
      intros b Hb HbL. destruct (Nat.eq_dec b l') as [->|Hn]; [|apply H4; lia]. intros C. apply share_spec in C. rewrite !ds0_nth in Hi by lia. congruence.
  - intros l l' ds red ((HB & HV) & HJ) Hl. split; [auto|]. intros ->. destruct (HJ eq_refl) as (-> & H2 & H3 & H4). rewrite ds0_length in Hl. split; [reflexivity|]. split; [exact H2|].
    intros a b Ha Hb. destruct (Nat.eq_dec a l) as [->|Hn]; [apply H4; lia|apply H3; lia].
  - split; [|intros _; split; [reflexivity|intros; lia]]. split; [split; [apply D_start|]; rewrite ds0_length; split; [lia|discriminate]|]. intros x Hx. left. rewrite <- (ds0_nth L x Hx). apply nth_In. rewrite ds0_length. exact Hx.
  - rewrite ds0_length. exact Hf.
  - rewrite Hst in E. exists ds, red. split; [exact E|]. destruct HB as (B1 & B2 & B3). split; [exact B1|]. split; [exact B2|]. split; [exact B3|]. split.
    2:{ intros x Hx. destruct (HV x Hx) as [G|[G|(j & x0 & G1 & G2 & G3)]]; [auto|auto|]. right. right. exists j, x0. split; [|auto]. destruct (Nat.lt_ge_cases j (List.length ds)) as [Hj|Hj]; [exact Hj|]. rewrite nth_overflow in G2 by exact Hj. discriminate. }
    intros ->. destruct (HJ eq_refl) as (-> & H2 & H3). rewrite ds0_length in HL. split; [reflexivity|]. intros [(l & Hl & C)|(a & b & Hab & C)]; [exact (H2 l Hl C)|]. apply (H3 a b); [lia|lia|exact C].
Qed.

Lemma C34_lemma fs L reset clean : aligned (vals fs) L -> reset || clean = true -> forall fuel, (L < fuel)%nat ->
  exists fs' red, clean_up_codes fuel fs reset clean = Some (Ok (fs', red)) /\
    (red = true <-> redundant (vals fs) L) /\ (red = false -> fs' = fs) /\
    map cf_fixed_entries fs' = map cf_fixed_entries fs /\
    (reset = false -> exists keep, subset_of L keep /\ vals fs' = map (restrict keep) (vals fs) /\ (red = true -> (List.length keep < L)%nat) /\ (forall d, (d < L)%nat -> ~ In d keep -> superfluous (vals fs) (fun d0 => In d0 keep) d)) /\
    (reset = true -> exists rs, Forall (fun l => (l < L)%nat) rs /\ Forall2 (cleared L rs) (vals fs) (vals fs') /\ (forall d, In d rs -> superfluous (vals fs) (fun d0 => ~ In d0 rs) d)).
Proof.
  intros HA Hrc fuel Hf. destruct (clean_main fs L reset clean HA Hrc fuel Hf) as (ds & red & E & HD & HL & HT & HF & HV).
  destruct (aligned_rows fs L HA) as (Hne & Hrow & Hst).
  exists (vws ds fs), red. split; [exact E|]. split; [split; [intros H; apply HT; exact H|]|].
  { intros H. destruct red; [reflexivity|]. destruct (HF eq_refl) as [_ C]. contradiction. }
  split. { intros ->. destruct (HF eq_refl) as [-> _]. exact Hst. }
  split. { unfold vws. rewrite map_map. reflexivity. }
  split.
  - intros ->. cbn [D] in HD. destruct HD as (keep & -> & HS). exists keep. split; [exact HS|]. split.
    + unfold vals, vws. rewrite !map_map. apply map_ext. intros f. cbn [cf_val vwf]. unfold vw, restrict. apply map_ext. intros r. rewrite map_map. reflexivity.
    + split; [intros ->; destruct (HT eq_refl) as [_ H]; specialize (H eq_refl); rewrite map_length in H; exact H|]. intros d Hd Hn. destruct (HV d Hd) as [G|[G|(j & x0 & _ & G2 & G3 & G4)]]; [|left; exact G|].
      * exfalso. apply in_map_iff in G. destruct G as (y & Ey & Hy). injection Ey as ->. exact (Hn Hy).
      * right. exists x0. split; [|auto]. destruct (Nat.lt_ge_cases j (List.length keep)) as [Hj|Hj]; [|rewrite nth_overflow in G2 by (rewrite map_length; exact Hj); discriminate].
        rewrite (nth_map_lt Some keep j 0%nat None Hj) in G2. injection G2 as <-. apply nth_In. exact Hj.
  - intros ->. cbn [D] in HD. destruct HD as [HDl HDn]. exists (filter (fun l => match nth l ds None with None => true | _ => false end) (seq 0 L)). split.
    + apply Forall_forall. intros x Hx. apply filter_In in Hx. destruct Hx as [Hx _]. apply in_seq in Hx. lia.
    + split.
      2:{ intros d Hd. apply filter_In in Hd. destruct Hd as (Hd & Ed). apply in_seq in Hd. destruct (HV d ltac:(lia)) as [G|[G|(j & x0 & _ & G2 & G3 & G4)]]; [|left; exact G|].
          - exfalso. apply (In_nth _ _ None) in G. destruct G as (i & Hi & Ei). rewrite HDl in Hi. destruct (HDn i Hi) as [K|K]; [congruence|]. rewrite K in Ei. injection Ei as ->. rewrite K in Ed. discriminate.
          - right. exists x0. split; [|auto]. intros C. apply filter_In in C. destruct C as (C1 & C2). apply in_seq in C1.
            destruct (Nat.lt_ge_cases j (List.length ds)) as [Hj|Hj]; [|rewrite nth_overflow in G2 by exact Hj; discriminate]. destruct (HDn j ltac:(lia)) as [K|K]; [congruence|]. rewrite K in G2. injection G2 as ->. rewrite K in C2. discriminate. }
      unfold vals, vws. rewrite map_map. set (rs := filter _ _).
      assert (G : forall l0, (forall f, In f l0 -> In f fs) -> Forall2 (cleared L rs) (map cf_val l0) (map (fun x => cf_val (vwf ds x)) l0)).
      { induction l0 as [|f l0 IH]; intros H; constructor; [|apply IH; intros; apply H; right; assumption].
        cbn [cf_val vwf]. unfold cleared. split; [unfold vw; apply map_length|]. split.
        - unfold vw, has_cols. apply Forall_forall. intros r Hr. apply in_map_iff in Hr. destruct Hr as (r0 & <- & _). rewrite map_length. exact HDl.
        - intros n l Hn Hl. rewrite vw_at by lia.
          assert (ER : existsb (Nat.eqb l) rs = match nth l ds None with None => true | _ => false end).
          { destruct (HDn l Hl) as [EN|EN].
            - transitivity true; [|rewrite EN; reflexivity]. apply existsb_exists. exists l. split; [|apply Nat.eqb_refl].
              apply filter_In. split; [apply in_seq; lia|]. rewrite EN. reflexivity.
            - transitivity false; [|rewrite EN; reflexivity]. apply not_true_eq. intros C. apply existsb_exists in C. destruct C as (x & Hx & Ex). apply Nat.eqb_eq in Ex. subst x.
              apply filter_In in Hx. destruct Hx as [_ Hx]. rewrite EN in Hx. discriminate. }
          rewrite ER. destruct (HDn l Hl) as [EN|EN]; rewrite EN; reflexivity. }
      apply G. auto.
Qed.
