(** Proofs for C31-C35. *)
From Coq Require Import String Sorted.
From Verif Require Import Base BaseLemmas BaseR Spec Lops LopsProofs HelpersProofs Clean SpecClean.
Local Open Scope Z_scope.

Lemma while_rule {S : Type} (cond : S -> bool) body (I : S -> Prop) (E : exc -> Prop) (mu : S -> nat) :
  (forall s, I s -> cond s = true ->
     (exists s', body s = Some (Ok s') /\ I s' /\ (mu s' < mu s)%nat) \/ (exists e, body s = Some (Err e) /\ E e)) ->
  forall fuel s, (mu s < fuel)%nat -> I s ->
    (exists s', while fuel cond body s = Some (Ok s') /\ I s' /\ cond s' = false) \/
    (exists e, while fuel cond body s = Some (Err e) /\ E e).
Proof.
  intros H. induction fuel as [|fuel IH]; intros s Hm HI; [lia|]. cbn [while]. destruct (cond s) eqn:C.
  - destruct (H s HI C) as [(s' & E' & I' & M)|(e & E' & He)]; rewrite E'.
    + apply IH; [lia|assumption].
    + right. exists e. split; [reflexivity|assumption].
  - left. exists s. auto.
Qed.
Lemma mapM_ok {A B} (f : A -> res B) (g : A -> B) l : (forall a, In a l -> f a = Ok (g a)) -> mapM f l = Ok (map g l).
Proof.
  induction l as [|a l IH]; intros H; [reflexivity|]. cbn [mapM map]. rewrite H by (left; reflexivity). cbn [bind].
  rewrite IH by (intros; apply H; right; assumption). reflexivity.
Qed.
Lemma del_map {A B} (g : A -> B) j l : del j (map g l) = map g (del j l).
Proof. unfold del. rewrite map_app, firstn_map, skipn_map. reflexivity. Qed.
Lemma del_length {A} (l : list A) j : (j < List.length l)%nat -> List.length (del j l) = (List.length l - 1)%nat.
Proof. intros H. unfold del. rewrite app_length, firstn_length, skipn_length. lia. Qed.
Lemma nth_del {A} (l : list A) j i d : nth i (del j l) d = if Nat.ltb i j then nth i l d else nth (S i) l d.
Proof.
  unfold del. revert j i. induction l as [|a l IH]; intros j i.
  - replace (firstn j [] ++ skipn (S j) []) with (@nil A) by (destruct j; reflexivity). destruct (Nat.ltb i j); destruct i; reflexivity.
  - destruct j as [|j]; [reflexivity|]. destruct i as [|i]; [reflexivity|]. change (nth i (firstn j l ++ skipn (S j) l) d = if Nat.ltb i j then nth i l d else nth (S i) l d). apply IH.
Qed.
Lemma in_del {A} (l : list A) j x : In x (del j l) -> In x l.
Proof.
  unfold del. revert j. induction l as [|a l IH]; intros j H; [destruct j; exact H|]. destruct j as [|j]; [right; exact H|].
  destruct H as [H|H]; [left; exact H|right; apply (IH j); exact H].
Qed.
Lemma in_del_other {A} (l : list A) j x d : In x l -> (j < List.length l)%nat -> In x (del j l) \/ nth j l d = x.
Proof.
  intros H Hj. apply (In_nth _ _ d) in H. destruct H as (i & Hi & E). destruct (Nat.eq_dec i j) as [->|Hn]; [right; exact E|]. left.
  destruct (Nat.ltb_spec i j).
  - replace x with (nth i (del j l) d); [apply nth_In; rewrite del_length; lia|]. rewrite nth_del. destruct (Nat.ltb_spec i j); [exact E|lia].
  - replace x with (nth (i - 1) (del j l) d); [apply nth_In; rewrite del_length; lia|]. rewrite nth_del. destruct (Nat.ltb_spec (i - 1) j); [lia|].
    replace (S (i - 1)) with i by lia. exact E.
Qed.

(** Views of the original factors: column descriptors. *)
Definition ent (d : option nat) (r : vec) : Z := match d with Some l => nth l r 0 | None => -1 end.
Definition vw (ds : list (option nat)) (m : mat) : mat := map (fun r => map (fun d => ent d r) ds) m.
Definition vwf ds (f : cfactor) : cfactor := {| cf_val := vw ds (cf_val f); cf_fixed_entries := cf_fixed_entries f |}.
Definition vws ds (fs : list cfactor) := map (vwf ds) fs.

Section VIEW.
  Context (fs : list cfactor) (Hne : fs <> []) (Hrow : Forall (fun f => cf_val f <> []) fs).

  Lemma vw_ncols ds m : m <> [] -> ncols (vw ds m) = List.length ds.
  Proof. destruct m as [|r m]; [congruence|]. intros _. unfold ncols, vw. cbn. apply map_length. Qed.
  Lemma vws_size ds : csize (vws ds fs) = List.length ds.
  Proof. clear - Hne Hrow. destruct fs as [|f l]; [congruence|]. cbn. apply vw_ncols. inversion Hrow; assumption. Qed.
  Lemma vw_col ds f j : In f fs -> (j < List.length ds)%nat -> get_col (vwf ds f) j = Ok (map (ent (nth j ds None)) (cf_val f)).
  Proof.
    intros Hf Hj. unfold get_col, vwf. cbn [cf_val]. rewrite vw_ncols by (rewrite Forall_forall in Hrow; apply Hrow; exact Hf).
    destruct (Nat.ltb_spec j (List.length ds)); [|lia]. f_equal. unfold vw. rewrite map_map. apply map_ext. intros r. unfold at1.
    exact (nth_map_lt (fun d => ent d r) ds j None 0 Hj).
  Qed.
  Definition inact_b (d : option nat) : bool := existsb (fun f => forallb (Z.eqb (-1)) (map (ent d) (cf_val f))) fs.
  Definition share_f (d d' : option nat) (f : cfactor) : bool :=
    forallb (fun p => fst p =? snd p) (combine (map (ent d) (cf_val f)) (map (ent d') (cf_val f))).
  Definition share_b (d d' : option nat) : bool := existsb (share_f d d') fs.
  Definition act (reset : bool) (ds : list (option nat)) (j : nat) := if reset then upd ds j None else del j ds.

  Lemma remove_view ds j : (j < List.length ds)%nat -> remove_dimension j (vws ds fs) = Ok (vws (del j ds) fs).
  Proof.
    intros Hj. unfold remove_dimension, vws. erewrite (mapM_ok _ (fun g => {| cf_val := map (del j) (cf_val g); cf_fixed_entries := cf_fixed_entries g |})).
    - f_equal. rewrite map_map. apply map_ext. intros f. unfold vwf. cbn [cf_val cf_fixed_entries]. f_equal. unfold vw. rewrite map_map. apply map_ext. intros r. apply del_map.
    - intros g Hg. apply in_map_iff in Hg. destruct Hg as (f & <- & Hf). cbn [cf_val vwf].
      rewrite vw_ncols by (rewrite Forall_forall in Hrow; apply Hrow; exact Hf). destruct (Nat.ltb_spec j (List.length ds)); [reflexivity|lia].
  Qed.
  Lemma upd_map {A B} (g : A -> B) l j x : upd (map g l) j (g x) = map g (upd l j x).
  Proof. revert j. induction l as [|a l IH]; intros [|j]; cbn; try reflexivity. rewrite IH. reflexivity. Qed.
  Lemma reset_view ds j : (j < List.length ds)%nat -> reset_dimension j (vws ds fs) = Ok (vws (upd ds j None) fs).
  Proof.
    intros Hj. unfold reset_dimension, vws. erewrite (mapM_ok _ (fun g => {| cf_val := map (fun r => upd r j (-1)) (cf_val g); cf_fixed_entries := cf_fixed_entries g |})).
    - f_equal. rewrite map_map. apply map_ext. intros f. unfold vwf. cbn [cf_val cf_fixed_entries]. f_equal. unfold vw. rewrite map_map. apply map_ext. intros r.
      exact (upd_map (fun d => ent d r) ds j None).
    - intros g Hg. apply in_map_iff in Hg. destruct Hg as (f & <- & Hf). cbn [cf_val vwf].
      rewrite vw_ncols by (rewrite Forall_forall in Hrow; apply Hrow; exact Hf). destruct (Nat.ltb_spec j (List.length ds)); [reflexivity|lia].
  Qed.
  Lemma action_view reset clean ds j : reset || clean = true -> (j < List.length ds)%nat ->
    cleaning_action reset clean j (vws ds fs) = Ok (vws (act reset ds j) fs).
  Proof.
    intros H Hj. unfold cleaning_action, act. destruct reset; [apply reset_view; assumption|]. cbn in H. subst clean. apply remove_view. assumption.
  Qed.
  Lemma act_length reset ds j : (j < List.length ds)%nat -> (List.length (act reset ds j) <= List.length ds)%nat.
  Proof. intros H. unfold act. destruct reset; [rewrite upd_length; lia|]. rewrite del_length by assumption. lia. Qed.

  Lemma existsb_map_id {A} (g : A -> bool) l : existsb (fun b => b) (map g l) = existsb g l.
  Proof. induction l as [|a l IH]; [reflexivity|]. cbn. rewrite IH. reflexivity. Qed.
  Lemma inactive_flags ds l : (l < List.length ds)%nat ->
    mapM (fun f => bind (get_col f l) (fun c => Ok (forallb (Z.eqb (-1)) c))) (vws ds fs) =
    Ok (map (fun f => forallb (Z.eqb (-1)) (map (ent (nth l ds None)) (cf_val f))) fs).
  Proof.
    intros Hl. unfold vws. assert (G : forall l0, (forall f, In f l0 -> In f fs) ->
      mapM (fun f => bind (get_col f l) (fun c => Ok (forallb (Z.eqb (-1)) c))) (map (vwf ds) l0) = Ok (map (fun f => forallb (Z.eqb (-1)) (map (ent (nth l ds None)) (cf_val f))) l0)).
    { induction l0 as [|f l0 IH]; intros H; [reflexivity|]. cbn [map mapM]. rewrite vw_col by solve [apply H; left; reflexivity|assumption]. cbn [bind].
      rewrite IH by (intros; apply H; right; assumption). reflexivity. }
    apply G. auto.
  Qed.
  Lemma inactive_step action l ds red : (l < List.length ds)%nat ->
    inactive_body action (l, vws ds fs, red) =
    if inact_b (nth l ds None) then bind (action l (vws ds fs)) (fun fs' => Ok (S l, fs', true)) else Ok (S l, vws ds fs, red).
  Proof.
    intros Hl. unfold inactive_body. rewrite inactive_flags by assumption. cbn [bind]. rewrite existsb_map_id. reflexivity.
  Qed.
  Lemma dup_for_view ds l l' : (l < List.length ds)%nat -> (l' < List.length ds)%nat ->
    dup_for l l' (vws ds fs) = Ok (share_b (nth l ds None) (nth l' ds None)).
  Proof.
    intros Hl Hl'. unfold vws, share_b. assert (G : forall l0, (forall f, In f l0 -> In f fs) ->
      dup_for l l' (map (vwf ds) l0) = Ok (existsb (share_f (nth l ds None) (nth l' ds None)) l0)).
    { induction l0 as [|f l0 IH]; intros H; [reflexivity|]. cbn [map dup_for existsb].
      rewrite !vw_col by solve [apply H; left; reflexivity|assumption]. cbn [bind]. fold (share_f (nth l ds None) (nth l' ds None) f).
      destruct (share_f _ _ f); [reflexivity|]. cbn [orb]. apply IH. intros; apply H; right; assumption. }
    apply G. auto.
  Qed.
  Lemma dup_step action l l' ds red : (l < List.length ds)%nat -> (l' < List.length ds)%nat ->
    dup_body action l (l', vws ds fs, red) =
    if share_b (nth l ds None) (nth l' ds None) then bind (action l' (vws ds fs)) (fun fs' => Ok (S l', fs', true)) else Ok (S l', vws ds fs, red).
  Proof. intros Hl Hl'. unfold dup_body. rewrite dup_for_view by assumption. reflexivity. Qed.

  (** Invariant rules. *)
  Lemma loop1_rule reset clean (J : nat -> list (option nat) -> bool -> Prop) : reset || clean = true ->
    (forall l ds red, J l ds red -> (l < List.length ds)%nat ->
       (inact_b (nth l ds None) = true -> J (S l) (act reset ds l) true) /\ (inact_b (nth l ds None) = false -> J (S l) ds red)) ->
    forall fuel ds, J 0%nat ds false -> (List.length ds < fuel)%nat ->
    exists l' ds' red', while fuel below (fun s => Some (inactive_body (cleaning_action reset clean) s)) (0%nat, vws ds fs, false) = Some (Ok (l', vws ds' fs, red')) /\
      J l' ds' red' /\ (List.length ds' <= l')%nat /\ (List.length ds' <= List.length ds)%nat.
  Proof.
    intros Hrc HJ fuel ds H0 Hf.
    destruct (while_rule below (fun s => Some (inactive_body (cleaning_action reset clean) s))
      (fun s => exists ds', snd (fst s) = vws ds' fs /\ J (fst (fst s)) ds' (snd s) /\ (List.length ds' <= List.length ds)%nat) (fun _ => False)
      (fun s => (csize (snd (fst s)) - fst (fst s))%nat)) with (fuel := fuel) (s := (0%nat, vws ds fs, false)) as [(s' & E & (ds' & E1 & J' & HL) & C)|(e & _ & [])].
    - intros [[l g] red] (ds' & E1 & J' & HL) C. cbn [fst snd] in *. subst g. cbn [below] in C. rewrite vws_size in *. apply Nat.ltb_lt in C. left.
      rewrite inactive_step by assumption. destruct (HJ l ds' red J' C) as [A B]. destruct (inact_b (nth l ds' None)).
      + rewrite action_view by assumption. cbn [bind]. eexists. split; [reflexivity|]. cbn [fst snd]. split.
        * exists (act reset ds' l). split; [reflexivity|]. split; [apply A; reflexivity|]. pose proof (act_length reset ds' l C). lia.
        * rewrite vws_size. pose proof (act_length reset ds' l C). lia.
      + eexists. split; [reflexivity|]. cbn [fst snd]. split; [exists ds'; auto|]. rewrite vws_size. lia.
    - cbn [fst snd]. rewrite vws_size. lia.
    - exists ds. cbn [fst snd]. auto.
    - destruct s' as [[l' g] red']. cbn [fst snd] in *. subst g. exists l', ds', red'. split; [exact E|]. split; [assumption|]. split; [|assumption].
      cbn [below] in C. rewrite vws_size in C. apply Nat.ltb_ge in C. exact C.
  Qed.
  Lemma loop2_rule reset clean (J : nat -> list (option nat) -> bool -> Prop) (K : nat -> nat -> list (option nat) -> bool -> Prop) : reset || clean = true ->
    (forall l ds red, J l ds red -> (l < List.length ds)%nat -> K l (S l) ds red) ->
    (forall l l' ds red, K l l' ds red -> (l < l')%nat -> (l' < List.length ds)%nat ->
       (share_b (nth l ds None) (nth l' ds None) = true -> K l (S l') (act reset ds l') true) /\
       (share_b (nth l ds None) (nth l' ds None) = false -> K l (S l') ds red)) ->
    (forall l l' ds red, K l l' ds red -> (List.length ds <= l')%nat -> J (S l) ds red) ->
    forall fuel ds red, J 0%nat ds red -> (List.length ds < fuel)%nat ->
    exists l' ds' red', while fuel below (dup_outer fuel (cleaning_action reset clean)) (0%nat, vws ds fs, red) = Some (Ok (l', vws ds' fs, red')) /\
      J l' ds' red' /\ (List.length ds' <= l')%nat.
  Proof.
    intros Hrc HJK HK HKJ fuel ds red H0 Hf.
    destruct (while_rule below (dup_outer fuel (cleaning_action reset clean))
      (fun s => exists ds', snd (fst s) = vws ds' fs /\ J (fst (fst s)) ds' (snd s) /\ (List.length ds' <= List.length ds)%nat) (fun _ => False)
      (fun s => (csize (snd (fst s)) - fst (fst s))%nat)) with (fuel := fuel) (s := (0%nat, vws ds fs, red)) as [(s' & E & (ds' & E1 & J' & HL) & C)|(e & _ & [])].
    - intros [[l g] r0] (ds0 & E1 & J' & HL) C. cbn [fst snd] in *. subst g. cbn [below] in C. rewrite vws_size in *. apply Nat.ltb_lt in C. left.
      unfold dup_outer.
      destruct (while_rule below (fun s => Some (dup_body (cleaning_action reset clean) l s))
        (fun s => exists ds', snd (fst s) = vws ds' fs /\ K l (fst (fst s)) ds' (snd s) /\ (l < fst (fst s))%nat /\ (l < List.length ds')%nat /\ (List.length ds' <= List.length ds0)%nat) (fun _ => False)
        (fun s => (csize (snd (fst s)) - fst (fst s))%nat)) with (fuel := fuel) (s := (S l, vws ds0 fs, r0)) as [(s' & E & (ds' & E1 & K' & Hl & Hl2 & HL2) & C')|(e & _ & [])].
      + intros [[l' g] r1] (ds' & E1 & K' & Hl & Hl2 & HL2) C'. cbn [fst snd] in *. subst g. cbn [below] in C'. rewrite vws_size in *. apply Nat.ltb_lt in C'. left.
        rewrite dup_step by assumption. destruct (HK l l' ds' r1 K' Hl C') as [A B]. destruct (share_b _ _).
        * rewrite action_view by assumption. cbn [bind]. eexists. split; [reflexivity|]. cbn [fst snd]. pose proof (act_length reset ds' l' C'). split.
          -- exists (act reset ds' l'). split; [reflexivity|]. split; [apply A; reflexivity|]. split; [lia|]. split; [|lia].
             unfold act. destruct reset; [rewrite upd_length; lia|]. rewrite del_length by assumption. lia.
          -- rewrite vws_size. lia.
        * eexists. split; [reflexivity|]. cbn [fst snd]. split.
          -- exists ds'. split; [reflexivity|]. split; [apply B; reflexivity|]. lia.
          -- rewrite vws_size. lia.
      + cbn [fst snd]. rewrite vws_size. lia.
      + exists ds0. cbn [fst snd]. split; [reflexivity|]. split; [apply HJK; assumption|]. lia.
      + rewrite E. destruct s' as [[l' g] r1]. cbn [fst snd] in *. subst g. eexists. split; [reflexivity|]. cbn [fst snd]. cbn [below] in C'. rewrite vws_size in C'. apply Nat.ltb_ge in C'. split.
        * exists ds'. split; [reflexivity|]. split; [apply (HKJ l l'); assumption|]. lia.
        * rewrite vws_size. lia.
    - cbn [fst snd]. rewrite vws_size. lia.
    - exists ds. cbn [fst snd]. auto.
    - destruct s' as [[l' g] red']. cbn [fst snd] in *. subst g. exists l', ds', red'. split; [exact E|]. split; [assumption|].
      cbn [below] in C. rewrite vws_size in C. apply Nat.ltb_ge in C. exact C.
  Qed.

  Lemma clean_rule reset clean (J1 : nat -> list (option nat) -> bool -> Prop) (J : nat -> list (option nat) -> bool -> Prop) (K : nat -> nat -> list (option nat) -> bool -> Prop) :
    reset || clean = true ->
    (forall l ds red, J1 l ds red -> (l < List.length ds)%nat ->
       (inact_b (nth l ds None) = true -> J1 (S l) (act reset ds l) true) /\ (inact_b (nth l ds None) = false -> J1 (S l) ds red)) ->
    (forall l ds red, J1 l ds red -> (List.length ds <= l)%nat -> J 0%nat ds red) ->
    (forall l ds red, J l ds red -> (l < List.length ds)%nat -> K l (S l) ds red) ->
    (forall l l' ds red, K l l' ds red -> (l < l')%nat -> (l' < List.length ds)%nat ->
       (share_b (nth l ds None) (nth l' ds None) = true -> K l (S l') (act reset ds l') true) /\
       (share_b (nth l ds None) (nth l' ds None) = false -> K l (S l') ds red)) ->
    (forall l l' ds red, K l l' ds red -> (List.length ds <= l')%nat -> J (S l) ds red) ->
    forall fuel ds, J1 0%nat ds false -> (List.length ds < fuel)%nat ->
    exists l' ds' red', clean_up_codes fuel (vws ds fs) reset clean = Some (Ok (vws ds' fs, red')) /\ J l' ds' red' /\ (List.length ds' <= l')%nat.
  Proof.
    intros Hrc H1 H12 HJK HK HKJ fuel ds H0 Hf.
    destruct (loop1_rule reset clean J1 Hrc H1 fuel ds H0 Hf) as (l1 & ds1 & red1 & E1 & A1 & B1 & C1).
    destruct (loop2_rule reset clean J K Hrc HJK HK HKJ fuel ds1 red1) as (l2 & ds2 & red2 & E2 & A2 & B2); [apply (H12 l1); assumption|lia|].
    exists l2, ds2, red2. split; [|split; assumption]. unfold clean_up_codes.
    destruct (vws ds fs) as [|g0 g1] eqn:EV; [apply map_eq_nil in EV; contradiction|]. rewrite E1, E2. reflexivity.
  Qed.
End VIEW.
