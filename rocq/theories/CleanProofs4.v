(** Proofs for C32-C35: counterexamples, bookkeeping and the error branch. *)
From Coq Require Import String Sorted.
From Verif Require Import Base BaseLemmas BaseR Spec Outputs OutputsProofs Lops LopsProofs HelpersProofs Clean SpecClean CleanProofs CleanProofs2 CleanProofs3.
Local Open Scope Z_scope.

Lemma C32_refuted_lemma fuel :
  (let fs := [cf [[-1; -1; 1]]; cf [[1; 1; 1]; [1; -1; 1]]] in
   aligned (vals fs) 3 /\ exists fs', clean_up_codes (10 + fuel) fs false true = Some (Ok (fs', true)) /\
     Forall (fun m => has_cols m 2) (vals fs') /\ inactive (vals fs') 0) /\
  (let fs := [cf [[1; 1; 1]]; cf [[1; 1; 1]]] in
   aligned (vals fs) 3 /\ exists fs', clean_up_codes (10 + fuel) fs false true = Some (Ok (fs', true)) /\
     Forall (fun m => has_cols m 2) (vals fs') /\ same_dim (vals fs') 0 1).
Proof.
  split; cbv zeta; (split; [split; [discriminate|repeat constructor; discriminate]|]); (eexists; split; [reflexivity|]); (split; [repeat constructor|]).
  - exists [[-1; 1]]. split; [left; reflexivity|]. cbn. intuition congruence.
  - intros m [<-|[<-|[]]]; reflexivity.
Qed.
Lemma C33_refuted_lemma fuel : let fs := [cf [[1; 1]]; cf [[1; -1]; [-1; 1]]] in
  aligned (vals fs) 2 /\ exists fs', clean_up_codes (10 + fuel) fs false true = Some (Ok (fs', true)) /\
    lom_generate_data (vals fs) "OR-AND" = Ok (nd_of_mat [[1; 1]]) /\ lom_generate_data (vals fs') "OR-AND" = Ok (nd_of_mat [[1; -1]]).
Proof.
  cbv zeta. split; [split; [discriminate|repeat constructor; discriminate]|]. eexists. split; [reflexivity|]. split; reflexivity.
Qed.

(** C35 *)
Lemma C35_removed_lemma layer L j : aligned (vals (c_factors layer)) L -> Forall (fun f => fe_ok f L) (c_factors layer) -> List.length (c_lbda layer) = S L -> (j < L)%nat ->
  exists layer', on_layer (remove_dimension j) layer = Ok layer' /\ aligned (vals (c_factors layer')) (L - 1) /\
    List.length (c_lbda layer') <> S (L - 1) /\
    Forall (fun f => ~ fe_ok f (L - 1)) (c_factors layer') /\
    Forall2 (fun f f' => forall n l, (j < l < L)%nat -> (n < List.length (cf_val f))%nat ->
      at2 (cf_val f') n (l - 1) = at2 (cf_val f) n l /\ at2 (cf_fixed_entries f') n (l - 1) = at2 (cf_fixed_entries f) n (l - 1)) (c_factors layer) (c_factors layer').
Proof.
  intros HA HF HD Hj. destruct layer as [fs lam]. cbn [c_factors c_lbda] in *. destruct (aligned_rows fs L HA) as (Hne & Hrow & Hst).
  assert (Hj' : (j < List.length (ds0 L))%nat) by (rewrite ds0_length; exact Hj).
  assert (R1 := remove_view fs Hrow (ds0 L) j Hj'). rewrite Hst in R1. unfold on_layer. cbn [c_factors c_lbda]. rewrite R1. cbn [bind]. eexists. split; [reflexivity|]. cbn [c_factors c_lbda].
  assert (Hlen : List.length (del j (ds0 L)) = (L - 1)%nat) by (rewrite del_length by exact Hj'; rewrite ds0_length; reflexivity).
  split; [|split; [lia|split]].
  - split; [intros C; apply map_eq_nil in C; apply map_eq_nil in C; contradiction|]. apply Forall_forall. intros m Hm.
    pose proof (vws_cols (del j (ds0 L)) fs) as HC. rewrite Hlen in HC. rewrite Forall_forall in HC. split; [|apply HC; exact Hm].
    apply in_map_iff in Hm. destruct Hm as (g & <- & Hg). apply in_map_iff in Hg. destruct Hg as (f & <- & Hf). cbn [cf_val vwf]. rewrite Forall_forall in Hrow. specialize (Hrow f Hf).
    unfold vw. intros C. apply map_eq_nil in C. contradiction.
  - apply Forall_forall. intros g Hg. apply in_map_iff in Hg. destruct Hg as (f & <- & Hf). intros [_ C]. cbn [cf_fixed_entries vwf] in C.
    rewrite Forall_forall in HF, Hrow. destruct (HF f Hf) as [F1 F2]. specialize (Hrow f Hf). destruct (cf_fixed_entries f) as [|r fe]; [destruct (cf_val f); [congruence|discriminate]|].
    inversion C as [|? ? C1 _]; inversion F2 as [|? ? F3 _]; subst. lia.
  - unfold vws. assert (G : forall l0, Forall2 (fun f f' => forall n l, (j < l < L)%nat -> (n < List.length (cf_val f))%nat ->
      at2 (cf_val f') n (l - 1) = at2 (cf_val f) n l /\ at2 (cf_fixed_entries f') n (l - 1) = at2 (cf_fixed_entries f) n (l - 1)) l0 (map (vwf (del j (ds0 L))) l0)).
    { induction l0 as [|f l0 IH]; constructor; [|exact IH]. intros n l Hl Hn. cbn [cf_val cf_fixed_entries vwf]. split; [|reflexivity].
      rewrite vw_at by lia. rewrite nth_del. destruct (Nat.ltb_spec (l - 1) j); [lia|]. replace (S (l - 1)) with l by lia. rewrite ds0_nth by lia. reflexivity. }
    apply G.
Qed.
Lemma C35_reset_lemma layer L j : aligned (vals (c_factors layer)) L -> Forall (fun f => fe_ok f L) (c_factors layer) -> List.length (c_lbda layer) = S L -> (j < L)%nat ->
  exists layer', on_layer (reset_dimension j) layer = Ok layer' /\ aligned (vals (c_factors layer')) L /\ c_lbda layer' = c_lbda layer /\
    Forall (fun f => fe_ok f L) (c_factors layer') /\ map cf_fixed_entries (c_factors layer') = map cf_fixed_entries (c_factors layer).
Proof.
  intros HA HF HD Hj. destruct layer as [fs lam]. cbn [c_factors c_lbda] in *. destruct (aligned_rows fs L HA) as (Hne & Hrow & Hst).
  assert (Hj' : (j < List.length (ds0 L))%nat) by (rewrite ds0_length; exact Hj).
  assert (R1 := reset_view fs Hrow (ds0 L) j Hj'). rewrite Hst in R1. unfold on_layer. cbn [c_factors c_lbda]. rewrite R1. cbn [bind]. eexists. split; [reflexivity|]. cbn [c_factors c_lbda].
  assert (Hlen : List.length (upd (ds0 L) j None) = L) by (rewrite upd_length; apply ds0_length).
  split; [|split; [reflexivity|split]].
  - split; [intros C; apply map_eq_nil in C; apply map_eq_nil in C; contradiction|]. apply Forall_forall. intros m Hm.
    pose proof (vws_cols (upd (ds0 L) j None) fs) as HC. rewrite Hlen in HC. rewrite Forall_forall in HC. split; [|apply HC; exact Hm].
    apply in_map_iff in Hm. destruct Hm as (g & <- & Hg). apply in_map_iff in Hg. destruct Hg as (f & <- & Hf). cbn [cf_val vwf]. rewrite Forall_forall in Hrow. specialize (Hrow f Hf).
    unfold vw. intros C. apply map_eq_nil in C. contradiction.
  - apply Forall_forall. intros g Hg. apply in_map_iff in Hg. destruct Hg as (f & <- & Hf). rewrite Forall_forall in HF. destruct (HF f Hf) as [F1 F2]. split; cbn [cf_val cf_fixed_entries vwf]; [|exact F2].
    unfold vw. rewrite map_length. exact F1.
  - unfold vws. rewrite map_map. reflexivity.
Qed.

(** No cleaning action chosen. *)
Lemma C34_no_action_lemma fs L : aligned (vals fs) L -> forall fuel, (L < fuel)%nat ->
  (redundant (vals fs) L -> clean_up_codes fuel fs false false = Some (Err UnboundLocalError)) /\
  (~ redundant (vals fs) L -> clean_up_codes fuel fs false false = Some (Ok (fs, false))).
Proof.
  intros HA fuel Hf. destruct (aligned_rows fs L HA) as (Hne & Hrow & Hst).
  set (E := fun e => e = UnboundLocalError /\ redundant (vals fs) L).
  assert (HSZ : csize fs = L) by (rewrite <- Hst; rewrite vws_size by assumption; apply ds0_length).
  assert (W1 := while_rule below (fun s => Some (inactive_body (cleaning_action false false) s))
    (fun s => snd (fst s) = fs /\ snd s = false /\ forall j, (j < fst (fst s))%nat -> (j < L)%nat -> ~ inactive (vals fs) j) E (fun s => (csize (snd (fst s)) - fst (fst s))%nat)).
  assert (W2 := while_rule below (dup_outer fuel (cleaning_action false false))
    (fun s => snd (fst s) = fs /\ snd s = false /\ forall a b, (a < fst (fst s))%nat -> (a < b < L)%nat -> ~ shares (vals fs) a b) E (fun s => (csize (snd (fst s)) - fst (fst s))%nat)).
  assert (HI : forall l red, (l < L)%nat -> inactive_body (cleaning_action false false) (l, fs, red) = if inact_b fs (Some l) then Err UnboundLocalError else Ok (S l, fs, red)).
  { intros l red Hl. rewrite <- Hst at 1. rewrite inactive_step by (try assumption; rewrite ds0_length; exact Hl). rewrite ds0_nth by exact Hl. rewrite Hst. destruct (inact_b fs (Some l)); reflexivity. }
  assert (HDu : forall l l' red, (l < L)%nat -> (l' < L)%nat -> dup_body (cleaning_action false false) l (l', fs, red) = if share_b fs (Some l) (Some l') then Err UnboundLocalError else Ok (S l', fs, red)).
  { intros l l' red Hl Hl'. rewrite <- Hst at 1. rewrite dup_step by (try assumption; rewrite ds0_length; assumption). rewrite !ds0_nth by assumption. rewrite Hst. destruct (share_b fs (Some l) (Some l')); reflexivity. }
  destruct (W1) with (fuel := fuel) (s := (0%nat, fs, false)) as [(s1 & E1 & (A1 & A2 & A3) & C1)|(e & E1 & He)]; clear W1.
  - intros [[l g] red] (B1 & B2 & B3) C. cbn [fst snd] in *. subst g red. cbn [below] in C. rewrite HSZ in *. apply Nat.ltb_lt in C. rewrite HI by exact C. destruct (inact_b fs (Some l)) eqn:EI.
    + right. eexists. split; [reflexivity|]. split; [reflexivity|]. left. exists l. split; [exact C|]. apply inact_spec. exact EI.
    + left. eexists. split; [reflexivity|]. cbn [fst snd]. rewrite HSZ. split; [|lia]. split; [reflexivity|]. split; [reflexivity|]. intros j Hj HjL.
      destruct (Nat.eq_dec j l) as [->|]; [|apply B3; lia]. intros CC. apply inact_spec in CC. congruence.
  - cbn [fst snd]. lia.
  - cbn [fst snd]. split; [reflexivity|]. split; [reflexivity|]. intros; lia.
  - destruct s1 as [[l1 g1] r1]. cbn [fst snd] in *. subst g1 r1. cbn [below] in C1. rewrite HSZ in C1. apply Nat.ltb_ge in C1.
    destruct (W2) with (fuel := fuel) (s := (0%nat, fs, false)) as [(s2 & E2 & (D1 & D2 & D3) & C2)|(e & E2 & He)]; clear W2.
    + intros [[l g] red] (B1 & B2 & B3) C. cbn [fst snd] in *. subst g red. cbn [below] in C. rewrite HSZ in *. apply Nat.ltb_lt in C. unfold dup_outer.
      destruct (while_rule below (fun s => Some (dup_body (cleaning_action false false) l s))
        (fun s => snd (fst s) = fs /\ snd s = false /\ (l < fst (fst s))%nat /\ forall b, (l < b < fst (fst s))%nat -> (b < L)%nat -> ~ shares (vals fs) l b) E (fun s => (csize (snd (fst s)) - fst (fst s))%nat))
        with (fuel := fuel) (s := (S l, fs, false)) as [(s3 & E3 & (F1 & F2 & F3 & F4) & C3)|(e & E3 & He)].
      * intros [[l' g] red] (G1 & G2 & G3 & G4) C'. cbn [fst snd] in *. subst g red. cbn [below] in C'. rewrite HSZ in *. apply Nat.ltb_lt in C'. rewrite HDu by assumption. destruct (share_b fs (Some l) (Some l')) eqn:ES.
        -- right. eexists. split; [reflexivity|]. split; [reflexivity|]. right. exists l, l'. split; [lia|]. apply share_spec. exact ES.
        -- left. eexists. split; [reflexivity|]. cbn [fst snd]. rewrite HSZ. split; [|lia]. split; [reflexivity|]. split; [reflexivity|]. split; [lia|]. intros b Hb HbL.
           destruct (Nat.eq_dec b l') as [->|]; [|apply G4; lia]. intros CC. apply share_spec in CC. congruence.
      * cbn [fst snd]. lia.
      * cbn [fst snd]. split; [reflexivity|]. split; [reflexivity|]. split; [lia|]. intros; lia.
      * left. rewrite E3. destruct s3 as [[l3 g3] r3]. cbn [fst snd] in *. subst g3 r3. cbn [below] in C3. rewrite HSZ in C3. apply Nat.ltb_ge in C3. eexists. split; [reflexivity|]. cbn [fst snd]. rewrite HSZ. split; [|lia].
        split; [reflexivity|]. split; [reflexivity|]. intros a b Ha Hb. destruct (Nat.eq_dec a l) as [->|]; [apply F4; lia|apply B3; lia].
      * right. rewrite E3. exists e. split; [reflexivity|exact He].
    + cbn [fst snd]. lia.
    + cbn [fst snd]. split; [reflexivity|]. split; [reflexivity|]. intros; lia.
    + destruct s2 as [[l2 g2] r2]. cbn [fst snd] in *. subst g2 r2. cbn [below] in C2. rewrite HSZ in C2. apply Nat.ltb_ge in C2.
      assert (NR : ~ redundant (vals fs) L). { intros [(l & Hl & C)|(a & b & Hab & C)]; [apply (A3 l); [lia|exact Hl|exact C]|apply (D3 a b); [lia|lia|exact C]]. }
      split; [contradiction|]. intros _. unfold clean_up_codes. destruct fs; [congruence|]. rewrite E1, E2. reflexivity.
    + destruct He as [-> HR]. split; [|contradiction]. intros _. unfold clean_up_codes. destruct fs; [congruence|]. rewrite E1, E2. reflexivity.
  - destruct He as [-> HR]. split; [|contradiction]. intros _. unfold clean_up_codes. destruct fs; [congruence|]. rewrite E1. reflexivity.
Qed.
