(** C31-C35: clean-up of latent dimensions. *)
From Coq Require Import String Sorted.
From Verif Require Import Base BaseR Spec Outputs Lops Clean SpecClean CleanProofs2 CleanProofs3 CleanProofs4 CleanProofs5.
Local Open Scope Z_scope.

(** Two factors with three dimensions; dimension 1 is inactive, dimensions 0 and 2 differ. *)
Definition ex_factors : list cfactor := [cf [[1; -1; 1]; [-1; -1; 1]]; cf [[1; 1; -1]; [-1; 1; 1]]].
Example ex_aligned : aligned (vals ex_factors) 3.
Proof. split; [discriminate|repeat constructor; discriminate]. Qed.
Example ex_inactive : inactive (vals ex_factors) 1.
Proof. exists [[1; -1; 1]; [-1; -1; 1]]. split; [left; reflexivity|]. cbn. intuition congruence. Qed.

(** C31. Outputs of lom_generate_data, and on binary factors of lom_generate_data_fast. *)
Theorem C31_inactive : forall fs L j o, 
  aligned (vals fs) L -> (j < L)%nat -> inactive (vals fs) j -> o = OR \/ o = XOR ->
  exists removed resetted, remove_dimension j fs = Ok removed /\ reset_dimension j fs = Ok resetted /\
    lom_generate_data (vals removed) (model_name o AND) = lom_generate_data (vals fs) (model_name o AND) /\
    lom_generate_data (vals resetted) (model_name o AND) = lom_generate_data (vals fs) (model_name o AND) /\
    (Forall bin2 (vals fs) ->
       lom_generate_data_fast (vals removed) (model_name o AND) = lom_generate_data_fast (vals fs) (model_name o AND) /\
       lom_generate_data_fast (vals resetted) (model_name o AND) = lom_generate_data_fast (vals fs) (model_name o AND)).
Proof. exact C31_lemma. Qed.
Example C31_example : aligned (vals ex_factors) 3 /\ inactive (vals ex_factors) 1 /\ Forall bin2 (vals ex_factors).
Proof.
  split; [exact ex_aligned|]. split; [exact ex_inactive|]. cbn. repeat constructor; unfold bin; lia.
Qed.

(** C32. Full statement: no_inactive_neighbours dropped, and in addition no two remaining dimensions agree in
    all factors. Missing: both fail (C32_refuted), because the loop index advances after a removal. *)
Theorem C32_no_inactive_partial : forall fs L, 
  aligned (vals fs) L -> no_inactive_neighbours (vals fs) L -> forall fuel, (L < fuel)%nat ->
  exists fs' red L', clean_up_codes fuel fs false true = Some (Ok (fs', red)) /\ Forall (fun m => has_cols m L') (vals fs') /\
    forall l, (l < L')%nat -> ~ inactive (vals fs') l.
Proof. exact C32_lemma. Qed.
Example C32_example : no_inactive_neighbours (vals ex_factors) 3.
Proof.
  intros [|[|l]] Hl [(m & [<-|[<-|[]]] & H) (m' & [<-|[<-|[]]] & H')]; cbn in H, H'; try lia;
    try (specialize (H 1); specialize (H' 1); cbn in H, H'; exfalso; intuition discriminate).
Qed.
(** The first layer keeps an inactive dimension, the second keeps duplicates; in both a second clean-up would
    remove more. *)
Theorem C32_refuted : forall fuel, 
  (let fs := [cf [[-1; -1; 1]]; cf [[1; 1; 1]; [1; -1; 1]]] in
   aligned (vals fs) 3 /\ exists fs', clean_up_codes (10 + fuel) fs false true = Some (Ok (fs', true)) /\
     Forall (fun m => has_cols m 2) (vals fs') /\ inactive (vals fs') 0) /\
  (let fs := [cf [[1; 1; 1]]; cf [[1; 1; 1]]] in
   aligned (vals fs) 3 /\ exists fs', clean_up_codes (10 + fuel) fs false true = Some (Ok (fs', true)) /\
     Forall (fun m => has_cols m 2) (vals fs') /\ same_dim (vals fs') 0 1).
Proof. exact C32_refuted_lemma. Qed.

(** C33. Full statement: the third hypothesis dropped. It fails: dimensions that agree in one factor only are
    treated as duplicates (C33_refuted). *)
Theorem C33_output_partial : forall fs L reset clean, 
  aligned (vals fs) L -> reset || clean = true ->
  (forall l l', (l < L)%nat -> (l' < L)%nat -> shares (vals fs) l l' -> same_dim (vals fs) l l') ->
  forall fuel, (L < fuel)%nat -> exists fs' red, clean_up_codes fuel fs reset clean = Some (Ok (fs', red)) /\
    lom_generate_data (vals fs') "OR-AND" = lom_generate_data (vals fs) "OR-AND".
Proof. exact C33_lemma. Qed.
(** A layer meeting the hypothesis with both kinds of redundancy: dimension 1 inactive, 0 and 2 equal. *)
Example C33_example : let fs := [cf [[1; -1; 1]]; cf [[1; -1; 1]; [-1; 1; -1]]] in
  aligned (vals fs) 3 /\ redundant (vals fs) 3 /\ forall l l', (l < 3)%nat -> (l' < 3)%nat -> shares (vals fs) l l' -> same_dim (vals fs) l l'.
Proof.
  cbv zeta. split; [split; [discriminate|repeat constructor; discriminate]|]. split.
  - right. exists 0%nat, 2%nat. split; [lia|]. exists [[1; -1; 1]]. split; [left; reflexivity|reflexivity].
  - intros [|[|[|l]]] [|[|[|l']]] Hl Hl' (m & [<-|[<-|[]]] & H) m' [<-|[<-|[]]]; try lia; try exact H; try reflexivity; try discriminate H.
Qed.
(** For every OR-AND layer, without that hypothesis: a clean-up never turns a predicted zero into a one. *)
Theorem C33_never_adds : forall fs L reset clean,
  aligned (vals fs) L -> reset || clean = true -> forall fuel, (L < fuel)%nat ->
  exists fs' red L', clean_up_codes fuel fs reset clean = Some (Ok (fs', red)) /\ Forall (fun m => has_cols m L') (vals fs') /\
    forall idx, Forall2 lt idx (map (@List.length _) (vals fs)) -> lom_true OR AND (index_rows (vals fs') idx) L' -> lom_true OR AND (index_rows (vals fs) idx) L.
Proof. exact C33_never_adds_lemma. Qed.
Print Assumptions C33_never_adds.
Example C33_never_adds_example : let fs := [cf [[1; 1]]; cf [[1; -1]; [-1; 1]]] in
  aligned (vals fs) 2 /\ lom_true OR AND (index_rows (vals fs) [0; 1]%nat) 2 /\ index_rows (vals fs) [0; 1]%nat = [[1; 1]; [-1; 1]].
Proof.
  cbv zeta. split; [split; [discriminate|repeat constructor; discriminate]|]. split; [|reflexivity]. exists 1%nat. split; [lia|]. intros [|[|k]] Hk; [reflexivity|reflexivity|cbn in Hk; lia].
Qed.
Theorem C33_refuted : forall fuel, 
  let fs := [cf [[1; 1]]; cf [[1; -1]; [-1; 1]]] in
  aligned (vals fs) 2 /\ exists fs', clean_up_codes (10 + fuel) fs false true = Some (Ok (fs', true)) /\
    lom_generate_data (vals fs) "OR-AND" = Ok (nd_of_mat [[1; 1]]) /\ lom_generate_data (vals fs') "OR-AND" = Ok (nd_of_mat [[1; -1]]).
Proof. exact C33_refuted_lemma. Qed.

(** C34. Also: a dimension is removed or reset only if some factor never uses it or repeats an earlier dimension that
    stays. *)
Theorem C34_clean_up : forall fs L reset clean, 
  aligned (vals fs) L -> reset || clean = true -> forall fuel, (L < fuel)%nat ->
  exists fs' red, clean_up_codes fuel fs reset clean = Some (Ok (fs', red)) /\
    (red = true <-> redundant (vals fs) L) /\ (red = false -> fs' = fs) /\
    map cf_fixed_entries fs' = map cf_fixed_entries fs /\
    (reset = false -> exists keep, subset_of L keep /\ vals fs' = map (restrict keep) (vals fs) /\ (red = true -> (List.length keep < L)%nat) /\ (forall d, (d < L)%nat -> ~ In d keep -> superfluous (vals fs) (fun d0 => In d0 keep) d)) /\
    (reset = true -> exists rs, Forall (fun l => (l < L)%nat) rs /\ Forall2 (cleared L rs) (vals fs) (vals fs') /\ (forall d, In d rs -> superfluous (vals fs) (fun d0 => ~ In d0 rs) d)).
Proof. exact C34_lemma. Qed.
Example C34_example : clean_up_codes 4 ex_factors false true = Some (Ok (map (fun f => {| cf_val := restrict [0%nat; 2%nat] (cf_val f); cf_fixed_entries := cf_fixed_entries f |}) ex_factors, true)).
Proof. reflexivity. Qed.
(** With neither action chosen, a layer with something to clean raises. *)
Theorem C34_no_action : forall fs L, 
  aligned (vals fs) L -> forall fuel, (L < fuel)%nat ->
  (redundant (vals fs) L -> clean_up_codes fuel fs false false = Some (Err UnboundLocalError)) /\
  (~ redundant (vals fs) L -> clean_up_codes fuel fs false false = Some (Ok (fs, false))).
Proof. exact C34_no_action_lemma. Qed.
Example C34_no_action_example : redundant (vals ex_factors) 3.
Proof. left. exists 1%nat. split; [lia|exact ex_inactive]. Qed.

(** C35. Full statement: for removal as well as reset. Missing: it fails for removal (C35_removed_refuted); the
    sampler that adds dimensions is in Ibp.v. *)
Theorem C35_reset_partial : forall layer L j, 
  aligned (vals (c_factors layer)) L -> Forall (fun f => fe_ok f L) (c_factors layer) -> List.length (c_lbda layer) = S L -> (j < L)%nat ->
  exists layer', on_layer (reset_dimension j) layer = Ok layer' /\ aligned (vals (c_factors layer')) L /\ c_lbda layer' = c_lbda layer /\
    Forall (fun f => fe_ok f L) (c_factors layer') /\ map cf_fixed_entries (c_factors layer') = map cf_fixed_entries (c_factors layer).
Proof. exact C35_reset_lemma. Qed.
(** For every layer and dimension: the shape of fixed_entries and the number of dispersions no longer fit, and
    the entry that moves from column l to l-1 gets the flag of column l-1. *)
Theorem C35_removed_refuted : forall layer L j, 
  aligned (vals (c_factors layer)) L -> Forall (fun f => fe_ok f L) (c_factors layer) -> List.length (c_lbda layer) = S L -> (j < L)%nat ->
  exists layer', on_layer (remove_dimension j) layer = Ok layer' /\ aligned (vals (c_factors layer')) (L - 1) /\
    List.length (c_lbda layer') <> S (L - 1) /\
    Forall (fun f => ~ fe_ok f (L - 1)) (c_factors layer') /\
    Forall2 (fun f f' => forall n l, (j < l < L)%nat -> (n < List.length (cf_val f))%nat ->
      at2 (cf_val f') n (l - 1) = at2 (cf_val f) n l /\ at2 (cf_fixed_entries f') n (l - 1) = at2 (cf_fixed_entries f) n (l - 1)) (c_factors layer) (c_factors layer').
Proof. exact C35_removed_lemma. Qed.
Example C35_example : let layer := {| c_factors := ex_factors; c_lbda := [1; 1; 1; 0]%R |} in
  aligned (vals (c_factors layer)) 3 /\ Forall (fun f => fe_ok f 3) (c_factors layer) /\ List.length (c_lbda layer) = 4%nat.
Proof. cbv zeta. split; [exact ex_aligned|]. split; [|reflexivity]. repeat constructor. Qed.
Print Assumptions C31_inactive.
Print Assumptions C32_no_inactive_partial.
Print Assumptions C32_refuted.
Print Assumptions C33_output_partial.
Print Assumptions C33_refuted.
Print Assumptions C34_clean_up.
Print Assumptions C34_no_action.
Print Assumptions C35_reset_partial.
Print Assumptions C35_removed_refuted.
