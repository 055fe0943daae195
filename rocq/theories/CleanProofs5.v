(** Proofs about clean-up: it never adds predicted ones to an OR-AND layer. *)
From Coq Require Import String Sorted.
From Verif Require Import Base Spec Clean SpecClean BaseLemmas CleanProofs CleanProofs2.
Local Open Scope Z_scope.

Lemma index_rows_nth ms : forall idx k, (k < List.length ms)%nat -> (k < List.length idx)%nat -> nth k (index_rows ms idx) [] = nth (nth k idx 0%nat) (nth k ms []) [].
Proof.
  induction ms as [|m ms IH]; intros [|i idx] k H1 H2; cbn in *; try lia. destruct k as [|k]; [reflexivity|]. apply IH; lia.
Qed.
Lemma index_rows_length ms idx : List.length (index_rows ms idx) = Nat.min (List.length ms) (List.length idx).
Proof. unfold index_rows. rewrite map_length, combine_length. reflexivity. Qed.
Lemma never_adds_removed ms L keep idx : subset_of L keep -> Forall2 lt idx (map (@List.length _) ms) ->
  lom_true OR AND (index_rows (map (restrict keep) ms) idx) (List.length keep) -> lom_true OR AND (index_rows ms idx) L.
Proof.
  intros (_ & HK) HI (l & Hl & H). exists (nth l keep 0%nat). split; [rewrite Forall_forall in HK; apply HK, nth_In; exact Hl|].
  intros k Hk. specialize (H k). rewrite index_rows_length, map_length, <- index_rows_length in H. specialize (H Hk). rewrite index_rows_length in Hk.
  pose proof (Forall2_length _ _ _ HI) as E. rewrite map_length in E. rewrite index_rows_nth in H |- * by (try rewrite map_length; lia).
  assert (EM : nth k (map (restrict keep) ms) [] = restrict keep (nth k ms [])) by exact (map_nth (restrict keep) ms [] k). rewrite EM in H. unfold restrict in H.
  assert (Hn : (nth k idx 0 < List.length (nth k ms []))%nat).
  { clear - HI Hk. revert k idx HI Hk. induction ms as [|m ms IH]; intros k idx HI Hk; [cbn in Hk; lia|]. destruct idx as [|i idx]; [cbn in Hk; lia|]. cbn [map] in HI. inversion HI; subst. destruct k as [|k]; [assumption|]. apply (IH k idx); [assumption|cbn in Hk; lia]. }
  assert (G : forall (m : mat) n, (n < List.length m)%nat -> nth l (nth n (map (fun r => map (fun l0 => nth l0 r 0) keep) m) []) 0 = nth (nth l keep 0%nat) (nth n m []) 0).
  { clear - Hl. intros m n Hn. set (g := fun r : vec => map (fun l0 => nth l0 r 0) keep). rewrite (nth_indep _ [] (g [])) by (rewrite map_length; exact Hn). rewrite (map_nth g). unfold g.
    set (h := fun l0 => nth l0 (nth n m []) 0). rewrite (nth_indep _ 0 (h 0%nat)) by (rewrite map_length; exact Hl). apply (map_nth h). }
  specialize (G _ _ Hn). transitivity (nth l (nth (nth k idx 0%nat) (map (fun r => map (fun l0 => nth l0 r 0) keep) (nth k ms [])) []) 0); [symmetry; exact G|exact H].
Qed.
Lemma never_adds_reset ms ms' L rs idx : Forall2 (cleared L rs) ms ms' -> Forall2 lt idx (map (@List.length _) ms) ->
  lom_true OR AND (index_rows ms' idx) L -> lom_true OR AND (index_rows ms idx) L.
Proof.
  intros HC HI (l & Hl & H). exists l. split; [exact Hl|]. intros k Hk. pose proof (Forall2_length _ _ _ HC) as E1. pose proof (Forall2_length _ _ _ HI) as E. rewrite map_length in E. rewrite index_rows_length in Hk. specialize (H k). rewrite index_rows_length, <- E1 in H. specialize (H Hk). rewrite index_rows_nth in H |- * by lia.
  assert (G : (nth k idx 0 < List.length (nth k ms []))%nat /\ cleared L rs (nth k ms []) (nth k ms' [])).
  { clear - HI HC Hk. revert k idx HI Hk. induction HC as [|m m' ms ms' Hm _ IH]; intros k idx HI Hk; [cbn in Hk; lia|]. destruct idx as [|i idx]; [cbn in Hk; lia|]. cbn [map] in HI. inversion HI; subst. destruct k as [|k]; [auto|]. apply (IH k idx); [assumption|cbn in Hk; lia]. }
  destruct G as (Hn & (_ & _ & G)). specialize (G _ _ Hn Hl). unfold at2, row, at1 in G. assert (H0 := eq_trans (eq_sym H) G). destruct (existsb _ _); [discriminate H0|symmetry; exact H0].
Qed.
Lemma C33_never_adds_lemma fs L reset clean : aligned (vals fs) L -> reset || clean = true -> forall fuel, (L < fuel)%nat ->
  exists fs' red L', clean_up_codes fuel fs reset clean = Some (Ok (fs', red)) /\ Forall (fun m => has_cols m L') (vals fs') /\
    forall idx, Forall2 lt idx (map (@List.length _) (vals fs)) -> lom_true OR AND (index_rows (vals fs') idx) L' -> lom_true OR AND (index_rows (vals fs) idx) L.
Proof.
  intros AL Hrc fuel Hf. destruct (C34_lemma fs L reset clean AL Hrc fuel Hf) as (fs' & red & E & _ & _ & _ & HRm & HRs). exists fs', red. destruct reset.
  - destruct (HRs eq_refl) as (rs & _ & R2 & _). exists L. split; [exact E|]. split; [|intros idx HI; apply (never_adds_reset _ _ L rs); assumption]. clear - R2. induction R2 as [|m m' ms ms' (_ & H & _) _ IH]; constructor; assumption.
  - destruct (HRm eq_refl) as (keep & R1 & R2 & _). exists (List.length keep). split; [exact E|]. rewrite R2. split; [|intros idx HI; apply (never_adds_removed _ L keep); assumption]. apply Forall_forall. intros m Hm. apply in_map_iff in Hm. destruct Hm as (m0 & <- & _). apply Forall_forall. intros r Hr. apply in_map_iff in Hr. destruct Hr as (r0 & <- & _). apply map_length.
Qed.
