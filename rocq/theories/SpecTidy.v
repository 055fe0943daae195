(** Specification: machines whose layers are flagged for automatic clean-up, and what a run does to them. *)
From Coq Require Import String.
From Verif Require Import Base BaseR Spec SpecR SpecClean Machine Dispatch Inference SpecMachine SpecOrdinary.
Local Open Scope R_scope.

(** The machine with all clean-up flags off. *)
Definition unflag (y : layer) : layer :=
  Lay (factors y) (child y) (model y) (lbda y) (ratios y) (alpha y) (q y) (gamma y) false false (invert_data y) (invert_factors y).
Definition unflagged (w : world) : world := World (arrays w) (mats w) (map unflag (layers w)) (free w) (anneal w) (clock w).
Definition flagged (w : world) (l : nat) : Prop := auto_clean (get_lay w l) = true \/ auto_reset (get_lay w l) = true.
(** Flagged layers are on top: none of their factors is the data of another layer; and no axis of their data is empty. *)
Definition on_top (w : world) : Prop := forall l, (l < List.length (layers w))%nat -> flagged w l ->
  (forall i, In i (factors (get_lay w l)) -> parents (get_mat w i) = []) /\ forall n, In n (shape_of (value w (child (get_lay w l)))) -> n <> 0%nat.
(** An ordinary machine is built; flags are set on layers on top, values and settings are changed and inference is run,
    any number of times. *)
Inductive tidying (o : oracle) : world -> Prop :=
| ti_ordinary w : ordinary o w -> tidying o w
| ti_flags w w' : tidying o w -> unflagged w' = unflagged w -> on_top w' -> tidying o w'
| ti_adjust w w' : tidying o w -> adjusted (unflagged w) (unflagged w') -> on_top w' -> tidying o w'
| ti_infer fuel cfg n s s' : tidying o (wd s) -> infer fuel o cfg n s = Some (Ok s') -> tidying o (wd s').

(** A clean-up of layer l: it was due; superfluous dimensions are removed from, or (if the layer is flagged for it)
    reset in, all factors of the layer at once; nothing else changes. *)
Definition removed (L : nat) (ms ms' : list mat) : Prop :=
  exists keep, subset_of L keep /\ (List.length keep < L)%nat /\ (forall d, (d < L)%nat -> ~ In d keep -> superfluous ms (fun d0 => In d0 keep) d) /\ ms' = map (restrict keep) ms.
Definition resetted (L : nat) (ms ms' : list mat) : Prop :=
  exists rs, (forall d, In d rs -> (d < L)%nat /\ superfluous ms (fun d0 => ~ In d0 rs) d) /\ Forall2 (cleared L rs) ms ms'.
Record tidied (w : world) (l : nat) (w' : world) : Prop := {
  td_due : (l < List.length (layers w))%nat /\ needs_cleaning w l;
  td_dims : exists ms L ms', factor_values w l ms /\ aligned ms L /\ factor_values w' l ms' /\
    (removed L ms ms' \/ auto_reset (get_lay w l) = true /\ resetted L ms ms');
  td_rest : layers w' = layers w /\ free w' = free w /\ anneal w' = anneal w /\ clock w' = clock w /\ List.length (mats w') = List.length (mats w) /\
    (forall i, same_matrix (get_mat w i) (get_mat w' i)) /\
    forall i, (i < List.length (mats w))%nat -> ~ In i (factors (get_lay w l)) -> value w' i = value w i }.
(** What the recorded events of a run did, with clean-ups (which are not recorded) in between. *)
Inductive tidily (outs : string -> list vec -> nat -> Z) (o : oracle) : list event -> world -> world -> Prop :=
| ty_none w : tidily outs o [] w w
| ty_sweep evs w w1 : tidily outs o evs w w1 -> tidily outs o (evs ++ [ESweep]) w (tick w1)
| ty_matrix evs w w1 i w2 : tidily outs o evs w w1 -> gibbs_update outs o w1 i w2 -> tidily outs o (evs ++ [EMat i]) w w2
| ty_dispersion evs w w1 l v w2 : tidily outs o evs w w1 -> dispersion_update outs w1 l v w2 -> tidily outs o (evs ++ [ELbda l v]) w w2
| ty_check evs w w1 l win : tidily outs o evs w w1 -> tidily outs o (evs ++ [ECheck l win]) w w1
| ty_anneal evs w w1 l x : tidily outs o evs w w1 -> tidily outs o (evs ++ [EAnneal l (LS x)]) w (assign_disp w1 l (LS x))
| ty_clean evs w w1 l w2 : tidily outs o evs w w1 -> tidied w1 l w2 -> tidily outs o evs w w2.
(** Layer l has one {-1,1} factor per axis of its data, of matching sizes (at most 32767 for matrices) and a common latent size, and data in {-1,0,1}. *)
Definition in_shape (w : world) (l : nat) : Prop :=
  (exists f g N D L A B X x, layer2 w l f g N D L A B X x /\ (Z.of_nat N <= 32767)%Z /\ (Z.of_nat D <= 32767)%Z) \/
  (exists f g h N D M L A B C X x, layer3 w l f g h N D M L A B C X x /\ data_ok (A3 X)).
