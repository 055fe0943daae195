(** Specification: ordinary machines, their joint posterior, and what a run does to them. *)
From Coq Require Import String.
From Verif Require Import Base BaseR Spec SpecR Invariance Canon Machine Dispatch Inference SpecMachine.
Local Open Scope R_scope.

(** ** Arrays *)
(** All rows of the same length. *)
Definition rectangular (a : arr) : Prop :=
  match a with
  | A2 m => has_shape2 m (nrows m) (ncols m)
  | A3 t => has_shape3 t (List.length t) (List.length (hd [] t)) (List.length (hd [] (hd [] t)))
  end.
Definition data_ok (a : arr) : Prop := rectangular a /\ ternary a.
Definition binary (a : arr) : Prop := exists n l, binary_matrix n l a.
(** No axis is longer than int16 counters can count. *)
Definition small (a : arr) : Prop := forall n, In n (shape_of a) -> (Z.of_nat n <= 32767)%Z.
(** i is a factor of some layer. *)
Definition is_factor (w : world) (i : nat) : Prop := exists l, (l < List.length (layers w))%nat /\ In i (factors (get_lay w l)).

(** ** Machines made of standard layers *)
(** What may be changed between calls: values (keeping shapes and kinds), fixed entries, Boolean fixed flags of
    factors, priors (of factors: before the first run, see C58), dispersions, annealing. Factors keep arrays of their own. *)
Definition adjusted (w w' : world) : Prop :=
  edited w w' /\
  (forall i, (i < List.length (mats w))%nat -> shape_of (value w' i) = shape_of (value w i) /\ (data_ok (value w i) -> data_ok (value w' i)) /\ (binary (value w i) -> binary (value w' i))) /\
  (forall i, (i < List.length (mats w))%nat -> (matrix2 (fixed_entries (get_mat w i)) -> matrix2 (fixed_entries (get_mat w' i))) /\ (exists b, fixed (get_mat w' i) = FBool b) /\
     0 < bprior (get_mat w' i) < 1 /\ sfct (get_mat w' i) = sfct (get_mat w i) /\ (sfct (get_mat w i) <> None -> bprior (get_mat w' i) = bprior (get_mat w i))) /\
  (forall i, In i (free w) -> fixed (get_mat w' i) = FBool true) /\
  (forall i, is_factor w i -> own_array w' i) /\
  (forall l, (l < List.length (layers w))%nat -> (exists x, disp w' l = LS x) /\ auto_clean (get_lay w' l) = false /\ auto_reset (get_lay w' l) = false /\
     0 < fst (beta (lbda (get_lay w' l))) /\ 0 < snd (beta (lbda (get_lay w' l))) /\ lsfct (lbda (get_lay w' l)) = lsfct (lbda (get_lay w l))).
(** A layer of model m may be put on top of c: on data, or, before the first run, on a factor of a two-factor layer
    that is not yet the child of two layers or of a layer of another model (see C12, C59). *)
Definition foundation (w : world) (c : nat) (m : string) : Prop :=
  (c < List.length (mats w))%nat /\ (matrix2 (value w c) -> small (value w c)) /\
  (In c (free w) \/
   sfct (get_mat w c) = None /\ (parents (get_mat w c) = [] \/ exists k, parents (get_mat w c) = [k] /\ model (get_lay w k) = m) /\
   exists l, (l < List.length (layers w))%nat /\ In c (factors (get_lay w l)) /\ List.length (factors (get_lay w l)) = 2%nat).
(** The random streams deliver permutations and numbers between 0 and 1. *)
Definition random (o : oracle) : Prop := fair o /\ forall k n l, is_draw (o_cell o k n l).
Inductive ordinary (o : oracle) : world -> Prop :=
| ord_new : ordinary o new_machine
| ord_array w a : ordinary o w -> ordinary o (set_arrays w (arrays w ++ [a])%list)
| ord_data w s ax w' : ordinary o w -> (forall a, s = Given a -> (a < List.length (arrays w))%nat /\ forall i, is_factor w i -> val (get_mat w i) <> a) ->
    add_matrix o w s ax (FBool true) = Ok w' -> data_ok (value w' (List.length (mats w))) -> ordinary o w'
| ord_layer w K c m m' inv invf w' : ordinary o w -> canonise_name m = Ok (m', inv, invf) -> In m' standard_models -> foundation w c m' ->
    add_layer o w K (Some c) None m = (w', Ok tt) -> ordinary o w'
| ord_layer_shape w K sh m m' inv invf w' : ordinary o w -> canonise_name m = Ok (m', inv, invf) -> In m' standard_models ->
    (List.length sh = 2%nat /\ Forall (fun n => (Z.of_nat n <= 32767)%Z) sh) \/ List.length sh = 3%nat -> Forall (fun n => (0 < n)%nat) sh -> add_layer o w K None (Some sh) m = (w', Ok tt) -> ordinary o w'
| ord_adjust w w' : ordinary o w -> adjusted w w' -> ordinary o w'
| ord_infer fuel cfg n s s' : ordinary o (wd s) -> infer fuel o cfg n s = Some (Ok s') -> ordinary o (wd s').

(** The machine without its stored update functions. *)
Definition strip (w : world) : world :=
  World (arrays w) (map (fun m => with_sfct m None) (mats w)) (map (fun y => with_lbda y (with_lsfct (lbda y) None)) (layers w)) (free w) (anneal w) (clock w).

(** ** The joint posterior of a machine *)
(** [outs m] computes the output of model m. *)
Definition outputs (outs : string -> list vec -> nat -> Z) : Prop := forall o i, In (o, i) implemented -> is_output o i (outs (model_name o i)).
Section Joint.
Context (outs : string -> list vec -> nat -> Z).
(** Likelihood of the data of layer l given its factors. *)
Definition layer_lik (w : world) (l : nat) : R :=
  match map (value w) (factors (get_lay w l)), value w (child (get_lay w l)), disp w l with
  | [A2 A; A2 B], A2 X, LS x => lik2 (outs (model (get_lay w l))) x X (nrows A) (nrows B) (ncols A) A B
  | [A2 A; A2 B; A2 C], A3 X, LS x => lik3 (outs (model (get_lay w l))) x X (nrows A) (nrows B) (nrows C) (ncols A) A B C
  | _, _, _ => 1
  end.
Definition factor_prior (w : world) (i : nat) : R :=
  match value w i with A2 A => prior (bprior (get_mat w i)) (nrows A) (ncols A) A | A3 _ => 1 end.
(** The product over all layers and all factors. *)
Definition joint (w : world) : R :=
  Rprod (layer_lik w) (seq 0 (List.length (layers w))) * Rprod (factor_prior w) (flat_map factors (layers w)).
(** The machine with another value for matrix i. *)
Definition put (w : world) (i : nat) (A : mat) : world := write w (val (get_mat w i)) (A2 A).
(** Correctly predicted and observed data points of a layer. *)
Definition layer_score (w : world) (l : nat) : nat * nat :=
  match map (value w) (factors (get_lay w l)), value w (child (get_lay w l)) with
  | [A2 A; A2 B], A2 X => (correct2 (outs (model (get_lay w l))) X (nrows A) (nrows B) (ncols A) A B, observed2 X (nrows A) (nrows B))
  | [A2 A; A2 B; A2 C], A3 X => (correct3 (outs (model (get_lay w l))) X (nrows A) (nrows B) (nrows C) (ncols A) A B C, observed3 X (nrows A) (nrows B) (nrows C))
  | _, _ => (0, 0)%nat
  end.

(** ** Steps *)
(** Matrix i is resampled, entry by entry, from the joint posterior given everything else; nothing else changes but the
    position in the random stream. *)
Definition gibbs_update (o : oracle) (w : world) (i : nat) (w' : world) : Prop :=
  exists A F N L, value w i = A2 A /\ okmat N L A /\ fixed_entries (get_mat w i) = A2 F /\
    w' = tick (put w i (ref_sweep (fun A' => joint (put w i A')) F (o_cell o (clock w)) N L A)).
(** The dispersion of layer l is set to the best value for the present factors and data; nothing else changes. *)
Definition dispersion_update (w : world) (l : nat) (v : lval) (w' : world) : Prop :=
  exists x, v = LS x /\ w' = assign_disp w l v /\
    best_dispersion (fst (layer_score w l)) (snd (layer_score w l)) (fst (beta (lbda (get_lay w l)))) (snd (beta (lbda (get_lay w l)))) x.
(** What the recorded events of a run did: passes start by drawing an order, updates are those above, checks change
    nothing, annealing assigns a dispersion (which value: C29). *)
Inductive explained (o : oracle) : list event -> world -> world -> Prop :=
| ex_none w : explained o [] w w
| ex_sweep evs w w1 : explained o evs w w1 -> explained o (evs ++ [ESweep]) w (tick w1)
| ex_matrix evs w w1 i w2 : explained o evs w w1 -> gibbs_update o w1 i w2 -> explained o (evs ++ [EMat i]) w w2
| ex_dispersion evs w w1 l v w2 : explained o evs w w1 -> dispersion_update w1 l v w2 -> explained o (evs ++ [ELbda l v]) w w2
| ex_check evs w w1 l win : explained o evs w w1 -> explained o (evs ++ [ECheck l win]) w w1
| ex_anneal evs w w1 l x : explained o evs w w1 -> explained o (evs ++ [EAnneal l (LS x)]) w (assign_disp w1 l (LS x)).
End Joint.

(** ** One update as a random move of matrix i *)
Definition with_cells (o : oracle) (r : nat -> nat -> R) : oracle :=
  {| o_perm := o_perm o; o_cell := fun _ => r; o_feature := o_feature o; o_ibp := o_ibp o; o_init := o_init o; o_argsort := o_argsort o; o_memory := o_memory o |}.
(** The value of matrix i after an update of the machine in which it has the value A, with the uniform draws r. *)
Definition move (o : oracle) (w : world) (i : nat) (A : mat) (r : nat -> nat -> R) : res mat :=
  bind (run_mat (with_cells o r) (put w i A) i) (fun w' => match value w' i with A2 A' => Ok A' | A3 _ => Err TypeError end).
