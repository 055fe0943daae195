(** Specification vocabulary for machines and inference runs. *)
From Coq Require Import Permutation String.
From Verif Require Import Base BaseR Spec SpecR SpecClean Machine Dispatch Inference.

(** Entry of an array with two or three axes. *)
Definition entry (a : arr) (i j k : nat) : Z := match a with A2 m => at2 m i j | A3 t => at3 t i j k end.
Definition ternary (a : arr) : Prop := match a with A2 m => tern2 m | A3 t => tern3 t end.
(** Same shape, every entry times -1. *)
Definition opposite (a b : arr) : Prop := shape_of b = shape_of a /\ forall i j k, entry b i j k = (- entry a i j k)%Z.
(** A matrix of n rows and l columns with entries -1 and 1. *)
Definition binary_matrix (n l : nat) (a : arr) : Prop := exists m, a = A2 m /\ okmat n l m.
(** Every matrix has an array. *)
Definition stored (w : world) : Prop := Forall (fun m => val m < List.length (arrays w)) (mats w).

(** ** Runs, as recorded in the log *)

(** Successive values of the dispersion of layer l. *)
Fixpoint values_of (l : nat) (evs : list event) : list lval :=
  match evs with
  | [] => []
  | ELbda l' v :: evs' => if Nat.eqb l' l then v :: values_of l evs' else values_of l evs'
  | _ :: evs' => values_of l evs'
  end.
(** Successive values given to the dispersion of layer l by annealing. *)
Fixpoint anneal_values (l : nat) (evs : list event) : list lval :=
  match evs with
  | [] => []
  | EAnneal l' v :: evs' => if Nat.eqb l' l then v :: anneal_values l evs' else anneal_values l evs'
  | _ :: evs' => anneal_values l evs'
  end.
(** Number of passes over the matrices. *)
Fixpoint sweeps (evs : list event) : nat :=
  match evs with [] => 0 | ESweep :: evs' => S (sweeps evs') | _ :: evs' => sweeps evs' end.
Definition is_check (e : event) : bool := match e with ECheck _ _ => true | _ => false end.
Definition no_check (evs : list event) : Prop := forallb (fun e => negb (is_check e)) evs = true.
Definition last_n {A : Type} (n : nat) (l : list A) : list A := skipn (List.length l - n) l.
(** One pass: every matrix of [ms] once, in some order. *)
Definition pass (ms : list nat) (evs : list event) : Prop := exists p, Permutation p ms /\ evs = ESweep :: map EMat p.
(** Every dispersion of [ls] is updated once. *)
Definition dispersions (ls : list nat) (evs : list event) : Prop := exists v, evs = map (fun l => ELbda l (v l)) ls.
Definition annealed (ls : list nat) (evs : list event) : Prop := exists v, evs = map (fun l => EAnneal l (v l)) ls.
(** A full sweep. *)
Definition full_sweep (ms ls : list nat) (evs : list event) : Prop := exists a b, evs = (a ++ b)%list /\ pass ms a /\ dispersions ls b.
(** numpy's permutation permutes. *)
Definition fair (o : oracle) : Prop := forall k l, Permutation (o_perm o k l) l.

(** ** What a run of burn-in and sampling is made of *)

(** A check in round k, every [w] rounds: one per dispersion, each with the window it looks at. *)
Definition checks (ls : list nat) (w k : nat) (evs : list event) : Prop :=
  if Nat.eqb (Nat.modulo k w) 0 then exists win, evs = map (fun l => ECheck l (win l)) ls else evs = [].
(** k rounds of the pre-burn-in: a pass over the matrices, then (after the first [fix_] rounds) the dispersions. *)
Inductive pre_rounds (ms ls : list nat) (fix_ : Z) (ann : bool) : nat -> list event -> Prop :=
| pre_none : pre_rounds ms ls fix_ ann 0 []
| pre_more k evs a b : pre_rounds ms ls fix_ ann k evs -> pass ms a ->
    (if (fix_ <? Z.of_nat (S k))%Z then if ann then annealed ls b else dispersions ls b else b = []) ->
    pre_rounds ms ls fix_ ann (S k) (evs ++ a ++ b).
(** k rounds of the monitored burn-in. *)
Inductive rounds (ms ls : list nat) (w : nat) : nat -> list event -> Prop :=
| rounds_none : rounds ms ls w 0 []
| rounds_more k evs c b : rounds ms ls w k evs -> checks ls w (S k) c -> full_sweep ms ls b -> rounds ms ls w (S k) (evs ++ c ++ b).
(** k sampling iterations. *)
Inductive full_sweeps (ms ls : list nat) : nat -> list event -> Prop :=
| sweeps_none : full_sweeps ms ls 0 []
| sweeps_more k evs b : full_sweeps ms ls k evs -> full_sweep ms ls b -> full_sweeps ms ls (S k) (evs ++ b).

(** What a check ought to see: the last [w] values of the dispersion; the first check sees one value less and an
    entry that was never written. *)
Definition recorded (w : nat) (vs : list lval) (win : list (option lval)) : Prop := w <= List.length vs /\ win = map Some (last_n w vs).
Definition one_missing (w : nat) (vs : list lval) (win : list (option lval)) : Prop := S (List.length vs) = w /\ win = (map Some vs ++ [None])%list.

(** What updates of matrices and dispersions leave alone: everything but values. *)
Definition same_matrix (m m' : matrix) : Prop := with_val m' 0 = with_val m 0.
Definition same_layer (x x' : layer) : Prop := exists v r, x' = with_ratios (with_lbda x (with_lv (lbda x) v)) r.
Definition static (w w' : world) : Prop :=
  List.length (mats w') = List.length (mats w) /\ (forall i, same_matrix (get_mat w i) (get_mat w' i)) /\
  List.length (layers w') = List.length (layers w) /\ (forall l, same_layer (get_lay w l) (get_lay w' l)) /\
  free w' = free w /\ anneal w' = anneal w.

(** ** Convergence *)
(** Mean of a list; the two halves (the second one entry longer if the number is odd) have means whose logistic
    transforms differ by less than eps. *)
Definition avg (xs : list R) : R := (Rsum (fun x => x) xs / INR (List.length xs))%R.
Definition settled (e : R) (xs : list R) : Prop :=
  exists a b, xs = (a ++ b)%list /\ a <> [] /\ (List.length b = List.length a \/ List.length b = S (List.length a)) /\
    (Rabs (sigma (avg a) - sigma (avg b)) < e)%R.
(** The window with something in place of the unwritten entries. *)
Definition completes (win : list (option lval)) (vs : list lval) : Prop :=
  List.length vs = List.length win /\ forall j v, nth_error win j = Some (Some v) -> nth_error vs j = Some v.
Definition width (v : lval) : nat := match v with LS _ => 1 | LV v => List.length v end.
(** Component c of a dispersion; a number counts for every component. *)
Definition comp (c : nat) (v : lval) : R := match v with LS x => x | LV v => nth c v 0%R end.
Definition looks_converged (e : R) (n : nat) (win : list (option lval)) : Prop :=
  exists vs, completes win vs /\ forall c, c < n -> settled e (map (comp c) vs).
(** The values of the factors of a layer, if they are matrices. *)
Definition factor_values (w : world) (l : nat) (ms : list mat) : Prop := map (value w) (factors (get_lay w l)) = map A2 ms.
(** A layer flagged for clean-up that has something to clean. *)
Definition needs_cleaning (w : world) (l : nat) : Prop :=
  (auto_clean (get_lay w l) = true \/ auto_reset (get_lay w l) = true) /\
  exists ms L, factor_values w l ms /\ aligned ms L /\ redundant ms L.
(** Every check sees either the last w values recorded in this phase, or w - 1 values and an unwritten entry. *)
Definition checks_ok (w : nat) (evs : list event) : Prop :=
  forall a l win b, evs = (a ++ ECheck l win :: b)%list -> recorded w (values_of l a) win \/ one_missing w (values_of l a) win.
(** Burn-in ended because all dispersions looked converged in the last check and nothing needed cleaning. *)
Definition ended_by_convergence (cfg : settings) (ls : list nat) (w : world) (last : list event) : Prop :=
  (forall l, In l ls -> exists win, In (ECheck l win) last /\ looks_converged (eps cfg) (width (disp w l)) win) /\
  forall l, l < List.length (layers w) -> ~ needs_cleaning w l.

(** ** Machines made through the interface *)
(** Between calls a user may change anything except which objects are connected to which. *)
Definition edited (w w' : world) : Prop :=
  List.length (mats w') = List.length (mats w) /\ stored w' /\
  (forall i, axis (get_mat w' i) = axis (get_mat w i) /\ layer_of (get_mat w' i) = layer_of (get_mat w i) /\ parents (get_mat w' i) = parents (get_mat w i)) /\
  List.length (layers w') = List.length (layers w) /\
  (forall l, factors (get_lay w' l) = factors (get_lay w l) /\ child (get_lay w' l) = child (get_lay w l) /\
             model (get_lay w' l) = model (get_lay w l) /\ q (get_lay w' l) = q (get_lay w l)) /\
  (forall l, l < List.length (layers w') -> 1 <= width (disp w' l)) /\ free w' = free w.
Inductive built (o : oracle) : world -> Prop :=
| built_new : built o new_machine
| built_array w a : built o w -> built o (set_arrays w (arrays w ++ [a])%list)
| built_matrix w s ax fx w' : built o w -> (forall a, s = Given a -> a < List.length (arrays w)) -> add_matrix o w s ax fx = Ok w' -> built o w'
| built_layer w K c m w' : built o w -> c < List.length (mats w) -> add_layer o w K (Some c) None m = (w', Ok tt) -> built o w'
| built_layer_shape w K sh m w' : built o w -> add_layer o w K None (Some sh) m = (w', Ok tt) -> built o w'
| built_edit w w' : built o w -> edited w w' -> built o w'.

(** i is a factor of a layer, a matrix added on its own, or the thresholds of a qL-AND layer. *)
Definition is_member (w : world) (i : nat) : Prop :=
  (exists l, l < List.length (layers w) /\ In i (factors (get_lay w l))) \/ In i (free w) \/
  (exists l, l < List.length (layers w) /\ model (get_lay w l) = "qL-AND"%string /\ q (get_lay w l) = Some i).
(** Python's truth value of [fixed]. *)
Definition declared_fixed (f : fixedness) : Prop :=
  f = FBool true \/ exists a x, f = FArr a /\ concat a = [x] /\ x <> 0%Z.

(** ** Traces *)
(** One iteration: all matrices of [ms] in the order drawn, then all dispersions of [ls]. *)
Definition iteration (o : oracle) (ms ls : list nat) (w w' : world) : Prop :=
  exists p w1, Permutation p ms /\ foldM (run_mat o) p (tick w) = Ok w1 /\ foldM run_lbda ls w1 = Ok w'.
(** m' has n columns per row, holds m in its upper left part and -1 elsewhere; n0 rows were allocated. *)
Definition holds (n0 n : nat) (m m' : mat) : Prop :=
  List.length m' = Nat.min n0 (List.length m) /\
  forall r c, r < Nat.min n0 (List.length m) -> at2 m' r c = if Nat.ltb c (List.length (row m r)) then at2 m r c else if Nat.ltb c n then (-1)%Z else 0%Z.
(** The trace [t] of a matrix with values v 1, ..., v n. *)
Definition traces (v : nat -> arr) (n : nat) (t : mtrace) : Prop :=
  List.length (mcells t) = n /\ forall j, j < n -> nth_error (mcells t) j = Some (Some (v (S j))).
Definition traces_padded (n0 width : nat) (v : nat -> arr) (n : nat) (t : mtrace) : Prop :=
  List.length (mcells t) = n /\ forall j, j < n -> exists m m', v (S j) = A2 m /\ nth_error (mcells t) j = Some (Some (A2 m')) /\ ncols m <= width /\ holds n0 width m m'.
Definition ltraces (v : nat -> lval) (n : nat) (t : ltrace) : Prop :=
  List.length (lcells t) = n /\ forall j, j < n -> nth_error (lcells t) j = Some (Some (v (S j))).

(** ** Standard machines *)
Definition standard_models : list string :=
  ["OR-AND"; "OR-NAND"; "OR-XOR"; "NAND-XOR"; "XOR-AND"; "XOR-XOR"; "XOR-NXOR"; "XOR-NAND"]%string.
Definition matrix2 (a : arr) : Prop := exists m, a = A2 m.
Definition tensor3 (a : arr) : Prop := exists t, a = A3 t.
(** Settings with which the loops can run. *)
Definition usable (cfg : settings) : Prop := (0 <= burn_in_min cfg)%Z /\ window cfg <> 0 /\ print_step cfg <> 0.
(** If annealing takes place at all, it starts with the first round and its targets are not 0. *)
Definition annealable (cfg : settings) (w : world) : Prop :=
  anneal w = true -> (Z.max 0 (fix_lbda_iters cfg) < burn_in_min cfg)%Z ->
  fix_lbda_iters cfg = 0%Z /\ forall l, l < List.length (layers w) -> lfixed (lbda (get_lay w l)) = false -> disp w l <> LS 0.

(** ** What may change although it is declared fixed *)
(** Matrix j is updated by the IBP sampler. *)
Definition ibp_updated (w : world) (j : nat) : Prop :=
  (exists order, sfct (get_mat w j) = Some (FIbp order)) \/ (exists l, layer_of (get_mat w j) = Some l /\ model (get_lay w l) = "OR-AND-IBP"%string).
(** i is a sibling of such a matrix, or belongs to a layer flagged for clean-up. *)
Definition exposed (w : world) (i : nat) : Prop :=
  (exists j l, j <> i /\ layer_of (get_mat w j) = Some l /\ In i (factors (get_lay w l)) /\ ibp_updated w j) \/
  (exists l, (auto_clean (get_lay w l) = true \/ auto_reset (get_lay w l) = true) /\ In i (factors (get_lay w l))).
Definition own_array (w : world) (i : nat) : Prop := forall j, j < List.length (mats w) -> j <> i -> val (get_mat w j) <> val (get_mat w i).

(** ** Layers at work *)
(** Layer l has factors f (axis 0) and g (axis 1) with values A and B, data X and dispersion x. *)
Record layer2 (w : world) (l f g N D L : nat) (A B X : mat) (x : R) : Prop := {
  l2_layer : l < List.length (layers w) /\ factors (get_lay w l) = [f; g] /\ f <> g;
  l2_factors : (f < List.length (mats w) /\ axis (get_mat w f) = Some 0 /\ layer_of (get_mat w f) = Some l) /\
               (g < List.length (mats w) /\ axis (get_mat w g) = Some 1 /\ layer_of (get_mat w g) = Some l);
  l2_values : value w f = A2 A /\ value w g = A2 B /\ value w (child (get_lay w l)) = A2 X /\ disp w l = LS x;
  l2_shapes : okmat N L A /\ okmat D L B /\ has_shape2 X N D /\ tern2 X }.
Record layer3 (w : world) (l f g h N D M L : nat) (A B C : mat) (X : ten) (x : R) : Prop := {
  l3_layer : l < List.length (layers w) /\ factors (get_lay w l) = [f; g; h] /\ NoDup [f; g; h];
  l3_factors : (f < List.length (mats w) /\ axis (get_mat w f) = Some 0 /\ layer_of (get_mat w f) = Some l) /\
               (g < List.length (mats w) /\ axis (get_mat w g) = Some 1 /\ layer_of (get_mat w g) = Some l) /\
               (h < List.length (mats w) /\ axis (get_mat w h) = Some 2 /\ layer_of (get_mat w h) = Some l);
  l3_values : value w f = A2 A /\ value w g = A2 B /\ value w h = A2 C /\ value w (child (get_lay w l)) = A3 X /\ disp w l = LS x;
  l3_shapes : okmat N L A /\ okmat D L B /\ okmat M L C /\ has_shape3 X N D M }.
(** Matrix i of machine w is given its update function, after which the run may proceed, end, and the machine be
    edited: w' is a later state in which that function is still in place. *)
Definition set_up (w : world) (i : nat) (w' : world) : Prop :=
  sfct (get_mat w i) = None /\ exists w1, assign_mat w i = Ok w1 /\ edited w1 w' /\ sfct (get_mat w' i) = sfct (get_mat w1 i).
Definition set_up_disp (w : world) (l : nat) (w' : world) : Prop :=
  lsfct (lbda (get_lay w l)) = None /\ exists w1, assign_lbda w l = Ok w1 /\ edited w1 w' /\ lsfct (lbda (get_lay w' l)) = lsfct (lbda (get_lay w1 l)).
(** The update of i gives it the value Z and changes nothing else. *)
Definition updates_to (o : oracle) (w : world) (i : nat) (Z_ : mat) : Prop :=
  exists w', run_mat o w i = Ok w' /\ value w' i = A2 Z_ /\ layers w' = layers w /\ mats w' = mats w /\ free w' = free w /\
    forall a, a <> val (get_mat w i) -> get_arr w' a = get_arr w a.
