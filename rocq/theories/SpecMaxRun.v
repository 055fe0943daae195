(** Specification vocabulary for machines with one layer on fixed two-dimensional data, in particular MAX-AND layers. *)
From Coq Require Import String Permutation.
From Verif Require Import Base BaseR Spec SpecR SpecMax SpecMachine SpecOrdinary Canon Fuzzy MaxMachine Machine Dispatch Inference.
Local Open Scope R_scope.

(** ** Dispersions of a MAX-AND layer *)
(** [ord] lists the latent dimensions in non-increasing order of dispersion. *)
Definition decreasing_order (lam : list R) (L : nat) (ord : list nat) : Prop :=
  Permutation ord (seq 0 L) /\ forall a b, (a < b < L)%nat -> nth (nth b ord 0%nat) lam 0 <= nth (nth a ord 0%nat) lam 0.
(** Column k of U replaced by its column l. *)
Definition replace_column (U : mat) (k l : nat) : mat := map (fun u => upd u k (nth l u 0%Z)) U.
(** [u] is [s] with its fractional part cut off. *)
Definition truncation (u s : R) : Prop := (exists k, u = IZR k) /\ Rabs (u - s) < 1 /\ (0 <= s -> 0 <= u <= s) /\ (s <= 0 -> s <= u <= 0).
(** Tables of log ratios of dispersions and of their complements. *)
Definition tables (L : nat) (lam : list R) (rt : rmat * rmat) : Prop := forall i j, (i <= L)%nat -> (j <= L)%nat ->
  rat2 (fst rt) i j = ln (nth i lam 0) - ln (nth j lam 0) /\ rat2 (snd rt) i j = ln (1 - nth i lam 0) - ln (1 - nth j lam 0).
(** [new] is the array of dispersions for factors A, B and data X: greedily, the dimension with the largest smoothed
    precision on what the dimensions before it leave unexplained; then the clamped one, not larger than the others. *)
Definition greedy_dispersions (A B X : mat) (N D L : nat) (new : list R) : Prop :=
  List.length new = S L /\ exists pi, Permutation pi (seq 0 L) /\
    (forall k, (k < L)%nat -> nth (nth k pi 0%nat) new 0 = precision A B X N D (firstn k pi) (nth k pi 0%nat) /\
       forall j, (k <= j < L)%nat -> precision A B X N D (firstn k pi) (nth j pi 0%nat) <= precision A B X N D (firstn k pi) (nth k pi 0%nat)) /\
    (forall l, (l <= L)%nat -> nth L new 0 <= nth l new 0) /\
    let rest := laplace (unexplained A B X N D (seq 0 L) 1) (unexplained A B X N D (seq 0 L) (-1)) in
    nth L new 0 <= rest /\ (nth L new 0 = rest \/ exists l, (l < L)%nat /\ nth L new 0 = nth l new 0).

(** ** Machines with one layer *)
(** Matrix 0 is fixed data, matrices 1 and 2 are the factors of layer 0, the only one; no clean-up is asked for. *)
Record single (w : world) (m : string) : Prop := {
  si_layers : List.length (layers w) = 1%nat;
  si_free : free w = [0%nat];
  si_mats : (3 <= List.length (mats w))%nat;
  si_layer : factors (get_lay w 0) = [1; 2]%nat /\ child (get_lay w 0) = 0%nat /\ model (get_lay w 0) = m /\ auto_clean (get_lay w 0) = false /\ auto_reset (get_lay w 0) = false;
  si_data : fixed (get_mat w 0) = FBool true;
  si_factor : forall i, i = 1%nat \/ i = 2%nat -> axis (get_mat w i) = Some (i - 1)%nat /\ layer_of (get_mat w i) = Some 0%nat /\ parents (get_mat w i) = [] /\
    (exists b, fixed (get_mat w i) = FBool b) /\ exists F, fixed_entries (get_mat w i) = A2 F;
  si_stored : forall i, (i < List.length (mats w))%nat -> (val (get_mat w i) < List.length (arrays w))%nat;
  si_apart : forall i j, (i < List.length (mats w))%nat -> (j < List.length (mats w))%nat -> i <> j -> val (get_mat w i) <> val (get_mat w j) }.
(** Data X of shape N x D, factors A and B of latent size L with entries -1 and 1. *)
Record holding (w : world) (N D L : nat) (A B X : mat) : Prop := {
  ho_sizes : (0 < N)%nat /\ (0 < D)%nat /\ (0 < L)%nat;
  ho_values : value w 0 = A2 X /\ value w 1 = A2 A /\ value w 2 = A2 B;
  ho_shapes : has_shape2 X N D /\ okmat N L A /\ okmat D L B }.

(** A machine with one MAX-AND layer: dispersions in (0,1), L of them and the clamped one, and their tables. *)
Record max_machine (w : world) (N D L : nat) (A B X : mat) (lam : list R) : Prop := {
  mm_single : single w "MAX-AND";
  mm_mats : List.length (mats w) = 3%nat;
  mm_holding : holding w N D L A B X;
  mm_disp : disp w 0 = LV lam /\ List.length lam = S L /\ Forall (fun p => 0 < p < 1) lam;
  mm_tables : exists rt, ratios (get_lay w 0) = Some rt /\ tables L lam rt;
  mm_sfct : forall i, i = 1%nat \/ i = 2%nat -> sfct (get_mat w i) = None \/ sfct (get_mat w i) = Some (FMax [i - 1; 2 - i])%nat;
  mm_lsfct : lsfct (lbda (get_lay w 0)) = None \/ lsfct (lbda (get_lay w 0)) = Some LfMax }.

(** The dispersions a new layer starts with. *)
Definition initial_dispersions (L : nat) : list R := repeat (8 / 10) L ++ [1 / 100].

(** ** What runs do *)
(** Events of a run without annealing: passes start by drawing an order, matrices and dispersions change as given. *)
Section Does.
Context (mstep : world -> nat -> world -> Prop) (lstep : world -> nat -> lval -> world -> Prop).
Inductive does : list event -> world -> world -> Prop :=
| do_none w : does [] w w
| do_sweep evs w w1 : does evs w w1 -> does (evs ++ [ESweep]) w (tick w1)
| do_matrix evs w w1 i w2 : does evs w w1 -> mstep w1 i w2 -> does (evs ++ [EMat i]) w w2
| do_dispersion evs w w1 l v w2 : does evs w w1 -> lstep w1 l v w2 -> does (evs ++ [ELbda l v]) w w2
| do_check evs w w1 l win : does evs w w1 -> does (evs ++ [ECheck l win]) w w1.
End Does.

(** Entries are visited in order; fixed ones are kept, each other entry z is proposed to become -z and that is accepted
    with the Metropolis probability for the log-odds [u n l], using the draw [r n l]. *)
Definition swept (u : nat -> nat -> R) (F : mat) (r : nat -> nat -> R) (N L : nat) (A A' : mat) : Prop :=
  okmat N L A' /\ forall n l, (n < N)%nat -> (l < L)%nat ->
    at2 A' n l = if (at2 F n l =? 1)%Z then at2 A n l else mg_flip (u n l) (at2 A n l) (r n l).
(** Row n when its entry l is visited. *)
Definition row_at (A A' : mat) (n l : nat) : vec := firstn l (row A' n) ++ skipn l (row A n).
(** What the update of a MAX-AND factor uses in place of the log-odds of entry (n, l) given everything else: those of
    entry [ord l] (truncated), if column [ord l] of the sibling U were its column l. Row n of the data is [x n]. *)
Definition max_resampled (lam : list R) (U : mat) (x : nat -> vec) (F : mat) (r : nat -> nat -> R) (N D L : nat) (A A' : mat) : Prop :=
  exists ord u, decreasing_order lam L ord /\ swept u F r N L A A' /\
    forall n l, (n < N)%nat -> (l < L)%nat -> exists s, truncation (u n l) s /\
      let k := nth l ord 0%nat in max_log_odds lam (row_at A A' n l) (replace_column U k l) (x n) D L k s.
(** What it ought to use, up to truncation. *)
Definition max_gibbs (lam : list R) (U : mat) (x : nat -> vec) (F : mat) (r : nat -> nat -> R) (N D L : nat) (A A' : mat) : Prop :=
  exists u, swept u F r N L A A' /\
    forall n l, (n < N)%nat -> (l < L)%nat -> exists s, truncation (u n l) s /\ max_log_odds lam (row_at A A' n l) U (x n) D L l s.
(** Rows and columns of the data. *)
Definition data_rows (X : mat) (n : nat) : vec := row X n.
Definition data_columns (X : mat) (N d : nat) : vec := map (fun n => at2 X n d) (seq 0 N).
(** An update of factor i in a MAX-AND machine; nothing else changes but the position in the random stream. *)
Section MaxUpdate.
Context (resampled : list R -> mat -> (nat -> vec) -> mat -> (nat -> nat -> R) -> nat -> nat -> nat -> mat -> mat -> Prop).
Definition max_update (o : oracle) (w : world) (i : nat) (w' : world) : Prop :=
  exists N D L A B X lam F M, max_machine w N D L A B X lam /\ fixed_entries (get_mat w i) = A2 F /\ w' = tick (put w i M) /\
    ((i = 1%nat /\ resampled lam B (data_rows X) F (o_cell o (clock w)) N D L A M) \/
     (i = 2%nat /\ resampled lam A (data_columns X N) F (o_cell o (clock w)) D N L B M)).
End MaxUpdate.
(** The dispersions become those for the present factors, with tables to match; nothing else changes. *)
Definition max_dispersions (w : world) (l : nat) (v : lval) (w' : world) : Prop :=
  exists N D L A B X lam new rt, max_machine w N D L A B X lam /\ l = 0%nat /\ v = LV new /\ greedy_dispersions A B X N D L new /\ tables L new rt /\
    w' = set_lay w 0 (with_ratios (get_lay (assign_disp w 0 v) 0) (Some rt)).
