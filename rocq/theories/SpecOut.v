(** Specification vocabulary for layer outputs: well-formed sampled layers, selected rows, majority votes. *)
From Coq Require Import String.
From Verif Require Import Base BaseR Spec Lops Fuzzy LayerOutput.
Local Open Scope R_scope.

(** The rows picked by an index, one per factor. *)
Definition selected (fs : list mat) (index : list nat) : list vec := map (fun p => nth (snd p) (fst p) []) (combine fs index).

(** A factor with a {-1,1} state and T saved {-1,1} samples of the same shape. *)
Definition factor_ok (L T : nat) (f : factor) : Prop :=
  has_cols (f_val f) L /\ bin2 (f_val f) /\
  exists tr, f_trace f = Some tr /\ List.length tr = T /\
    Forall (fun m => List.length m = List.length (f_val f) /\ has_cols m L /\ bin2 m) tr.
(** A layer after sampling: T >= 1 samples of every factor and of the dispersion. *)
Definition sampled (s : lstate) (L T : nat) : Prop :=
  l_factors s <> [] /\ Forall (factor_ok L T) (l_factors s) /\ (1 <= T)%nat /\
  exists tr, l_lbda_trace s = Some tr /\ List.length tr = T.
(** The layer runs OUTER-INNER; the Indian-buffet variant has the outputs of OR-AND. *)
Definition is_model (s : lstate) (o i : lop) : Prop :=
  l_model s = model_name o i \/ (l_model s = "OR-AND-IBP"%string /\ o = OR /\ i = AND).
Definition sizes (s : lstate) : list nat := map (fun f => List.length (f_val f)) (l_factors s).
(** Sample t of all factors. *)
Definition sample (s : lstate) (t : nat) : list mat :=
  map (fun f => match f_trace f with Some tr => nth t tr [] | None => [] end) (l_factors s).
(** Strictly more than half of the samples have a 1 at (n,l). *)
Definition majority (tr : list mat) (n l : nat) : bool :=
  Nat.ltb (List.length tr) (2 * List.length (filter (fun m => at2 m n l =? 1)%Z tr)).
(** The matrix of majority signs. *)
Definition majority_of (f : factor) (m : mat) (L : nat) : Prop :=
  List.length m = List.length (f_val f) /\ has_cols m L /\
  forall n l, (n < List.length (f_val f))%nat -> (l < L)%nat ->
    at2 m n l = match f_trace f with Some tr => if majority tr n l then 1%Z else (-1)%Z | None => 0%Z end.
(** Every entry of an array of the given shape satisfies P. *)
Definition all_entries (a : ndR) (shape : list nat) (P : list nat -> R -> Prop) : Prop :=
  ndR_has_shape a shape /\ forall index, Forall2 lt index shape -> exists x, ndR_get a index = Some x /\ P index x.
(** Relative frequency of a 1 at (n,l) among the saved samples of a factor. *)
Definition frequency (f : factor) (n l : nat) : R :=
  match f_trace f with
  | Some tr => INR (List.length (filter (fun m => at2 m n l =? 1)%Z tr)) / INR (List.length tr)
  | None => 0
  end.
(** The factors whose fuzzy output is computed by a probability formula. *)
Definition fuzzy_supported (s : lstate) (o i : lop) : Prop :=
  (List.length (l_factors s) = 2%nat /\ In (o, i) implemented) \/ (List.length (l_factors s) = 3%nat /\ (o, i) = (OR, AND)).
(** Dispersions of a MAX-AND layer: one per dimension and the clamped one. *)
Definition is_disp (L : nat) (v : rvec) : Prop := List.length v = S L /\ Forall (fun p => 0 < p <= 1) v.
(** Two states that differ at most in the cached prediction. *)
Definition same_but_prediction (s s' : lstate) : Prop :=
  l_model s' = l_model s /\ l_factors s' = l_factors s /\ l_lbda s' = l_lbda s /\ l_lbda_trace s' = l_lbda_trace s /\
  l_child s' = l_child s /\ l_q s' = l_q s.

(** States for the examples: one data point; one-row factors with one saved sample. *)
Definition ex_factor (v t : vec) : factor := {| f_val := [v]; f_trace := Some [[t]] |}.
Definition ex_state (model : string) (fs : list factor) (lam : rvec) : lstate :=
  {| l_model := model; l_factors := fs; l_lbda := lam; l_lbda_trace := Some [lam];
     l_child := Node [Node [Leaf 1]]; l_q := [[2%Z]]; l_prediction := None |}.
