(** Specification vocabulary for experiments: indices and positions, predictions. *)
From Coq Require Import String.
From Verif Require Import Base BaseR Spec Canon Machine Fuzzy MaxMachine Experiments SpecHelpers SpecMachine SpecOrdinary.
Local Open Scope R_scope.

(** All indices into an array of the given shape, and the position of an index in C order. *)
Fixpoint indices (shape : list nat) : list (list nat) :=
  match shape with [] => [[]] | n :: sh => flat_map (fun i => map (cons i) (indices sh)) (seq 0 n) end.
Fixpoint position (shape idx : list nat) : nat :=
  match shape, idx with n :: sh, i :: ix => (i * fold_right Nat.mul 1 sh + position sh ix)%nat | _, _ => 0%nat end.
(** The value predicted for an entry that is 1 with probability p. *)
Definition predicted (tie : Z) (p : R) : Z := if Rltb (1 / 2) p then 1%Z else if Rltb p (1 / 2) then (-1)%Z else tie.
(** The share of the held-out entries of the data [truth] that the probabilities [p] predict; none if nothing is held out. *)
Definition rate (shape : list nat) (mask : list bool) (truth : vec) (tie : Z) (p : list nat -> R) : option R :=
  let held := filter (fun idx => nth (position shape idx) mask false) (indices shape) in
  let hits := filter (fun idx => (at1 truth (position shape idx) =? predicted tie (p idx))%Z) held in
  match held with [] => None | _ => Some (INR (List.length hits) / INR (List.length held)) end.
(** The training data of an experiment: an int8 array of the caller, or a value of another type. *)
Definition training_data (arrs : list arr) (s : source) (X : arr) : Prop :=
  match s with Given a => nth_error arrs a = Some X | Convert x => x = X | Shape _ => False end.
(** The machine of an experiment: one layer of model m with dispersion x, unfixed factors of L columns, on fixed data D. *)
Definition one_layer_machine (w : world) (D : arr) (m : string) (L : nat) (x : R) (an : bool) : Prop :=
  let n := List.length (shape_of D) in
  value w 0 = D /\ fixed (get_mat w 0) = FBool true /\ List.length (mats w) = S n /\ List.length (layers w) = 1%nat /\ child (get_lay w 0) = 0%nat /\ factors (get_lay w 0) = seq 1 n /\ model (get_lay w 0) = m /\
  disp w 0 = LS x /\ lfixed (lbda (get_lay w 0)) = false /\ anneal w = an /\
  forall k, (k < n)%nat -> fixed (get_mat w (S k)) = FBool false /\ binary_matrix (nth k (shape_of D) 0%nat) L (value w (S k)).
(** Admissible experiments: rectangular training data with entries -1, 0, 1 and no empty axis, mask and truth of the same
    size, held-out entries of the truth observed, and a start for annealing other than 0. *)
Definition admissible (arrs : list arr) (e : experiment) (X : arr) : Prop :=
  let shape := shape_of X in
  training_data arrs (e_train e) X /\ data_ok X /\ (matrix2 X -> small X) /\ (forall n, In n shape -> (0 < n)%nat) /\
  List.length (e_mask e) = fold_right Nat.mul 1%nat shape /\ List.length (e_truth e) = fold_right Nat.mul 1%nat shape /\
  (forall idx, In idx (indices shape) -> nth (position shape idx) (e_mask e) false = true -> at1 (e_truth e) (position shape idx) = 1%Z \/ at1 (e_truth e) (position shape idx) = (-1)%Z) /\
  (e_anneal e = true -> e_lbda e <> 0).
(** The model of the experiment is trained on negated data. *)
Definition inverts (e : experiment) : bool := match canonise_name (e_model e) with Ok (_, inv, _) => inv | Err _ => false end.

(** ** Grid search *)
(** A test set can be held out: some entry is observed, and for a balanced one both values occur. *)
Definition splittable (balanced : bool) (v : vec) : Prop := if balanced then In 1%Z v /\ In (-1)%Z v else exists x, In x v /\ x <> 0%Z.
(** Draws of the k-th attempt that can occur: indices without repetition of the required number of ones and minus ones. *)
Definition draws_ok (balanced : bool) (v : vec) (d : split_draws) : Prop :=
  balanced = true -> forall k S, is_floor S (INR (nobs v) * (1 / 10) ^ (k + 1) / 2) ->
    is_draw (count_pos (List.length v) (fun i => at1 v i =? 1)%Z) S (s_pos d k) /\ is_draw (count_pos (List.length v) (fun i => at1 v i =? -1)%Z) S (s_neg d k).
(** The j-th configuration: models vary slowest, repetitions fastest. *)
Definition model_at (ms : list string) (nL n j : nat) : string := nth (j / (nL * n)) ms ""%string.
Definition latent_at (Ls : list nat) (n j : nat) : nat := nth ((j / n) mod List.length Ls) Ls 0%nat.
Definition negates_data (m : string) : bool := match canonise_name m with Ok (_, inv, _) => inv | Err _ => false end.
(** T is X with the entries of the mask missing, which are observed in X. *)
Definition held_out (X T : arr) (mask : list bool) : Prop :=
  shape_of T = shape_of X /\ List.length (entries T) = List.length (entries X) /\ List.length mask = List.length (entries X) /\
  forall i, (i < List.length mask)%nat -> at1 (entries T) i = (if nth i mask false then 0%Z else at1 (entries X) i) /\ (nth i mask false = true -> at1 (entries X) i <> 0%Z).
(** The model can be run on data of this shape. *)
Definition runs_on (X : arr) (m : string) : Prop :=
  exists o i o' i' inv invf, m = model_name o i /\ canonise_name m = Ok (model_name o' i', inv, invf) /\ (matrix2 X \/ (o', i') = (OR, AND)).
