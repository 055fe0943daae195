(** Specification vocabulary for the clean-up of latent dimensions. *)
From Coq Require Import Sorted.
From Verif Require Import Base Clean.
Local Open Scope Z_scope.

(** Column l of a matrix. *)
Definition column (m : mat) (l : nat) : vec := map (fun r => nth l r 0) m.
(** Some factor never uses dimension l. *)
Definition inactive (ms : list mat) (l : nat) : Prop := exists m, In m ms /\ forall x, In x (column m l) -> x = -1.
(** Some factor has the same column in both dimensions; all factors do. *)
Definition shares (ms : list mat) (l l' : nat) : Prop := exists m, In m ms /\ column m l = column m l'.
Definition same_dim (ms : list mat) (l l' : nat) : Prop := forall m, In m ms -> column m l = column m l'.
(** Something to clean. *)
Definition redundant (ms : list mat) (L : nat) : Prop :=
  (exists l, (l < L)%nat /\ inactive ms l) \/ (exists l l', (l < l' < L)%nat /\ shares ms l l').
(** Some factor never uses dimension d, or has the same column in an earlier dimension that stays. *)
Definition superfluous (ms : list mat) (stays : nat -> Prop) (d : nat) : Prop := inactive ms d \/ exists d0, stays d0 /\ (d0 < d)%nat /\ shares ms d0 d.
(** Factors of a layer with latent size L: at least one factor, at least one row each. *)
Definition aligned (ms : list mat) (L : nat) : Prop := ms <> [] /\ Forall (fun m => m <> [] /\ has_cols m L) ms.
(** The matrix of the listed columns. *)
Definition restrict (keep : list nat) (m : mat) : mat := map (fun r => map (fun l => nth l r 0) keep) m.
(** An increasing list of dimensions below L. *)
Definition subset_of (L : nat) (keep : list nat) : Prop := StronglySorted lt keep /\ Forall (fun l => (l < L)%nat) keep.
Definition vals (fs : list cfactor) : list mat := map cf_val fs.
(** m' is m with the listed columns set to -1. *)
Definition cleared (L : nat) (rs : list nat) (m m' : mat) : Prop :=
  List.length m' = List.length m /\ has_cols m' L /\
  forall n l, (n < List.length m)%nat -> (l < L)%nat -> at2 m' n l = if existsb (Nat.eqb l) rs then -1 else at2 m n l.
(** Two neighbouring dimensions are never both inactive. *)
Definition no_inactive_neighbours (ms : list mat) (L : nat) : Prop :=
  forall l, (S l < L)%nat -> ~ (inactive ms l /\ inactive ms (S l)).
(** fixed_entries has the shape of a factor with latent size L. *)
Definition fe_ok (f : cfactor) (L : nat) : Prop := List.length (cf_fixed_entries f) = List.length (cf_val f) /\ has_cols (cf_fixed_entries f) L.
(** A factor with no fixed entry. *)
Definition cf (m : mat) : cfactor := {| cf_val := m; cf_fixed_entries := map (map (fun _ => 0)) m |}.
(** The rows of the factors at an index of the data. *)
Definition index_rows (ms : list mat) (idx : list nat) : list vec := map (fun p => nth (snd p) (fst p) []) (combine ms idx).
