(** Specification: the expected output of a MaxMachine whose factor entries are independent random bits. *)
From Verif Require Import Base BaseR Spec SpecF SpecMax.
Local Open Scope R_scope.

(** Column l of the table has both bits on. *)
Definition both_on (t : list (list bool)) (l : nat) : Prop := nth 0 (nth l t []) false = true /\ nth 1 (nth l t []) false = true.
(** [x] is the largest dispersion of a column with both bits on, [none] if there is no such column. *)
Definition top (lam : list R) (L : nat) (none : R) (t : list (list bool)) (x : R) : Prop :=
  (exists l, (l < L)%nat /\ both_on t l /\ nth l lam 0 = x /\ forall l', (l' < L)%nat -> both_on t l' -> nth l' lam 0 <= x) \/
  ((forall l, (l < L)%nat -> ~ both_on t l) /\ x = none).
(** [v] is the expectation of that when bit k of column l is on with probability [p k l], independently. *)
Definition is_expected_top (lam : list R) (L : nat) (p : nat -> nat -> R) (none v : R) : Prop :=
  forall val : list (list bool) -> R, (forall t, In t (tables 2 L) -> top lam L none t (val t)) ->
  Rsum (fun t => table_weight 2 L p t * val t) (tables 2 L) = v.
(** The L dispersions are different. *)
Definition distinct (lam : list R) (L : nat) : Prop := forall l l', (l < L)%nat -> (l' < L)%nat -> l <> l' -> nth l lam 0 <> nth l' lam 0.
(** Columns that can be on have dispersions in the same order as their products with the probability of being on. *)
Definition same_order (lam : list R) (L : nat) (p : nat -> R) : Prop :=
  forall l l', (l < L)%nat -> (l' < L)%nat -> l <> l' -> 0 < p l -> 0 < p l' -> (p l * nth l lam 0 < p l' * nth l' lam 0 <-> nth l lam 0 < nth l' lam 0).
(** The smallest dispersion of a dimension that is on in both rows, 0 if there is none. *)
Definition least (lam : list R) (rows : list vec) (L : nat) (x : R) : Prop :=
  min_active lam (nth 0 rows []) (nth 1 rows []) L x \/ (none_active (nth 0 rows []) (nth 1 rows []) L /\ x = 0).
