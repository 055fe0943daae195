(** Independent specification of fuzzy outputs: the expected truth value of a machine whose factor
    entries are independent random bits, as a finite sum over all Boolean tables. *)
From Verif Require Import Base BaseR Spec.
Local Open Scope R_scope.

(** All lists of K bits; all tables of L columns of K bits. *)
Fixpoint bools (K : nat) : list (list bool) :=
  match K with
  | O => [[]]
  | S K' => flat_map (fun c => [true :: c; false :: c]) (bools K')
  end.
Fixpoint tables (K L : nat) : list (list (list bool)) :=
  match L with
  | O => [[]]
  | S L' => flat_map (fun t => map (fun c => c :: t) (bools K)) (tables K L')
  end.

(** Probability of a table when bit k of column l is 1 with probability [p k l], independently. *)
Definition table_weight (K L : nat) (p : nat -> nat -> R) (t : list (list bool)) : R :=
  Rprod (fun l => Rprod (fun k => if nth k (nth l t []) false then p k l else 1 - p k l) (seq 0 K)) (seq 0 L).

(** OUTER over columns of INNER over the bits of a column. *)
Definition table_holds (o i : lop) (K L : nat) (t : list (list bool)) : Prop :=
  lop_holds o L (fun l => lop_holds i K (fun k => nth k (nth l t []) false = true)).

(** [v] is the expectation of the quantity worth [hi] where the machine is true and [lo] elsewhere. *)
Definition is_expect (o i : lop) (K L : nat) (p : nat -> nat -> R) (hi lo v : R) : Prop :=
  forall val : list (list bool) -> R,
  (forall t, (table_holds o i K L t -> val t = hi) /\ (~ table_holds o i K L t -> val t = lo)) ->
  Rsum (fun t => table_weight K L p t * val t) (tables K L) = v.

(** Probability that the machine is true. *)
Definition is_prob (o i : lop) (K L : nat) (p : nat -> nat -> R) (v : R) : Prop := is_expect o i K L p 1 0 v.

(** Entries are probabilities. *)
Definition probs (v : list R) : Prop := Forall (fun x => 0 <= x <= 1) v.
(** A {-1,1} vector as a vector of certain probabilities. *)
Definition certain (v : vec) : list R := map (fun x => if (x =? 1)%Z then 1 else 0) v.
