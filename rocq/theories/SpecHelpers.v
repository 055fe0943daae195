(** Specification vocabulary for the helper functions. *)
From Verif Require Import Base BaseR.
Local Open Scope R_scope.

(** Sum of the first i probabilities. *)
Definition cumulative (p : list R) (i : nat) : R := Rsum (fun x => x) (firstn i p).
(** A draw of k distinct indices below n. *)
Definition is_draw (n k : nat) (idx : list nat) : Prop := NoDup idx /\ Forall (fun i => (i < n)%nat) idx /\ List.length idx = k.
(** Number of positions of a list satisfying a predicate on positions. *)
Definition count_pos (n : nat) (b : nat -> bool) : nat := List.length (filter b (seq 0 n)).
(** S is the integer part of a non-negative number. *)
Definition is_floor (S : nat) (x : R) : Prop := INR S <= x < INR S + 1.
(** Number of observed (non-zero) entries of X before (n,d) in C order. *)
Definition observed_before (X : mat) (D n d : nat) : nat :=
  List.length (filter (fun x => negb (x =? 0)%Z) (firstn (n * D + d) (concat X))).
(** i is the position of the first occurrence of x. *)
Definition first_at {A : Type} (s : list A) (x : A) (i : nat) : Prop :=
  nth_error s i = Some x /\ forall j, (j < i)%nat -> nth_error s j <> Some x.
(** No row has a 1 in two different columns. *)
Definition disjoint_columns (m : mat) (L : nat) : Prop :=
  forall r i j, In r m -> (i < L)%nat -> (j < L)%nat -> i <> j -> ~ (nth i r 0%Z = 1%Z /\ nth j r 0%Z = 1%Z).
(** The ones of column i are among the ones of column j. *)
Definition column_below (m : mat) (i j : nat) : Prop := forall r, In r m -> nth i r 0%Z = 1%Z -> nth j r 0%Z = 1%Z.
(** Probability of k successes in n draws. *)
Definition binomial (n k : nat) (q : R) : R := C n k * q ^ k * (1 - q) ^ (n - k).
(** Rising factorial a(a+1)...(a+k-1) and the beta-binomial weight of k successes in n draws (up to normalisation). *)
Fixpoint rising (a : R) (k : nat) : R := match k with O => 1 | S k' => rising a k' * (a + INR k') end.
Definition beta_binomial (n k : nat) (a b : R) : R := C n k * rising a k * rising b (n - k).
(** {-1,1} coding of a Boolean row. *)
Definition coded (r : list bool) : vec := map (fun b : bool => if b then 1 else -1)%Z r.
(** Number of non-missing entries. *)
Definition nobs (t : vec) : nat := count_pos (List.length t) (fun i => negb (at1 t i =? 0)%Z).
(** Data are a {-1,1} matrix or its {0,1} coding. *)
Definition codes (data base : mat) : Prop := data = base \/ data = map (map (fun x => if (x =? 1)%Z then 1%Z else 0%Z)) base.
