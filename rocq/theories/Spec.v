(** Independent specification of logical operator machines: the six operators as quantified
    statements, a model as "OUTER over latent dimensions of INNER over factors". *)
From Coq Require Import String.
From Verif Require Import Base.
Local Open Scope Z_scope.

(** The six operators. *)
Inductive lop : Type := OR | NOR | AND | NAND | XOR | NXOR.

Definition lop_name (o : lop) : string :=
  match o with
  | OR => "OR" | NOR => "NOR" | AND => "AND" | NAND => "NAND" | XOR => "XOR" | NXOR => "NXOR"
  end.

(** Truth of an operator applied to the n propositions P 0, ..., P (n-1).
    XOR is "exactly one". *)
Definition lop_holds (o : lop) (n : nat) (P : nat -> Prop) : Prop :=
  match o with
  | OR   => exists i, (i < n)%nat /\ P i
  | NOR  => ~ exists i, (i < n)%nat /\ P i
  | AND  => forall i, (i < n)%nat -> P i
  | NAND => ~ forall i, (i < n)%nat -> P i
  | XOR  => exists i, ((i < n)%nat /\ P i) /\ forall j, (j < n)%nat -> P j -> j = i
  | NXOR => ~ exists i, ((i < n)%nat /\ P i) /\ forall j, (j < n)%nat -> P j -> j = i
  end.

(** 'OUTER-INNER' *)
Definition model_name (outer inner : lop) : string :=
  (lop_name outer ++ "-" ++ lop_name inner)%string.

(** The machine OUTER-INNER is true of the factor rows [rows] (one row of length L per factor). *)
Definition lom_true (outer inner : lop) (rows : list vec) (L : nat) : Prop :=
  lop_holds outer L (fun l =>
    lop_holds inner (List.length rows) (fun k => nth l (nth k rows []) 0 = 1)).

(** [x] is the {-1,1}-coded truth value of the machine. *)
Definition lom_output (outer inner : lop) (rows : list vec) (L : nat) (x : Z) : Prop :=
  (x = 1 /\ lom_true outer inner rows L) \/ (x = -1 /\ ~ lom_true outer inner rows L).

(** The eight models for which the package implements inference. *)
Definition implemented : list (lop * lop) :=
  [(OR, AND); (OR, NAND); (OR, XOR); (NAND, XOR);
   (XOR, AND); (XOR, XOR); (XOR, NXOR); (XOR, NAND)].

(** Inversion of a truth value when the flag is set. *)
Definition flagged (b : bool) (P : Prop) : Prop := if b then ~ P else P.

(** OUTER-INNER and OUTER'-INNER' are the same machine up to inversion of the output ([d]) and of
    all factors ([f]). *)
Definition same_up_to (d f : bool) (o i o' i' : lop) : Prop :=
  forall rows L, Forall (fun r => bin1 r /\ List.length r = L) rows ->
    (lom_true o i rows L <->
     flagged d (lom_true o' i' (if f then map (map Z.opp) rows else rows) L)).

(** [s] is half the change in agreement with the data when entry [l] of a factor row [z] goes from
    -1 to 1: each data point counts its value times the change in the machine's output. Data with
    one further axis (two factors) ... *)
Definition explained2 (o i : lop) (z : vec) (U : mat) (x : vec) (l D L : nat) (s : Z) : Prop :=
  exists up down : nat -> Z,
    (forall d, (d < D)%nat ->
       lom_output o i [upd z l 1; row U d] L (up d) /\
       lom_output o i [upd z l (-1); row U d] L (down d)) /\
    2 * s = Zsum (fun d => nth d x 0 * (up d - down d)) (seq 0 D).
(** ... and with two further axes (three factors). *)
Definition explained3 (o i : lop) (z : vec) (U V : mat) (x : mat) (l D M L : nat) (s : Z) : Prop :=
  exists up down : nat -> nat -> Z,
    (forall d m, (d < D)%nat -> (m < M)%nat ->
       lom_output o i [upd z l 1; row U d; row V m] L (up d m) /\
       lom_output o i [upd z l (-1); row U d; row V m] L (down d m)) /\
    2 * s = Zsum (fun d => Zsum (fun m => nth m (nth d x []) 0 * (up d m - down d m)) (seq 0 M))
                 (seq 0 D).
