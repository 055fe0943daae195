(** Specification vocabulary for the IBP update. *)
From Coq Require Import Sorted.
From Verif Require Import Base BaseR Spec SpecR.
Local Open Scope R_scope.

(** Some row uses column l; some row other than n does. *)
Definition used (Z_ : mat) (N l : nat) : Prop := exists n, (n < N)%nat /\ at2 Z_ n l = 1%Z.
Definition used_elsewhere (Z_ : mat) (N n l : nat) : Prop := exists n', (n' < N)%nat /\ n' <> n /\ at2 Z_ n' l = 1%Z.
(** The columns of a row listed in [keep], followed by [new]. *)
Definition regroup (keep : list nat) (r new : vec) : vec := map (fun l => nth l r 0%Z) keep ++ new.

(** All assignments of k feature bits, their probability under P(1) = q, and the probability of a data point
    x in {-1,1} that only they can cover. *)
Fixpoint bit_lists (k : nat) : list (list bool) :=
  match k with
  | O => [[]]
  | S k' => map (cons true) (bit_lists k') ++ map (cons false) (bit_lists k')
  end.
Definition bits_prob (q : R) (u : list bool) : R := Rprod (fun b : bool => if b then q else 1 - q) u.
Definition marginal (lbda q : R) (k : nat) (x : Z) : R :=
  Rsum (fun u => bits_prob q u * sigma (lbda * IZR x * (if existsb (fun b => b) u then 1 else -1))) (bit_lists k).

Definition poisson (mean : R) (k : nat) : R := exp (- mean) * mean ^ k / INR (fact k).

(** Number of other rows using column l. *)
Definition popularity (Z_ : mat) (N n l : nat) : nat :=
  List.length (filter (fun n' => negb (Nat.eqb n' n) && (at2 Z_ n' l =? 1)%Z) (seq 0 N)).
(** Weight of value v for entry (n,l): IBP conditional prior m/N or 1 - m/N, times likelihood. *)
Definition ibp_weight (out : list vec -> nat -> Z) (lbda : R) (X : mat) (N D L : nat) (Z_ U : mat) (n l : nat) (v : Z) : R :=
  (if (v =? 1)%Z then INR (popularity Z_ N n l) / INR N else 1 - INR (popularity Z_ N n l) / INR N)
  * lik2 out lbda X N D L (set2 Z_ n l v) U.
(** Gibbs update of row n, column by column, of the columns used elsewhere. *)
Definition gibbs_row (out : list vec -> nat -> Z) (lbda : R) (X : mat) (N D L : nat) (U : mat) (n : nat) (r : nat -> R) (Z_ : mat) : mat :=
  fold_left (fun Zl l =>
    if Nat.ltb 0 (popularity Z_ N n l) then
      let w := ibp_weight out lbda X N D L Zl U n l in
      set2 Zl n l (if Rltb (r l) (w 1%Z / (w 1%Z + w (-1)%Z)) then 1%Z else (-1)%Z)
    else Zl) (seq 0 L) Z_.
(** The draw u selects k among 0, 1, 2 with the given weights. *)
Definition selects3 (w : nat -> R) (u : R) (k : nat) : Prop :=
  (k <= 2)%nat /\ Rsum w (seq 0 k) <= u * Rsum w (seq 0 3) < Rsum w (seq 0 (S k)).

(** The kept columns, with row entries zs, cover data column d. *)
Definition covered (keep : list nat) (zs : vec) (U : mat) (d : nat) : Prop :=
  exists i, (i < List.length keep)%nat /\ nth i zs 0%Z = 1%Z /\ at2 U d (nth i keep 0%nat) = 1%Z.
(** [w k] is the probability of the observed, uncovered points of row x when k further columns are turned on,
    each with feature probability q. *)
Definition new_columns_lik (lbda q : R) (x : vec) (D : nat) (cov : nat -> Prop) (w : nat -> R) : Prop :=
  exists c : nat -> bool, (forall d, (d < D)%nat -> (c d = true <-> cov d)) /\
  forall k, w k = Rprod (fun d => if c d || (nth d x 0%Z =? 0)%Z then 1 else marginal lbda q k (nth d x 0%Z)) (seq 0 D).

(** Gibbs draw of the entries of columns l of U, in the given order, under the weight [w]. *)
Definition gibbs_cells (w : mat -> R) (r : nat -> nat -> R) (cs : list (nat * nat)) (U : mat) : mat :=
  fold_left (fun Uc '(d, l) => set2 Uc d l (if Rltb (r l d) (w (set2 Uc d l 1) / (w (set2 Uc d l 1) + w (set2 Uc d l (-1)))) then 1%Z else (-1)%Z)) cs U.
