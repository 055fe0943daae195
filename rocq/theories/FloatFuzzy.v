(** Fuzzy outputs in double precision: lom/_numba/lom_outputs_fuzzy.py:14-202, the selection of
    lom/_numba/lambda_updates_numba.py:35-51 and 72-88, and the means of traces (lom/machine.py:148-153, 417-422).
    The functions of Fuzzy.v once more, over an arbitrary arithmetic: with exact operations they are the functions of
    Fuzzy.v, with operations rounded to the nearest double (ties to even) what the compiled code computes.
    Simplifications: a double is the real number it stands for; the values are too small to overflow; the compiler
    evaluates in the order of the source and contracts no operations (numba's default, no fastmath). *)
From Coq Require Import String.
From Verif Require Import Base BaseR Fuzzy.
From Flocq Require Core.
Local Open Scope R_scope.

(** IEEE 754 double precision: 53 bits, smallest exponent -1074. *)
Definition rnd (x : R) : R := Generic_fmt.round Zaux.radix2 (FLT.FLT_exp (-1074) 53) Round_NE.ZnearestE x.
Record arith : Type := Arith { aadd : R -> R -> R; asub : R -> R -> R; amul : R -> R -> R }.
Definition exact : arith := Arith Rplus Rminus Rmult.
Definition double : arith := Arith (fun x y => rnd (x + y)) (fun x y => rnd (x - y)) (fun x y => rnd (x * y)).

Section Functions.
Context (a : arith).
Local Notation "x +' y" := (aadd a x y) (at level 50, left associativity).
Local Notation "x -' y" := (asub a x y) (at level 50, left associativity).
Local Notation "x *' y" := (amul a x y) (at level 40, left associativity).
(** The loops of Fuzzy.v (lom_outputs_fuzzy.py:19-21, 41-44, 39-45). *)
Definition a_prod (g : nat -> R) (L : nat) : R := fold_left (fun out l => out *' g l) (seq 0 L) 1.
Definition a_skip (g : nat -> R) (L l : nat) : R := fold_left (fun temp l' => if negb (Nat.eqb l l') then temp *' g l' else temp) (seq 0 L) 1.
Definition a_sum (g : nat -> R) (L : nat) : R := fold_left (fun out l => out +' g l) (seq 0 L) 0.

(** lom_outputs_fuzzy.py:14-22 *)
Definition a_OR_AND (z u : rvec) : R := 1 -' a_prod (fun l => 1 -' rat z l *' rat u l) (List.length z).
(** lom_outputs_fuzzy.py:25-33 *)
Definition a_OR_AND_3d (z u v : rvec) : R := 1 -' a_prod (fun l => 1 -' (rat z l *' rat u l *' rat v l)) (List.length z).
(** lom_outputs_fuzzy.py:37-46 *)
Definition a_XOR_AND (z u : rvec) : R :=
  a_sum (fun l => rat z l *' rat u l *' a_skip (fun l' => 1 -' rat z l' *' rat u l') (List.length z) l) (List.length z).
(** lom_outputs_fuzzy.py:49-58 *)
Definition a_XOR_AND_3d (z u v : rvec) : R :=
  a_sum (fun l => rat z l *' rat u l *' rat v l *' a_skip (fun l' => 1 -' rat z l' *' rat u l' *' rat v l') (List.length z) l) (List.length z).
(** lom_outputs_fuzzy.py:62-71 *)
Definition a_XOR_NAND (z u : rvec) : R :=
  a_sum (fun l => (1 -' rat z l *' rat u l) *' a_skip (fun l' => rat z l' *' rat u l') (List.length z) l) (List.length z).
(** lom_outputs_fuzzy.py:74-83 *)
Definition a_XOR_NAND_3d (z u v : rvec) : R :=
  a_sum (fun l => (1 -' rat z l *' rat u l *' rat v l) *' a_skip (fun l' => rat z l' *' rat u l' *' rat v l') (List.length z) l) (List.length z).
(** lom_outputs_fuzzy.py:87-92 *)
Definition a_OR_XOR (z u : rvec) : R := 1 -' a_prod (fun l => rat z l *' rat u l +' (1 -' rat z l) *' (1 -' rat u l)) (List.length z).
(** lom_outputs_fuzzy.py:95-103, with the signs of the code. *)
Definition a_OR_XOR_3d (z u v : rvec) : R :=
  1 -' a_prod (fun l => 1 -' rat z l *' (1 -' rat u l) *' (1 -' rat v l) +' rat u l *' (1 -' rat v l) *' (1 -' rat z l) +' rat v l *' (1 -' rat z l) *' (1 -' rat u l)) (List.length z).
(** lom_outputs_fuzzy.py:107-112 *)
Definition a_NAND_XOR (z u : rvec) : R := 1 -' a_prod (fun l => rat z l *' (1 -' rat u l) +' rat u l *' (1 -' rat z l)) (List.length z).
(** lom_outputs_fuzzy.py:115-123 *)
Definition a_NAND_XOR_3d (z u v : rvec) : R :=
  1 -' a_prod (fun l => rat z l *' (1 -' rat u l) *' (1 -' rat v l) +' rat v l *' (1 -' rat z l) *' (1 -' rat u l) +' rat u l *' (1 -' rat v l) *' (1 -' rat z l)) (List.length z).
(** lom_outputs_fuzzy.py:127-137 *)
Definition a_XOR_XOR (z u : rvec) : R :=
  a_sum (fun l => a_skip (fun l' => rat z l' *' rat u l' +' (1 -' rat z l') *' (1 -' rat u l')) (List.length z) l
    *' ((1 -' rat z l) *' rat u l +' (1 -' rat u l) *' rat z l)) (List.length z).
(** lom_outputs_fuzzy.py:140-145 *)
Definition a_p_XOR (z u v : R) : R := 3 *' z *' u *' v -' 2 *' (z *' u +' u *' v +' z *' v) +' z +' u +' v.
(** lom_outputs_fuzzy.py:148-158 *)
Definition a_XOR_XOR_3d (z u v : rvec) : R :=
  a_sum (fun l => a_skip (fun l' => 1 -' a_p_XOR (rat z l') (rat u l') (rat v l')) (List.length z) l
    *' a_p_XOR (rat z l) (rat u l) (rat v l)) (List.length z).
(** lom_outputs_fuzzy.py:162-172 *)
Definition a_XOR_NXOR (z u : rvec) : R :=
  a_sum (fun l => a_skip (fun l' => rat z l' *' (1 -' rat u l') +' (1 -' rat z l') *' rat u l') (List.length z) l
    *' (rat z l *' rat u l +' (1 -' rat u l) *' (1 -' rat z l))) (List.length z).
(** lom_outputs_fuzzy.py:175-185 *)
Definition a_XOR_NXOR_3d (z u v : rvec) : R :=
  a_sum (fun l => a_skip (fun l' => a_p_XOR (rat z l') (rat u l') (rat v l')) (List.length z) l
    *' (1 -' a_p_XOR (rat z l) (rat u l) (rat v l))) (List.length z).
(** lom_outputs_fuzzy.py:189-194 *)
Definition a_OR_NAND (z u : rvec) : R := 1 -' a_prod (fun l => rat z l *' rat u l) (List.length z).
(** lom_outputs_fuzzy.py:197-202 *)
Definition a_OR_NAND_3d (z u v : rvec) : R := 1 -' a_prod (fun l => rat z l *' rat u l *' rat v l) (List.length z).

(** lambda_updates_numba.py:35-51 *)
Definition a_output_2d (model : string) : option (rvec -> rvec -> R) :=
  if String.eqb model "OR-AND" then Some a_OR_AND
  else if String.eqb model "XOR-AND" then Some a_XOR_AND
  else if String.eqb model "XOR-NAND" then Some a_XOR_NAND
  else if String.eqb model "OR-XOR" then Some a_OR_XOR
  else if String.eqb model "NAND-XOR" then Some a_NAND_XOR
  else if String.eqb model "XOR-XOR" then Some a_XOR_XOR
  else if String.eqb model "XOR-NXOR" then Some a_XOR_NXOR
  else if String.eqb model "OR-NAND" then Some a_OR_NAND
  else None.
(** lambda_updates_numba.py:72-88 *)
Definition a_output_3d (model : string) : option (rvec -> rvec -> rvec -> R) :=
  if String.eqb model "OR-AND" then Some a_OR_AND_3d
  else if String.eqb model "XOR-AND" then Some a_XOR_AND_3d
  else if String.eqb model "XOR-NAND" then Some a_XOR_NAND_3d
  else if String.eqb model "OR-XOR" then Some a_OR_XOR_3d
  else if String.eqb model "NAND-XOR" then Some a_NAND_XOR_3d
  else if String.eqb model "XOR-XOR" then Some a_XOR_XOR_3d
  else if String.eqb model "XOR-NXOR" then Some a_XOR_NXOR_3d
  else if String.eqb model "OR-NAND" then Some a_OR_NAND_3d
  else None.
End Functions.

(** machine.py:148-153: [np.mean(self.trace, axis=0)] of int8 samples; numpy adds them up in double precision, one after
    the other, and divides. *)
Definition double_sum (xs : list Z) : R := fold_left (fun s x => rnd (s + IZR x)) xs 0.
Definition double_mean (xs : list Z) : R := rnd (double_sum xs / INR (List.length xs)).
(** machine.py:420: [(x.mean() + 1) * .5] *)
Definition double_prob (xs : list Z) : R := rnd (rnd (double_mean xs + 1) * (5 / 10)).
(** machine.py:413, 379: [2 * (x.mean() > 0) - 1] *)
Definition double_map (xs : list Z) : Z := if Rlt_dec 0 (double_mean xs) then 1%Z else (-1)%Z.
(** machine.py:429-437: [out += ...] for every sample, [out /= ...], [(1 + out) * .5], for one entry with outputs [xs]. *)
Definition double_mc (xs : list Z) : R := rnd (rnd (1 + rnd (double_sum xs / INR (List.length xs))) * (5 / 10)).
