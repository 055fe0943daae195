(** Model of [expected_density] (lom/auxiliary_functions.py:1021-1069).
    Simplifications: floats are exact reals; L and K are natural numbers and L-1, K-1 are cut off at 0
    (the theorems assume L, K >= 1; Python would raise to the power -1). *)
From Coq Require Import String.
From Verif Require Import Base BaseR Canon.
Local Open Scope R_scope.

(** auxiliary_functions.py:1025-1029 and 1046-1050 *)
Definition invert (x : R) : R := 1 - x.
Definition identity (x : R) : R := x.
Definition inv_fn (indicator : bool) : R -> R := if indicator then invert else identity.

(** auxiliary_functions.py:1021-1069. For an unknown name [get_lom_class] fails; [d] is always bound
    since it only returns the four groups. *)
Definition expected_density (model : string) (L K : nat) (f : R) : res R :=
  if String.eqb model "XOR-NXOR" || String.eqb model "NXOR-NXOR" then
    let Inv := if String.eqb model "NXOR-NXOR" then invert else identity in
    Ok (Inv (INR L * ((1 - INR K * f * (1 - f) ^ (K - 1)) * (INR K * f * (1 - f) ^ (K - 1)) ^ (L - 1))))
  else
    bind (get_lom_class model) (fun gi =>
      let '(model_group, (i0, i1, i2)) := gi in
      if String.eqb model_group "AND-AND" then Ok (inv_fn i0 (inv_fn i1 (inv_fn i2 f ^ K) ^ L))
      else if String.eqb model_group "XOR-AND" then
        Ok (inv_fn i0 (INR L * invert (inv_fn i1 (inv_fn i2 f ^ K)) ^ (L - 1) * inv_fn i1 (inv_fn i2 f ^ K)))
      else if String.eqb model_group "AND-XOR" then Ok (inv_fn i0 (inv_fn i1 (INR K * f * invert f ^ (K - 1)) ^ L))
      else if String.eqb model_group "XOR-XOR" then
        Ok (inv_fn i0 (INR L * inv_fn i1 (INR K * f * invert f ^ (K - 1) * (f ^ K + invert f ^ K) ^ (L - 1))))
      else Err UnboundLocalError).
