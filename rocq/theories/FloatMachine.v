(** The updates of the factors of a machine in double precision: the closures of lom/matrix_update_wrappers.py:140-226 for
    the standard models (compute in Dispatch.v), with the functions of FloatSampling.v. [ex] is the C library's exponential
    function, [lg] is [scipy.special.logit] as computed (matrix_update_wrappers.py:142). Simplifications as in Dispatch.v and
    FloatSampling.v; the draws are an argument. *)
From Coq Require Import String.
From Verif Require Import Base BaseR Outputs Scores Sampling Machine Dispatch FloatFuzzy FloatSampling.
Local Open Scope R_scope.

(** matrix_update_wrappers.py:140-226. The closures of other kinds of layers (lines 48-137: MAX-AND, qL, IBP) are not modelled here
    (the theorems are about machines that have none). *)
Definition double_compute (ex lg : R -> R) (w : world) (i : nat) (rand : nat -> nat -> R) (f : fct) : res mat :=
  let m := get_mat w i in
  let sib k := bind (pick (siblings w i) k) (read2 w) in
  let kid lay := value w (child lay) in
  bind (read2 w i) (fun Z_ =>
  bind (as2 (fixed_entries m)) (fun F =>
  match f with
  | FLom n order p =>
      bind (own_layer w i) (fun lay => bind (sib 0%nat) (fun U => bind (axis2 order) (fun ax =>
      bind (child2 (kid lay)) (fun X => bind (scalar (lv (lbda lay))) (fun lb =>
      let '(A, B) := in_order ax Z_ U in double_sampler_2d ex n ax A B F X lb (lg p) rand)))))
  | FLom3 n order p =>
      bind (own_layer w i) (fun lay => bind (sib 0%nat) (fun U => bind (sib 1%nat) (fun V => bind (axis3 order) (fun ax =>
      bind (child3 (kid lay)) (fun X => bind (scalar (lv (lbda lay))) (fun lb =>
      let '(A, B, C) := match ax with 0%nat => (Z_, U, V) | 1%nat => (U, Z_, V) | _ => (U, V, Z_) end in
      double_sampler_3d ex n ax A B C F X lb (lg p) rand))))))
  | F11 n a order p =>
      bind (own_layer w i) (fun lay => bind (sib 0%nat) (fun U => bind (axis2 order) (fun ax =>
      bind (child2 (kid lay)) (fun X => bind (scalar (lv (lbda lay))) (fun lb => bind (parent_args w i 0) (fun '(a1, a2, la) =>
      let '(A, B) := in_order ax Z_ U in double_sampler_1c1p ex n a ax A B F X lb a1 a2 la (lg p) rand))))))
  | F01 a p =>
      bind (parent_args w i 0) (fun '(a1, a2, la) => double_sampler_0c1p ex a Z_ F a1 a2 la (lg p) rand)
  | F02 a b p =>
      bind (parent_args w i 0) (fun '(a1, a2, la) => bind (parent_args w i 1) (fun '(b1, b2, lb) =>
      double_sampler_0c2p ex a b Z_ F a1 a2 la b1 b2 lb (lg p) rand))
  | F12 n a b order p =>
      bind (own_layer w i) (fun lay => bind (sib 0%nat) (fun U => bind (axis2 order) (fun ax =>
      bind (child2 (kid lay)) (fun X => bind (scalar (lv (lbda lay))) (fun lb =>
      bind (parent_args w i 0) (fun '(a1, a2, la) => bind (parent_args w i 1) (fun '(b1, b2, lb2) =>
      let '(A, B) := in_order ax Z_ U in double_sampler_1c2p ex n a b ax A B F X lb a1 a2 la b1 b2 lb2 (lg p) rand)))))))
  | FMax _ | FqZ _ | FqU _ | Fqq | FIbp _ => Err NotImplementedError
  end)).
(** [mat.sampling_fct(mat)], machine.py:579: numba writes into the array. *)
Definition double_run (ex lg : R -> R) (w : world) (i : nat) (rand : nat -> nat -> R) : res world :=
  bind (of_option (sfct (get_mat w i)) TypeError) (fun f =>
  bind (double_compute ex lg w i rand f) (fun Z' => Ok (write w (val (get_mat w i)) (A2 Z')))).
