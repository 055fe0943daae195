(** Model of the generators of synthetic data: generate_random_tensor (lom/experiments.py) and
    generate_orm_product (lom/auxiliary_functions.py).
    Simplifications: floats are exact reals; the k-th number drawn by np.random.rand in a call is
    [rand k], in C order for arrays; sizes are natural numbers. *)
From Coq Require Import String.
From Verif Require Import Base BaseR Helpers.
Local Open Scope R_scope.

(** np.power on a base that is not negative (experiments.py:24; a negative base gives nan and is not modelled). *)
Definition power (x y : R) : R :=
  if Req_EM_T x 0 then (if Req_EM_T y 0 then 1 else 0) else Rpower x y.
(** experiments.py:24; [1 / L] is the division of python 3. *)
Definition d_f (d_t : R) (L K : nat) : R := power (1 - power (1 - d_t) (1 / INR L)) (1 / INR K).
(** experiments.py:29-31: np.random.rand(rows, L) > 1 - q; [off] numbers were drawn before. *)
Definition random_bits (rand : nat -> R) (off rows L : nat) (q : R) : list (list bool) :=
  map (fun n => map (fun l => Rltb (1 - q) (rand (off + (n * L + l))%nat)) (seq 0 L)) (seq 0 rows).
(** experiments.py:14-39. *)
Definition generate_random_tensor (rand : nat -> R) (L : nat) (dims : list nat) (noise density : R)
  : res (list (list (list bool)) * list (list (list bool)) * list (list (list bool)) * R) :=
  if Nat.eqb L 0 then Err ZeroDivisionError
  else
    let factor_density := d_f density L 3 in
    match dims with
    | [N; D; M] =>
        let Z_ := random_bits rand 0 N L factor_density in
        let U := random_bits rand (N * L) D L factor_density in
        let V := random_bits rand (N * L + D * L) M L factor_density in
        bind (boolean_tensor_product Z_ U V L L L) (fun X =>
        bind (add_bernoulli_noise_bool (fun k => rand (N * L + D * L + M * L + k)%nat) X noise) (fun X_noisy =>
          Ok (X_noisy, X, [Z_; U; V], factor_density)))
    | _ => Err ValueError
    end.

(** auxiliary_functions.py:640: np.array(np.random.rand(K, L) > .5, dtype=np.int8), [off] numbers having been drawn before. *)
Definition random_mat (rand : nat -> R) (off K L : nat) : mat :=
  map (fun n => map (fun l => if Rltb (1 / 2) (rand (off + (n * L + l))%nat) then 1%Z else 0%Z) (seq 0 L)) (seq 0 K).
(** auxiliary_functions.py:638-642, the loop of disjoint_columns_mat: at most [fuel] attempts; also returns the number of draws made so far. *)
Fixpoint disjoint_columns_mat (fuel : nat) (rand : nat -> R) (off K L : nat) : option (mat * nat) :=
  match fuel with
  | O => None
  | S fuel' =>
      let m := random_mat rand off K L in
      if all_columsn_are_disjoint m L then Some (m, (off + K * L)%nat)
      else disjoint_columns_mat fuel' rand (off + K * L) K L
  end.
(** auxiliary_functions.py:647: the product of two Boolean matrices under np.dot, as int8. *)
Definition bool_dot (Z_ U : mat) (L : nat) : mat :=
  map (fun z => map (fun u => if existsb (fun l => (nth l z 0 =? 1)%Z && (nth l u 0 =? 1)%Z) (seq 0 L) then 1%Z else 0%Z) U) Z_.
(** auxiliary_functions.py:650-652. *)
Definition to_pm (m : mat) : mat := map (map (fun x => 2 * x - 1)%Z) m.
(** auxiliary_functions.py:631-654: returns (U, Z, X). *)
Definition generate_orm_product (fuel : nat) (rand : nat -> R) (N D L : nat) : option (mat * mat * mat) :=
  match disjoint_columns_mat fuel rand 0 D L with
  | None => None
  | Some (U, off) =>
      match disjoint_columns_mat fuel rand off N L with
      | None => None
      | Some (Z_, _) => Some (to_pm U, to_pm Z_, to_pm (bool_dot Z_ U L))
      end
  end.
