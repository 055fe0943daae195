(** Model of the fuzzy output functions: lom/_numba/lom_outputs_fuzzy.py,
    lom/_numba/lambda_updates_numba.py:35-162 and lom/auxiliary_functions.py:696-823.
    Floats are exact reals; prange loops are loops. *)
From Coq Require Import String.
From Verif Require Import Base BaseR Outputs Lops.
Local Open Scope R_scope.

(** float64 arrays of one and two dimensions, the arguments of lom_outputs_fuzzy.py:14-228. *)
Definition rvec := list R.
Definition rmat := list rvec.
Definition rat (v : rvec) (l : nat) : R := nth l v 0.

(** lom_outputs_fuzzy.py:19-21 and the like: [out = 1; for l in range(L): out *= g(l)] *)
Definition prod_loop (g : nat -> R) (L : nat) : R := fold_left (fun out l => out * g l) (seq 0 L) 1.
(** lom_outputs_fuzzy.py:41-44 and the like: [temp = 1.0; for l_prime in range(L): if l != l_prime: temp *= g(l_prime)] *)
Definition skip_loop (g : nat -> R) (L l : nat) : R :=
  fold_left (fun temp l' => if negb (Nat.eqb l l') then temp * g l' else temp) (seq 0 L) 1.
(** lom_outputs_fuzzy.py:39-45 and the like: [out = 0.0; for l in prange(L): ...; out += g(l)] *)
Definition sum_loop (g : nat -> R) (L : nat) : R := fold_left (fun out l => out + g l) (seq 0 L) 0.

(** lom_outputs_fuzzy.py:14-22 *)
Definition OR_AND_product_fuzzy (z u : rvec) : R :=
  1 - prod_loop (fun l => 1 - rat z l * rat u l) (List.length z).
(** lom_outputs_fuzzy.py:25-33 *)
Definition OR_AND_product_fuzzy_3d (z u v : rvec) : R :=
  1 - prod_loop (fun l => 1 - (rat z l * rat u l * rat v l)) (List.length z).
(** lom_outputs_fuzzy.py:37-46 *)
Definition XOR_AND_product_fuzzy (z u : rvec) : R :=
  sum_loop (fun l => rat z l * rat u l * skip_loop (fun l' => 1 - rat z l' * rat u l') (List.length z) l) (List.length z).
(** lom_outputs_fuzzy.py:49-58 *)
Definition XOR_AND_product_fuzzy_3d (z u v : rvec) : R :=
  sum_loop (fun l => rat z l * rat u l * rat v l
    * skip_loop (fun l' => 1 - rat z l' * rat u l' * rat v l') (List.length z) l) (List.length z).
(** lom_outputs_fuzzy.py:62-71 *)
Definition XOR_NAND_product_fuzzy (z u : rvec) : R :=
  sum_loop (fun l => (1 - rat z l * rat u l) * skip_loop (fun l' => rat z l' * rat u l') (List.length z) l) (List.length z).
(** lom_outputs_fuzzy.py:74-83 *)
Definition XOR_NAND_product_fuzzy_3d (z u v : rvec) : R :=
  sum_loop (fun l => (1 - rat z l * rat u l * rat v l)
    * skip_loop (fun l' => rat z l' * rat u l' * rat v l') (List.length z) l) (List.length z).
(** lom_outputs_fuzzy.py:87-92 *)
Definition OR_XOR_product_fuzzy (z u : rvec) : R :=
  1 - prod_loop (fun l => (rat z l * rat u l) + (1 - rat z l) * (1 - rat u l)) (List.length z).
(** lom_outputs_fuzzy.py:95-103. Only the first of the three summands is subtracted, as in the code. *)
Definition OR_XOR_product_fuzzy_3d (z u v : rvec) : R :=
  1 - prod_loop (fun l => 1 - rat z l * (1 - rat u l) * (1 - rat v l) +
                          rat u l * (1 - rat v l) * (1 - rat z l) +
                          rat v l * (1 - rat z l) * (1 - rat u l)) (List.length z).
(** lom_outputs_fuzzy.py:107-112 *)
Definition NAND_XOR_product_fuzzy (z u : rvec) : R :=
  1 - prod_loop (fun l => rat z l * (1 - rat u l) + rat u l * (1 - rat z l)) (List.length z).
(** lom_outputs_fuzzy.py:115-123 *)
Definition NAND_XOR_product_fuzzy_3d (z u v : rvec) : R :=
  1 - prod_loop (fun l => rat z l * (1 - rat u l) * (1 - rat v l) +
                          rat v l * (1 - rat z l) * (1 - rat u l) +
                          rat u l * (1 - rat v l) * (1 - rat z l)) (List.length z).
(** lom_outputs_fuzzy.py:127-137 *)
Definition XOR_XOR_product_fuzzy (z u : rvec) : R :=
  sum_loop (fun l => skip_loop (fun l' => rat z l' * rat u l' + (1 - rat z l') * (1 - rat u l')) (List.length z) l
    * ((1 - rat z l) * rat u l + (1 - rat u l) * rat z l)) (List.length z).
(** lom_outputs_fuzzy.py:140-145 *)
Definition p_XOR_fuzzy_3d (z u v : R) : R := 3 * z * u * v - 2 * (z * u + u * v + z * v) + z + u + v.
(** lom_outputs_fuzzy.py:148-158 *)
Definition XOR_XOR_product_fuzzy_3d (z u v : rvec) : R :=
  sum_loop (fun l => skip_loop (fun l' => 1 - p_XOR_fuzzy_3d (rat z l') (rat u l') (rat v l')) (List.length z) l
    * p_XOR_fuzzy_3d (rat z l) (rat u l) (rat v l)) (List.length z).
(** lom_outputs_fuzzy.py:162-172 *)
Definition XOR_NXOR_product_fuzzy (z u : rvec) : R :=
  sum_loop (fun l => skip_loop (fun l' => rat z l' * (1 - rat u l') + (1 - rat z l') * rat u l') (List.length z) l
    * ((rat z l * rat u l) + (1 - rat u l) * (1 - rat z l))) (List.length z).
(** lom_outputs_fuzzy.py:175-185 *)
Definition XOR_NXOR_product_fuzzy_3d (z u v : rvec) : R :=
  sum_loop (fun l => skip_loop (fun l' => p_XOR_fuzzy_3d (rat z l') (rat u l') (rat v l')) (List.length z) l
    * (1 - p_XOR_fuzzy_3d (rat z l) (rat u l) (rat v l))) (List.length z).
(** lom_outputs_fuzzy.py:189-194 *)
Definition OR_NAND_product_fuzzy (z u : rvec) : R :=
  1 - prod_loop (fun l => rat z l * rat u l) (List.length z).
(** lom_outputs_fuzzy.py:197-202 *)
Definition OR_NAND_product_fuzzy_3d (z u v : rvec) : R :=
  1 - prod_loop (fun l => rat z l * rat u l * rat v l) (List.length z).

(** lambda_updates_numba.py:35-51 (fuzzy=True); None when no name matches. *)
Definition get_scalar_output_function_2d_fuzzy (model : string) : option (rvec -> rvec -> R) :=
  if String.eqb model "OR-AND" then Some OR_AND_product_fuzzy
  else if String.eqb model "XOR-AND" then Some XOR_AND_product_fuzzy
  else if String.eqb model "XOR-NAND" then Some XOR_NAND_product_fuzzy
  else if String.eqb model "OR-XOR" then Some OR_XOR_product_fuzzy
  else if String.eqb model "NAND-XOR" then Some NAND_XOR_product_fuzzy
  else if String.eqb model "XOR-XOR" then Some XOR_XOR_product_fuzzy
  else if String.eqb model "XOR-NXOR" then Some XOR_NXOR_product_fuzzy
  else if String.eqb model "OR-NAND" then Some OR_NAND_product_fuzzy
  else None.
(** lambda_updates_numba.py:72-88 *)
Definition get_scalar_output_function_3d_fuzzy (model : string) : option (rvec -> rvec -> rvec -> R) :=
  if String.eqb model "OR-AND" then Some OR_AND_product_fuzzy_3d
  else if String.eqb model "XOR-AND" then Some XOR_AND_product_fuzzy_3d
  else if String.eqb model "XOR-NAND" then Some XOR_NAND_product_fuzzy_3d
  else if String.eqb model "OR-XOR" then Some OR_XOR_product_fuzzy_3d
  else if String.eqb model "NAND-XOR" then Some NAND_XOR_product_fuzzy_3d
  else if String.eqb model "XOR-XOR" then Some XOR_XOR_product_fuzzy_3d
  else if String.eqb model "XOR-NXOR" then Some XOR_NXOR_product_fuzzy_3d
  else if String.eqb model "OR-NAND" then Some OR_NAND_product_fuzzy_3d
  else None.

(** Real-valued arrays of any dimensionality (as [nd] in Lops.v). *)
Inductive ndR : Type :=
| LeafR (x : R)
| NodeR (l : list ndR).
Fixpoint ndR_build (shape : list nat) (f : list nat -> R) : ndR :=
  match shape with
  | [] => LeafR (f [])
  | n :: shape' => NodeR (map (fun i => ndR_build shape' (fun idx => f (i :: idx))) (seq 0 n))
  end.
Fixpoint ndR_get (a : ndR) (idx : list nat) : option R :=
  match a, idx with
  | LeafR x, [] => Some x
  | NodeR l, i :: idx' => match nth_error l i with Some b => ndR_get b idx' | None => None end
  | _, _ => None
  end.
Fixpoint ndR_has_shape (a : ndR) (shape : list nat) : Prop :=
  match shape with
  | [] => exists x, a = LeafR x
  | n :: shape' => exists l, a = NodeR l /\ List.length l = n /\ Forall (fun b => ndR_has_shape b shape') l
  end.

(** auxiliary_functions.py:696-736: [get_fuzzy_lop], on 1D arrays of probabilities. *)
Definition fuzzy_fn_AND (x : rvec) : R := Rprod (fun a => a) x.
Definition fuzzy_fn_OR (x : rvec) : R := 1 - Rprod (fun a => 1 - a) x.
Definition fuzzy_fn_XOR (x : rvec) : R :=
  Rsum (fun j => Rprod (fun a => a)
    (map (fun i => 1 - rat x i) (filter (fun i => negb (Nat.eqb i j)) (seq 0 (List.length x))) ++ [rat x j]))
    (seq 0 (List.length x)).
Definition fuzzy_fn_NAND (x : rvec) : R := 1 - Rprod (fun a => a) x.
Definition fuzzy_fn_NOR (x : rvec) : R := Rprod (fun a => 1 - a) x.
Definition fuzzy_fn_NXOR (x : rvec) : R :=
  1 - Rsum (fun j => Rprod (fun a => a)
    (map (fun i => 1 - rat x i) (filter (fun i => negb (Nat.eqb i j)) (seq 0 (List.length x))) ++ [rat x j]))
    (seq 0 (List.length x)).
Definition get_fuzzy_lop (name : string) : res (rvec -> R) :=
  let fix go (l : list (string * (rvec -> R))) :=
    match l with
    | [] => Err ValueError
    | (n, f) :: l' => if String.eqb n name then Ok f else go l'
    end in
  go [("OR"%string, fuzzy_fn_OR); ("NOR"%string, fuzzy_fn_NOR); ("AND"%string, fuzzy_fn_AND);
      ("NAND"%string, fuzzy_fn_NAND); ("XOR"%string, fuzzy_fn_XOR); ("NXOR"%string, fuzzy_fn_NXOR)].

(** auxiliary_functions.py:815-821: loop body of [lom_generate_data_fuzzy]. *)
Definition fuzzy_entry (outer_operator inner_operator : rvec -> R) (factors : list rmat) (L : nat) (index : list nat) : R :=
  let inner_logic (l : nat) :=
    map (fun i => 5 / 10 * (rat (nth (nth i index 0%nat) (nth i factors []) []) l + 1)) (seq 0 (List.length factors)) in
  outer_operator (map (fun l => inner_operator (inner_logic l)) (seq 0 L)).
(** auxiliary_functions.py:801-823 *)
Definition lom_generate_data_fuzzy (factors : list rmat) (model : string) : res ndR :=
  match factors with
  | [] => Err IndexError
  | f0 :: _ =>
      let L := ncols f0 in
      match split_dash model with
      | [outer_operator_name; inner_operator_name] =>
          bind (get_fuzzy_lop outer_operator_name) (fun outer_operator =>
          bind (get_fuzzy_lop inner_operator_name) (fun inner_operator =>
            Ok (ndR_build (map nrows factors)
                  (fun index => 2 * fuzzy_entry outer_operator inner_operator factors L index - 1))))
      | _ => Err ValueError
      end
  end.

(** auxiliary_functions.py:772-798 applied to real-valued factors: an entry counts as true iff it
    equals 1 exactly; the result is in {-1,1}. *)
Definition generate_entry_real (outer_operator inner_operator : list bool -> bool)
    (factors : list rmat) (L : nat) (index : list nat) : R :=
  let inner_logic (l : nat) :=
    map (fun i => if Req_EM_T (rat (nth (nth i index 0%nat) (nth i factors []) []) l) 1 then true else false)
        (seq 0 (List.length factors)) in
  2 * (if outer_operator (map (fun l => inner_operator (inner_logic l)) (seq 0 L)) then 1 else 0) - 1.
Definition lom_generate_data_real (factors : list rmat) (model : string) : res ndR :=
  match factors with
  | [] => Err IndexError
  | f0 :: _ =>
      let L := ncols f0 in
      match split_dash model with
      | [outer_operator_name; inner_operator_name] =>
          bind (get_lop outer_operator_name) (fun outer_operator =>
          bind (get_lop inner_operator_name) (fun inner_operator =>
            Ok (ndR_build (map nrows factors) (generate_entry_real outer_operator inner_operator factors L))))
      | _ => Err ValueError
      end
  end.

(** lambda_updates_numba.py:129-162: entrywise application to all tuples of rows. The three-factor
    version declares a two-dimensional return type; the model returns the three-dimensional array
    the body builds. *)
Definition output_function_2d_fuzzy (f : rvec -> rvec -> R) (Z_ U : rmat) : ndR :=
  ndR_build [nrows Z_; nrows U]
    (fun idx => f (nth (nth 0 idx 0%nat) Z_ []) (nth (nth 1 idx 0%nat) U [])).
Definition output_function_3d_fuzzy (f : rvec -> rvec -> rvec -> R) (Z_ U V : rmat) : ndR :=
  ndR_build [nrows Z_; nrows U; nrows V]
    (fun idx => f (nth (nth 0 idx 0%nat) Z_ []) (nth (nth 1 idx 0%nat) U []) (nth (nth 2 idx 0%nat) V [])).

(** auxiliary_functions.py:739-769, [lom_generate_data_fast] with [fuzzy=True]. *)
Definition lom_generate_data_fast_fuzzy (factors : list rmat) (model : string) : res ndR :=
  if negb (existsb (String.eqb model) implemented_loms) then lom_generate_data_real factors model
  else match factors with
       | [f0; f1] =>
           match get_scalar_output_function_2d_fuzzy model with
           | Some f => Ok (output_function_2d_fuzzy f f0 f1)
           | None => Err TypeError
           end
       | [f0; f1; f2] =>
           if String.eqb model "OR-AND" then
             match get_scalar_output_function_3d_fuzzy model with
             | Some f => Ok (output_function_3d_fuzzy f f0 f1 f2)
             | None => Err TypeError
             end
           else lom_generate_data_real factors model
       | _ => lom_generate_data_real factors model
       end.
