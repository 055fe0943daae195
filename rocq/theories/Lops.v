(** Model of the generic Boolean data generation in lom/auxiliary_functions.py. *)
From Coq Require Import String Ascii.
From Verif Require Import Base Outputs.
Local Open Scope Z_scope.
Local Open Scope bool_scope.

(** numpy arrays of any dimensionality, as trees: a 0-dimensional array is a leaf, an array of
    shape (n, ...) is a node with n sub-arrays. *)
Inductive nd : Type :=
| Leaf (x : Z)
| Node (l : list nd).

(** [out = np.zeros(shape)] followed by [for index, _ in np.ndenumerate(out): out[index] = f(index)]
    (the loop idiom of auxiliary_functions.py:782-798): the array of the given shape whose entry at
    [index] is [f index]. *)
Fixpoint nd_build (shape : list nat) (f : list nat -> Z) : nd :=
  match shape with
  | [] => Leaf (f [])
  | n :: shape' => Node (map (fun i => nd_build shape' (fun idx => f (i :: idx))) (seq 0 n))
  end.

(** [a[index]] *)
Fixpoint nd_get (a : nd) (idx : list nat) : option Z :=
  match a, idx with
  | Leaf x, [] => Some x
  | Node l, i :: idx' => match nth_error l i with Some b => nd_get b idx' | None => None end
  | _, _ => None
  end.

(** [a.shape == shape] *)
Fixpoint nd_has_shape (a : nd) (shape : list nat) : Prop :=
  match shape with
  | [] => exists x, a = Leaf x
  | n :: shape' => exists l, a = Node l /\ List.length l = n /\
                             Forall (fun b => nd_has_shape b shape') l
  end.

(** 2- and 3-dimensional arrays as trees. *)
Definition nd_of_vec (v : vec) : nd := Node (map Leaf v).
Definition nd_of_mat (m : mat) : nd := Node (map nd_of_vec m).
Definition nd_of_ten (t : ten) : nd := Node (map nd_of_mat t).

(** [s.split('-')], auxiliary_functions.py:781 (Python's str.split with a one-character separator). *)
Fixpoint split_dash (s : string) : list string :=
  match s with
  | EmptyString => [EmptyString]
  | String c s' =>
      if Ascii.eqb c "-"%char then EmptyString :: split_dash s'
      else match split_dash s' with
           | [] => [String c EmptyString]
           | h :: t => String c h :: t
           end
  end.

(** auxiliary_functions.py:657-693, [get_lop].  The operators are applied to Boolean arrays, for
    which [x == 1] is [x]; [~] on a numba or numpy boolean is negation; [np.sum] counts.
    The list is searched in order for the name. *)
Definition lop_fn_OR (x : list bool) : bool := existsb (fun b => b) x.
Definition lop_fn_NOR (x : list bool) : bool := negb (existsb (fun b => b) x).
Definition lop_fn_AND (x : list bool) : bool := forallb (fun b => b) x.
Definition lop_fn_NAND (x : list bool) : bool := negb (forallb (fun b => b) x).
Definition lop_fn_XOR (x : list bool) : bool :=
  Nat.eqb (List.length (filter (fun b => b) x)) 1.
Definition lop_fn_NXOR (x : list bool) : bool :=
  negb (Nat.eqb (List.length (filter (fun b => b) x)) 1).

Definition get_lop (name : string) : res (list bool -> bool) :=
  let fix go (l : list (string * (list bool -> bool))) :=
    match l with
    | [] => Err ValueError
    | (n, f) :: l' => if String.eqb n name then Ok f else go l'
    end in
  go [("OR"%string, lop_fn_OR); ("NOR"%string, lop_fn_NOR); ("AND"%string, lop_fn_AND);
      ("NAND"%string, lop_fn_NAND); ("XOR"%string, lop_fn_XOR); ("NXOR"%string, lop_fn_NXOR)].

(** auxiliary_functions.py:792-797: body of the loop of [lom_generate_data] for one [index].
    [inner_logic] is refilled for every l, [outer_logic] for every index. *)
Definition generate_entry (outer_operator inner_operator : list bool -> bool)
    (factors : list mat) (L : nat) (index : list nat) : Z :=
  let inner_logic (l : nat) :=
    map (fun i => at2 (nth i factors []) (nth i index 0%nat) l =? 1) (seq 0 (List.length factors)) in
  let outer_logic := map (fun l => inner_operator (inner_logic l)) (seq 0 L) in
  2 * (if outer_operator outer_logic then 1 else 0) - 1.

(** auxiliary_functions.py:772-798, [lom_generate_data].  [factors[0]] fails on an empty list;
    unpacking [model.split('-')] fails unless there are exactly two parts. *)
Definition lom_generate_data (factors : list mat) (model : string) : res nd :=
  match factors with
  | [] => Err IndexError
  | f0 :: _ =>
      let L := ncols f0 in
      match split_dash model with
      | [outer_operator_name; inner_operator_name] =>
          bind (get_lop outer_operator_name) (fun outer_operator =>
          bind (get_lop inner_operator_name) (fun inner_operator =>
            Ok (nd_build (map nrows factors)
                         (generate_entry outer_operator inner_operator factors L))))
      | _ => Err ValueError
      end
  end.

(** auxiliary_functions.py:991-993 *)
Definition implemented_loms : list string :=
  ["OR-AND"; "OR-NAND"; "OR-XOR"; "NAND-XOR"; "XOR-AND"; "XOR-XOR"; "XOR-NXOR"; "XOR-NAND"]%string.

(** [np.array(f, dtype=np.int8)] of an integer array. *)
Definition as_int8 (m : mat) : mat := map (map wrap8) m.

(** auxiliary_functions.py:739-769, [lom_generate_data_fast] with [fuzzy=False].  The selected
    scalar function exists for every implemented name; a missing one would be called as [None]. *)
Definition lom_generate_data_fast (factors : list mat) (model : string) : res nd :=
  if negb (existsb (String.eqb model) implemented_loms) then lom_generate_data factors model
  else match factors with
       | [f0; f1] =>
           match get_scalar_output_function_2d model with
           | Some f => Ok (nd_of_mat (output_function_2d f (as_int8 f0) (as_int8 f1)))
           | None => Err TypeError
           end
       | [f0; f1; f2] =>
           if String.eqb model "OR-AND" then
             match get_scalar_output_function_3d model with
             | Some f => Ok (nd_of_ten (output_function_3d f (as_int8 f0) (as_int8 f1) (as_int8 f2)))
             | None => Err TypeError
             end
           else lom_generate_data factors model
       | _ => lom_generate_data factors model
       end.
