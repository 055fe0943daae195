(** Model of lom/_numba/lom_outputs.py (deterministic outputs) and of the output-related part of
    lom/_numba/lambda_updates_numba.py.
    Simplification: numba integer counters are unbounded [Z]; each is at most 2 in the XOR loops
    because of the early return. *)
From Coq Require Import String.
From Verif Require Import Base.
Local Open Scope Z_scope.
Local Open Scope bool_scope.

(** Loop idiom of lom_outputs.py:41-44 and the like:
    [for l in range(n): if c(l): return 1] then [return -1]. *)
Fixpoint any_loop (c : nat -> bool) (ls : list nat) : Z :=
  match ls with
  | [] => -1
  | l :: ls' => if c l then 1 else any_loop c ls'
  end.

(** Loop idiom of lom_outputs.py:139-148 and the like: [xor_count] incremented when [c(l)],
    [if xor_count > 1: return -1] inside the loop, final test [xor_count == 1]. *)
Fixpoint xor_loop (c : nat -> bool) (ls : list nat) (xor_count : Z) : Z :=
  match ls with
  | [] => if xor_count =? 1 then 1 else -1
  | l :: ls' =>
      let k := if c l then xor_count + 1 else xor_count in
      if k >? 1 then -1 else xor_loop c ls' k
  end.

(** lom_outputs.py:40-44 *)
Definition OR_AND_product (u z : vec) : Z :=
  any_loop (fun l => (at1 u l =? 1) && (at1 z l =? 1)) (seq 0 (List.length u)).

(** lom_outputs.py:48-52 *)
Definition OR_AND_product_3d (Z_n U_d V_m : vec) : Z :=
  any_loop (fun l => (at1 Z_n l =? 1) && (at1 U_d l =? 1) && (at1 V_m l =? 1))
           (seq 0 (List.length Z_n)).

(** lom_outputs.py:87-91 *)
Definition OR_NAND_product (u z : vec) : Z :=
  any_loop (fun l => (at1 u l =? -1) || (at1 z l =? -1)) (seq 0 (List.length u)).

(** lom_outputs.py:95-99 *)
Definition OR_NAND_product_3d (u z v : vec) : Z :=
  any_loop (fun l => (at1 u l =? -1) || (at1 z l =? -1) || (at1 v l =? -1))
           (seq 0 (List.length u)).

(** lom_outputs.py:104-108 *)
Definition OR_XOR_product (u z : vec) : Z :=
  any_loop (fun l => negb (at1 u l =? at1 z l)) (seq 0 (List.length u)).

(** lom_outputs.py:112-116 *)
Definition OR_XOR_product_3d (u z v : vec) : Z :=
  any_loop (fun l => at1 u l + at1 z l + at1 v l =? -1) (seq 0 (List.length u)).

(** lom_outputs.py:121-125 *)
Definition NAND_XOR_product (u z : vec) : Z :=
  any_loop (fun l => at1 u l =? at1 z l) (seq 0 (List.length u)).

(** lom_outputs.py:129-133 *)
Definition NAND_XOR_product_3d (u z v : vec) : Z :=
  any_loop (fun l => negb (at1 u l + at1 z l + at1 v l =? -1)) (seq 0 (List.length u)).

(** lom_outputs.py:138-148 *)
Definition XOR_AND_product (u z : vec) : Z :=
  xor_loop (fun l => (at1 u l =? 1) && (at1 z l =? 1)) (seq 0 (List.length u)) 0.

(** lom_outputs.py:152-162 *)
Definition XOR_AND_product_3d (u z v : vec) : Z :=
  xor_loop (fun l => (at1 u l =? 1) && (at1 z l =? 1) && (at1 v l =? 1))
           (seq 0 (List.length u)) 0.

(** lom_outputs.py:167-177 *)
Definition XOR_XOR_product (u z : vec) : Z :=
  xor_loop (fun l => negb (at1 u l =? at1 z l)) (seq 0 (List.length u)) 0.

(** lom_outputs.py:181-191 *)
Definition XOR_XOR_product_3d (u z v : vec) : Z :=
  xor_loop (fun l => at1 u l + at1 z l + at1 v l =? -1) (seq 0 (List.length u)) 0.

(** lom_outputs.py:196-206 *)
Definition XOR_NXOR_product (u z : vec) : Z :=
  xor_loop (fun l => at1 u l =? at1 z l) (seq 0 (List.length u)) 0.

(** lom_outputs.py:210-220 *)
Definition XOR_NXOR_product_3d (u z v : vec) : Z :=
  xor_loop (fun l => negb (at1 u l + at1 z l + at1 v l =? -1)) (seq 0 (List.length u)) 0.

(** lom_outputs.py:225-235 *)
Definition XOR_NAND_product (u z : vec) : Z :=
  xor_loop (fun l => negb (at1 u l =? 1) || negb (at1 z l =? 1)) (seq 0 (List.length u)) 0.

(** lom_outputs.py:239-249 *)
Definition XOR_NAND_product_3d (u z v : vec) : Z :=
  xor_loop (fun l => negb (at1 u l =? 1) || negb (at1 z l =? 1) || negb (at1 v l =? 1))
           (seq 0 (List.length u)) 0.

(** lom_outputs.py:28-36.  The test [counter == q] follows the increment; the [for ... else]
    returns -1 when the loop ends without return. *)
Fixpoint qL_loop (c : nat -> bool) (ls : list nat) (q counter : Z) : Z :=
  match ls with
  | [] => -1
  | l :: ls' =>
      let k := if c l then counter + 1 else counter in
      if k =? q then 1 else qL_loop c ls' q k
  end.
Definition qL_AND_product (u z : vec) (q : Z) : Z :=
  qL_loop (fun l => (at1 u l =? 1) && (at1 z l =? 1)) (seq 0 (List.length u)) q 0.

(** lom_outputs.py:56-68.  Entries are 1 where both are 1, else 0 (not -1). *)
Definition OR_AND_product_expand (z u : vec) : mat :=
  map (fun n => map (fun d => if (at1 u d =? 1) && (at1 z n =? 1) then 1 else 0)
                    (seq 0 (List.length u)))
      (seq 0 (List.length z)).

(** lom_outputs.py:71-82 *)
Definition OR_AND_single_n (z : vec) (U : mat) : vec :=
  map (fun d => OR_AND_product z (row U d)) (seq 0 (nrows U)).

(** lom_outputs.py:16-23, written for an already allocated int8 array g (entries are accumulated
    and wrap at 8 bits on each in-place increment). *)
Definition compute_g (Z_ U g : mat) : mat :=
  map (fun n => map (fun d =>
         fold_left (fun acc l => if (at2 Z_ n l =? at2 U d l) && (at2 U d l =? 1)
                                 then wrap8 (acc + 1) else acc)
                   (seq 0 (ncols Z_)) (at2 g n d))
       (seq 0 (nrows U)))
      (seq 0 (nrows Z_)).

(** lambda_updates_numba.py:15-32 ([fuzzy=False], without 'qL-AND', whose function has a third
    argument).  Python returns [None] for an unknown name. *)
Definition get_scalar_output_function_2d (model : string) : option (vec -> vec -> Z) :=
  if String.eqb model "OR-AND" then Some OR_AND_product
  else if String.eqb model "XOR-AND" then Some XOR_AND_product
  else if String.eqb model "XOR-NAND" then Some XOR_NAND_product
  else if String.eqb model "OR-XOR" then Some OR_XOR_product
  else if String.eqb model "NAND-XOR" then Some NAND_XOR_product
  else if String.eqb model "XOR-XOR" then Some XOR_XOR_product
  else if String.eqb model "XOR-NXOR" then Some XOR_NXOR_product
  else if String.eqb model "OR-NAND" then Some OR_NAND_product
  else None.

(** lambda_updates_numba.py:54-71 ([fuzzy=False]) *)
Definition get_scalar_output_function_3d (model : string) : option (vec -> vec -> vec -> Z) :=
  if String.eqb model "OR-AND" then Some OR_AND_product_3d
  else if String.eqb model "XOR-AND" then Some XOR_AND_product_3d
  else if String.eqb model "XOR-NAND" then Some XOR_NAND_product_3d
  else if String.eqb model "OR-XOR" then Some OR_XOR_product_3d
  else if String.eqb model "NAND-XOR" then Some NAND_XOR_product_3d
  else if String.eqb model "XOR-XOR" then Some XOR_XOR_product_3d
  else if String.eqb model "XOR-NXOR" then Some XOR_NXOR_product_3d
  else if String.eqb model "OR-NAND" then Some OR_NAND_product_3d
  else None.

(** lambda_updates_numba.py:97-104: body of the function returned by [make_output_function_2d],
    for a given scalar function.  The prange loops write disjoint cells. *)
Definition output_function_2d (f : vec -> vec -> Z) (Z_ U : mat) : mat :=
  map (fun n => map (fun d => f (row Z_ n) (row U d)) (seq 0 (nrows U))) (seq 0 (nrows Z_)).

(** lambda_updates_numba.py:115-124 *)
Definition output_function_3d (f : vec -> vec -> vec -> Z) (Z_ U V : mat) : ten :=
  map (fun n => map (fun d => map (fun m => f (row Z_ n) (row U d) (row V m))
                                  (seq 0 (nrows V)))
                    (seq 0 (nrows U)))
      (seq 0 (nrows Z_)).
