(** Model of lom/_numba/posterior_score_fcts.py and of the dispatch in
    lom/_numba/matrix_updates_numba.py:74-154.
    The accumulator is an int64 inside the functions (unbounded here); the int16 return type of the
    two-factor functions is the explicit [wrap16]; the three-factor functions return int64. *)
From Coq Require Import String Ascii.
From Verif Require Import Base Outputs.
Local Open Scope Z_scope.
Local Open Scope bool_scope.

(** posterior_score_fcts.py:28-34 and the like: a flag set to True, with [break], as soon as the
    condition holds. *)
Fixpoint flag_loop (c : nat -> bool) (ls : list nat) : bool :=
  match ls with
  | [] => false
  | l :: ls' => if c l then true else flag_loop c ls'
  end.

(** posterior_score_fcts.py:90-97 and the like: [num_active] with the [> 1] break inside the [if]. *)
Fixpoint count_in_loop (c : nat -> bool) (ls : list nat) (num_active : Z) : Z :=
  match ls with
  | [] => num_active
  | l :: ls' =>
      if c l then
        if num_active + 1 >? 1 then num_active + 1 else count_in_loop c ls' (num_active + 1)
      else count_in_loop c ls' num_active
  end.

(** posterior_score_fcts.py:365-370 and the like: the [> 1] break after the [if]. *)
Fixpoint count_out_loop (c : nat -> bool) (ls : list nat) (num_active : Z) : Z :=
  match ls with
  | [] => num_active
  | l :: ls' =>
      let k := if c l then num_active + 1 else num_active in
      if k >? 1 then k else count_out_loop c ls' k
  end.

(** posterior_score_fcts.py:18-37 and the like: [score = 0; for d in range(D): score = body(score, d)] *)
Definition for_d (D : nat) (body : Z -> nat -> Z) : Z := fold_left body (seq 0 D) 0.

(** posterior_score_fcts.py:48-70 and the like: [for d in range(D): for m in range(M): score = body(score, d, m)] *)
Definition for_dm (D M : nat) (body : Z -> nat -> nat -> Z) : Z :=
  fold_left (fun s d => fold_left (fun s' m => body s' d m) (seq 0 M) s) (seq 0 D) 0.

(** posterior_score_fcts.py:12-37 *)
Definition posterior_score_OR_AND_2D (Z_n : vec) (U : mat) (X_n : vec) (l : nat) : Z :=
  let L := ncols U in
  wrap16 (for_d (nrows U) (fun score d =>
    if negb (at2 U d l =? 1) then score
    else if flag_loop (fun l' => (at1 Z_n l' =? 1) && (at2 U d l' =? 1) && negb (Nat.eqb l' l))
                      (seq 0 L)
         then score else score + at1 X_n d)).

(** posterior_score_fcts.py:42-70 *)
Definition posterior_score_OR_AND_3D (Z_n : vec) (U V : mat) (X_n : mat) (l : nat) : Z :=
  let L := ncols U in
  for_dm (nrows U) (nrows V) (fun score d m =>
    if negb (at2 U d l =? 1) || negb (at2 V m l =? 1) then score
    else if flag_loop (fun l' => (at1 Z_n l' =? 1) && (at2 U d l' =? 1) && (at2 V m l' =? 1)
                                 && negb (Nat.eqb l' l)) (seq 0 L)
         then score else score + at2 X_n d m).

(** posterior_score_fcts.py:75-104 *)
Definition posterior_score_XOR_AND_2D (Z_n : vec) (U : mat) (X_n : vec) (l : nat) : Z :=
  let L := ncols U in
  wrap16 (for_d (nrows U) (fun score d =>
    if negb (at2 U d l =? 1) then score
    else let num_active :=
           count_in_loop (fun l' => (at1 Z_n l' =? 1) && (at2 U d l' =? 1) && negb (Nat.eqb l' l))
                         (seq 0 L) 0 in
         if num_active =? 0 then score + at1 X_n d
         else if num_active =? 1 then score - at1 X_n d else score)).

(** posterior_score_fcts.py:108-140 *)
Definition posterior_score_XOR_AND_3D (Z_n : vec) (U V : mat) (X_n : mat) (l : nat) : Z :=
  let L := ncols U in
  for_dm (nrows U) (nrows V) (fun score d m =>
    if negb (at2 U d l =? 1) || negb (at2 V m l =? 1) then score
    else let num_active :=
           count_in_loop (fun l' => (at1 Z_n l' =? 1) && (at2 U d l' =? 1) && (at2 V m l' =? 1)
                                    && negb (Nat.eqb l' l)) (seq 0 L) 0 in
         if num_active =? 0 then score + at2 X_n d m
         else if num_active =? 1 then score - at2 X_n d m else score).

(** posterior_score_fcts.py:145-173 *)
Definition posterior_score_XOR_NAND_2D (Z_n : vec) (U : mat) (X_n : vec) (l : nat) : Z :=
  let L := ncols U in
  wrap16 (- for_d (nrows U) (fun score d =>
    if negb (at2 U d l =? 1) then score
    else let num_active :=
           count_in_loop (fun l' => (negb (at1 Z_n l' =? 1) || negb (at2 U d l' =? 1))
                                    && negb (Nat.eqb l' l)) (seq 0 L) 0 in
         if num_active =? 0 then score + at1 X_n d
         else if num_active =? 1 then score - at1 X_n d else score)).

(** posterior_score_fcts.py:177-205 (the [raise] after the [return] is unreachable) *)
Definition posterior_score_XOR_NAND_3D (Z_n : vec) (U V : mat) (X_n : mat) (l : nat) : Z :=
  let L := ncols U in
  - for_dm (nrows U) (nrows V) (fun score d m =>
    if negb (at2 U d l =? 1) || negb (at2 V m l =? 1) then score
    else let num_active :=
           count_in_loop (fun l' => (negb (at1 Z_n l' =? 1) || negb (at2 U d l' =? 1)
                                     || negb (at2 V m l' =? 1))
                                    && negb (Nat.eqb l' l)) (seq 0 L) 0 in
         if num_active =? 0 then score + at2 X_n d m
         else if num_active =? 1 then score - at2 X_n d m else score).

(** posterior_score_fcts.py:210-234 *)
Definition posterior_score_OR_NAND_2D (Z_n : vec) (U : mat) (X_n : vec) (l : nat) : Z :=
  let L := ncols U in
  wrap16 (- for_d (nrows U) (fun score d =>
    if at2 U d l =? -1 then score
    else if flag_loop (fun l' => ((at1 Z_n l' =? -1) || (at2 U d l' =? -1)) && negb (Nat.eqb l' l))
                      (seq 0 L)
         then score else score + at1 X_n d)).

(** posterior_score_fcts.py:238-261 *)
Definition posterior_score_OR_NAND_3D (Z_n : vec) (U V : mat) (X_n : mat) (l : nat) : Z :=
  let L := ncols U in
  - for_dm (nrows U) (nrows V) (fun score d m =>
    if (at2 U d l =? -1) || (at2 V m l =? -1) then score
    else if flag_loop (fun l' => ((at1 Z_n l' =? -1) || (at2 U d l' =? -1) || (at2 V m l' =? -1))
                                 && negb (Nat.eqb l' l)) (seq 0 L)
         then score else score + at2 X_n d m).

(** posterior_score_fcts.py:266-287 *)
Definition posterior_score_OR_XOR_2D (Z_n : vec) (U : mat) (X_n : vec) (l : nat) : Z :=
  let L := ncols U in
  wrap16 (- for_d (nrows U) (fun score d =>
    if flag_loop (fun l' => negb (at1 Z_n l' =? at2 U d l') && negb (Nat.eqb l' l)) (seq 0 L)
    then score else score + at1 X_n d * at2 U d l)).

(** posterior_score_fcts.py:291-312 *)
Definition posterior_score_OR_XOR_3D (Z_n : vec) (U V : mat) (X_n : mat) (l : nat) : Z :=
  let L := ncols U in
  for_dm (nrows U) (nrows V) (fun score d m =>
    if (at2 U d l =? 1) && (at2 V m l =? 1) then score
    else if flag_loop (fun l' => (at1 Z_n l' + at2 U d l' + at2 V m l' =? -1)
                                 && negb (Nat.eqb l' l)) (seq 0 L)
         then score else score + at2 X_n d m * at2 U d l * at2 V m l).

(** posterior_score_fcts.py:317-332 *)
Definition posterior_score_NAND_XOR_2D (Z_n : vec) (U : mat) (X_n : vec) (l : nat) : Z :=
  let L := ncols U in
  wrap16 (for_d (nrows U) (fun score d =>
    if flag_loop (fun l' => (at1 Z_n l' =? at2 U d l') && negb (Nat.eqb l' l)) (seq 0 L)
    then score else score + at1 X_n d * at2 U d l)).

(** posterior_score_fcts.py:336-356 *)
Definition posterior_score_NAND_XOR_3D (Z_n : vec) (U V : mat) (X_n : mat) (l : nat) : Z :=
  let L := ncols U in
  - for_dm (nrows U) (nrows V) (fun score d m =>
    if (at2 U d l =? 1) && (at2 V m l =? 1) then score
    else if flag_loop (fun l' => negb (at1 Z_n l' + at2 U d l' + at2 V m l' =? -1)
                                 && negb (Nat.eqb l' l)) (seq 0 L)
         then score else score + at2 X_n d m * at2 U d l * at2 V m l).

(** posterior_score_fcts.py:361-379 *)
Definition posterior_score_XOR_XOR_2D (Z_n : vec) (U : mat) (X_n : vec) (l : nat) : Z :=
  let L := ncols U in
  wrap16 (for_d (nrows U) (fun score d =>
    let num_active :=
      count_out_loop (fun l' => negb (at1 Z_n l' =? at2 U d l') && negb (Nat.eqb l' l)) (seq 0 L) 0 in
    if num_active =? 0 then score - at1 X_n d * at2 U d l
    else if num_active =? 1 then score + at1 X_n d * at2 U d l else score)).

(** posterior_score_fcts.py:383-407 *)
Definition posterior_score_XOR_XOR_3D (Z_n : vec) (U V : mat) (X_n : mat) (l : nat) : Z :=
  let L := ncols U in
  for_dm (nrows U) (nrows V) (fun score d m =>
    if (at2 U d l =? 1) && (at2 V m l =? 1) then score
    else let num_active :=
           count_out_loop (fun l' => (at1 Z_n l' + at2 U d l' + at2 V m l' =? -1)
                                     && negb (Nat.eqb l' l)) (seq 0 L) 0 in
         if num_active =? 0 then score + at2 X_n d m * at2 U d l * at2 V m l
         else if num_active =? 1 then score - at2 X_n d m * at2 U d l * at2 V m l else score).

(** posterior_score_fcts.py:412-430 *)
Definition posterior_score_XOR_NXOR_2D (Z_n : vec) (U : mat) (X_n : vec) (l : nat) : Z :=
  let L := ncols U in
  wrap16 (for_d (nrows U) (fun score d =>
    let num_active :=
      count_out_loop (fun l' => (at2 U d l' =? at1 Z_n l') && negb (Nat.eqb l' l)) (seq 0 L) 0 in
    if num_active =? 0 then score + at1 X_n d * at2 U d l
    else if num_active =? 1 then score - at1 X_n d * at2 U d l else score)).

(** posterior_score_fcts.py:434-458 *)
Definition posterior_score_XOR_NXOR_3D (Z_n : vec) (U V : mat) (X_n : mat) (l : nat) : Z :=
  let L := ncols U in
  for_dm (nrows U) (nrows V) (fun score d m =>
    if (at2 U d l =? 1) && (at2 V m l =? 1) then score
    else let num_active :=
           count_out_loop (fun l' => negb (at2 U d l' + at1 Z_n l' + at2 V m l' =? -1)
                                     && negb (Nat.eqb l' l)) (seq 0 L) 0 in
         if num_active =? 0 then score - at2 X_n d m * at2 U d l * at2 V m l
         else if num_active =? 1 then score + at2 X_n d m * at2 U d l * at2 V m l else score).

(** matrix_updates_numba.py:74-115, the two-factor names of [get_posterior_score_fct].
    (The 'OR_ALL' names refer to functions that do not exist.) *)
Definition get_posterior_score_fct_2d (model : string) : res (vec -> mat -> vec -> nat -> Z) :=
  if String.eqb model "OR_AND_2D" then Ok posterior_score_OR_AND_2D
  else if String.eqb model "OR_NAND_2D" then Ok posterior_score_OR_NAND_2D
  else if String.eqb model "OR_XOR_2D" then Ok posterior_score_OR_XOR_2D
  else if String.eqb model "NAND_XOR_2D" then Ok posterior_score_NAND_XOR_2D
  else if String.eqb model "XOR_AND_2D" then Ok posterior_score_XOR_AND_2D
  else if String.eqb model "XOR_XOR_2D" then Ok posterior_score_XOR_XOR_2D
  else if String.eqb model "XOR_NXOR_2D" then Ok posterior_score_XOR_NXOR_2D
  else if String.eqb model "XOR_NAND_2D" then Ok posterior_score_XOR_NAND_2D
  else Err NotImplementedError.

(** matrix_updates_numba.py:74-115, the three-factor names. *)
Definition get_posterior_score_fct_3d (model : string) : res (vec -> mat -> mat -> mat -> nat -> Z) :=
  if String.eqb model "OR_AND_3D" then Ok posterior_score_OR_AND_3D
  else if String.eqb model "OR_NAND_3D" then Ok posterior_score_OR_NAND_3D
  else if String.eqb model "OR_XOR_3D" then Ok posterior_score_OR_XOR_3D
  else if String.eqb model "NAND_XOR_3D" then Ok posterior_score_NAND_XOR_3D
  else if String.eqb model "XOR_AND_3D" then Ok posterior_score_XOR_AND_3D
  else if String.eqb model "XOR_XOR_3D" then Ok posterior_score_XOR_XOR_3D
  else if String.eqb model "XOR_NXOR_3D" then Ok posterior_score_XOR_NXOR_3D
  else if String.eqb model "XOR_NAND_3D" then Ok posterior_score_XOR_NAND_3D
  else Err NotImplementedError.

(** matrix_updates_numba.py:118-154, [get_parent_score_fct], two-factor names: the parent's score
    is its deterministic output. *)
Definition get_parent_score_fct_2d (model : string) : res (vec -> vec -> Z) :=
  if String.eqb model "OR_AND_2D" then Ok OR_AND_product
  else if String.eqb model "OR_NAND_2D" then Ok OR_NAND_product
  else if String.eqb model "OR_XOR_2D" then Ok OR_XOR_product
  else if String.eqb model "NAND_XOR_2D" then Ok NAND_XOR_product
  else if String.eqb model "XOR_AND_2D" then Ok XOR_AND_product
  else if String.eqb model "XOR_XOR_2D" then Ok XOR_XOR_product
  else if String.eqb model "XOR_NXOR_2D" then Ok XOR_NXOR_product
  else if String.eqb model "XOR_NAND_2D" then Ok XOR_NAND_product
  else Err NotImplementedError.

(** matrix_updates_numba.py:118-154, [get_parent_score_fct], three-factor names. *)
Definition get_parent_score_fct_3d (model : string) : res (vec -> vec -> vec -> Z) :=
  if String.eqb model "OR_AND_3D" then Ok OR_AND_product_3d
  else if String.eqb model "OR_NAND_3D" then Ok OR_NAND_product_3d
  else if String.eqb model "OR_XOR_3D" then Ok OR_XOR_product_3d
  else if String.eqb model "NAND_XOR_3D" then Ok NAND_XOR_product_3d
  else if String.eqb model "XOR_AND_3D" then Ok XOR_AND_product_3d
  else if String.eqb model "XOR_XOR_3D" then Ok XOR_XOR_product_3d
  else if String.eqb model "XOR_NXOR_3D" then Ok XOR_NXOR_product_3d
  else if String.eqb model "XOR_NAND_3D" then Ok XOR_NAND_product_3d
  else Err NotImplementedError.

(** matrix_update_wrappers.py:239-240: [(model + '-' + str(dim) + 'D').replace('-', '_')]. *)
Fixpoint replace_dash (s : string) : string :=
  match s with
  | EmptyString => EmptyString
  | String c s' => String (if Ascii.eqb c "-"%char then "_"%char else c) (replace_dash s')
  end.
Definition model_tag (model : string) (dim : string) : string :=
  replace_dash (model ++ "-" ++ dim ++ "D").
