(** Model of the model-name canonicalisation in lom/auxiliary_functions.py. *)
From Coq Require Import String.
From Verif Require Import Base.
Local Open Scope string_scope.
Local Open Scope bool_scope.

(** auxiliary_functions.py:996-1018, [replace_equivalent_model] with the default pairs. *)
Definition equivalent_pairs : list (string * string) :=
  [("OR-AND", "NAND-NAND");
   ("OR-NOR", "NAND-OR");
   ("AND-OR", "NOR-NOR");
   ("AND-NAND", "NOR-AND");
   ("OR-OR", "NAND-NOR");
   ("OR-NAND", "NAND-AND");
   ("AND-AND", "NOR-NAND");
   ("AND-NOR", "NOR-OR");
   ("NAND-XOR", "OR-NXOR");
   ("AND-XOR", "NOR-NXOR");
   ("OR-XOR", "NAND-NXOR");
   ("NOR-XOR", "AND-NXOR")].

Definition replace_equivalent_model (model : string) : string :=
  if existsb (String.eqb model) (map snd equivalent_pairs)
  then match map fst (filter (fun pair => String.eqb (snd pair) model) equivalent_pairs) with
       | m :: _ => m
       | [] => model
       end
  else model.

(** auxiliary_functions.py:826-961, the name translation of [canonise_model]: new name,
    [invert_data], [invert_factors]; [Err NotImplementedError] in the final [else].
    Lines 873 and 876 compare [model] rather than [model_new]; kept.
    The effect [child.val *= -1] (lines 944 and 954) is in Machine.v; printing is omitted, and so is
    the debugger call before the raise. *)
Definition canonise_name (model : string) : res (string * bool * bool) :=
  let model_new := replace_equivalent_model model in
  if String.eqb model_new "OR-AND" then Ok (model_new, false, false)
  else if String.eqb model_new "AND-NAND" then Ok ("OR-AND", true, false)
  else if String.eqb model_new "OR-NOR" then Ok ("OR-AND", false, true)
  else if String.eqb model_new "AND-OR" then Ok ("OR-AND", true, true)
  else if String.eqb model_new "OR-NAND" then Ok (model_new, false, false)
  else if String.eqb model_new "AND-AND" then Ok ("OR-NAND", true, false)
  else if String.eqb model_new "OR-OR" then Ok ("OR-NAND", false, true)
  else if String.eqb model_new "AND-NOR" then Ok ("OR-NAND", true, true)
  else if String.eqb model_new "XOR-AND" then Ok (model_new, false, false)
  else if String.eqb model_new "XOR-NOR" then Ok ("XOR-AND", false, true)
  else if String.eqb model "NXOR-AND" then Ok ("XOR-AND", true, false)
  else if String.eqb model "NXOR-NOR" then Ok ("XOR-AND", true, true)
  else if String.eqb model_new "XOR-NAND" then Ok (model_new, false, false)
  else if String.eqb model_new "XOR-OR" then Ok ("XOR-NAND", false, true)
  else if String.eqb model_new "NXOR-NAND" then Ok ("XOR-NAND", true, false)
  else if String.eqb model_new "NXOR-OR" then Ok ("XOR-NAND", true, true)
  else if String.eqb model_new "NAND-XOR" then Ok (model_new, false, false)
  else if String.eqb model_new "AND-XOR" then Ok ("NAND-XOR", true, false)
  else if String.eqb model_new "OR-XOR" then Ok (model_new, false, false)
  else if String.eqb model_new "NOR-XOR" then Ok ("OR-XOR", true, false)
  else if String.eqb model_new "XOR-NXOR" then Ok (model_new, false, false)
  else if String.eqb model_new "NXOR-NXOR" then Ok ("XOR-NXOR", true, false)
  else if String.eqb model_new "XOR-XOR" then Ok (model_new, false, false)
  else if String.eqb model_new "NXOR-XOR" then Ok ("XOR-XOR", true, false)
  else if String.eqb model_new "MAX-AND" then Ok (model_new, false, false)
  else if String.eqb model_new "OR-AND-IBP" then Ok (model_new, false, false)
  else if String.eqb model_new "qL-AND" then Ok (model_new, false, false)
  else Err NotImplementedError.

(** auxiliary_functions.py:1111-1199, [get_lom_class]: class name and the three inversion flags
    [I_outer, I_hidden, I_inner].  For an unknown name [Inv] is unbound; the bare [except] then
    drops into the debugger. *)
Definition get_lom_class (machine : string) : res (string * (bool * bool * bool)) :=
  let is s := String.eqb machine s in
  if is "AND-AND" || is "NOR-NAND" then Ok ("AND-AND", (false, false, false))
  else if is "AND-NOR" || is "NOR-OR" then Ok ("AND-AND", (false, false, true))
  else if is "OR-NAND" || is "NAND-AND" then Ok ("AND-AND", (true, false, false))
  else if is "OR-OR" || is "NAND-NOR" then Ok ("AND-AND", (true, false, true))
  else if is "AND-NAND" || is "NOR-AND" then Ok ("AND-AND", (false, true, false))
  else if is "AND-OR" || is "NOR-NOR" then Ok ("AND-AND", (false, true, true))
  else if is "OR-AND" || is "NAND-NAND" then Ok ("AND-AND", (true, true, false))
  else if is "OR-NOR" || is "NAND-OR" then Ok ("AND-AND", (true, true, true))
  else if is "XOR-AND" then Ok ("XOR-AND", (false, false, false))
  else if is "XOR-NOR" then Ok ("XOR-AND", (false, false, true))
  else if is "NXOR-AND" then Ok ("XOR-AND", (true, false, false))
  else if is "NXOR-NOR" then Ok ("XOR-AND", (true, false, true))
  else if is "XOR-NAND" then Ok ("XOR-AND", (false, true, false))
  else if is "XOR-OR" then Ok ("XOR-AND", (false, true, true))
  else if is "NXOR-NAND" then Ok ("XOR-AND", (true, true, false))
  else if is "NXOR-OR" then Ok ("XOR-AND", (true, true, true))
  else if is "AND-XOR" || is "NOR-NXOR" then Ok ("AND-XOR", (false, false, false))
  else if is "OR-NXOR" || is "NAND-XOR" then Ok ("AND-XOR", (true, false, false))
  else if is "AND-NXOR" || is "NOR-XOR" then Ok ("AND-XOR", (false, true, false))
  else if is "OR-XOR" || is "NAND-NXOR" then Ok ("AND-XOR", (true, true, false))
  else if is "XOR-XOR" then Ok ("XOR-XOR", (false, false, false))
  else if is "NXOR-XOR" then Ok ("XOR-XOR", (true, false, false))
  else if is "XOR-NXOR" then Ok ("XOR-XOR", (false, true, false))
  else if is "NXOR-NXOR" then Ok ("XOR-XOR", (true, true, false))
  else Err UnboundLocalError.

(** auxiliary_functions.py:964-988, [canonical_loms(level, mode)]. *)
Definition canonical_loms (level mode : string) : res (list string) :=
  let pick (clans families : list string) :=
    if String.eqb level "clans" then Ok clans
    else if String.eqb level "families" then Ok (clans ++ families)%list
    else Err ValueError in
  if String.eqb mode "implemented" then
    pick ["OR-AND"; "OR-NAND"; "OR-XOR"; "NAND-XOR"; "XOR-NAND"; "XOR-AND"; "XOR-NXOR"; "XOR-XOR"]
         ["NOR-AND"; "NOR-NAND"; "NOR-XOR"; "AND-XOR"; "NXOR-NAND"; "NXOR-AND"; "NXOR-NXOR"; "NXOR-XOR"]
  else if String.eqb mode "canonical" then
    pick ["AND-AND"; "AND-NAND"; "XOR-AND"; "XOR-NAND"; "AND-XOR"; "AND-NXOR"; "XOR-XOR"; "XOR-NXOR"]
         ["OR-NAND"; "OR-AND"; "NXOR-AND"; "NXOR-NAND"; "OR-NXOR"; "OR-XOR"; "NXOR-XOR"; "NXOR-NXOR"]
  else Err ValueError.
