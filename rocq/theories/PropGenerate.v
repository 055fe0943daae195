(** C03, C04, C05, C53, C65: data generation and model names. *)
From Coq Require Import String.
From Verif Require Import Base Spec Outputs Lops LopsProofs Canon CanonProofs.
Local Open Scope Z_scope.

(** C03. For every pair of operators and any positive number of factors with a common number L of
    columns, [lom_generate_data] succeeds; the result has one axis per factor, and the entry at an
    index is the coded truth value of OUTER over l of INNER over the factors' selected rows. *)
Theorem C03_lom_generate_data :
  forall o i factors L,
  factors <> [] -> Forall (fun f => has_cols f L) factors ->
  exists out, lom_generate_data factors (model_name o i) = Ok out /\
    nd_has_shape out (map (fun f => List.length f) factors) /\
    forall index rows,
      Forall2 lt index (map (fun f : mat => List.length f) factors) ->
      Forall2 (fun (p : mat * nat) (r : vec) => r = nth (snd p) (fst p) [])
              (combine factors index) rows ->
      exists x, nd_get out index = Some x /\ lom_output o i rows L x.
Proof. exact C03_lemma. Qed.
Print Assumptions C03_lom_generate_data.

(** Three factors with 2, 1 and 3 rows. *)
Example C03_example :
  Forall (fun f => has_cols f 2) [[[1; -1]; [1; 1]]; [[-1; -1]]; [[1; 1]; [-1; 1]; [0; 1]]] /\
  exists out,
    lom_generate_data [[[1; -1]; [1; 1]]; [[-1; -1]]; [[1; 1]; [-1; 1]; [0; 1]]] "AND-NXOR" = Ok out /\
    nd_get out [1; 0; 0]%nat = Some 1 /\ nd_get out [0; 0; 1]%nat = Some (-1) /\
    lom_true AND NXOR [[1; 1]; [-1; -1]; [1; 1]] 2.
Proof. exact C03_example_lemma. Qed.

(** C04. On {-1,1} factors the fast generator returns exactly what the generic one returns, for
    every model string (unknown ones included) and every number of factors. *)
Theorem C04_fast_equals_generic :
  forall model factors L,
  Forall (fun f => has_cols f L) factors -> Forall bin2 factors ->
  lom_generate_data_fast factors model = lom_generate_data factors model.
Proof. exact C04_lemma. Qed.
Print Assumptions C04_fast_equals_generic.

Example C04_example :
  Forall (fun f => has_cols f 2) [[[1; -1]; [1; 1]]; [[-1; 1]; [1; 1]]] /\
  Forall bin2 [[[1; -1]; [1; 1]]; [[-1; 1]; [1; 1]]] /\
  lom_generate_data_fast [[[1; -1]; [1; 1]]; [[-1; 1]; [1; 1]]] "XOR-AND"
    = Ok (nd_of_mat [[-1; 1]; [1; -1]]).
Proof. exact C04_example_lemma. Qed.

(** C05. Every one of the 36 names is translated to an implemented model with two flags such that,
    for any factors of any arity and latent size, the requested output is the canonical output on
    the (flagged) negated factors, itself negated when the data flag is set; and the data the layer
    is fitted to (negated when flagged) agrees with the canonical output exactly where the user's
    data agrees with the requested model's output. *)
Theorem C05_canonise_sound :
  forall o i,
  exists o' i' invert_data invert_factors,
    canonise_name (model_name o i) = Ok (model_name o' i', invert_data, invert_factors) /\
    In (o', i') implemented /\
    forall rows L, Forall (fun r => bin1 r /\ List.length r = L) rows ->
    forall y_requested y_canonical,
      lom_output o i rows L y_requested ->
      lom_output o' i' (if invert_factors : bool then map (map Z.opp) rows else rows) L y_canonical ->
      y_requested = (if invert_data : bool then - y_canonical else y_canonical) /\
      forall x, ((if invert_data then - x else x) = y_canonical <-> x = y_requested).
Proof. exact C05_lemma. Qed.
Print Assumptions C05_canonise_sound.

Example C05_example :
  canonise_name "AND-NOR" = Ok ("OR-NAND"%string, true, true) /\
  Forall (fun r => bin1 r /\ List.length r = 2%nat) [[-1; 1]; [-1; -1]] /\
  lom_output AND NOR [[-1; 1]; [-1; -1]] 2 (-1) /\
  lom_output OR NAND [[1; -1]; [1; 1]] 2 1.
Proof. exact C05_example_lemma. Qed.

(** C53. [get_lom_class] returns, for each of the 36 names, one of the four classes and three flags
    such that negating the entries, the inner results and the outer result of the class as flagged
    gives the requested machine. *)
Theorem C53_lom_class :
  forall o i,
  exists o' i' i_outer i_hidden i_inner,
    get_lom_class (model_name o i) = Ok (model_name o' i', (i_outer, i_hidden, i_inner)) /\
    In (o', i') [(AND, AND); (XOR, AND); (AND, XOR); (XOR, XOR)] /\
    forall rows L,
      lom_true o i rows L <->
      flagged i_outer (lop_holds o' L (fun l =>
        flagged i_hidden (lop_holds i' (List.length rows) (fun k =>
          flagged i_inner (nth l (nth k rows []) 0 = 1))))).
Proof. exact C53_lemma. Qed.
Print Assumptions C53_lom_class.

Example C53_example :
  get_lom_class "NAND-OR" = Ok ("AND-AND"%string, (true, true, true)) /\
  lom_true NAND OR [[1; -1]; [1; -1]; [-1; -1]] 2 /\ ~ lom_true NAND OR [[1; -1]; [1; 1]; [-1; -1]] 2.
Proof. exact C53_example_lemma. Qed.

(** C65. In both modes, [canonical_loms] lists a complete and irredundant set of representatives:
    every machine is, up to inversion of data and factors, exactly one of the listed clans
    ([dd = true]) and, up to inversion of the factors only, exactly one of the listed families
    ([dd = false]). *)
Theorem C65_canonical_loms :
  forall (dd : bool) (mode : string) (names : list string) o i,
  (mode = "implemented" \/ mode = "canonical")%string ->
  canonical_loms (if dd then "clans" else "families") mode = Ok names ->
  exists o' i', In (model_name o' i') names /\
    (exists d f, (dd = false -> d = false) /\ same_up_to d f o i o' i') /\
    forall o2 i2, In (model_name o2 i2) names ->
      (exists d f, (dd = false -> d = false) /\ same_up_to d f o i o2 i2) -> o2 = o' /\ i2 = i'.
Proof. exact class_unique. Qed.
Print Assumptions C65_canonical_loms.
(** Any other level or mode is rejected. *)
Theorem C65_unknown : forall level mode, (level <> "clans" /\ level <> "families" \/ mode <> "implemented" /\ mode <> "canonical")%string -> canonical_loms level mode = Err ValueError.
Proof. exact loms_unknown. Qed.
Print Assumptions C65_unknown.
Example C65_unknown_example : ("clan" <> "clans" /\ "clan" <> "families")%string.
Proof. split; discriminate. Qed.

(** The hypotheses are met in all four cases; the family list has 16 entries. *)
Example C65_example :
  (exists names, canonical_loms "clans" "implemented" = Ok names /\ List.length names = 8%nat) /\
  (exists names, canonical_loms "families" "implemented" = Ok names /\ List.length names = 16%nat) /\
  (exists names, canonical_loms "clans" "canonical" = Ok names /\ List.length names = 8%nat) /\
  (exists names, canonical_loms "families" "canonical" = Ok names /\ List.length names = 16%nat).
Proof. repeat split; eexists; split; reflexivity. Qed.
