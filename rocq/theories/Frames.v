(** Model of intersect_dataframes, auxiliary_functions.py:592-613. Simplifications: labels are integers; a data frame is its column
    labels and its labelled rows; the entries are reals; labels that are not a number, and labels that cannot be compared with each
    other, are left out. *)
From Coq Require Import Reals.
From Verif Require Import Base.
Local Open Scope Z_scope.

(** A pandas data frame (arguments of auxiliary_functions.py:592); [A.index] are the labels of the rows, in order. *)
Record frame := Frame { columns : list Z; rows : list (Z * list R) }.
Definition index (f : frame) : list Z := map fst (rows f).
(** membership in a set of labels; auxiliary_functions.py:597, 598, 599, 601 *)
Definition isin (l : list Z) (x : Z) : bool := existsb (Z.eqb x) l.
(** auxiliary_functions.py:598, 599: [A[A.index.isin(joint_rows)]], the rows where the mask holds *)
Definition keep_rows (joint : list Z) (f : frame) : frame := Frame (columns f) (filter (fun r => isin joint (fst r)) (rows f)).
(** auxiliary_functions.py:602, 603: [A[list(joint_cols)]], for each label in turn all columns of that label. Every label of the list
    is a column of both frames (601), so no KeyError is modelled. *)
Definition positions (cols : list Z) (c : Z) : list nat := filter (fun j => nth j cols 0 =? c) (seq 0 (List.length cols)).
Definition pick (cs : list Z) (f : frame) : frame :=
  let js := flat_map (positions (columns f)) cs in
  Frame (map (fun j => nth j (columns f) 0) js) (map (fun r => (fst r, map (fun j => nth j (snd r) 0%R) js)) (rows f)).
(** auxiliary_functions.py:605, 606: sort_index. Simplification: rows with the same label keep their order (pandas' quicksort need not). *)
Fixpoint insert_row (r : Z * list R) (l : list (Z * list R)) : list (Z * list R) :=
  match l with
  | [] => [r]
  | x :: l' => if fst r <=? fst x then r :: l else x :: insert_row r l'
  end.
Definition sort_index (f : frame) : frame := Frame (columns f) (fold_right insert_row [] (rows f)).
(** auxiliary_functions.py:608, 609: comparison of labels of different lengths raises a ValueError in pandas. *)
Definition assert_same (l l' : list Z) : res unit :=
  if negb (Nat.eqb (List.length l) (List.length l')) then Err ValueError
  else if list_eq_dec Z.eq_dec l l' then Ok tt else Err AssertionError.
(** auxiliary_functions.py:597-609: the frames before the last message is printed. [order]: the order in which a set lists its elements
    (the same both times, 602 and 603). *)
Definition common_frames (order : list Z -> list Z) (A B : frame) : res (frame * frame) :=
  let joint_rows := filter (isin (index B)) (index A) in
  let A1 := keep_rows joint_rows A in let B1 := keep_rows joint_rows B in
  let joint_cols := order (nodup Z.eq_dec (filter (isin (columns B1)) (columns A1))) in
  let A2 := sort_index (pick joint_cols A1) in let B2 := sort_index (pick joint_cols B1) in
  bind (assert_same (index A2) (index B2)) (fun _ =>
  bind (assert_same (columns A2) (columns B2)) (fun _ => Ok (A2, B2))).
(** auxiliary_functions.py:592-613; the name [mut] of line 611 is not defined anywhere. *)
Definition intersect_dataframes (order : list Z -> list Z) (A B : frame) : res (frame * frame) :=
  bind (common_frames order A B) (fun _ => Err NameError).
