(** Model of the choice and the execution of update functions: lom/matrix_update_wrappers.py:11-251 and
    lom/lambda_update_wrappers.py:14-29, on the objects of Machine.v.
    Simplifications: shapes of two-dimensional arrays are not compared (reads outside an array give 0 where numba
    reads arbitrary memory); a value with the wrong number of axes is a TypeError, as numba reports it; numba's
    TypingError is written TypeError; the messages and the debugger call are left out. *)
From Coq Require Import String.
From Verif Require Import Base BaseR Canon Outputs Fuzzy Scores Sampling Lambda MaxMachine QL Ibp Clean Machine.
Local Open Scope R_scope.
Local Open Scope string_scope.

(** machine.py:266-269. [factors] is sorted by child axis when the layer is made (machine.py:280). *)
Definition siblings (w : world) (i : nat) : list nat :=
  match layer_of (get_mat w i) with
  | Some l => filter (fun j => negb (Nat.eqb j i)) (factors (get_lay w l))
  | None => []
  end.
(** [tuple([mat.child_axis] + [s.child_axis for s in mat.siblings])], matrix_update_wrappers.py:30-32; a missing
    axis is written 9, an axis no array has. *)
Definition axis_of (w : world) (i : nat) : nat := match axis (get_mat w i) with Some a => a | None => 9 end.
Definition transpose_order (w : world) (i : nat) : list nat := axis_of w i :: map (axis_of w) (siblings w i).
(** [transpose(transpose_order)], matrix_update_wrappers.py:54 and the like: the child axis of a valid order for a matrix and for a three-axis array; otherwise numpy raises. *)
Definition axis2 (order : list nat) : res nat :=
  match order with [0; 1] => Ok 0%nat | [1; 0] => Ok 1%nat | _ => Err ValueError end%nat.
Definition axis3 (order : list nat) : res nat :=
  match order with [0; 1; 2] => Ok 0%nat | [1; 0; 2] => Ok 1%nat | [2; 0; 1] => Ok 2%nat | _ => Err ValueError end%nat.

(** Typed reads: what the numba signatures of matrix_updates_numba.py:157-381 accept as a factor. *)
Definition as2 (a : arr) : res mat := match a with A2 m => Ok m | A3 _ => Err TypeError end.
Definition as3 (a : arr) : res ten := match a with A3 t => Ok t | A2 _ => Err TypeError end.
(** [child().transpose(order)], matrix_update_wrappers.py:154, needs as many axes as the order names. *)
Definition child2 (a : arr) : res mat := match a with A2 m => Ok m | A3 _ => Err ValueError end.
Definition child3 (a : arr) : res ten := match a with A3 t => Ok t | A2 _ => Err ValueError end.
(** A dispersion passed as float64 (matrix_updates_numba.py:162) or as an array (max_machine_sampler.py:11-13). *)
Definition scalar (v : lval) : res R := match v with LS x => Ok x | LV _ => Err TypeError end.
Definition vector (v : lval) : res rvec := match v with LV x => Ok x | LS _ => Err TypeError end.
(** Item k of a list, [mat.siblings[0]], [mat.parents[1]] (matrix_update_wrappers.py:53, 202). *)
Definition pick (l : list nat) (k : nat) : res nat := of_option (nth_error l k) IndexError.
Definition read2 (w : world) (i : nat) : res mat := as2 (value w i).
(** [mat.layer.x] with [mat.layer = None] (machine.py:241, 726). *)
Definition own_layer (w : world) (i : nat) : res layer :=
  match layer_of (get_mat w i) with Some l => Ok (get_lay w l) | None => Err AttributeError end.
(** The two factors and the dispersion of the k-th parent layer, as passed in matrix_update_wrappers.py:172-173 and
    the like. *)
Definition parent_args (w : world) (i k : nat) : res (mat * mat * R) :=
  bind (pick (parents (get_mat w i)) k) (fun l =>
  bind (pick (factors (get_lay w l)) 0) (fun f1 => bind (pick (factors (get_lay w l)) 1) (fun f2 =>
  bind (read2 w f1) (fun a => bind (read2 w f2) (fun b => bind (scalar (disp w l)) (fun x => Ok (a, b, x))))))).

(** matrix_update_wrappers.py:234-255 (dimensions as text); the test for more than two parents is an [elif] of the
    test for more than one and is never reached. *)
Definition get_relatives_models (w : world) (i : nat) : res (option (string * nat) * option string * option string) :=
  let m := match layer_of (get_mat w i) with
           | Some l => Some (model (get_lay w l), List.length (factors (get_lay w l)))
           | None => None
           end in
  let two l := if Nat.eqb (List.length (factors (get_lay w l))) 2 then Ok tt else Err AssertionError in
  match parents (get_mat w i) with
  | [] => Ok (m, None, None)
  | [p1] => bind (two p1) (fun _ => Ok (m, Some (model (get_lay w p1)), None))
  | p1 :: p2 :: _ =>
      bind (two p1) (fun _ => bind (two p2) (fun _ =>
      Ok (m, Some (model (get_lay w p1)), Some (model (get_lay w p2)))))
  end.

(** Raised by the make_* functions for unknown names (matrix_updates_numba.py:74-154). *)
Definition known2 (m : string) : res unit := bind (get_posterior_score_fct_2d (model_tag m "2")) (fun _ => Ok tt).
Definition known3 (m : string) : res unit := bind (get_posterior_score_fct_3d (model_tag m "3")) (fun _ => Ok tt).
Definition knownp (m : string) : res unit := bind (get_parent_score_fct_2d (model_tag m "2")) (fun _ => Ok tt).

(** matrix_update_wrappers.py:11-228: the closure and the world after the call (the threshold matrix of a qL-AND
    layer receives its closure; the IBP layer its default alpha). Layers with one or more than three factors do not
    occur. A qL-AND or IBP factor has axis 0 or 1; any other would get None, which cannot be called (TypeError). *)
Definition get_sampling_fct (w : world) (i : nat) : res (world * fct) :=
  let m := get_mat w i in
  match sfct m with
  | Some f => Ok (w, f)
  | None =>
      bind (get_relatives_models w i) (fun '(mod_, p1, p2) =>
      let order := transpose_order w i in
      let p := bprior m in
      let is name := match mod_ with Some (n, 2%nat) => String.eqb n name | _ => false end in
      if is "MAX-AND" then
        match p1 with None => Ok (w, FMax order) | Some _ => Err AssertionError end
      else if is "qL-AND" then
        bind (own_layer w i) (fun lay =>
        bind (of_option (q lay) AttributeError) (fun qi =>
        let w' := set_mat w qi (with_sfct (get_mat w qi) (Some Fqq)) in
        match axis m with
        | Some 0%nat => Ok (w', FqZ order)
        | Some 1%nat => Ok (w', FqU order)
        | _ => Err TypeError
        end))
      else if is "OR-AND-IBP" then
        bind (of_option (layer_of m) AttributeError) (fun l =>
        let w' := match alpha (get_lay w l) with Some _ => w | None => set_lay w l (with_alpha (get_lay w l) (Some 3)) end in
        match axis m with
        | Some 0%nat => Ok (w', FIbp order)
        | Some 1%nat => Ok (w', FLom "OR-AND" order p)
        | _ => Err TypeError
        end)
      else
        match mod_, p1, p2 with
        | Some (n, 2%nat), None, _ => bind (known2 n) (fun _ => Ok (w, FLom n order p))
        | Some (n, _), None, _ => bind (known3 n) (fun _ => Ok (w, FLom3 n order p))
        | Some (n, 2%nat), Some a, None => bind (known2 n) (fun _ => bind (knownp a) (fun _ => Ok (w, F11 n a order p)))
        (* matrix_updates_numba.py:232-233 assigns a tuple to an int8 *)
        | Some (n, _), Some a, None => bind (known3 n) (fun _ => bind (knownp a) (fun _ => Err TypeError))
        | None, Some a, None => bind (knownp a) (fun _ => Ok (w, F01 a p))
        | None, Some a, Some b => bind (knownp a) (fun _ => bind (knownp b) (fun _ => Ok (w, F02 a b p)))
        | Some (n, 2%nat), Some a, Some b =>
            bind (known2 n) (fun _ => bind (knownp a) (fun _ => bind (knownp b) (fun _ => Ok (w, F12 n a b order p))))
        | Some (n, _), Some a, Some b =>
            bind (known3 n) (fun _ => bind (knownp a) (fun _ => bind (knownp b) (fun _ => Err NotImplementedError)))
        | None, None, _ => Err NotImplementedError
        end)
  end.

(** What calling a closure (matrix_update_wrappers.py:48-226) does: entries of the matrix's own array are overwritten, or the matrix and a sibling get
    new arrays. *)
Inductive effect := InPlace (x : mat) | Replace (x : mat) (j : nat) (y : mat).

(** Factor with child axis 0, factor with child axis 1; a matrix and its sibling, matrix_update_wrappers.py:76-92. *)
Definition in_order (ax : nat) (Z_ U : mat) : mat * mat := match ax with 0%nat => (Z_, U) | _ => (U, Z_) end.

(** The bodies of the closures, matrix_update_wrappers.py:48-226. The arrays of a matrix, its siblings and the data
    are taken to be distinct (a caller who passes one int8 array for two matrices is not modelled here): the arguments
    are read once, before the loops write. *)
Definition compute (o : oracle) (w : world) (i : nat) (f : fct) : res effect :=
  let m := get_mat w i in
  let rand := o_cell o (clock w) in
  let sib k := bind (pick (siblings w i) k) (read2 w) in
  let kid lay := value w (child lay) in
  bind (read2 w i) (fun Z_ =>
  bind (as2 (fixed_entries m)) (fun F =>
  match f with
  | FMax order =>
      bind (own_layer w i) (fun lay => bind (vector (lv (lbda lay))) (fun lb => bind (sib 0%nat) (fun U =>
      bind (axis2 order) (fun ax => bind (child2 (kid lay)) (fun X => bind (of_option (ratios lay) AttributeError) (fun rt =>
      Ok (InPlace (MAX_AND_2D (o_argsort o) ax Z_ F U X lb rt rand))))))))
  | FqZ order | FqU order =>
      bind (own_layer w i) (fun lay => bind (sib 0%nat) (fun U => bind (axis2 order) (fun ax =>
      bind (child2 (kid lay)) (fun X => bind (of_option (q lay) AttributeError) (fun qi => bind (read2 w qi) (fun Q =>
      bind (scalar (lv (lbda lay))) (fun lb =>
      let '(A, B) := in_order ax Z_ U in
      Ok (InPlace (qL_sampler ax A B F X Q lb (bprior m) rand)))))))))
  | Fqq =>
      bind (own_layer w i) (fun lay => bind (pick (factors lay) 0) (fun f0 => bind (pick (factors lay) 1) (fun f1 =>
      bind (read2 w f0) (fun A => bind (read2 w f1) (fun B => bind (as2 (kid lay)) (fun X =>
      bind (scalar (lv (lbda lay))) (fun lb =>
      Ok (InPlace (sample_qL_q A B X Z_ lb (gamma lay) (o_feature o (clock w)))))))))))
  | FIbp order =>
      bind (own_layer w i) (fun lay => bind (pick (siblings w i) 0) (fun j => bind (read2 w j) (fun U =>
      bind (axis2 order) (fun _ => bind (child2 (kid lay)) (fun X => bind (scalar (lv (lbda lay))) (fun lb =>
      let '(A, B) := IBP_sampler Z_ U F [] X (match fixed (get_mat w j) with FBool b => b | FArr _ => false end) lb
                       (bprior (get_mat w j)) (alpha lay) (o_ibp o (clock w)) in
      Ok (Replace A j B)))))))
  | FLom n order p =>
      bind (own_layer w i) (fun lay => bind (sib 0%nat) (fun U => bind (axis2 order) (fun ax =>
      bind (child2 (kid lay)) (fun X => bind (scalar (lv (lbda lay))) (fun lb =>
      let '(A, B) := in_order ax Z_ U in
      bind (LOM_sampler_2d n ax A B F X lb p rand) (fun Z' => Ok (InPlace Z')))))))
  | FLom3 n order p =>
      bind (own_layer w i) (fun lay => bind (sib 0%nat) (fun U => bind (sib 1%nat) (fun V => bind (axis3 order) (fun ax =>
      bind (child3 (kid lay)) (fun X => bind (scalar (lv (lbda lay))) (fun lb =>
      let '(A, B, C) := match ax with 0%nat => (Z_, U, V) | 1%nat => (U, Z_, V) | _ => (U, V, Z_) end in
      bind (LOM_sampler_3d n ax A B C F X lb p rand) (fun Z' => Ok (InPlace Z'))))))))
  | F11 n a order p =>
      bind (own_layer w i) (fun lay => bind (sib 0%nat) (fun U => bind (axis2 order) (fun ax =>
      bind (child2 (kid lay)) (fun X => bind (scalar (lv (lbda lay))) (fun lb => bind (parent_args w i 0) (fun '(a1, a2, la) =>
      let '(A, B) := in_order ax Z_ U in
      bind (LOM_sampler_1c1p_2d n a ax A B F X lb a1 a2 la p rand) (fun Z' => Ok (InPlace Z'))))))))
  | F01 a p =>
      bind (parent_args w i 0) (fun '(a1, a2, la) =>
      bind (LOM_sampler_0c1p_2d a Z_ F a1 a2 la p rand) (fun Z' => Ok (InPlace Z')))
  | F02 a b p =>
      bind (parent_args w i 0) (fun '(a1, a2, la) => bind (parent_args w i 1) (fun '(b1, b2, lb) =>
      bind (LOM_sampler_0c2p_2d a b Z_ F a1 a2 la b1 b2 lb p rand) (fun Z' => Ok (InPlace Z'))))
  | F12 n a b order p =>
      bind (own_layer w i) (fun lay => bind (sib 0%nat) (fun U => bind (axis2 order) (fun ax =>
      bind (child2 (kid lay)) (fun X => bind (scalar (lv (lbda lay))) (fun lb =>
      bind (parent_args w i 0) (fun '(a1, a2, la) => bind (parent_args w i 1) (fun '(b1, b2, lb2) =>
      let '(A, B) := in_order ax Z_ U in
      bind (LOM_sampler_1c2p_2d n a b ax A B F X lb a1 a2 la b1 b2 lb2 p rand) (fun Z' => Ok (InPlace Z')))))))))
  end)).

(** The effect on the store: numba writes into the array, the IBP closure rebinds [val] (lines 108-114). *)
Definition apply_effect (w : world) (i : nat) (e : effect) : world :=
  match e with
  | InPlace x => write w (val (get_mat w i)) (A2 x)
  | Replace x j y => assign_val (assign_val w i (A2 x)) j (A2 y)
  end.
(** [mat.sampling_fct(mat)], machine.py:579. *)
Definition run_mat (o : oracle) (w : world) (i : nat) : res world :=
  bind (of_option (sfct (get_mat w i)) TypeError) (fun f =>
  bind (compute o w i f) (fun e => Ok (tick (apply_effect w i e)))).

(** lambda_update_wrappers.py:14-29 and lambda_updates_numba.py:230-274. A layer with an unknown name cannot be
    compiled (see Lambda.v); three-dimensional MAX-AND names a function that does not exist (line 260). *)
Definition get_update_fct (w : world) (l : nat) : res lfct :=
  let lay := get_lay w l in
  let dim := List.length (factors lay) in
  match lsfct (lbda lay) with
  | Some f => Ok f
  | None =>
      if String.eqb (model lay) "MAX-AND" then (if Nat.eqb dim 2 then Ok LfMax else Err AttributeError)
      else if String.eqb (model lay) "qL-AND" then Ok LfqL
      else if Nat.eqb dim 2 then bind (make_correct_predictions_counter_2d (model lay)) (fun _ => Ok (Lf2 (model lay)))
      else if Nat.eqb dim 3 then bind (make_correct_predictions_counter_3d (model lay)) (fun _ => Ok (Lf3 (model lay)))
      else Err NotImplementedError
  end.
(** The bodies of the dispersion updates, lambda_updates_numba.py:239-272 and max_machine_sampler.py:74-141; MAX-AND writes its array in place and recomputes the ratio tables. *)
Definition compute_lbda (w : world) (l : nat) (f : lfct) : res (lval * option (rmat * rmat)) :=
  let lay := get_lay w l in
  let kid := value w (child lay) in
  let '(a, b) := beta (lbda lay) in
  let fac k := bind (pick (factors lay) k) (read2 w) in
  match f with
  | LfMax =>
      bind (fac 0%nat) (fun Z_ => bind (fac 1%nat) (fun U => bind (as2 kid) (fun X => bind (vector (lv (lbda lay))) (fun v =>
      let v' := lbda_MAX_AND Z_ U X v in
      Ok (LV v', Some (compute_lbda_ratios (ncols Z_) v'))))))
  | LfqL =>
      bind (fac 0%nat) (fun Z_ => bind (fac 1%nat) (fun U => bind (as2 kid) (fun X =>
      bind (of_option (q lay) AttributeError) (fun qi => bind (read2 w qi) (fun Q =>
      Ok (LS (lbda_update_qL Z_ U X Q a b), ratios lay))))))
  | Lf2 m =>
      bind (fac 0%nat) (fun Z_ => bind (fac 1%nat) (fun U => bind (as2 kid) (fun X =>
      bind (lbda_update_2d m Z_ U X a b) (fun x => Ok (LS x, ratios lay)))))
  | Lf3 m =>
      bind (fac 0%nat) (fun Z_ => bind (fac 1%nat) (fun U => bind (fac 2%nat) (fun V => bind (as3 kid) (fun X =>
      bind (lbda_update_3d m Z_ U V X a b) (fun x => Ok (LS x, ratios lay))))))
  end.
(** [lbda.sampling_fct(lbda)], machine.py:583. *)
Definition run_lbda (w : world) (l : nat) : res world :=
  bind (of_option (lsfct (lbda (get_lay w l))) TypeError) (fun f =>
  bind (compute_lbda w l f) (fun '(v, rt) =>
  Ok (set_lay w l (with_ratios (with_lbda (get_lay w l) (with_lv (lbda (get_lay w l)) v)) rt)))).
