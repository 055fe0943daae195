(** Model of the objects of lom/machine.py: arrays, matrices, parameters, layers and the machine, and of the
    functions that build them (machine.py:173-308, 461-542).
    Arrays live in a store and objects refer to them by index, so that sharing and in-place writes are visible.
    Simplifications: a machine has exactly the layers in the store; random numbers come from oracles indexed by a
    position in the random stream that every use advances; 2D and 3D arrays only; printing is left out. *)
From Coq Require Import String.
From Verif Require Import Base BaseR Canon Outputs Fuzzy Scores Sampling Lambda MaxMachine QL Ibp Clean.
Local Open Scope R_scope.

(** An int8 array with two or three axes, MachineMatrix.val (machine.py:222-230). *)
Inductive arr := A2 (m : mat) | A3 (t : ten).
Definition shape_of (a : arr) : list nat :=
  match a with
  | A2 m => [nrows m; ncols m]
  | A3 t => [List.length t; List.length (hd [] t); List.length (hd [] (hd [] t))]
  end.
(** [a *= -1] on int8, auxiliary_functions.py:944 and 954. *)
Definition neg_arr (a : arr) : arr :=
  match a with
  | A2 m => A2 (map (map (fun x => wrap8 (- x))) m)
  | A3 t => A3 (map (map (map (fun x => wrap8 (- x)))) t)
  end.
(** machine.py:238, [np.zeros(shape, dtype=np.int8)] *)
Definition zeros_like (a : arr) : arr :=
  match a with
  | A2 m => A2 (map (map (fun _ => 0%Z)) m)
  | A3 t => A3 (map (map (map (fun _ => 0%Z))) t)
  end.

(** Value of a dispersion parameter: a number, or an array (MAX-AND), machine.py:513-522. *)
Inductive lval := LS (x : R) | LV (v : rvec).

(** The closures made by get_sampling_fct (matrix_update_wrappers.py:48-226), with what they capture: model
    names, the transpose order (own child axis, then those of the siblings) and the Bernoulli prior. *)
Inductive fct :=
| FMax (order : list nat)
| FqZ (order : list nat)
| FqU (order : list nat)
| Fqq
| FIbp (order : list nat)
| FLom (model : string) (order : list nat) (p : R)
| FLom3 (model : string) (order : list nat) (p : R)
| F11 (model pmodel : string) (order : list nat) (p : R)
| F01 (pmodel : string) (p : R)
| F02 (pmodel1 pmodel2 : string) (p : R)
| F12 (model pmodel1 pmodel2 : string) (order : list nat) (p : R).
(** The closures made by get_update_fct (lambda_update_wrappers.py:14-29). *)
Inductive lfct := LfMax | LfqL | Lf2 (model : string) | Lf3 (model : string).

(** MachineMatrix.fixed: a Boolean, or an array (machine.py:232-235). *)
Inductive fixedness := FBool (b : bool) | FArr (a : mat).

(** MachineMatrix, machine.py:206-244, and its array by index; its trace is kept in Inference.v. *)
Record matrix := Mat {
  val : nat; axis : option nat; fixed : fixedness; fixed_entries : arr; bprior : R; layer_of : option nat;
  parents : list nat; sfct : option fct }.
(** MachineParameter, machine.py:173-183; its trace is kept in Inference.v. *)
Record param := Par { lv : lval; lfixed : bool; beta : R * R; lsfct : option lfct }.
(** MachineLayer, machine.py:276-308; [prediction] is left out (see LayerOutput.v). *)
Record layer := Lay {
  factors : list nat; child : nat; model : string; lbda : param; ratios : option (rmat * rmat); alpha : option R;
  q : option nat; gamma : R; auto_clean : bool; auto_reset : bool; invert_data : bool; invert_factors : bool }.

(** Machine (machine.py:461-467) with everything reachable from it; [free] is Machine.matrices and [clock] the
    position in the random stream. *)
Record world := World {
  arrays : list arr; mats : list matrix; layers : list layer; free : list nat; anneal : bool; clock : nat }.

(** Reads of attributes of the objects above (machine.py:173-308); the defaults stand for no object. *)
Definition no_matrix : matrix := Mat 0 None (FBool false) (A2 []) (1 / 2) None [] None.
Definition no_param : param := Par (LS 0) false (1, 1) None.
Definition no_layer : layer := Lay [] 0 "" no_param None None None 1 false false false false.
Definition get_arr (w : world) (a : nat) : arr := nth a (arrays w) (A2 []).
Definition get_mat (w : world) (i : nat) : matrix := nth i (mats w) no_matrix.
Definition get_lay (w : world) (l : nat) : layer := nth l (layers w) no_layer.
(** The value of matrix i: [mat()], machine.py:110-111 and 243-244. *)
Definition value (w : world) (i : nat) : arr := get_arr w (val (get_mat w i)).
(** The value of the dispersion of layer l: [lbda()], machine.py:110-111. *)
Definition disp (w : world) (l : nat) : lval := lv (lbda (get_lay w l)).

(** Writes of attributes of the objects above (machine.py:173-308). *)
Definition set_arrays (w : world) x : world := World x (mats w) (layers w) (free w) (anneal w) (clock w).
Definition set_mats (w : world) x : world := World (arrays w) x (layers w) (free w) (anneal w) (clock w).
Definition set_layers (w : world) x : world := World (arrays w) (mats w) x (free w) (anneal w) (clock w).
Definition set_free (w : world) x : world := World (arrays w) (mats w) (layers w) x (anneal w) (clock w).
Definition tick (w : world) : world := World (arrays w) (mats w) (layers w) (free w) (anneal w) (S (clock w)).
(** In-place write to an array, e.g. matrix_updates_numba.py:174. *)
Definition write (w : world) (a : nat) (x : arr) : world := set_arrays w (upd (arrays w) a x).
Definition set_mat (w : world) (i : nat) (m : matrix) : world := set_mats w (upd (mats w) i m).
Definition set_lay (w : world) (l : nat) (x : layer) : world := set_layers w (upd (layers w) l x).
Definition with_val (m : matrix) a : matrix := Mat a (axis m) (fixed m) (fixed_entries m) (bprior m) (layer_of m) (parents m) (sfct m).
Definition with_layer (m : matrix) l : matrix := Mat (val m) (axis m) (fixed m) (fixed_entries m) (bprior m) (Some l) (parents m) (sfct m).
Definition with_parent (m : matrix) l : matrix := Mat (val m) (axis m) (fixed m) (fixed_entries m) (bprior m) (layer_of m) (parents m ++ [l]) (sfct m).
Definition with_sfct (m : matrix) f : matrix := Mat (val m) (axis m) (fixed m) (fixed_entries m) (bprior m) (layer_of m) (parents m) f.
Definition with_lbda (x : layer) p : layer :=
  Lay (factors x) (child x) (model x) p (ratios x) (alpha x) (q x) (gamma x) (auto_clean x) (auto_reset x) (invert_data x) (invert_factors x).
Definition with_ratios (x : layer) r : layer :=
  Lay (factors x) (child x) (model x) (lbda x) r (alpha x) (q x) (gamma x) (auto_clean x) (auto_reset x) (invert_data x) (invert_factors x).
Definition with_alpha (x : layer) a : layer :=
  Lay (factors x) (child x) (model x) (lbda x) (ratios x) a (q x) (gamma x) (auto_clean x) (auto_reset x) (invert_data x) (invert_factors x).
Definition with_lv (p : param) v : param := Par v (lfixed p) (beta p) (lsfct p).
Definition with_lsfct (p : param) f : param := Par (lv p) (lfixed p) (beta p) f.
(** [mat.val = x] with a new array, e.g. matrix_update_wrappers.py:112. *)
Definition assign_val (w : world) (i : nat) (x : arr) : world :=
  set_mat (set_arrays w (arrays w ++ [x])) i (with_val (get_mat w i) (List.length (arrays w))).
(** [layer.lbda.val = v], machine.py:601 and lambda_updates_numba.py:272. *)
Definition assign_disp (w : world) (l : nat) (v : lval) : world :=
  set_lay w l (with_lbda (get_lay w l) (with_lv (lbda (get_lay w l)) v)).

(** A new machine, machine.py:461-467. *)
Definition new_machine : world := World [] [] [] [] false 0.

(** Random numbers and unspecified results of numpy (machine.py:135-142, 226-230, 579; matrix_updates_numba.py:30;
    max_machine_sampler.py and lom_outputs.py:257), by position in the random stream. *)
Record oracle := {
  o_perm : nat -> list nat -> list nat;        (* np.random.permutation *)
  o_cell : nat -> nat -> nat -> R;             (* uniform draws of a sweep over a matrix *)
  o_feature : nat -> nat -> R;                 (* uniform draws of the threshold update *)
  o_ibp : nat -> nat -> draws;                 (* draws of the IBP update *)
  o_init : nat -> nat -> nat -> nat -> R;      (* np.random.rand *)
  o_argsort : rvec -> list nat;                (* np.argsort; the order of ties is unspecified *)
  o_memory : nat -> nat -> lval                (* contents of uninitialised memory *)
}.

(** machine.py:228-230, no value given: entry 1 where the uniform draw exceeds 1/2. *)
Definition random_arr (r : nat -> nat -> nat -> R) (shape : list nat) : arr :=
  let b x := if Rltb (1 / 2) x then 1%Z else (-1)%Z in
  match shape with
  | [n; d; m] => A3 (map (fun i => map (fun j => map (fun k => b (r i j k)) (seq 0 m)) (seq 0 d)) (seq 0 n))
  | [n; d] => A2 (map (fun i => map (fun j => b (r i j 0%nat)) (seq 0 d)) (seq 0 n))
  | _ => A2 []
  end.

(** machine.py:208-241 with a given array (by index) *)
Definition new_matrix (w : world) (a : nat) (ax : option nat) (fx : fixedness) : world :=
  set_mats w (mats w ++ [Mat a ax fx (zeros_like (get_arr w a)) (1 / 2) None [] None]).
(** machine.py:208-241 without value: a new random array. *)
Definition new_random_matrix (o : oracle) (w : world) (shape : list nat) (ax : option nat) : world :=
  let w1 := tick (set_arrays w (arrays w ++ [random_arr (o_init o (clock w)) shape])) in
  new_matrix w1 (List.length (arrays w)) ax (FBool false).
(** machine.py:533-542. [given] is the caller's array if it is of type int8 (shared), [convert] a value of another
    type (converted to a new int8 array). *)
Inductive source := Given (a : nat) | Convert (x : arr) | Shape (s : list nat).
Definition add_matrix (o : oracle) (w : world) (s : source) (ax : option nat) (fx : fixedness) : res world :=
  let w1 := match s with
            | Given a => w
            | Convert x => set_arrays w (arrays w ++ [x])
            | Shape sh => tick (set_arrays w (arrays w ++ [random_arr (o_init o (clock w)) sh]))
            end in
  let a := match s with Given a => a | _ => List.length (arrays w) end in
  (* machine.py:233-234 *)
  bind (match fx with
        | FArr f => if list_eq_dec Nat.eq_dec (shape_of (A2 f)) (shape_of (get_arr w1 a)) then Ok tt else Err AssertionError
        | FBool _ => Ok tt end) (fun _ =>
  let w2 := new_matrix w1 a ax fx in
  Ok (set_free w2 (free w2 ++ [List.length (mats w)]))).

(** aux.canonise_model, auxiliary_functions.py:826-961: the name part is Canon.v's; the data of the child is
    negated in place when the model asks for it. *)
Definition canonise_model (w : world) (m : string) (c : option nat) : world * res (string * bool * bool) :=
  match canonise_name m with
  | Err e => (w, Err e)
  | Ok (m', inv, invf) =>
      if inv then match c with
                  | None => (w, Err AttributeError)
                  | Some i => (write w (val (get_mat w i)) (neg_arr (value w i)), Ok (m', inv, invf))
                  end
      else (w, Ok (m', inv, invf))
  end.

(** machine.py:518, ['BALANCED' in model] *)
Fixpoint contains (needle hay : string) : bool :=
  match hay with
  | EmptyString => String.prefix needle hay
  | String _ rest => String.prefix needle hay || contains needle rest
  end.
(** machine.py:513-522 *)
Definition lbda_init (m : string) (latent_size : nat) : lval :=
  if String.eqb m "MAX-AND" then LV (repeat (8 / 10) latent_size ++ [1 / 100])
  else if contains "BALANCED" m then LV [1; 1]
  else LS (5 / 100).

(** machine.py:278-308; [layer_size] is read for the MAX-AND ratio tables. *)
Definition new_layer (o : oracle) (w : world) (fs : list nat) (c : nat) (m : string) (latent_size : nat) (inv invf : bool) : world :=
  let l := List.length (layers w) in
  let lb := lbda_init m latent_size in
  let is_q := String.eqb m "qL-AND" in
  let qid := List.length (mats w) in
  let rt := if String.eqb m "MAX-AND" then Some (compute_lbda_ratios latent_size (match lb with LV v => v | LS _ => [] end)) else None in
  let lay := Lay fs c m (Par lb false (1, 1) None) rt None (if is_q then Some qid else None) 1 false false inv invf in
  let w1 := set_layers w (layers w ++ [lay]) in
  let w2 := set_mat w1 c (with_parent (get_mat w1 c) l) in
  let w3 := fold_left (fun w' f => set_mat w' f (with_layer (get_mat w' f) l)) fs w2 in
  if is_q then
    (* machine.py:304-308: random matrix overwritten with ones *)
    let D := nth 1 (shape_of (value w3 c)) 0%nat in
    let w4 := tick (set_arrays w3 (arrays w3 ++ [A2 [repeat 1%Z D]])) in
    let w5 := new_matrix w4 (List.length (arrays w3)) (Some 1%nat) (FBool false) in
    set_mat w5 qid (with_layer (get_mat w5 qid) l)
  else w3.

(** machine.py:487-531. The world is returned together with the result, so that the effects of a failed call are
    visible. *)
Definition add_layer (o : oracle) (w : world) (latent_size : nat) (c : option nat) (shape : option (list nat)) (m : string) : world * res unit :=
  let '(w0, r) := canonise_model w m c in
  match r with
  | Err e => (w0, Err e)
  | Ok (m', inv, invf) =>
      match c, shape with
      | None, Some sh =>
          let w1 := new_random_matrix o w0 sh None in
          let cid := List.length (mats w0) in
          let w2 := fold_left (fun w' '(ax, K) => new_random_matrix o w' [K; latent_size] (Some ax)) (combine (seq 0 (List.length sh)) sh) w1 in
          (new_layer o w2 (seq (S cid) (List.length sh)) cid m' latent_size inv invf, Ok tt)
      | Some cid, None =>
          let sh := shape_of (value w0 cid) in
          let w2 := fold_left (fun w' '(ax, K) => new_random_matrix o w' [K; latent_size] (Some ax)) (combine (seq 0 (List.length sh)) sh) w0 in
          (new_layer o w2 (seq (List.length (mats w0)) (List.length sh)) cid m' latent_size inv invf, Ok tt)
      | _, _ => (w0, Err ValueError)
      end
  end.

(** Machine.members, machine.py:469-481 *)
Definition members (w : world) : list nat :=
  flat_map factors (layers w) ++ free w ++
  flat_map (fun x => if String.eqb (model x) "qL-AND" then match q x with Some i => [i] | None => [] end else []) (layers w).
