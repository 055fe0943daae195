(** Model of MachineLayer.output (lom/machine.py:341-452), Trace.mean (148-153) and
    MachineMatrix.set_to_map (271-273). Simplifications: floats are exact reals; a scalar dispersion is a
    one-element vector; array shapes are read off the first row; arrays combined elementwise have
    equal shapes (guarded in the theorems); [print] is dropped. *)
From Coq Require Import String.
From Verif Require Import Base BaseR Outputs Lops Fuzzy Lambda MaxMachine.
Local Open Scope R_scope.

(** A factor of the layer (machine.py:206-241): current state and, once traces are allocated, saved samples. *)
Record factor := { f_val : mat; f_trace : option (list mat) }.
(** The attributes of the layer (machine.py:280-307) that [output] reads or writes; [l_child] is the data array. *)
Record lstate := {
  l_model : string; l_factors : list factor; l_lbda : rvec; l_lbda_trace : option (list rvec);
  l_child : nd; l_q : mat; l_prediction : option ndR }.

(** machine.py:148-153, matrices. [np.mean] of an empty trace is nan; the model assumes T >= 1. *)
Definition mean_at (tr : list mat) (n l : nat) : R := Rsum (fun m => IZR (at2 m n l)) tr / INR (List.length tr).
Definition factor_mean (f : factor) : rmat :=
  match f_trace f with
  | Some tr => rmat_build (nrows (hd [] tr)) (ncols (hd [] tr)) (mean_at tr)
  | None => map (map IZR) (f_val f)
  end.
(** machine.py:148-153, dispersions *)
Definition lbda_mean (s : lstate) : rvec :=
  match l_lbda_trace s with
  | Some tr => map (fun k => Rsum (fun v => rat v k) tr / INR (List.length tr)) (seq 0 (List.length (hd [] tr)))
  | None => l_lbda s
  end.

(** machine.py:379 and 413, [2 * (x.mean() > 0) - 1] *)
Definition threshold (m : rmat) : mat := map (map (fun x => (2 * (if Rltb 0 x then 1 else 0) - 1)%Z)) m.
(** machine.py:271-273 *)
Definition set_to_map (f : factor) : factor :=
  let val := map (map (fun x => if Rltb 0 x then 1%Z else 0%Z)) (factor_mean f) in
  {| f_val := map (map (fun v => if (v =? 0)%Z then (-1)%Z else v)) val; f_trace := f_trace f |}.

(** Elementwise operations on arrays (machine.py:384-387, 409, 415, 433-437, 452). *)
Fixpoint nd_mapR (f : Z -> R) (a : nd) : ndR :=
  match a with Leaf x => LeafR (f x) | Node l => NodeR (map (nd_mapR f) l) end.
Fixpoint ndR_map (f : R -> R) (a : ndR) : ndR :=
  match a with LeafR x => LeafR (f x) | NodeR l => NodeR (map (ndR_map f) l) end.
Fixpoint ndR_add (a b : ndR) : ndR :=
  match a, b with
  | LeafR x, LeafR y => LeafR (x + y)
  | NodeR l, NodeR l' =>
      NodeR ((fix go (p q : list ndR) := match p, q with x :: p', y :: q' => ndR_add x y :: go p' q' | _, _ => [] end) l l')
  | _, _ => a
  end.
Definition ndR_of_rmat (m : rmat) : ndR := NodeR (map (fun r => NodeR (map LeafR r)) m).
Fixpoint nd_shape (a : nd) : list nat :=
  match a with Leaf _ => [] | Node [] => [0%nat] | Node (b :: r) => List.length (b :: r) :: nd_shape b end.

(** machine.py:385 and 433, [x.trace[t, :] for x in self.factors] *)
Fixpoint samples_at (fs : list factor) (t : nat) : res (list mat) :=
  match fs with
  | [] => Ok []
  | f :: fs' =>
      match f_trace f with
      | None => Err AttributeError
      | Some tr => match nth_error tr t with
                   | None => Err IndexError
                   | Some m => bind (samples_at fs' t) (fun ms => Ok (m :: ms))
                   end
      end
  end.
(** machine.py:383-386 and 432-435: [for t in range(T): out += gen(samples at t)]. *)
Fixpoint mc_loop (gen : nat -> list mat -> res ndR) (fs : list factor) (ts : list nat) (out : ndR) : res ndR :=
  match ts with
  | [] => Ok out
  | t :: ts' =>
      bind (samples_at fs t) (fun ms => bind (gen t ms) (fun o => mc_loop gen fs ts' (ndR_add out o)))
  end.

(** lom_outputs.py:254-262 with any number of factors: the expansion takes exactly two columns. *)
Definition max_and (argsort : rvec -> list nat) (fs : list mat) (lbdas : rvec) : res ndR :=
  match fs with
  | [A; B] => Ok (ndR_of_rmat (MAX_AND_product_2d argsort A B lbdas))
  | _ => match argsort (butlast lbdas) with
         | [] => Ok (ndR_build (map nrows fs) (fun _ => 0))
         | _ => Err TypeError
         end
  end.
Definition max_and_output (argsort : rvec -> list nat) (technique : string) (s : lstate) : res ndR :=
  if String.eqb technique "point_estimate" then max_and argsort (map f_val (l_factors s)) (l_lbda s)
  else if String.eqb technique "factor_map" then
    max_and argsort (map (fun f => threshold (factor_mean f)) (l_factors s)) (l_lbda s)
  else if String.eqb technique "mc" then
    match l_lbda_trace s with
    | None => Err AttributeError
    | Some tr =>
        bind (mc_loop (fun t ms => max_and argsort ms (nth t tr [])) (l_factors s) (seq 0 (List.length tr))
                      (ndR_build (map (fun f => nrows (f_val f)) (l_factors s)) (fun _ => 0)))
             (fun out => Ok (ndR_map (fun x => x / INR (List.length tr)) out))
    end
  else if String.eqb technique "factor_mean" then
    match l_factors s with
    | z :: u :: _ =>
        Ok (ndR_of_rmat (MAX_AND_product_fuzzy (map (map (fun m => 5 / 10 * (m + 1))) (factor_mean z))
                                               (map (map (fun m => 5 / 10 * (m + 1))) (factor_mean u)) (lbda_mean s)))
    | _ => Err IndexError
    end
  else Err UnboundLocalError.

(** machine.py:394-403 *)
Definition qL_output (s : lstate) : res ndR :=
  match nd_shape (l_child s) with
  | [N; D] =>
      match l_factors s with
      | z :: u :: _ =>
          Ok (ndR_build [N; D] (fun idx =>
                let n := nth 0 idx 0%nat in
                let d := nth 1 idx 0%nat in
                IZR (qL_AND_product (row (f_val u) d) (row (f_val z) n) (at2 (l_q s) 0 d))))
      | _ => Err IndexError
      end
  | _ => Err ValueError
  end.

(** machine.py:405-442. [model] is the layer's (possibly renamed) model. *)
Definition lom_technique (technique model : string) (s : lstate) : res ndR :=
  if String.eqb technique "point_estimate" then
    bind (lom_generate_data_fast (map f_val (l_factors s)) model) (fun out => Ok (nd_mapR (fun x => (1 + IZR x) * (5 / 10)) out))
  else if String.eqb technique "factor_map" then
    bind (lom_generate_data_fast (map (fun f => threshold (factor_mean f)) (l_factors s)) model)
         (fun out => Ok (nd_mapR (fun x => if (x =? 1)%Z then 1 else 0) out))
  else if String.eqb technique "factor_mean" then
    lom_generate_data_fast_fuzzy (map (fun f => map (map (fun m => (m + 1) * (5 / 10))) (factor_mean f)) (l_factors s)) model
  else if String.eqb technique "factor_mean_old" then
    lom_generate_data_fuzzy (map factor_mean (l_factors s)) model
  else if String.eqb technique "mc" then
    match l_lbda_trace s with
    | None => Err AttributeError
    | Some tr =>
        bind (mc_loop (fun _ ms => bind (lom_generate_data_fast ms model) (fun o => Ok (nd_mapR IZR o)))
                      (l_factors s) (seq 0 (List.length tr))
                      (ndR_build (map (fun f => nrows (f_val f)) (l_factors s)) (fun _ => 0)))
             (fun out => Ok (ndR_map (fun x => (1 + x / INR (List.length tr)) * (5 / 10)) out))
    end
  else Err UnboundLocalError.
Definition lom_branch (technique model : string) (noisy : bool) (s : lstate) : res ndR :=
  bind (lom_technique technique model s)
    (fun out => Ok (if noisy then ndR_map (fun x => noisy_emission x (rat (lbda_mean s) 0)) out else out)).

Definition set_model (s : lstate) (model : string) : lstate :=
  {| l_model := model; l_factors := l_factors s; l_lbda := l_lbda s; l_lbda_trace := l_lbda_trace s;
     l_child := l_child s; l_q := l_q s; l_prediction := l_prediction s |}.
Definition set_prediction (s : lstate) (p : ndR) : lstate :=
  {| l_model := l_model s; l_factors := l_factors s; l_lbda := l_lbda s; l_lbda_trace := l_lbda_trace s;
     l_child := l_child s; l_q := l_q s; l_prediction := Some p |}.

(** machine.py:341-452: the layer afterwards and the returned array or the exception. *)
Definition output (argsort : rvec -> list nat) (technique : string) (noisy lazy map_to_probabilities : bool)
    (s : lstate) : lstate * res ndR :=
  match l_prediction s, lazy with
  | Some p, true => (s, Ok p)
  | _, _ =>
      let is_ibp := String.eqb (l_model s) "OR-AND-IBP" in
      let s1 := if is_ibp then set_model s "OR-AND" else s in
      let out :=
        if String.eqb (l_model s1) "MAX-AND" then max_and_output argsort technique s1
        else if String.eqb (l_model s1) "qL-AND" then qL_output s1
        else lom_branch technique (l_model s1) noisy s1 in
      match out with
      | Err e => (s1, Err e)
      | Ok o =>
          let s2 := set_prediction s1 o in
          let s3 := if is_ibp then set_model s2 "OR-AND-IBP" else s2 in
          (s3, Ok (if map_to_probabilities then o else ndR_map (fun x => 2 * x - 1) o))
      end
  end.
