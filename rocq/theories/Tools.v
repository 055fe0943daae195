(** Model of analysis helpers: factor_density, get_roc_auc and find_centers_of_ordered_list of
    lom/auxiliary_functions.py, split_tensor_train_test_old of lom/experiments.py, maxmachine_forward_pass of
    lom/_numba/max_machine_sampler.py.
    Simplifications: floats are exact reals; the solver (scipy) and the AUC (scikit-learn) are parameters; printing is
    left out. *)
From Coq Require Import String.
From Verif Require Import Base BaseR Fuzzy MaxMachine Density Helpers.
Local Open Scope R_scope.

(** auxiliary_functions.py:1096, [np.abs(func(t)[0])] for the one-element array t: outside [0,1] func returns the number
    1e10 (1081-1084), which cannot be indexed. *)
Definition residual (model : string) (L K : nat) (X t : R) : res R :=
  if Rltb t 0 then Err TypeError else if Rltb 1 t then Err TypeError
  else bind (expected_density model L K t) (fun d => Ok (Rabs (d - X))).
(** auxiliary_functions.py:1092-1098: one guess, of which [t] is what the solver returns; [best] and [best_solution]. *)
Definition try_guess (model : string) (L K : nat) (X guess t : R) (s : R * option R) : res (R * option R) :=
  bind (expected_density model L K guess) (fun _ => (* the solver calls func *)
  bind (residual model L K X t) (fun r =>
  Ok (if Rltb r (fst s) then (r, Some t) else s))).
(** auxiliary_functions.py:1072-1108; [sol g] is what fsolve returns from the initial guess g. *)
Definition factor_density (model : string) (L K : nat) (X : R) (sol : R -> R) : res R :=
  bind (fold_left (fun r g => bind r (try_guess model L K X g (sol g))) [1 / 100; 25 / 100; 5 / 10; 75 / 100; 99 / 100] (Ok (10 ^ 10, None)))
    (fun s => match snd s with Some t => Ok t | None => Err UnboundLocalError end).

(** max_machine_sampler.py:273-285 *)
Definition maxmachine_forward_pass (argsort : rvec -> list nat) (u z : rmat) (alpha : rvec) : rmat :=
  let N := nrows z in
  let D := nrows u in
  let x := fold_left (fun x l => rmat_build N D (fun n d => if Req_EM_T (rat2 x n d) 0 then rat2 x n d + rat alpha l * (rat2 z n l * rat2 u d l) else rat2 x n d))
    (argsort (map Ropp (butlast alpha))) (rmat_build N D (fun _ _ => 0)) in
  rmat_build N D (fun n d => if Req_EM_T (rat2 x n d) 0 then last alpha 0 else rat2 x n d).

(** experiments.py:235-256. The tensor is the list of its entries in C order (the order of [np.where]); [idx] is the
    draw of [np.random.choice] (245). *)
Definition split_tensor_train_test_old (int8 : bool) (tensor : vec) (split : R) (idx : list nat) : res (vec * list bool) :=
  if negb int8 then Err AssertionError
  else
    bind (choice (List.length tensor) (trunc (split * INR (List.length tensor))) idx) (fun rand_idx =>
    let nz := positions (fun x => negb (x =? 0)%Z) tensor in
    let rand_tensor_idx := map snd (filter (fun p => existsb (Nat.eqb (fst p)) rand_idx) (combine (seq 0 (List.length nz)) nz)) in
    let mask := map (fun i => existsb (Nat.eqb i) rand_tensor_idx) (seq 0 (List.length tensor)) in
    Ok (training tensor mask, mask)).

(** auxiliary_functions.py:1209, [pandas.unique]: the values in the order of their first occurrence. *)
Fixpoint unique (seen : list Z) (ls : list Z) : list Z :=
  match ls with
  | [] => []
  | x :: ls' => if existsb (Z.eqb x) seen then unique seen ls' else x :: unique (x :: seen) ls'
  end.
(** auxiliary_functions.py:1202-1218; labels are numbers; [int] of a mean of indices is the integer quotient. *)
Definition find_centers_of_ordered_list (ls : list Z) : list nat :=
  map (fun u => let idxs := filter (fun i => (nth i ls 0 =? u)%Z) (seq 0 (List.length ls)) in (fold_right Nat.add 0 idxs / List.length idxs)%nat) (unique [] ls).

(** Running through a Python iterator: what it yields, and what is left. *)
Definition exhaust {A : Type} (it : list A) : list A * list A := (it, []).
(** auxiliary_functions.py:278-288 for matrices; [roc] is [sklearn.metrics.roc_auc_score]. [zip] makes an iterator
    (284), which both comprehensions run through (286). *)
Definition get_roc_auc (roc : list bool -> list R -> res R) (data data_train : mat) (prediction : rmat) : res R :=
  let zero_idx := filter (fun ij => at2 data_train (fst ij) (snd ij) =? 0)%Z (list_prod (seq 0 (nrows data_train)) (seq 0 (ncols data_train))) in
  let '(first, rest) := exhaust zero_idx in
  let labels := map (fun ij => at2 data (fst ij) (snd ij) =? 1)%Z first in
  let '(second, _) := exhaust rest in
  roc labels (map (fun ij => rat2 prediction (fst ij) (snd ij)) second).
