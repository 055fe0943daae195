(** Model of tensorm_reconstruct, experiments.py:98-123. Simplifications: as in Experiments.v; the printed output and
    the variant that returns the layer object (return_layer=True) are left out. *)
From Coq Require Import String.
From Verif Require Import Base BaseR Machine Dispatch Inference Fuzzy LayerOutput Predict Experiments.
Local Open Scope R_scope.

(** experiments.py:103, [y in [0, 1]] for every value that occurs. *)
Definition only_01 (X : arr) : bool := forallb (fun y => (y =? 0) || (y =? 1))%Z (entries X).
(** experiments.py:104, [2 * X - 1] on int8, a new array. *)
Definition recode (X : arr) : arr :=
  match X with
  | A2 m => A2 (map (map (fun x => wrap8 (2 * x - 1))) m)
  | A3 t => A3 (map (map (map (fun x => wrap8 (2 * x - 1)))) t)
  end.
(** experiments.py:100-104: the array given to the machine. An int8 array of the caller that is not recoded is shared. *)
Definition prepared (arrs : list arr) (s : source) : source :=
  match s with
  | Given a => let X := nth a arrs (A2 []) in if only_01 X then Convert (recode X) else s
  | Convert X => if only_01 X then Convert (recode X) else s
  | Shape _ => s
  end.
(** experiments.py:114 with the default values of machine.py:672-679 *)
Definition tensorm_settings : settings := {| eps := 5 / 1000; window := 15; burn_in_min := 100; burn_in_max := 2000; print_step := 10; fix_lbda_iters := 0 |}.
(** experiments.py:98-123, started with the arrays [arrs] of the caller at position [clk] of the random stream. The
    entries of [hyper] are read and not used (106-107); [layer.z], [layer.u], [layer.v] are the first three factors
    (machine.py:310-320). Returned: the arrays of the caller afterwards, then the reconstruction from factor means, the
    means of the factors, and the reconstruction from factor modes. *)
Definition tensorm_reconstruct (argsort : rvec -> list nat) (fuel : nat) (o : oracle) (arrs : list arr) (clk : nat) (s : source) (L : nat) (hyper : list R) : option (res (list arr * (ndR * list rmat * ndR))) :=
  match hyper with
  | _ :: _ :: _ =>
      match add_matrix o (World arrs [] [] [] false clk) (prepared arrs s) None (FBool true) with
      | Err er => Some (Err er)
      | Ok w1 =>
          let '(w2, r) := add_layer o w1 L (Some 0%nat) None "OR-AND" in
          match r with
          | Err er => Some (Err er)
          | Ok _ =>
              match infer fuel o tensorm_settings 50 (fresh_state w2) with
              | None => None
              | Some (Err er) => Some (Err er)
              | Some (Ok st) =>
                  Some (bind (layer_output argsort "factor_mean" st 0) (fun Xr =>
                        bind (layer_output argsort "factor_map" st 0) (fun Xp =>
                        match factors (get_lay (wd st) 0) with
                        | z :: u :: v :: _ => Ok (firstn (List.length arrs) (arrays (wd st)), (Xr, map (fun i => factor_mean (factor_view st i)) [z; u; v], Xp))
                        | _ => Err IndexError
                        end)))
              end
          end
      end
  | _ => Some (Err IndexError)
  end.
