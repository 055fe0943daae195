(** Model of MachineMatrix.show (lom/machine.py:247-255) with plot_matrix (lom/auxiliary_functions.py:194-233), as
    far as the array handed to [imshow] with the colour range [0, 1] goes. Simplifications: floats are exact
    reals, Booleans are 0 and 1 in the picture, figures and colour maps are dropped. *)
From Coq Require Import String.
From Verif Require Import Base BaseR LayerOutput.
Local Open Scope R_scope.

(** auxiliary_functions.py:200-202 *)
Definition plot_matrix (m : list (list R)) : list (list R) :=
  if existsb (existsb (fun x => Rltb x 0)) m then map (map (fun x => (5 / 10) * (x + 1))) m else m.
(** machine.py:247-255: the picture *)
Definition show (f : factor) (technique : string) : res (list (list R)) :=
  if (technique =? "mean")%string then Ok (plot_matrix (factor_mean f))
  else if (technique =? "map")%string then Ok (plot_matrix (map (map (fun x => if Rltb (5 / 10) x then 1 else 0)) (factor_mean f)))
  else if (technique =? "state")%string then Ok (plot_matrix (map (map IZR) (f_val f)))
  else Err ValueError.
