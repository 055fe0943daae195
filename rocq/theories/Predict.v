(** What the output of a layer reads after inference: MachineLayer.output (lom/machine.py:341-452, LayerOutput.v) sees the
    current matrices, the data and the traces that infer left behind (machine.py:104-170, 713-746). Simplifications: as in
    LayerOutput.v and Inference.v; slots that were never written hold arbitrary memory in the code and are empty here (no
    theorem reads them); a factor is always a matrix. *)
From Coq Require Import String.
From Verif Require Import Base BaseR Lops Fuzzy Lambda Machine Dispatch Inference LayerOutput.
Local Open Scope R_scope.

Definition matrix_in (c : option arr) : mat := match c with Some (A2 m) => m | _ => [] end.
Definition flat (v : lval) : rvec := match v with LS x => [x] | LV v => v end.
Definition nd_of_arr (a : arr) : nd := match a with A2 m => nd_of_mat m | A3 t => nd_of_ten t end.
(** machine.py:206-241 and 132-146: matrix i with its trace. *)
Definition factor_view (s : state) (i : nat) : factor :=
  {| f_val := matrix_in (Some (value (wd s) i)); f_trace := option_map (fun t => map matrix_in (mcells t)) (mtr s i) |}.
(** machine.py:280-307: layer l with its factors, dispersion and data. *)
Definition layer_view (s : state) (l : nat) : lstate :=
  let y := get_lay (wd s) l in
  {| l_model := model y; l_factors := map (factor_view s) (factors y);
     l_lbda := flat (disp (wd s) l);
     l_lbda_trace := option_map (fun t => map (fun c => match c with Some v => flat v | None => [] end) (lcells t)) (ltr s l);
     l_child := nd_of_arr (value (wd s) (child y));
     l_q := match q y with Some i => matrix_in (Some (value (wd s) i)) | None => [] end;
     l_prediction := None |}.
(** [lay.output(technique=...)], machine.py:341-452, without the emission noise. *)
Definition layer_output (argsort : rvec -> list nat) (technique : string) (s : state) (l : nat) : res ndR :=
  snd (output argsort technique false false true (layer_view s l)).
