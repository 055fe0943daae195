(** Dispersions of a MAX-AND layer in double precision: lom/_numba/max_machine_sampler.py:74-135, the functions of MaxMachine.v once more
    with the rates rounded. Counts are machine integers and exact; adding 1 or 2 to them is exact; the quotient
    is rounded. The array has type float64 (machine.py:514-516). Simplifications as in MaxMachine.v otherwise. *)
From Verif Require Import Base BaseR Outputs Sampling Fuzzy MaxMachine FloatFuzzy.
Local Open Scope R_scope.

(** max_machine_sampler.py:100 and 131 *)
Definition double_pp_rate (tp fp : Z) : R := rnd ((IZR tp + 1) / (IZR (tp + fp) + 2)).
(** max_machine_sampler.py:97-124 *)
Definition double_MAX_AND_step (N D : nat) (X : mat) (predictions : list (nat -> nat -> bool)) (s : mstate) : mstate :=
  let l_pp_rate := map (fun '(tp, fp) => double_pp_rate tp fp) (combine (m_TP s) (m_FP s)) in
  let l_max_idx := argmax l_pp_rate in
  let l_max := nth l_max_idx (m_list s) 0%nat in
  let parm := upd (m_parm s) l_max (rat l_pp_rate l_max_idx) in
  let l_list := map (fun i => nth i (m_list s) 0%nat)
                    (filter (fun i => negb (Nat.eqb i l_max_idx)) (seq 0 (List.length (m_list s)))) in
  let pred l := nth l predictions (fun _ _ => false) in
  let temp_array n d := pred l_max n d && negb (m_mask s n d) in
  let temp_array1 n d := temp_array n d && (at2 X n d =? 1)%Z in
  let temp_array2 n d := temp_array n d && (at2 X n d =? -1)%Z in
  let shift l := (l + (if Nat.leb l_max_idx l then 1 else 0))%nat in
  let upd_counts (C : list Z) (t : nat -> nat -> bool) :=
    map (fun l => (nth (shift l) C 0 - count_nonzero N D (fun n d => t n d && pred (nth l l_list 0%nat) n d))%Z)
        (seq 0 (List.length l_list)) in
  {| m_list := l_list;
     m_TP := upd_counts (m_TP s) temp_array1;
     m_FP := upd_counts (m_FP s) temp_array2;
     m_mask := fun n d => m_mask s n d || pred l_max n d;
     m_parm := parm |}.
(** max_machine_sampler.py:74-138, two factors *)
Definition double_lbda_MAX_AND (Z_ U X : mat) (parm : rvec) : rvec :=
  let N := nrows Z_ in
  let L := ncols Z_ in
  let D := nrows U in
  let predictions := map (fun l n d => (at2 (OR_AND_product_expand (col Z_ l) (col U l)) n d =? 1)%Z) (seq 0 L) in
  let s0 := {| m_list := seq 0 L;
               m_TP := map (fun l => count_nonzero N D (fun n d => nth l predictions (fun _ _ => false) n d && (at2 X n d =? 1)%Z)) (seq 0 L);
               m_FP := map (fun l => count_nonzero N D (fun n d => nth l predictions (fun _ _ => false) n d && (at2 X n d =? -1)%Z)) (seq 0 L);
               m_mask := fun _ _ => false;
               m_parm := parm |} in
  let s := Nat.iter L (double_MAX_AND_step N D X predictions) s0 in
  let P_remain := count_nonzero N D (fun n d => negb (m_mask s n d) && (at2 X n d =? 1)%Z) in
  let N_remain := count_nonzero N D (fun n d => negb (m_mask s n d) && (at2 X n d =? -1)%Z) in
  let parm1 := set_last (m_parm s) (double_pp_rate P_remain N_remain) in
  if Req_EM_T (rat parm1 (List.length parm1 - 1)) (rmin parm1) then parm1
  else set_last parm1 (rmin parm1).
