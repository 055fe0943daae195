(** Model of the MaxMachine: lom/_numba/max_machine_sampler.py, MAX_AND_product_2d of
    lom/_numba/lom_outputs.py, MAX_AND_product_fuzzy of lom/_numba/lom_outputs_fuzzy.py and the
    wrapper MAX_AND_2D of lom/matrix_update_wrappers.py.
    Simplifications: floats (float32 tables included) are exact reals; Boolean arrays are predicates
    on index pairs; argsort is a parameter (any function that sorts); prange is a loop. *)
From Verif Require Import Base BaseR Outputs Sampling Fuzzy.
Local Open Scope R_scope.

(** lom_outputs.py:257, [v[:-1]] *)
Definition butlast (v : rvec) : rvec := removelast v.
(** lom_outputs.py:259, [f[:, l]] *)
Definition col (m : mat) (l : nat) : vec := map (fun r => at1 r l) m.
(** Real matrices by index (lom_outputs.py:256, max_machine_sampler.py:155). *)
Definition rmat_build (N D : nat) (f : nat -> nat -> R) : rmat := map (fun n => map (f n) (seq 0 D)) (seq 0 N).
Definition rat2 (m : rmat) (n d : nat) : R := rat (nth n m []) d.

(** lom_outputs.py:260, [out[out == 0] = temp[out == 0]] *)
Definition fill_zeros (out temp : rmat) (N D : nat) : rmat :=
  rmat_build N D (fun n d => if Req_EM_T (rat2 out n d) 0 then rat2 temp n d else rat2 out n d).
(** lom_outputs.py:254-262, two factors *)
Definition MAX_AND_product_2d (argsort : rvec -> list nat) (Z_ U : mat) (lbdas : rvec) : rmat :=
  let N := nrows Z_ in
  let D := nrows U in
  fold_left (fun out l_idx =>
      let e := OR_AND_product_expand (col Z_ l_idx) (col U l_idx) in
      let temp := rmat_build N D (fun n d => rat lbdas l_idx * IZR (at2 e n d)) in
      fill_zeros out temp N D)
    (argsort (butlast lbdas)) (rmat_build N D (fun _ _ => 0)).

(** lom_outputs_fuzzy.py:206-228 *)
Definition MAX_AND_product_fuzzy (Z_ U : rmat) (lbdas : rvec) : rmat :=
  let L := ncols Z_ in
  rmat_build (nrows Z_) (nrows U) (fun n d =>
    fold_left (fun acc l1 =>
        let temp1 := rat2 Z_ n l1 * rat2 U d l1 * rat lbdas l1 in
        let prod := fold_left (fun prod l2 =>
            if Nat.eqb l1 l2 then prod
            else let temp2 := rat2 Z_ n l2 * rat2 U d l2 in
                 if Rltb temp1 (temp2 * rat lbdas l2) then prod * (1 - temp2) else prod)
          (seq 0 L) 1 in
        acc + temp1 * prod)
      (seq 0 L) 0).

(** max_machine_sampler.py:103, [np.argmax(v)]: the first index of the largest entry. *)
Definition argmax (v : rvec) : nat :=
  fold_left (fun best i => if Rltb (rat v best) (rat v i) then i else best) (seq 0 (List.length v)) 0%nat.
(** max_machine_sampler.py:134, [np.min(v)] *)
Definition rmin (v : rvec) : R := fold_right Rmin (hd 0 v) v.
(** max_machine_sampler.py:94-95, [np.count_nonzero] of an N x D Boolean array. *)
Definition count_nonzero (N D : nat) (b : nat -> nat -> bool) : Z :=
  fold_left (fun acc n => fold_left (fun acc' d => if b n d then (acc' + 1)%Z else acc') (seq 0 D) acc) (seq 0 N) 0%Z.

(** max_machine_sampler.py:97-128: state of the loop in [lbda_MAX_AND]. *)
Record mstate := { m_list : list nat; m_TP : list Z; m_FP : list Z; m_mask : nat -> nat -> bool; m_parm : rvec }.
(** max_machine_sampler.py:100 *)
Definition pp_rate (tp fp : Z) : R := (IZR tp + 1) / (IZR (tp + fp) + 2).
Definition lbda_MAX_AND_step (N D : nat) (X : mat) (predictions : list (nat -> nat -> bool)) (s : mstate) : mstate :=
  let l_pp_rate := map (fun '(tp, fp) => pp_rate tp fp) (combine (m_TP s) (m_FP s)) in
  let l_max_idx := argmax l_pp_rate in
  let l_max := nth l_max_idx (m_list s) 0%nat in
  let parm := upd (m_parm s) l_max (rat l_pp_rate l_max_idx) in
  let l_list := map (fun i => nth i (m_list s) 0%nat)
                    (filter (fun i => negb (Nat.eqb i l_max_idx)) (seq 0 (List.length (m_list s)))) in
  let pred l := nth l predictions (fun _ _ => false) in
  let temp_array n d := pred l_max n d && negb (m_mask s n d) in
  let temp_array1 n d := temp_array n d && (at2 X n d =? 1)%Z in
  let temp_array2 n d := temp_array n d && (at2 X n d =? -1)%Z in
  let shift l := (l + (if Nat.leb l_max_idx l then 1 else 0))%nat in
  let upd_counts (C : list Z) (t : nat -> nat -> bool) :=
    map (fun l => (nth (shift l) C 0 - count_nonzero N D (fun n d => t n d && pred (nth l l_list 0%nat) n d))%Z)
        (seq 0 (List.length l_list)) in
  {| m_list := l_list;
     m_TP := upd_counts (m_TP s) temp_array1;
     m_FP := upd_counts (m_FP s) temp_array2;
     m_mask := fun n d => m_mask s n d || pred l_max n d;
     m_parm := parm |}.
(** max_machine_sampler.py:131, [v[-1] = x] *)
Definition set_last (v : rvec) (x : R) : rvec := upd v (List.length v - 1) x.
(** max_machine_sampler.py:74-141 up to the call of [compute_lbda_ratios]; [K = 2]. The result is the
    dispersion array [parm()], which the code updates in place. *)
Definition lbda_MAX_AND (Z_ U X : mat) (parm : rvec) : rvec :=
  let N := nrows Z_ in
  let L := ncols Z_ in
  let D := nrows U in
  let predictions := map (fun l n d => (at2 (OR_AND_product_expand (col Z_ l) (col U l)) n d =? 1)%Z) (seq 0 L) in
  let s0 := {| m_list := seq 0 L;
               m_TP := map (fun l => count_nonzero N D (fun n d => nth l predictions (fun _ _ => false) n d && (at2 X n d =? 1)%Z)) (seq 0 L);
               m_FP := map (fun l => count_nonzero N D (fun n d => nth l predictions (fun _ _ => false) n d && (at2 X n d =? -1)%Z)) (seq 0 L);
               m_mask := fun _ _ => false;
               m_parm := parm |} in
  let s := Nat.iter L (lbda_MAX_AND_step N D X predictions) s0 in
  let P_remain := count_nonzero N D (fun n d => negb (m_mask s n d) && (at2 X n d =? 1)%Z) in
  let N_remain := count_nonzero N D (fun n d => negb (m_mask s n d) && (at2 X n d =? -1)%Z) in
  let parm1 := set_last (m_parm s) (pp_rate P_remain N_remain) in
  if Req_EM_T (rat parm1 (List.length parm1 - 1)) (rmin parm1) then parm1
  else set_last parm1 (rmin parm1).
(** lambda_update_wrappers.py:21-25 and max_machine_sampler.py:79-80: three factors are rejected. *)
Definition lbda_MAX_AND_K (K : nat) (Z_ U X : mat) (parm : rvec) : res rvec :=
  if Nat.eqb K 2 then Ok (lbda_MAX_AND Z_ U X parm) else Err NotImplementedError.

(** max_machine_sampler.py:145-166: the two (L+1) x (L+1) tables, filled for l1, then l2 <= l1. *)
Definition rset2 (m : rmat) (i j : nat) (x : R) : rmat := upd m i (upd (nth i m []) j x).
Definition compute_lbda_ratios (L : nat) (lbda : rvec) : rmat * rmat :=
  let K := S L in
  fold_left (fun acc l1 =>
      fold_left (fun '(tp, tm) l2 =>
          let lratio_p := ln (rat lbda l1 / rat lbda l2) in
          let lratio_m := ln ((1 - rat lbda l1) / (1 - rat lbda l2)) in
          (rset2 (rset2 tp l1 l2 lratio_p) l2 l1 (- lratio_p),
           rset2 (rset2 tm l1 l2 lratio_m) l2 l1 (- lratio_m)))
        (seq 0 (S l1)) acc)
    (seq 0 K) (rmat_build K K (fun _ _ => 0), rmat_build K K (fun _ _ => 0)).

(** max_machine_sampler.py:52-60, first index in [ls] at which [c] holds, as in the loops with [break]. *)
Definition first_such (c : nat -> bool) (ls : list nat) : option nat := find c ls.
(** max_machine_sampler.py:26-71: the accumulated [score] before the return. [l] is used as an index
    of the column in [U[d, l]] and as a rank in [l_sorted[l]], as in the code. *)
Definition score_MAX_AND_float (Z_n : vec) (U : mat) (X_n : vec) (l : nat) (l_sorted : list nat)
    (ratios : rmat * rmat) : R :=
  let D := nrows U in
  let L := ncols U in
  let srt r := nth r l_sorted 0%nat in
  let on d r := (at1 Z_n (srt r) =? 1)%Z && (at2 U d (srt r) =? 1)%Z in
  let pick d k :=
    if (at1 X_n d =? 1)%Z then rat2 (fst ratios) (srt l) k
    else if (at1 X_n d =? -1)%Z then rat2 (snd ratios) (srt l) k
    else 0 in
  fold_left (fun score d =>
      if negb (at2 U d l =? 1)%Z then score
      else if existsb (on d) (seq 0 l) then score
      else match first_such (on d) (seq (S l) (L - S l)) with
           | Some r => score + pick d (srt r)
           | None => score + pick d L
           end)
    (seq 0 D) 0.
(** C truncation of a float to an integer (max_machine_sampler.py:24, int32 result; [int(x)] in Python). *)
Definition trunc (r : R) : Z := if Rleb 0 r then Int_part r else (- Int_part (- r))%Z.
(** max_machine_sampler.py:24-71. The declared return type is int32: the accumulated float is truncated (magnitudes below 2^31). *)
Definition posterior_score_MAX_AND_2D (Z_n : vec) (U : mat) (X_n : vec) (l : nat) (l_sorted : list nat)
    (ratios : rmat * rmat) : Z :=
  trunc (score_MAX_AND_float Z_n U X_n l l_sorted ratios).

(** max_machine_sampler.py:13-21 *)
Definition logit_MAX_AND (U X : mat) (l_sorted : list nat) (ratios : rmat * rmat) (Z_ : mat) (n l : nat) : R :=
  IZR (posterior_score_MAX_AND_2D (row Z_ n) U (row X n) l l_sorted ratios).
Definition draw_MAX_AND_2D (Z_ Z_fixed U X : mat) (l_sorted : list nat) (ratios : rmat * rmat)
    (rand : nat -> nat -> R) : mat :=
  sample_loop (logit_MAX_AND U X l_sorted ratios) Z_ Z_fixed rand.
(** matrix_update_wrappers.py:48-59. [l_order] is stored as int8: exact up to 128 latent dimensions. *)
Definition MAX_AND_2D (argsort : rvec -> list nat) (child_axis : nat) (Z_ Z_fixed U child : mat) (lbda : rvec)
    (ratios : rmat * rmat) (rand : nat -> nat -> R) : mat :=
  let l_order := argsort (map Ropp (butlast lbda)) in
  draw_MAX_AND_2D Z_ Z_fixed U (if Nat.eqb child_axis 0 then child else transpose child) l_order ratios rand.
