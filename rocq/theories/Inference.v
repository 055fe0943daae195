(** Model of traces, burn-in and inference: lom/machine.py:104-170 and 544-775, lom/auxiliary_functions.py:481-495.
    Simplifications: iteration counts are integers; printing is left out except for the modulo that can fail; traces
    hold exact reals (the code rounds to float32) and slots that were never written are [None], read as an arbitrary
    value; while-loops take a number of allowed iterations and [None] means "still running". [log] records the calls
    made, is never read and is not in the code: it lets theorems speak about what happened. *)
From Coq Require Import String.
From Verif Require Import Base BaseR Outputs Fuzzy Lambda Clean Machine Dispatch.
Local Open Scope R_scope.

(** Trace.trace of a parameter: its slots and, if the value was an array when it was allocated (machine.py:132-142),
    the number of columns. Trace of a matrix: slots and, for the IBP version (machine.py:113-130), the columns. *)
Record ltrace := LT { lcells : list (option lval); lwidth : option nat }.
Record mtrace := MT { mcells : list (option arr); mwidth : option nat }.

(** The calls made by machine.py:579-601, 628 and 668-670, oldest first: start of a pass over the matrices, update of a matrix, update of a dispersion
    with the resulting value, an annealing assignment, a convergence check with the window it looks at. *)
Inductive event := ESweep | EMat (i : nat) | ELbda (l : nat) (v : lval) | EAnneal (l : nat) (v : lval) | ECheck (l : nat) (window : list (option lval)).

(** A machine in use: the objects, the traces with their write positions (machine.py:126-146), burn_in_iters
    (machine.py:649, 664), the log. *)
Record state := St {
  wd : world; mtr : nat -> option mtrace; mti : nat -> nat; ltr : nat -> option ltrace; lti : nat -> nat;
  iters : option Z; log : list event }.
Definition fset {A : Type} (f : nat -> A) (i : nat) (x : A) : nat -> A := fun j => if Nat.eqb j i then x else f j.
Definition set_wd (s : state) w : state := St w (mtr s) (mti s) (ltr s) (lti s) (iters s) (log s).
Definition set_mtr (s : state) i t k : state := St (wd s) (fset (mtr s) i t) (fset (mti s) i k) (ltr s) (lti s) (iters s) (log s).
Definition set_ltr (s : state) l t k : state := St (wd s) (mtr s) (mti s) (fset (ltr s) l t) (fset (lti s) l k) (iters s) (log s).
Definition set_iters (s : state) z : state := St (wd s) (mtr s) (mti s) (ltr s) (lti s) (Some z) (log s).
Definition note (s : state) e : state := St (wd s) (mtr s) (mti s) (ltr s) (lti s) (iters s) (log s ++ [e]).

(** A list comprehension evaluated for its effects, as in machine.py:579. *)
Fixpoint foldM {S A : Type} (f : S -> A -> res S) (l : list A) (s : S) : res S :=
  match l with [] => Ok s | a :: l' => bind (f s a) (foldM f l') end.

(** One pass over the matrices, machine.py:579: [[mat.sampling_fct(mat) for mat in np.random.permutation(mats)]]. *)
Definition call_mat (o : oracle) (s : state) (i : nat) : res state :=
  bind (run_mat o (wd s) i) (fun w => Ok (note (set_wd s w) (EMat i))).
Definition sweep (o : oracle) (ms : list nat) (s : state) : res state :=
  foldM (call_mat o) (o_perm o (clock (wd s)) ms) (note (set_wd s (tick (wd s))) ESweep).
(** machine.py:583 *)
Definition call_lbda (s : state) (l : nat) : res state :=
  bind (run_lbda (wd s) l) (fun w => Ok (note (set_wd s w) (ELbda l (disp w l)))).
Definition update_lbdas (ls : list nat) (s : state) : res state := foldM call_lbda ls s.

(** machine.py:132-142 for a parameter *)
Definition allocate_l (n : nat) (s : state) (l : nat) : state :=
  set_ltr s l (Some (LT (repeat None n) (match disp (wd s) l with LV v => Some (List.length v) | LS _ => None end))) (lti s l).
(** machine.py:606, [lbda.trace_index = 0] *)
Definition rewind_l (s : state) (l : nat) : state := set_ltr s l (ltr s l) 0.
(** machine.py:144-146 for a parameter *)
Definition update_trace_l (s : state) (l : nat) : res state :=
  match ltr s l with
  | None => Err AttributeError
  | Some t =>
      if Nat.ltb (lti s l) (List.length (lcells t))
      then Ok (set_ltr s l (Some (LT (upd (lcells t) (lti s l) (Some (disp (wd s) l))) (lwidth t))) (S (lti s l)))
      else Err IndexError
  end.

(** auxiliary_functions.py:481-495, np.mean; the mean of nothing is NaN and never compares. *)
Definition mean (v : rvec) : R := Rsum (fun x => x) v / INR (List.length v).
(** auxiliary_functions.py:481-495 *)
Definition check_convergence_single_trace (trace : rvec) (eps : R) : bool :=
  let l := Nat.div (List.length trace) 2 in
  if Nat.eqb l 0 then false
  else Rltb (Rabs (expit (mean (firstn l trace)) - expit (mean (skipn l trace)))) eps.
(** machine.py:167, column c of a slot's value. *)
Definition component (c : nat) (v : lval) : R := match v with LS x => x | LV v => rat v c end.
(** machine.py:155-170; unwritten slots hold whatever was in memory. *)
Definition check_convergence (o : oracle) (k : nat) (t : ltrace) (eps : R) : bool :=
  let read j := match nth j (lcells t) None with Some v => v | None => o_memory o k j end in
  let column c := map (fun j => component c (read j)) (seq 0 (List.length (lcells t))) in
  match lwidth t with
  | None => check_convergence_single_trace (column 0%nat) eps
  | Some n => forallb (fun c => check_convergence_single_trace (column c) eps) (seq 0 n)
  end.
(** machine.py:628: [np.all] of a list, so every parameter is checked. *)
Fixpoint check_all (o : oracle) (ls : list nat) (eps : R) (s : state) : res (state * bool) :=
  match ls with
  | [] => Ok (s, true)
  | l :: ls' =>
      match ltr s l with
      | None => Err AttributeError
      | Some t =>
          bind (check_all o ls' eps (note s (ECheck l (lcells t)))) (fun '(s', b) =>
          Ok (s', check_convergence o (clock (wd s)) t eps && b))
      end
  end.

(** aux.clean_up_codes on layer l (auxiliary_functions.py:100-159, Clean.v): resetting writes into the factors' arrays, removing
    gives them new arrays. *)
Definition clean_layer (w : world) (l : nat) (reset clean : bool) : option (res (world * bool)) :=
  let fs := factors (get_lay w l) in
  match mapM (fun i => bind (read2 w i) (fun m => bind (as2 (fixed_entries (get_mat w i))) (fun e =>
                       Ok {| cf_val := m; cf_fixed_entries := e |}))) fs with
  | Err e => Some (Err e)
  | Ok cfs =>
      match clean_up_codes (S (csize cfs)) cfs reset clean with
      | None => None
      | Some (Err e) => Some (Err e)
      | Some (Ok (cfs', red)) =>
          let put w '(i, cf) := if reset then write w (val (get_mat w i)) (A2 (cf_val cf)) else assign_val w i (A2 (cf_val cf)) in
          Some (Ok (if red then fold_left put (combine fs cfs') w else w, red))
      end
  end.
(** machine.py:635-640: all flagged layers are cleaned; was any changed? *)
Fixpoint clean_all (w : world) (ls : list nat) : option (res (world * bool)) :=
  match ls with
  | [] => Some (Ok (w, false))
  | l :: ls' =>
      let lay := get_lay w l in
      if auto_clean lay || auto_reset lay then
        match clean_layer w l (auto_reset lay) (auto_clean lay) with
        | Some (Ok (w', b)) => match clean_all w' ls' with
                               | Some (Ok (w'', b')) => Some (Ok (w'', b || b'))
                               | other => other
                               end
        | other => other
        end
      else clean_all w ls'
  end.
(** machine.py:656-658: at the end, removal instead of another reset. *)
Fixpoint final_clean (w : world) (ls : list nat) : option (res world) :=
  match ls with
  | [] => Some (Ok w)
  | l :: ls' =>
      if auto_reset (get_lay w l) then
        match clean_layer w l false true with
        | Some (Ok (w', _)) => final_clean w' ls'
        | Some (Err e) => Some (Err e)
        | None => None
        end
      else final_clean w ls'
  end.

(** [self.layers], machine.py:465, and the layers behind [self.lbdas], machine.py:483-485. *)
Definition all_layers (w : world) : list nat := seq 0 (List.length (layers w)).

(** np.arange for reals, machine.py:594. *)
Definition ceil (x : R) : Z := (- Int_part (- x))%Z.
Definition arange (start stop step : R) : res rvec :=
  if Req_EM_T step 0 then Err ZeroDivisionError
  else Ok (map (fun k => start + INR k * step) (seq 0 (Z.to_nat (ceil ((stop - start) / step))))).
(** machine.py:594-598; np.arange refuses arrays. *)
Definition annealing_steps (w : world) (burn_in_min : Z) (l : nat) : res rvec :=
  bind (match disp w l with LS x => Ok x | LV _ => Err ValueError end) (fun x =>
  let b := IZR burn_in_min in arange (x / b) (x + 2 * x / b) (x / b)).
(** machine.py:600-601 *)
Definition anneal_step (k : Z) (s : state) (p : nat * rvec) : res state :=
  let '(l, steps) := p in
  bind (if (k <? 0)%Z then Err IndexError else of_option (nth_error steps (Z.to_nat k)) IndexError) (fun x =>
  let w := assign_disp (wd s) l (LS x) in
  Ok (note (set_wd s w) (EAnneal l (LS x)))).

Record settings := {
  eps : R; window : nat; burn_in_min : Z; burn_in_max : Z; print_step : nat; fix_lbda_iters : Z }.
Definition div_ok (n : nat) : res unit := if Nat.eqb n 0 then Err ZeroDivisionError else Ok tt.
(** machine.py:562-601, one round of the pre-burn-in. *)
Definition pre_body (o : oracle) (cfg : settings) (ms ls : list nat) (x : Z * list rvec * state) : res (Z * list rvec * state) :=
  let '(k0, sched, s) := x in
  let k := (k0 + 1)%Z in
  bind (div_ok (print_step cfg)) (fun _ =>
  bind (sweep o ms s) (fun s1 =>
  if (fix_lbda_iters cfg <? k)%Z then
    if anneal (wd s1) then
      bind (if (fix_lbda_iters cfg =? 0)%Z then Ok tt else Err ValueError) (fun _ =>
      bind (if (k =? fix_lbda_iters cfg + 1)%Z then mapM (annealing_steps (wd s1) (burn_in_min cfg)) ls else Ok sched) (fun sched' =>
      bind (foldM (anneal_step k) (combine ls sched') s1) (fun s2 => Ok (k, sched', s2))))
    else bind (update_lbdas ls s1) (fun s2 => Ok (k, sched, s2))
  else Ok (k, sched, s1))).
(** machine.py:609-670, one round of the monitored burn-in; [true] is [break]. *)
Definition main_body (o : oracle) (cfg : settings) (ms ls : list nat) (pre : Z) (x : nat * bool * state) : option (res (nat * bool * state)) :=
  let '(k0, _, s) := x in
  let k := S k0 in
  let go_on (s : state) : option (res (nat * bool * state)) :=
    if (burn_in_max cfg <? Z.of_nat k + pre)%Z then
      match final_clean (wd s) (all_layers (wd s)) with
      | None => None
      | Some (Err e) => Some (Err e)
      | Some (Ok w) => Some (Ok (k, true, set_iters (fold_left rewind_l ls (set_wd s w)) (Z.of_nat k)))
      end
    else Some (bind (sweep o ms s) (fun s1 => bind (update_lbdas ls s1) (fun s2 =>
               bind (foldM update_trace_l ls s2) (fun s3 => Ok (k, false, s3))))) in
  match div_ok (print_step cfg) with
  | Err e => Some (Err e)
  | Ok _ =>
  match div_ok (window cfg) with
  | Err e => Some (Err e)
  | Ok _ =>
      if Nat.eqb (Nat.modulo k (window cfg)) 0 then
        match check_all o ls (eps cfg) (fold_left rewind_l ls s) with
        | Err e => Some (Err e)
        | Ok (s1, conv) =>
            if conv then
              match clean_all (wd s1) (all_layers (wd s1)) with
              | None => None
              | Some (Err e) => Some (Err e)
              | Some (Ok (w, red)) =>
                  if red then go_on (fold_left rewind_l ls (fold_left (allocate_l (window cfg)) ls (set_wd s1 w)))
                  else Some (Ok (k, true, set_iters (set_wd s1 w) (Z.of_nat k + pre)))
              end
            else go_on s1
        end
      else go_on s
  end end.
(** machine.py:544-670 *)
Definition burn_in (fuel : nat) (o : oracle) (cfg : settings) (ms ls : list nat) (s : state) : option (res state) :=
  match while fuel (fun '(k, _, _) => negb (k =? burn_in_min cfg)%Z) (fun x => Some (pre_body o cfg ms ls x)) (0%Z, [], s) with
  | None => None
  | Some (Err e) => Some (Err e)
  | Some (Ok (pre, _, s1)) =>
      let s2 := fold_left rewind_l ls (fold_left (allocate_l (window cfg)) ls s1) in
      match while fuel (fun '(_, stop, _) => negb stop) (main_body o cfg ms ls pre) (0%nat, false, s2) with
      | None => None
      | Some (Err e) => Some (Err e)
      | Some (Ok (_, _, s3)) => Some (Ok s3)
      end
  end.

(** machine.py:686, [not mat.fixed]: the truth value of an array with more than one entry is an error. *)
Definition truth (f : fixedness) : res bool :=
  match f with
  | FBool b => Ok b
  | FArr a => match concat a with [] => Ok false | [x] => Ok (negb (x =? 0)%Z) | _ => Err ValueError end
  end.
(** machine.py:686 *)
Fixpoint not_fixed (w : world) (l : list nat) : res (list nat) :=
  match l with
  | [] => Ok []
  | i :: l' => bind (truth (fixed (get_mat w i))) (fun b => bind (not_fixed w l') (fun r => Ok (if b then r else i :: r)))
  end.
(** machine.py:691 *)
Definition free_lbdas (w : world) : list nat := filter (fun l => negb (lfixed (lbda (get_lay w l)))) (all_layers w).
(** machine.py:693-696 *)
Definition assign_mat (w : world) (i : nat) : res world :=
  bind (get_sampling_fct w i) (fun '(w', f) => Ok (set_mat w' i (with_sfct (get_mat w' i) (Some f)))).
Definition assign_lbda (w : world) (l : nat) : res world :=
  bind (get_update_fct w l) (fun f => Ok (set_lay w l (with_lbda (get_lay w l) (with_lsfct (lbda (get_lay w l)) (Some f))))).

(** machine.py:726 and 739, [mat.layer.model == 'OR-AND-IBP'] *)
Definition is_ibp (w : world) (i : nat) : bool :=
  match layer_of (get_mat w i) with Some l => String.eqb (model (get_lay w l)) "OR-AND-IBP" | None => false end.
(** machine.py:725-731 with 113-124 (machine.py:113-124 [allocate_trace_arrays_IBP]) and 132-142 *)
Definition allocate_m (n : nat) (s : state) (i : nat) : res state :=
  bind (own_layer (wd s) i) (fun _ =>
  if is_ibp (wd s) i then
    bind (read2 (wd s) i) (fun m =>
    let width := (ncols m + 10)%nat in
    Ok (set_mtr s i (Some (MT (repeat (Some (A2 (repeat (repeat (-1)%Z width) (nrows m)))) n) (Some width))) (mti s i)))
  else Ok (set_mtr s i (Some (MT (repeat None n) None)) (mti s i))).
(** machine.py:127-129, [a[:N, :L] = x] for a slot *)
Definition overlay (old x : mat) : mat := map (fun p => snd p ++ skipn (List.length (snd p)) (fst p))%list (combine old x).
(** machine.py:126-130 and 144-146; the IBP version fills the upper left part of the slot and refuses a matrix wider
    than the slot. A slot without width has the shape of the matrix, and both versions overwrite it. *)
Definition update_trace_m (s : state) (i : nat) : res state :=
  match mtr s i with
  | None => Err AttributeError
  | Some t =>
      if Nat.ltb (mti s i) (List.length (mcells t)) then
        bind (match nth (mti s i) (mcells t) None, mwidth t with
              | Some (A2 old), Some n =>
                  bind (read2 (wd s) i) (fun m => if Nat.leb (ncols m) n then Ok (A2 (overlay old m)) else Err ValueError)
              | _, _ => Ok (value (wd s) i)
              end) (fun x =>
        Ok (set_mtr s i (Some (MT (upd (mcells t) (mti s i) (Some x)) (mwidth t))) (S (mti s i))))
      else Err IndexError
  end.
(** machine.py:734-746, one sampling iteration. *)
Definition sample_body (o : oracle) (cfg : settings) (ms ls : list nat) (s : state) : res state :=
  bind (sweep o ms s) (fun s1 => bind (foldM update_trace_m ms s1) (fun s2 =>
  bind (update_lbdas ls s2) (fun s3 => bind (foldM update_trace_l ls s3) (fun s4 =>
  bind (div_ok (print_step cfg)) (fun _ => Ok s4))))).
Fixpoint samples (n : nat) (o : oracle) (cfg : settings) (ms ls : list nat) (s : state) : res state :=
  match n with O => Ok s | S n' => bind (sample_body o cfg ms ls s) (samples n' o cfg ms ls) end.
(** machine.py:686-710: members to update, closures, trace positions. *)
Definition prepare (s : state) : res (list nat * list nat * state) :=
  bind (not_fixed (wd s) (members (wd s))) (fun ms =>
  let ls := free_lbdas (wd s) in
  bind (foldM assign_mat ms (wd s)) (fun w1 => bind (foldM assign_lbda ls w1) (fun w2 =>
  let s1 := fold_left (fun s i => set_mtr s i (mtr s i) 0) ms (set_wd s w2) in
  Ok (ms, ls, fold_left rewind_l ls s1)))).
(** machine.py:672-775 *)
Definition infer (fuel : nat) (o : oracle) (cfg : settings) (no_samples : nat) (s : state) : option (res state) :=
  match prepare s with
  | Err e => Some (Err e)
  | Ok (ms, ls, s1) =>
      match burn_in fuel o cfg ms ls s1 with
      | None => None
      | Some (Err e) => Some (Err e)
      | Some (Ok s2) =>
          Some (bind (foldM (allocate_m no_samples) ms s2) (fun s3 =>
                samples no_samples o cfg ms ls (fold_left (allocate_l no_samples) ls s3)))
      end
  end.
(** A machine that has just been built (machine.py:461-542): no traces yet. *)
Definition fresh_state (w : world) : state := St w (fun _ => None) (fun _ => 0%nat) (fun _ => None) (fun _ => 0%nat) None [].
