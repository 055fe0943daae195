(** Model of maxmachine_relevance (lom/_numba/max_machine_sampler.py:194-270), called by plot_codes
    (lom/auxiliary_functions.py:254).
    Simplifications: floats are exact reals; traces are lists of samples, those of a MAX-AND layer
    (machine.py:513-515: one dispersion per latent dimension and a last, clamped one); the division
    by zero ones (267) is the total one of R; indices outside an array are not modelled. *)
From Coq Require Import String.
From Verif Require Import Base BaseR Fuzzy.
Local Open Scope R_scope.

(** The attributes read and written: [eigenvals] (202, 269; absent, None or an array), [lbda.trace],
    [z.trace], [u.trace] (238-240; absent before inference and for fixed members, machine.py:726-731),
    [child()] (241). *)
Record rel_layer := RL {
  eigenvals : option (option rvec); lbda_trace : option (list rvec);
  z_trace : option (list mat); u_trace : option (list mat); child_val : mat }.
(** machine.py:278-308: the constructor sets no [eigenvals]; nothing else does but max_machine_sampler.py:269. *)
Definition constructed (x : mat) : rel_layer := RL None None None None x.

(** max_machine_sampler.py:249-250 and 256-257, one entry of the outer product of columns *)
Definition predicts (z u : mat) (l n d : nat) : bool := ((at2 z n l =? 1) && (at2 u d l =? 1))%Z%bool.
(** max_machine_sampler.py:253-258: sums of truth values, cut to truth values after every term *)
Definition predicted_above (z u : mat) (alpha : rvec) (L l n d : nat) : bool :=
  fold_left (fun b l_alt => if Rltb (rat alpha l) (rat alpha l_alt) then b || predicts z u l_alt n d else b) (seq 0 L) false.
(** max_machine_sampler.py:259, [np.sum(x[(x_pred==1) & (x_pred_alt !=1)] == 1)] *)
Definition ones_credited (x z u : mat) (alpha : rvec) (L l : nat) : nat :=
  List.length (filter (fun c => ((predicts z u l (fst c) (snd c) && negb (predicted_above z u alpha L l (fst c) (snd c))) && (at2 x (fst c) (snd c) =? 1)%Z)%bool)
    (list_prod (seq 0 (nrows z)) (seq 0 (nrows u)))).
(** max_machine_sampler.py:245-265, one sample; the last entry gets the last dispersion (265) *)
Definition relevance_step (x z u : mat) (alpha : rvec) (L : nat) (e : rvec) : rvec :=
  let e1 := fold_left (fun e l => upd e l (rat e l + rat alpha l * INR (ones_credited x z u alpha L l))) (seq 0 L) e in
  upd e1 (List.length e1 - 1) (last e1 0 + last alpha 0).
(** max_machine_sampler.py:237-267 *)
Definition relevance_mcmc (alpha_tr : list rvec) (z_tr u_tr : list mat) (x : mat) : rvec :=
  let tr_len := List.length u_tr in
  let L := ncols (nth 0 u_tr []) in
  let e := fold_left (fun e t => relevance_step x (nth t z_tr []) (nth t u_tr []) (nth t alpha_tr []) L e)
             (seq 0 tr_len) (repeat 0 (List.length (nth 0 alpha_tr []))) in
  let no_ones := List.length (filter (fun c => (at2 x (fst c) (snd c) =? 1)%Z) (list_prod (seq 0 (nrows x)) (seq 0 (ncols x)))) in
  map (fun v => v / (INR tr_len * INR no_ones)) e.

(** max_machine_sampler.py:194-270: the values and the layer afterwards. 'plugin' raises at line 225,
    [len] of a zip object; another type leaves [eigenvals] unassigned (269). *)
Definition maxmachine_relevance (s : rel_layer) (model_type : string) : res (rvec * rel_layer) :=
  match eigenvals s with
  | None => Err AttributeError
  | Some (Some e) => Ok (e, s)
  | Some None =>
      if String.eqb model_type "plugin" then Err TypeError
      else if String.eqb model_type "mcmc" then
        match lbda_trace s, z_trace s, u_trace s with
        | Some a, Some z, Some u =>
            let e := relevance_mcmc a z u (child_val s) in
            Ok (e, RL (Some (Some e)) (lbda_trace s) (z_trace s) (u_trace s) (child_val s))
        | _, _, _ => Err AttributeError
        end
      else Err UnboundLocalError
  end.
