(** Model of lom/experiments.py: predictive experiments (LOM_predictive, LOM_hyperparms_parallel_gridsearch).
    Arrays of the caller live in a store (Machine.v), so that in-place changes are visible. Masks and the true data are
    lists of their entries in C order, which is the order in which [a[mask]] reads. Simplifications: as in Machine.v,
    Inference.v and Predict.v; a mask has the shape of the data it is applied to (only sizes are compared). *)
From Coq Require Import String.
From Verif Require Import Base BaseR Machine Dispatch Inference Fuzzy LayerOutput Predict Helpers.
Local Open Scope R_scope.

(** Entries in C order. *)
Definition entries (a : arr) : vec := match a with A2 m => concat m | A3 t => concat (map (@concat Z) t) end.
Fixpoint ndR_entries (a : ndR) : list R := match a with LeafR x => [x] | NodeR l => flat_map ndR_entries l end.
(** [a[mask]], experiments.py:282-283 *)
Definition masked {A : Type} (mask : list bool) (l : list A) : res (list A) :=
  if Nat.eqb (List.length mask) (List.length l) then Ok (map snd (filter fst (combine mask l))) else Err IndexError.
(** [np.mean(a == b)] of Boolean arrays, experiments.py:286 and 288; None is nan (no entries). *)
Definition agreement (a b : list bool) : option R :=
  let eqs := map (fun p => Bool.eqb (fst p) (snd p)) (combine a b) in
  match eqs with [] => None | _ => Some (INR (List.length (filter (fun x => x) eqs)) / INR (List.length eqs)) end.

(** One experiment, experiments.py:265: the true data, the training data (an int8 array of the caller by index, or a
    value of another type), the mask of the held-out entries, the model, its latent size, the initial dispersion and the
    annealing flag. [random_idx] is not used. *)
Record experiment := { e_truth : vec; e_train : source; e_mask : list bool; e_model : string; e_latent : nat; e_lbda : R; e_anneal : bool }.
(** experiments.py:273-279 with the default values of machine.py:672-679 *)
Definition experiment_settings (an : bool) : settings :=
  if an then {| eps := 5 / 1000; window := 50; burn_in_min := 600; burn_in_max := 1000; print_step := 10; fix_lbda_iters := 0 |}
  else {| eps := 5 / 1000; window := 10; burn_in_min := 100; burn_in_max := 150; print_step := 10; fix_lbda_iters := 50 |}.
Definition set_anneal (w : world) (b : bool) : world := World (arrays w) (mats w) (layers w) (free w) b (clock w).
(** What an experiment returns: accuracy, model and size, then the means of the factors (experiments.py:285-289). *)
Record outcome := { accuracy : option R; r_model : string; r_size : nat; r_means : list rmat }.
(** experiments.py:259-289, started with the arrays [arrs] of the caller at position [clk] of the random stream; the
    arrays of the caller and the position afterwards are returned with the outcome. *)
Definition LOM_predictive (argsort : rvec -> list nat) (fuel : nat) (o : oracle) (arrs : list arr) (clk : nat) (e : experiment) : option (res (list arr * nat * outcome)) :=
  match add_matrix o (World arrs [] [] [] false clk) (e_train e) None (FBool true) with
  | Err er => Some (Err er)
  | Ok w1 =>
      let '(w2, r) := add_layer o w1 (e_latent e) (Some 0%nat) None (e_model e) in
      match r with
      | Err er => Some (Err er)
      | Ok _ =>
          let w3 := assign_disp w2 0 (LS (e_lbda e)) in
          let w4 := if e_anneal e then set_anneal w3 true else w3 in
          match infer fuel o (experiment_settings (e_anneal e)) 10 (fresh_state w4) with
          | None => None
          | Some (Err er) => Some (Err er)
          | Some (Ok s) =>
              let y := get_lay (wd s) 0 in
              Some (bind (layer_output argsort "factor_mean" s 0) (fun p =>
                    bind (masked (e_mask e) (ndR_entries p)) (fun ps =>
                    bind (masked (e_mask e) (e_truth e)) (fun xs =>
                    let out := map (fun x => Rltb (5 / 10) x) ps in
                    let truth := map (fun x => ((-2 * (if invert_data y then 1 else 0) + 1) * x =? 1)%Z) xs in
                    Ok (firstn (List.length arrs) (arrays (wd s)), clock (wd s),
                        {| accuracy := agreement out truth; r_model := e_model e;
                           r_size := nth 1 (shape_of (value (wd s) (nth 0 (factors y) 0%nat))) 0%nat;
                           r_means := map (fun i => factor_mean (factor_view s i)) (factors y) |})))))
          end
      end
  end.
(** Experiments one after the other in one process, sharing the arrays of the caller, as in a chunk of [pool.map]
    (experiments.py:299-302): the outcomes. *)
Fixpoint run_chunk (argsort : rvec -> list nat) (fuel : nat) (o : oracle) (arrs : list arr) (clk : nat) (es : list experiment) : option (res (list arr * list outcome)) :=
  match es with
  | [] => Some (Ok (arrs, []))
  | e :: es' =>
      match LOM_predictive argsort fuel o arrs clk e with
      | Some (Ok (arrs', clk', r)) =>
          match run_chunk argsort fuel o arrs' clk' es' with
          | Some (Ok (arrs'', rs)) => Some (Ok (arrs'', r :: rs))
          | Some (Err er) => Some (Err er)
          | None => None
          end
      | Some (Err er) => Some (Err er)
      | None => None
      end
  end.

(** ** Grid search, experiments.py:310-353 *)
(** The training tensor [np.copy(tensor)] with the entries [v] (experiments.py:210-211): the shape of X, entries in C order. *)
Fixpoint fill2 (m : mat) (v : vec) : mat := match m with [] => [] | r :: m' => firstn (List.length r) v :: fill2 m' (skipn (List.length r) v) end.
Fixpoint fill3 (t : ten) (v : vec) : ten := match t with [] => [] | m :: t' => fill2 m v :: fill3 t' (skipn (List.length (concat m)) v) end.
Definition fill (X : arr) (v : vec) : arr := match X with A2 m => A2 (fill2 m v) | A3 t => A3 (fill3 t v) end.
(** Random draws of the k-th attempt to split: uniform numbers, and chosen ones and minus ones. *)
Record split_draws := { s_rand : nat -> nat -> R; s_pos : nat -> list nat; s_neg : nat -> list nat }.
(** experiments.py:328-336: retry with a tenth of the test set until no exception is raised; None: more than [fuel] retries. *)
Fixpoint retry_split (fuel : nat) (d : split_draws) (k : nat) (X : vec) (split : R) (balanced : bool) : option (vec * list bool) :=
  match split_train_test X split balanced (s_rand d k) (s_pos d k) (s_neg d k) with
  | Ok r => Some r
  | Err _ => match fuel with O => None | S fuel' => retry_split fuel' d (S k) X (split * (1 / 10)) balanced end
  end.
(** experiments.py:339-345: one experiment per model, latent size and index. *)
Definition configurations (truth : vec) (s : source) (mask : list bool) (machines : list string) (L_inits : list nat) (n_idx : nat) (lbda : R) (an : bool) : list experiment :=
  flat_map (fun m => flat_map (fun L => map (fun _ => {| e_truth := truth; e_train := s; e_mask := mask; e_model := m; e_latent := L; e_lbda := lbda; e_anneal := an |}) (seq 0 n_idx)) L_inits) machines.
(** Chunks of [pool.map] with 28 processes (experiments.py:299-302): a list of n is cut into pieces of n / 112, rounded up. *)
Definition chunk_size (n : nat) : nat := (n / 112 + if Nat.eqb (n mod 112) 0 then 0 else 1)%nat.
Fixpoint cut {A : Type} (fuel c : nat) (l : list A) : list (list A) :=
  match fuel, l with
  | S fuel', _ :: _ => firstn c l :: cut fuel' c (skipn c l)
  | _, _ => []
  end.
(** Every chunk is sent to a process with copies of its arrays, in which identical arrays stay identical; chunk k runs
    with the random stream [os k] from position [clks k]. The exception of the first failing chunk is raised. *)
Fixpoint run_chunks (argsort : rvec -> list nat) (fuel : nat) (os : nat -> oracle) (clks : nat -> nat) (arrs : list arr) (k : nat) (cs : list (list experiment)) : option (res (list outcome)) :=
  match cs with
  | [] => Some (Ok [])
  | c :: cs' =>
      match run_chunk argsort fuel (os k) arrs (clks k) c with
      | Some (Ok (_, rs)) =>
          match run_chunks argsort fuel os clks arrs (S k) cs' with
          | Some (Ok rs') => Some (Ok (rs ++ rs'))
          | x => x
          end
      | Some (Err er) => Some (Err er)
      | None => None
      end
  end.
(** [int8]: the type of X is int8, so that the training tensor is shared with the machine. Without [machines],
    [aux] is not defined (experiments.py:324-325). [sfuel] bounds the retries, [fuel] the loops of each machine. *)
Definition gridsearch (argsort : rvec -> list nat) (sfuel fuel : nat) (os : nat -> oracle) (clks : nat -> nat) (d : split_draws) (X : arr) (int8 : bool)
    (machines : option (list string)) (L_inits : list nat) (n_idx : nat) (lbda : R) (balanced an : bool) : option (res (list outcome)) :=
  match machines with
  | None => Some (Err NameError)
  | Some ms =>
      match retry_split sfuel d 0 (entries X) (1 / 10) balanced with
      | None => None
      | Some (tr, mask) =>
          let T := fill X tr in
          let es := configurations (entries X) (if int8 then Given 0 else Convert T) mask ms L_inits n_idx lbda an in
          run_chunks argsort fuel os clks (if int8 then [T] else []) 0 (cut (List.length es) (chunk_size (List.length es)) es)
      end
  end.
