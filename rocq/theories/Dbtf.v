(** Model of dbtf_reconstruct (lom/experiments.py:42-95), which hands a tensor to an external program through
    text files and reads the factors back. Simplifications: the change of directory (59-64) is dropped, the
    three result files exist before the call, every line of a result file holds two integers, and the
    external program is an arbitrary function of the command line, the tensor file and the result files. *)
From Verif Require Import Base Helpers.
Local Open Scope Z_scope.

(** experiments.py:70-74: the tensor file, with the size and the base index of its header. *)
Record tensor_file := TensorFile { t_size : nat * nat * nat; t_base : nat; t_entries : list (nat * nat * nat) }.
(** experiments.py:84-85: the lines of sample_factor1_sparse.txt to sample_factor3_sparse.txt. *)
Definition files : Type := list (Z * Z) * list (Z * Z) * list (Z * Z).
(** experiments.py:77, 81: the program is called with the three sizes and the latent dimension (the other
    hyperparameters are part of the program here); [subprocess.call] returns the exit status and never raises
    because of it, and the status is not looked at (81). *)
Definition program : Type := nat * nat * nat -> nat -> tensor_file -> files -> files.

(** experiments.py:69, [np.nonzero(X == 1)] transposed: the index triples in C order. *)
Definition sparse (X : ten) (N D M : nat) : list (nat * nat * nat) :=
  flat_map (fun n => flat_map (fun d => flat_map (fun m => if at3 X n d m =? 1 then [(n, d, m)] else []) (seq 0 M)) (seq 0 D)) (seq 0 N).

(** experiments.py:84-85: [np.loadtxt] squeezes its result. No line gives an empty one-dimensional array,
    one line a one-dimensional array of its two numbers, several lines an array of pairs. *)
Inductive loaded : Type := Flat (v : list Z) | Pairs (p : list (Z * Z)).
Definition loadtxt (lines : list (Z * Z)) : loaded :=
  match lines with [] => Flat [] | [(i, j)] => Flat [i; j] | _ => Pairs lines end.

(** An array index (experiments.py:93); negative indices count from the end. *)
Definition np_index (dim : nat) (i : Z) : res nat :=
  if (0 <=? i) && (i <? Z.of_nat dim) then Ok (Z.to_nat i)
  else if (- Z.of_nat dim <=? i) && (i <? 0) then Ok (Z.to_nat (i + Z.of_nat dim))
  else Err IndexError.
(** experiments.py:92-93; unpacking a number of a one-dimensional array raises TypeError. *)
Fixpoint set_pairs (F : list (list bool)) (dim L : nat) (p : list (Z * Z)) : res (list (list bool)) :=
  match p with
  | [] => Ok F
  | (i, j) :: r =>
      bind (np_index dim i) (fun a => bind (np_index L j) (fun b => set_pairs (upd F a (upd (nth a F []) b true)) dim L r))
  end.
(** experiments.py:90-93 *)
Definition dense (f : loaded) (dim L : nat) : res (list (list bool)) :=
  let F := repeat (repeat false L) dim in
  match f with
  | Flat [] => Ok F
  | Flat _ => Err TypeError
  | Pairs p => set_pairs F dim L p
  end.

(** experiments.py:42-95 with X of shape (N, D, M): the result files after the call, and the reconstruction (if
    [compute_output]) with the three factors. *)
Definition dbtf_reconstruct (prog : program) (fs : files) (X : ten) (N D M L : nat) (compute_output : bool)
  : files * res (option (list (list (list bool))) * list (list (list bool))) :=
  let out := prog (N, D, M) L (TensorFile (N, D, M) 0 (sparse X N D M)) fs in
  let '(f1, f2, f3) := out in
  (out,
   bind (dense (loadtxt f1) N L) (fun Z_ =>
   bind (dense (loadtxt f2) D L) (fun U =>
   bind (dense (loadtxt f3) M L) (fun V =>
     if compute_output
     then bind (boolean_tensor_product Z_ U V L L L) (fun X_recon => Ok (Some X_recon, [Z_; U; V]))
     else Ok (None, [Z_; U; V]))))).
