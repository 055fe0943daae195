(** Model of stand-alone helper functions: lom/auxiliary_functions.py (noise, recoding, splitting,
    products, small utilities), lom/experiments.py (split_train_test) and random_choice of
    lom/_numba/matrix_updates_numba.py.
    Simplifications: floats are exact reals; np.random.rand draws come from an oracle [rand], the
    k-th draw of the call being [rand k]; np.random.choice without replacement returns an arbitrary
    list [idx] (the theorems assume it duplicate-free, in range and of the requested length);
    integer arrays hold unbounded integers except where a cast to int8 is written; printing dropped. *)
From Coq Require Import String.
From Verif Require Import Base BaseR MaxMachine.
Local Open Scope Z_scope.

(** Nested for-loops that thread a state through all entries of an array in C order (auxiliary_functions.py:544-549). *)
Fixpoint scan {S A B : Type} (f : S -> A -> res (S * B)) (s : S) (l : list A) : res (S * list B) :=
  match l with
  | [] => Ok (s, [])
  | a :: l' => bind (f s a) (fun p => bind (scan f (fst p) l') (fun q => Ok (fst q, snd p :: snd q)))
  end.

(** auxiliary_functions.py:544-549, body of the loop; the state counts the draws. *)
Definition noise_cell (rand : nat -> R) (p : R) (k : nat) (x : Z) : res (nat * Z) :=
  Ok (S k, if Rltb (rand k) p then - x else x).
(** auxiliary_functions.py:537-551 after the (re)seeding. *)
Definition add_bernoulli_noise_2d (rand : nat -> R) (X : mat) (p : R) : res mat :=
  bind (scan (scan (noise_cell rand p)) 0%nat X) (fun q => Ok (snd q)).

(** auxiliary_functions.py:524-534 on a Boolean array ([~] is logical not) ... *)
Definition noise_cell_bool (rand : nat -> R) (p : R) (k : nat) (x : bool) : res (nat * bool) :=
  Ok (S k, if Rltb (rand k) p then negb x else x).
Definition add_bernoulli_noise_bool (rand : nat -> R) (X : list (list (list bool))) (p : R) : res (list (list (list bool))) :=
  bind (scan (scan (scan (noise_cell_bool rand p))) 0%nat X) (fun q => Ok (snd q)).
(** ... and auxiliary_functions.py:524-534 on an integer array ([~] is bitwise complement, [-x - 1]). *)
Definition noise_cell_int (rand : nat -> R) (p : R) (k : nat) (x : Z) : res (nat * Z) :=
  Ok (S k, if Rltb (rand k) p then Z.lnot x else x).
Definition add_bernoulli_noise_int (rand : nat -> R) (X : ten) (p : R) : res ten :=
  bind (scan (scan (scan (noise_cell_int rand p))) 0%nat X) (fun q => Ok (snd q)).

(** auxiliary_functions.py:563-573, body of the loop; the state is the number of draws so far and the
    local variable [p] (None while unassigned). *)
Definition biased_cell (rand : nat -> R) (p_plus p_minus : R) (s : nat * option R) (x : Z) : res ((nat * option R) * Z) :=
  let p := if x =? 1 then Some p_plus else snd s in
  if x =? 0 then Ok ((fst s, p), x)
  else
    let p := if x =? -1 then Some p_minus else p in
    match p with
    | None => Err UnboundLocalError
    | Some q => Ok ((S (fst s), p), if Rltb (rand (fst s)) q then - x else x)
    end.
(** auxiliary_functions.py:554-573 after the (re)seeding. *)
Definition add_bernoulli_noise_2d_biased (rand : nat -> R) (X : mat) (p_plus p_minus : R) : res mat :=
  bind (scan (scan (biased_cell rand p_plus p_minus)) (0%nat, None) X) (fun q => Ok (snd q)).

(** The global generator behind auxiliary_functions.py:541-547: a state [g : G], [next] draws a float, [reseed] is np.random.seed,
    [randint] draws an integer. [stream g] are the floats drawn from state g on. *)
Fixpoint stream {G : Type} (next : G -> R * G) (g : G) (k : nat) : R :=
  match k with O => fst (next g) | S k' => stream next (snd (next g)) k' end.
(** auxiliary_functions.py:541-542 and 556-557: the generator is reseeded iff no seed is given. *)
Definition seeding {G : Type} (reseed : nat -> G) (randint : G -> nat * G) (seed : option nat) (g : G) : G :=
  match seed with None => reseed (fst (randint g)) | Some _ => g end.
Definition noise_2d_call {G : Type} (next : G -> R * G) (reseed : nat -> G) (randint : G -> nat * G)
    (X : mat) (p : R) (seed : option nat) (g : G) : res mat :=
  add_bernoulli_noise_2d (stream next (seeding reseed randint seed g)) X p.
Definition noise_2d_biased_call {G : Type} (next : G -> R * G) (reseed : nat -> G) (randint : G -> nat * G)
    (X : mat) (p_plus p_minus : R) (seed : option nat) (g : G) : res mat :=
  add_bernoulli_noise_2d_biased (stream next (seeding reseed randint seed g)) X p_plus p_minus.

(** auxiliary_functions.py:469-478; the array is the list of its entries. *)
Definition check_binary_coding (data : vec) : vec :=
  let data := if existsb (Z.eqb (-1)) data then data else map (fun x => 2 * x - 1) data in
  map wrap8 data.

(** auxiliary_functions.py:352-356, np.random.choice(range(n), k, replace=False): the drawn indices or an exception. *)
Definition choice (n : nat) (k : Z) (idx : list nat) : res (list nat) :=
  if (k <? 0) || (Z.of_nat n <? k) then Err ValueError else Ok idx.
(** [int(x)] truncates towards zero (MaxMachine.trunc). *)

(** auxiliary_functions.py:329-362. [idx_t], [idx_f] are the two draws. *)
Definition split_test_train (data : mat) (p : R) (idx_t idx_f : list nat) : res mat :=
  let data := if existsb (existsb (Z.eqb (-1))) data then data else map (map (fun x => 2 * x - 1)) data in
  let num_of_zeros := (INR (nrows data * ncols data) * p)%R in
  let index_pairs := list_prod (seq 0 (nrows data)) (seq 0 (ncols data)) in
  let true_index_pairs := filter (fun x => at2 data (fst x) (snd x) =? 1) index_pairs in
  let false_index_pairs := filter (fun x => at2 data (fst x) (snd x) =? -1) index_pairs in
  bind (choice (List.length true_index_pairs) (trunc (num_of_zeros / 2)) idx_t) (fun ti =>
  bind (choice (List.length false_index_pairs) (trunc (num_of_zeros / 2)) idx_f) (fun fi =>
    let zero_idx := map (fun i => nth i true_index_pairs (0, 0)%nat) ti ++ map (fun i => nth i false_index_pairs (0, 0)%nat) fi in
    Ok (fold_left (fun d ij => set2 d (fst ij) (snd ij) 0) zero_idx data))).

(** experiments.py:162-232. The tensor is the list of its entries in C order, an index is a position.
    Returns the training tensor and the mask. [rand i] is the draw for entry i (np.random.choice of
    [True, False] with probabilities [p, 1-p] is True iff the draw is below p). *)
Definition positions (f : Z -> bool) (tensor : vec) : list nat := filter (fun i => f (at1 tensor i)) (seq 0 (List.length tensor)).
Definition count_by (f : Z -> bool) (tensor : vec) : Z := Z.of_nat (List.length (positions f tensor)).
Definition training (tensor : vec) (mask : list bool) : vec :=
  map (fun i => if nth i mask false then 0 else at1 tensor i) (seq 0 (List.length tensor)).
Definition split_train_test (tensor : vec) (split : R) (balanced : bool) (rand : nat -> R) (idx_p idx_n : list nat) :
    res (vec * list bool) :=
  if trunc (IZR (count_by (fun x => negb (x =? 0)) tensor) * split) <? 0 then Err ValueError
  else if negb balanced then
    (* all entries missing: p is inf or nan *)
    if count_by (fun x => negb (x =? 0)) tensor =? 0 then Err ValueError
    else
      let p := (split / (1 - IZR (count_by (Z.eqb 0) tensor) / INR (List.length tensor)))%R in
      if Rltb p 0 || Rltb 1 p then Err ValueError
      else
        let mask := map (fun i => Rltb (rand i) p && negb (at1 tensor i =? 0)) (seq 0 (List.length tensor)) in
        Ok (training tensor mask, mask)
  else
    let S_ := trunc (IZR (count_by (fun x => negb (x =? 0)) tensor) * split * (5 / 10)) in
    if negb (S_ <? 2 * count_by (Z.eqb 1) tensor) then Err AssertionError
    else if negb (S_ <? 2 * count_by (Z.eqb (-1)) tensor) then Err AssertionError
    else
      let nz_p := positions (Z.eqb 1) tensor in
      bind (choice (List.length nz_p) S_ idx_p) (fun pi =>
      let nz_n := positions (Z.eqb (-1)) tensor in
      bind (choice (List.length nz_n) S_ idx_n) (fun ni =>
        let p_idxs := map (fun k => nth k nz_p 0%nat) pi in
        let n_idxs := map (fun k => nth k nz_n 0%nat) ni in
        let mask := map (fun i => existsb (Nat.eqb i) n_idxs || existsb (Nat.eqb i) p_idxs) (seq 0 (List.length tensor)) in
        Ok (training tensor mask, mask))).

(** auxiliary_functions.py:498-521 on Boolean arrays; [ZL], [UL], [VL] are the second dimensions. *)
Definition boolean_tensor_product (Z_ U V : list (list bool)) (ZL UL VL : nat) : res (list (list (list bool))) :=
  if negb (Nat.eqb UL ZL) then Err AssertionError
  else if negb (Nat.eqb VL ZL) then Err AssertionError
  else Ok (map (fun zn => map (fun ud => map (fun vm =>
         existsb (fun l => nth l zn false && nth l ud false && nth l vm false) (seq 0 ZL)) V) U) Z_).

(** auxiliary_functions.py:91-97; [eqb] is the element equality used by the set. *)
Fixpoint unique_loop {A : Type} (eqb : A -> A -> bool) (seen : list A) (seq_ : list A) : list A :=
  match seq_ with
  | [] => []
  | x :: r => if existsb (eqb x) seen then unique_loop eqb seen r else x :: unique_loop eqb (x :: seen) r
  end.
Definition unique_ordered {A : Type} (eqb : A -> A -> bool) (seq_ : list A) : list A := unique_loop eqb [] seq_.

(** auxiliary_functions.py:616-624; [L] is mat.shape[1]. *)
Definition all_columsn_are_disjoint (m : mat) (L : nat) : bool :=
  negb (existsb (fun ij => forallb (fun r => at1 r (snd ij) =? 1) (filter (fun r => at1 r (fst ij) =? 1) m))
    (filter (fun ij => negb (Nat.eqb (fst ij) (snd ij))) (list_prod (seq 0 L) (seq 0 L)))).

(** auxiliary_functions.py:58-77; None is -infinity. A division by zero needs q = 1 (or k*tau = -1). *)
Definition compute_bp (q : R) (n N : nat) (tau : R) : res (list (option R)) :=
  let denominator (k : nat) := ((1 - q) * (INR k * tau + 1))%R in
  if existsb (fun k => if Req_EM_T (denominator k) 0 then true else false) (seq 0 n) then Err ZeroDivisionError
  else
    let exp_bp := map (fun k => ((q * (INR n - INR k * tau)) / denominator k)%R) (seq 0 n) in
    let bp := map (fun x => if Rltb 0 x then Some (ln x) else None) exp_bp in
    Ok (if Nat.eqb N n then bp
        else
          (* bp_new[:n - 1] = bp; a negative bound counts from the end *)
          let bp_new := repeat None N in
          let stop := match n with O => (N - 1)%nat | S n' => n' end in
          bp ++ skipn stop bp_new).

(** auxiliary_functions.py:80-88 *)
Definition compute_bbp (n : nat) (a b : R) : res (list (option R)) :=
  let denominator (k : nat) := ((INR k + 1) * (INR n - INR k + b - 1))%R in
  if existsb (fun k => if Req_EM_T (denominator k) 0 then true else false) (seq 0 (S n)) then Err ZeroDivisionError
  else Ok (map (fun k => let x := (((INR n - INR k) * (INR k + a)) / denominator k)%R in
                         if Rltb 0 x then Some (ln x) else None) (seq 0 (S n))).

(** matrix_updates_numba.py:511-523 with the draw [rand_float]. The result type is int8. *)
Fixpoint choice_loop (rand_float : R) (p : list R) (i : nat) (acc : R) : option nat :=
  match p with
  | [] => None
  | x :: r => let acc := (acc + x)%R in if Rltb rand_float acc then Some (S i) else choice_loop rand_float r (S i) acc
  end.
Definition random_choice (p : list R) (rand_float : R) : Z :=
  match choice_loop rand_float p 0 0%R with
  | Some i => wrap8 (Z.of_nat i)
  | None => wrap8 (Z.of_nat (List.length p) + 1)
  end.
