(** Model of the latent-dimension clean-up: lom/auxiliary_functions.py:100-160.
    Simplifications: a layer is the list of its factors, each with [val] and [fixed_entries] (the other
    attributes are never touched by this code), and its dispersions; printing dropped. A matrix is a
    list of rows and its number of columns is that of the first row, so the theorems assume at least
    one row per factor. While-loops take a number of allowed iterations; [None] means "still running". *)
From Verif Require Import Base BaseR.
Local Open Scope Z_scope.

(** What [clean_up_codes] sees of a MachineMatrix (machine.py:206-241): [val] and [fixed_entries]. *)
Record cfactor := { cf_val : mat; cf_fixed_entries : mat }.

(** The while-loops of auxiliary_functions.py:115-134: at most [fuel] tests of the condition. *)
Fixpoint while {S : Type} (fuel : nat) (cond : S -> bool) (body : S -> option (res S)) (s : S) : option (res S) :=
  match fuel with
  | O => None
  | S fuel' =>
      if cond s then match body s with
                     | Some (Ok s') => while fuel' cond body s'
                     | other => other
                     end
      else Some (Ok s)
  end.
(** A list comprehension whose elements may raise, as in auxiliary_functions.py:117. *)
Fixpoint mapM {A B : Type} (f : A -> res B) (l : list A) : res (list B) :=
  match l with
  | [] => Ok []
  | a :: l' => bind (f a) (fun b => bind (mapM f l') (fun bs => Ok (b :: bs)))
  end.

(** [f()[:, l]], auxiliary_functions.py:117 and 129. *)
Definition get_col (f : cfactor) (l : nat) : res vec :=
  if Nat.ltb l (ncols (cf_val f)) then Ok (map (fun r => at1 r l) (cf_val f)) else Err IndexError.
(** machine.py:322-328: columns of the first factor. *)
Definition csize (fs : list cfactor) : nat := match fs with [] => 0%nat | f :: _ => ncols (cf_val f) end.

(** auxiliary_functions.py:148-154; np.delete along axis 1. *)
Definition del {A : Type} (l : nat) (r : list A) : list A := firstn l r ++ skipn (S l) r.
Definition remove_dimension (l_prime : nat) (fs : list cfactor) : res (list cfactor) :=
  mapM (fun f => if Nat.ltb l_prime (ncols (cf_val f))
                 then Ok {| cf_val := map (del l_prime) (cf_val f); cf_fixed_entries := cf_fixed_entries f |}
                 else Err IndexError) fs.
(** auxiliary_functions.py:157-159 *)
Definition reset_dimension (l_prime : nat) (fs : list cfactor) : res (list cfactor) :=
  mapM (fun f => if Nat.ltb l_prime (ncols (cf_val f))
                 then Ok {| cf_val := map (fun r => upd r l_prime (-1)) (cf_val f); cf_fixed_entries := cf_fixed_entries f |}
                 else Err IndexError) fs.

(** auxiliary_functions.py:107-110; [cleaning_action] may stay unbound. *)
Definition cleaning_action (reset clean : bool) (l : nat) (fs : list cfactor) : res (list cfactor) :=
  if reset then reset_dimension l fs
  else if clean then remove_dimension l fs
  else Err UnboundLocalError.

(** auxiliary_functions.py:117-121, one round. *)
Definition inactive_body (action : nat -> list cfactor -> res (list cfactor)) (s : nat * list cfactor * bool) :
    res (nat * list cfactor * bool) :=
  let '(l, fs, red) := s in
  bind (mapM (fun f => bind (get_col f l) (fun c => Ok (forallb (Z.eqb (-1)) c))) fs) (fun bs =>
    if existsb (fun b => b) bs then bind (action l fs) (fun fs' => Ok (S l, fs', true))
    else Ok (S l, fs, red)).

(** auxiliary_functions.py:128-132: the first factor whose two columns agree triggers the action. *)
Fixpoint dup_for (l l_prime : nat) (rest : list cfactor) : res bool :=
  match rest with
  | [] => Ok false
  | f :: rest' =>
      bind (get_col f l) (fun a => bind (get_col f l_prime) (fun b =>
        if forallb (fun p => fst p =? snd p) (combine a b) then Ok true else dup_for l l_prime rest'))
  end.
(** auxiliary_functions.py:127-133, one round of the inner loop. *)
Definition dup_body (action : nat -> list cfactor -> res (list cfactor)) (l : nat) (s : nat * list cfactor * bool) :
    res (nat * list cfactor * bool) :=
  let '(l_prime, fs, red) := s in
  bind (dup_for l l_prime fs) (fun dup =>
    if dup then bind (action l_prime fs) (fun fs' => Ok (S l_prime, fs', true))
    else Ok (S l_prime, fs, red)).

Definition below (s : nat * list cfactor * bool) : bool := let '(l, fs, _) := s in Nat.ltb l (csize fs).
(** auxiliary_functions.py:125-134, one round of the outer loop. *)
Definition dup_outer (fuel : nat) (action : nat -> list cfactor -> res (list cfactor)) (s : nat * list cfactor * bool) :
    option (res (nat * list cfactor * bool)) :=
  let '(l, fs, red) := s in
  match while fuel below (fun s => Some (dup_body action l s)) (S l, fs, red) with
  | Some (Ok (_, fs', red')) => Some (Ok (S l, fs', red'))
  | other => other
  end.

(** auxiliary_functions.py:100-145 *)
Definition clean_up_codes (fuel : nat) (fs : list cfactor) (reset clean : bool) : option (res (list cfactor * bool)) :=
  let action := cleaning_action reset clean in
  match fs with
  | [] => Some (Err IndexError)
  | _ =>
    match while fuel below (fun s => Some (inactive_body action s)) (0%nat, fs, false) with
    | Some (Ok (_, fs1, red1)) =>
        match while fuel below (dup_outer fuel action) (0%nat, fs1, red1) with
        | Some (Ok (_, fs2, red2)) => Some (Ok (fs2, red2))
        | Some (Err e) => Some (Err e)
        | None => None
        end
    | Some (Err e) => Some (Err e)
    | None => None
    end
  end.

(** A layer (machine.py:276-308) with its dispersions; auxiliary_functions.py:148-159: [remove_dimension] and [reset_dimension] only visit [layer.factors]. *)
Record clayer := { c_factors : list cfactor; c_lbda : list R }.
Definition on_layer (action : list cfactor -> res (list cfactor)) (layer : clayer) : res clayer :=
  bind (action (c_factors layer)) (fun fs => Ok {| c_factors := fs; c_lbda := c_lbda layer |}).
