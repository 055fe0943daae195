(** Specification: the joint distribution of all factors of a machine, and passes of updates over them. *)
From Coq Require Import String.
From Verif Require Import Base BaseR SpecR Invariance Machine Dispatch Inference SpecMachine SpecOrdinary.
Local Open Scope R_scope.

(** Expectation over a sequence of independent batches of uniform draws, one batch of the given size after the other. *)
Fixpoint is_EE (ks : list nat) (f : list (list R) -> R) (v : R) : Prop :=
  match ks with
  | [] => f [] = v
  | k :: ks' => exists g, (forall rs, List.length rs = k -> Forall is_draw rs -> is_EE ks' (fun rss => f (rs :: rss)) (g rs)) /\ is_E k g v
  end.

(** One choice from every list. *)
Fixpoint choices {A : Type} (ls : list (list A)) : list (list A) :=
  match ls with
  | [] => [[]]
  | l :: ls' => flat_map (fun a => map (cons a) (choices ls')) l
  end.

(** Rows and columns of matrix i; all values it can take without changing its fixed entries. *)
Definition matrix_of (w : world) (i : nat) : mat := match value w i with A2 A => A | A3 _ => [] end.
Definition fixed_of (w : world) (i : nat) : mat := match fixed_entries (get_mat w i) with A2 F => F | A3 _ => [] end.
Definition values_of (w : world) (i : nat) : list mat :=
  let A := matrix_of w i in filter (agrees (fixed_of w i) A (nrows A) (ncols A)) (all_mats (nrows A) (ncols A)).
(** The machine with the values [c] for the matrices [fs]. *)
Definition puts (w : world) (fs : list nat) (c : list mat) : world := fold_left (fun w' p => put w' (fst p) (snd p)) (combine fs c) w.

(** The number of draws an update of matrix i uses. *)
Definition draws_needed (w : world) (i : nat) : nat := (nrows (matrix_of w i) * ncols (matrix_of w i))%nat.
(** The random streams in which the updates of the matrices [order], made one after the other from position [start] on,
    find the batches of draws [rss]. *)
Definition with_batches (o : oracle) (w : world) (start : nat) (order : list nat) (rss : list (list R)) : oracle :=
  {| o_perm := o_perm o;
     o_cell := fun k => draws_of (ncols (matrix_of w (nth (k - start) order 0%nat))) (nth (k - start) rss []);
     o_feature := o_feature o; o_ibp := o_ibp o; o_init := o_init o; o_argsort := o_argsort o; o_memory := o_memory o |}.
(** The first position of i in a list (its length if it is not there). *)
Fixpoint place (i : nat) (fs : list nat) : nat := match fs with [] => 0%nat | f :: fs' => if Nat.eqb i f then 0%nat else S (place i fs') end.
(** What is averaged: a function of the values of the matrices [fs] afterwards (an error or an endless run counts 0). *)
Definition after (fs : list nat) (h : list mat -> R) (r : res state) : R :=
  match r with Ok s => h (map (matrix_of (wd s)) fs) | Err _ => 0 end.

(** The random move [M] of the values of [fs] preserves the distribution with weights [weight] on [states]. *)
Definition preserves (M : list mat -> list (list R) -> (list mat -> R) -> R) (ks : list nat) (weight : list mat -> R) (states : list (list mat)) : Prop :=
  forall h : list mat -> R, exists E : list mat -> R,
    (forall c, In c states -> is_EE ks (fun rss => M c rss h) (E c)) /\
    Rsum (fun c => weight c * E c) states = Rsum (fun c => weight c * h c) states.

(** ** Several passes *)
(** The updates of n passes over [ms] from position t of the random stream on: the position at which each is made, and
    the matrix. Drawing the order of a pass takes one position, every update takes one. *)
Fixpoint plan (o : oracle) (ms : list nat) (n t : nat) : list (nat * nat) :=
  match n with
  | O => []
  | S n' => let order := o_perm o t ms in (combine (seq (S t) (List.length order)) order ++ plan o ms n' (S t + List.length order))%list
  end.
(** The random streams in which the planned updates find the batches of draws [rss]. *)
Definition with_plan (o : oracle) (w : world) (pl : list (nat * nat)) (rss : list (list R)) : oracle :=
  {| o_perm := o_perm o;
     o_cell := fun k => let m := place k (map fst pl) in draws_of (ncols (matrix_of w (snd (nth m pl (0, 0)%nat)))) (nth m rss []);
     o_feature := o_feature o; o_ibp := o_ibp o; o_init := o_init o; o_argsort := o_argsort o; o_memory := o_memory o |}.
(** The matrices that are not fixed. *)
Definition unfixed (w : world) : list nat := filter (fun i => match fixed (get_mat w i) with FBool b => negb b | FArr _ => false end) (members w).
(** The passes burn-in makes when there is no dispersion to monitor. *)
Definition burn_in_passes (cfg : settings) : nat :=
  (Z.to_nat (burn_in_min cfg) + Nat.min (window cfg - 1) (Z.to_nat (burn_in_max cfg - burn_in_min cfg)))%nat.
(** Slot j of the traces of [fs]. *)
Definition recorded (fs : list nat) (j : nat) (s : state) : list mat :=
  map (fun i => match mtr s i with Some t => match nth j (mcells t) None with Some (A2 A) => A | _ => [] end | None => [] end) fs.
(** What is averaged: a function of slot j after a run (an error or an endless run counts 0). *)
Definition after_run (fs : list nat) (j : nat) (h : list mat -> R) (r : option (res state)) : R :=
  match r with Some (Ok s) => h (recorded fs j s) | _ => 0 end.
