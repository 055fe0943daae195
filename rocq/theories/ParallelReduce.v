(** Small-step model of the parallel loops that count and that fill arrays:
    lom/_numba/lambda_updates_numba.py:95-106, 113-125 (outputs), 132-143, 149-162 (fuzzy outputs), 179-222 (counters),
    lom/_numba/lom_outputs.py:55-67, lom/_numba/lom_outputs_fuzzy.py:206-229.
    numba runs the outermost prange in parallel: every worker gets some of the rows and runs through the positions of
    these rows; an inner prange is an ordinary loop. [count += 1] is a reduction: every worker has a counter of its own
    (int64), and the counters are added at the end. Positions of an array with rows of W entries are numbered in the
    order of memory. A step of a worker handles one position: reads of the arguments are not steps, since no worker
    writes them. Simplifications: which worker gets which rows, the interleaving of the workers and the order in which
    the counters are added are arbitrary. *)
From Coq Require Import Permutation.
From Verif Require Import Base BaseR Outputs Fuzzy.
Local Open Scope Z_scope.

(** lambda_updates_numba.py:201-204: the positions of the given rows. *)
Definition block (W : nat) (rows : list nat) : list nat := flat_map (fun n => map (fun j => (n * W + j)%nat) (seq 0 W)) rows.
(** lambda_updates_numba.py:200-204. A worker that counts: the positions left and its own counter. *)
Record worker : Type := Worker { w_todo : list nat; w_acc : Z }.
Definition start (W : nat) (dist : list (list nat)) : list worker := map (fun rows => Worker (block W rows) 0) dist.
(** lambda_updates_numba.py:203-204: worker i handles its next position; [hit k]: the prediction is correct there. *)
Definition count_step (hit : nat -> bool) (ws : list worker) (i : nat) : list worker :=
  match nth_error ws i with
  | Some (Worker (k :: ks) a) => upd ws i (Worker ks (if hit k then wrap 64 (a + 1) else a))
  | _ => ws
  end.
Definition count_run (hit : nat -> bool) (sched : list nat) (ws : list worker) : list worker := fold_left (count_step hit) sched ws.
Definition done (ws : list worker) : Prop := Forall (fun w => w_todo w = []) ws.
(** lambda_updates_numba.py:196-205. The possible results of a parallel counter over N rows of W positions. *)
Definition parallel_count (hit : nat -> bool) (N W : nat) (r : Z) : Prop :=
  exists dist sched order, Permutation (concat dist) (seq 0 N) /\ done (count_run hit sched (start W dist)) /\
    Permutation order (map w_acc (count_run hit sched (start W dist))) /\ r = fold_left (fun a b => wrap 64 (a + b)) order 0.

(** lambda_updates_numba.py:100-104: the shared array and the positions every worker has left; worker i writes its next
    position. *)
Definition fill_step {A} (g : nat -> A) (s : list A * list (list nat)) (i : nat) : list A * list (list nat) :=
  match nth_error (snd s) i with
  | Some (k :: ks) => (upd (fst s) k (g k), upd (snd s) i ks)
  | _ => s
  end.
Definition fill_run {A} (g : nat -> A) (sched : list nat) (s : list A * list (list nat)) := fold_left (fill_step g) sched s.
(** lambda_updates_numba.py:96-104. The possible results of a parallel loop that fills an array of N rows of W entries. *)
Definition parallel_fill {A} (zero : A) (g : nat -> A) (N W : nat) (X : list A) : Prop :=
  exists dist sched, Permutation (concat dist) (seq 0 N) /\
    let s := fill_run g sched (repeat zero (N * W), map (block W) dist) in Forall (eq []) (snd s) /\ fst s = X.

(** lambda_updates_numba.py:198-205, 210-220 and 181-188: the counters as parallel loops; r is a possible result. *)
Definition parallel_counter_2d (f : vec -> vec -> Z) (Z_ U X : mat) (r : Z) : Prop :=
  let D := ncols X in
  parallel_count (fun k => f (row Z_ (k / D)) (row U (k mod D)) =? at2 X (k / D) (k mod D)) (nrows X) D r.
Definition parallel_counter_3d (f : vec -> vec -> vec -> Z) (Z_ U V : mat) (X : ten) (r : Z) : Prop :=
  let D := List.length (hd [] X) in let M := List.length (hd [] (hd [] X)) in
  parallel_count (fun k => let n := (k / (D * M))%nat in let d := ((k mod (D * M)) / M)%nat in let m := ((k mod (D * M)) mod M)%nat in
    f (row Z_ n) (row U d) (row V m) =? at3 X n d m) (List.length X) (D * M) r.
Definition parallel_counter_qL (Z_ U X : mat) (q : vec) (r : Z) : Prop :=
  let D := ncols X in
  parallel_count (fun k => qL_AND_product (row Z_ (k / D)) (row U (k mod D)) (at1 q (k mod D)) =? at2 X (k / D) (k mod D)) (nrows X) D r.
(** lambda_updates_numba.py:95-104, 113-123, 132-141 and 149-160: the arrays of outputs as parallel loops; X is a
    possible content of the memory of the result, row after row. *)
Definition parallel_output_2d (f : vec -> vec -> Z) (Z_ U : mat) (X : list Z) : Prop :=
  let D := nrows U in parallel_fill 0 (fun k => f (row Z_ (k / D)) (row U (k mod D))) (nrows Z_) D X.
Definition parallel_output_3d (f : vec -> vec -> vec -> Z) (Z_ U V : mat) (X : list Z) : Prop :=
  let D := nrows U in let M := nrows V in
  parallel_fill 0 (fun k => f (row Z_ (k / (D * M))) (row U ((k mod (D * M)) / M)) (row V ((k mod (D * M)) mod M))) (nrows Z_) (D * M) X.
Definition parallel_output_2d_fuzzy (f : rvec -> rvec -> R) (Z_ U : rmat) (X : list R) : Prop :=
  let D := nrows U in parallel_fill 0%R (fun k => f (nth (k / D) Z_ []) (nth (k mod D) U [])) (nrows Z_) D X.
Definition parallel_output_3d_fuzzy (f : rvec -> rvec -> rvec -> R) (Z_ U V : rmat) (X : list R) : Prop :=
  let D := nrows U in let M := nrows V in
  parallel_fill 0%R (fun k => f (nth (k / (D * M)) Z_ []) (nth ((k mod (D * M)) / M) U []) (nth ((k mod (D * M)) mod M) V [])) (nrows Z_) (D * M) X.
