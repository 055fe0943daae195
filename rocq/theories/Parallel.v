(** Small-step model of the parallel sweep [for n in prange(Z.shape[0])] of every sampler in
    lom/_numba/matrix_updates_numba.py:157-381 (compiled with parallel=True).
    One thread per row (numba gives every worker a block of rows; running the rows of a block one after
    the other is one particular interleaving). A thread's atomic steps are: skip a fixed cell, read one
    entry Z[n, k] of the shared array into its local buffer, write the new value of Z[n, l]. Reads of the
    other arrays are not steps, since no thread writes them during a sweep. The draws are the oracle
    [rand n l]: numba's per-thread generator is abstracted to an arbitrary value per cell. *)
From Verif Require Import Base BaseR Sampling.
Local Open Scope R_scope.

(** matrix_updates_numba.py:166-174. Progress of the thread of one row: current column, entries read so far. *)
Record thread : Type := Thread { t_l : nat; t_buf : vec }.

(** What a thread sees of Z while computing a logit: its own row only ([Z[n, :]] is what the scores
    receive, e.g. matrix_updates_numba.py:171-172). *)
Definition only_row (n : nat) (buf : vec) : mat := repeat [] n ++ [buf].

(** One atomic step of thread [n] on the shared matrix, matrix_updates_numba.py:166-174. *)
Definition step (logit : mat -> nat -> nat -> R) (fixed : mat) (rand : nat -> nat -> R) (L n : nat)
    (Z_ : mat) (t : thread) : mat * thread :=
  let l := t_l t in
  if (l <? L)%nat then
    if (at2 fixed n l =? 1)%Z then (Z_, Thread (S l) [])
    else if (List.length (t_buf t) <? L)%nat then
      (Z_, Thread l (t_buf t ++ [at2 Z_ n (List.length (t_buf t))]))
    else
      (set2 Z_ n l (flip_metropolised_gibbs_numba (logit (only_row n (t_buf t)) n l) (at1 (t_buf t) l) (rand n l)),
       Thread (S l) [])
  else (Z_, t).

(** matrix_updates_numba.py:166-174. The state of a sweep: the shared matrix and the threads. *)
Definition pstate : Type := (mat * list thread)%type.
Definition pinit (Z_ : mat) : pstate := (Z_, repeat (Thread 0 []) (nrows Z_)).

(** matrix_updates_numba.py:166-174. Thread [n] is scheduled for one step (an id that is not a thread, or a finished thread, idles). *)
Definition pstep logit fixed rand (L : nat) (s : pstate) (n : nat) : pstate :=
  let '(Z_, ts) := s in
  match nth_error ts n with
  | None => s
  | Some t => let '(Z', t') := step logit fixed rand L n Z_ t in (Z', upd ts n t')
  end.
(** matrix_updates_numba.py:166-174. Execution under a schedule, the list of thread ids in the order in which they step. *)
Definition exec logit fixed rand (L : nat) (sched : list nat) (s : pstate) : pstate :=
  fold_left (pstep logit fixed rand L) sched s.
(** matrix_updates_numba.py:166-174. The barrier at the end of the prange: every thread has handled all its columns. *)
Definition finished (L : nat) (s : pstate) : Prop := Forall (fun t => (L <= t_l t)%nat) (snd s).

(** matrix_updates_numba.py:166-174. The parallel sampler, as a set of possible results. *)
Definition parallel_result logit fixed rand (Z_ Z' : mat) : Prop :=
  exists sched, finished (ncols Z_) (exec logit fixed rand (ncols Z_) sched (pinit Z_)) /\
                fst (exec logit fixed rand (ncols Z_) sched (pinit Z_)) = Z'.

(** The cell logits the samplers of matrix_updates_numba.py:157-381 run with. *)
Inductive sampler_logit : (mat -> nat -> nat -> R) -> Prop :=
| sl_1c2 score U X la lp : sampler_logit (logit_onechild_2d score U X la lp)
| sl_1c3 score U V X la lp : sampler_logit (logit_onechild_3d score U V X la lp)
| sl_1c1p score ps U X la a b c lp : sampler_logit (logit_onechild_oneparent_2d score ps U X la a b c lp)
| sl_0c1p ps a b c lp : sampler_logit (logit_nochild_oneparent_2d ps a b c lp)
| sl_0c2p ps a b c a' b' c' lp : sampler_logit (logit_nochild_twoparents_2d ps a b c a' b' c' lp)
| sl_1c2p score ps U X la a b c a' b' c' lp :
    sampler_logit (logit_onechild_twoparents_2d score ps U X la a b c a' b' c' lp).
