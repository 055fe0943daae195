(** C123: intersect_dataframes. *)
From Coq Require Import Reals Permutation Sorted.
From Verif Require Import Base Frames SpecFrames FramesProofs.
Local Open Scope Z_scope.

(** C123. intersect_dataframes returns the common rows and columns of two data frames: FALSE of the code, it never returns. With distinct
    labels it always ends in a NameError at its last message. *)
Theorem C123_refuted : forall order A B, (forall r, intersect_dataframes order A B <> Ok r) /\
  ((forall l, Permutation (order l) l) -> NoDup (index A) -> NoDup (index B) -> NoDup (columns A) -> NoDup (columns B) -> intersect_dataframes order A B = Err NameError).
Proof. exact C123_refuted_lemma. Qed.
Print Assumptions C123_refuted.
(** What is true up to that message: the frames pass the assertions just when the common labels occur equally often in both frames,
    whatever the order in which Python lists a set. Then both frames have the same rows in increasing order and the same columns, exactly
    those with common labels, none lost or repeated, and at every pair of labels the entries they had before. Missing: the return of the frames. *)
Theorem C123_partial : forall order A B, (forall l, Permutation (order l) l) ->
  ((exists A' B', common_frames order A B = Ok (A', B')) <-> balanced (index A) (index B) /\ balanced (columns A) (columns B)) /\
  forall A' B', common_frames order A B = Ok (A', B') ->
    index A' = index B' /\ columns A' = columns B' /\ StronglySorted Z.le (index A') /\
    (forall r, In r (index A') <-> In r (index A) /\ In r (index B)) /\ (forall c, In c (columns A') <-> In c (columns A) /\ In c (columns B)) /\
    (forall r, In r (index A) -> In r (index B) -> count_occ Z.eq_dec (index A') r = count_occ Z.eq_dec (index A) r) /\ (forall c, In c (columns A) -> In c (columns B) -> count_occ Z.eq_dec (columns A') c = count_occ Z.eq_dec (columns A) c) /\
    (full A' /\ full B') /\
    (full A -> forall r c x, holds A' r c x <-> holds A r c x /\ In r (index B) /\ In c (columns B)) /\
    (full B -> forall r c x, holds B' r c x <-> holds B r c x /\ In r (index A) /\ In c (columns A)).
Proof. exact (fun order A B Hord => conj (C123_common order Hord A B) (C123_frames order Hord A B)). Qed.
Print Assumptions C123_partial.
(** Two frames with two common rows and one common column, sets listed backwards. *)
Definition frame_a : frame := Frame [10; 20] [(2, [1; 2]%R); (1, [3; 4]%R); (5, [0; 0]%R)].
Definition frame_b : frame := Frame [20; 30] [(1, [5; 6]%R); (3, [7; 8]%R); (2, [9; 9]%R)].
Example C123_example : (forall l : list Z, Permutation (rev l) l) /\ NoDup (index frame_a) /\ NoDup (index frame_b) /\ NoDup (columns frame_a) /\ NoDup (columns frame_b) /\ full frame_a /\ full frame_b /\
  common_frames (@rev Z) frame_a frame_b = Ok (Frame [20] [(1, [4]%R); (2, [2]%R)], Frame [20] [(1, [5]%R); (2, [9]%R)]).
Proof.
  split; [intros l; apply Permutation_sym, Permutation_rev|]. repeat (split; [cbn; repeat constructor; cbn; intuition discriminate|]).
  repeat (split; [intros r Hr; cbn in Hr; intuition (subst; reflexivity)|]). reflexivity.
Qed.
(** A common row label that occurs twice in one frame and once in the other: an error before the last message. *)
Example C123_repeated_example : let A := Frame [10] [(1, [1]%R); (1, [2]%R)] in let B := Frame [10] [(1, [3]%R)] in
  ~ balanced (index A) (index B) /\ intersect_dataframes (fun l => l) A B = Err ValueError.
Proof. cbv zeta. split; [|reflexivity]. intros H. specialize (H 1 (or_introl eq_refl) (or_introl eq_refl)). discriminate. Qed.
