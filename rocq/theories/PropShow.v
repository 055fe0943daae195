(** C110: pictures of matrices. *)
From Coq Require Import String Lra.
From Verif Require Import Base BaseR Spec LayerOutput Show ShowProofs ShowExamples SpecOut SpecShow.
Local Open Scope R_scope.

(** C110. After sampling, the picture of the mean shows the relative frequency of a 1 in every cell. This holds if
    one of the entries is a 1 in less than half of the samples; otherwise no entry is rescaled. *)
Theorem C110_mean_partial : forall L T f, factor_ok L T f -> (1 <= T)%nat -> exists m, show f "mean" = Ok m /\
  ((exists n l, (n < List.length (f_val f))%nat /\ (l < L)%nat /\ frequency f n l < 1 / 2) -> pictures m (List.length (f_val f)) L (frequency f)) /\
  ((forall n l, (n < List.length (f_val f))%nat -> (l < L)%nat -> 1 / 2 <= frequency f n l) -> pictures m (List.length (f_val f)) L (fun n l => 2 * frequency f n l - 1)).
Proof. exact C110_mean_lemma. Qed.
Print Assumptions C110_mean_partial.
Example C110_mean_example : factor_ok 1 5 ex_three /\ factor_ok 2 5 ex_beside /\ frequency ex_beside 0 1 < 1 / 2 /\ 1 / 2 <= frequency ex_three 0 0.
Proof. split; [exact ex_three_ok|]. split; [exact ex_beside_ok|]. rewrite (proj2 ex_beside_freq), ex_three_freq. split; lra. Qed.
(** The same frequency is shown as 1/5 or 3/5, depending on the other entries. *)
Theorem C110_mean_refuted : exists f g L L' m m', factor_ok L 5 f /\ factor_ok L' 5 g /\ frequency f 0 0 = 3 / 5 /\ frequency g 0 0 = 3 / 5 /\
  show f "mean" = Ok m /\ show g "mean" = Ok m' /\ nth 0 (nth 0 m []) 0 = 1 / 5 /\ nth 0 (nth 0 m' []) 0 = 3 / 5.
Proof. exact C110_mean_refuted_lemma. Qed.
Print Assumptions C110_mean_refuted.

(** C110. The picture of the maximum a posteriori estimate shows what is 1 in more than three quarters of the samples... *)
Theorem C110_map : forall L T f, factor_ok L T f -> (1 <= T)%nat -> exists m, show f "map" = Ok m /\
  pictures m (List.length (f_val f)) L (fun n l => if Rlt_dec (3 / 4) (frequency f n l) then 1 else 0).
Proof. exact C110_map_lemma. Qed.
Print Assumptions C110_map.
Example C110_map_example : factor_ok 2 5 ex_beside /\ (1 <= 5)%nat.
Proof. split; [exact ex_beside_ok|repeat constructor]. Qed.
(** ... and not what is 1 in most of them, as set_to_map has it. *)
Theorem C110_map_refuted : exists f L m tr, factor_ok L 5 f /\ f_trace f = Some tr /\ majority tr 0 0 = true /\ f_val (set_to_map f) = [[1%Z]] /\
  show f "map" = Ok m /\ nth 0 (nth 0 m []) 0 = 0.
Proof. exact C110_map_refuted_lemma. Qed.
Print Assumptions C110_map_refuted.

(** C110. The picture of the state shows the ones of a binary matrix. *)
Theorem C110_state : forall L f, has_cols (f_val f) L -> bin2 (f_val f) -> exists m, show f "state" = Ok m /\
  pictures m (List.length (f_val f)) L (fun n l => if (nth l (nth n (f_val f) []) 0 =? 1)%Z then 1 else 0).
Proof. exact C110_state_lemma. Qed.
Print Assumptions C110_state.
Example C110_state_example : has_cols (f_val ex_beside) 2 /\ bin2 (f_val ex_beside).
Proof. exact (conj (proj1 ex_beside_ok) (proj1 (proj2 ex_beside_ok))). Qed.
(** C110. Missing entries of data are shown half-way between the ones and the zeros if there are zeros, and like
    zeros if there are none. *)
Theorem C110_missing : forall L f, has_cols (f_val f) L -> tern2 (f_val f) -> exists m, show f "state" = Ok m /\
  ((exists n l, (n < List.length (f_val f))%nat /\ (l < L)%nat /\ nth l (nth n (f_val f) []) 0%Z = (-1)%Z) ->
    pictures m (List.length (f_val f)) L (fun n l => match nth l (nth n (f_val f) []) 0%Z with 1%Z => 1 | 0%Z => 1 / 2 | _ => 0 end)) /\
  ((forall n l, (n < List.length (f_val f))%nat -> (l < L)%nat -> nth l (nth n (f_val f) []) 0%Z <> (-1)%Z) ->
    pictures m (List.length (f_val f)) L (fun n l => match nth l (nth n (f_val f) []) 0%Z with 1%Z => 1 | _ => 0 end)).
Proof. exact C110_missing_lemma. Qed.
Print Assumptions C110_missing.
Example C110_missing_example : tern2 [[1; 0]]%Z /\ tern2 [[1; 0; -1]]%Z.
Proof. split; repeat constructor; unfold tern; lia. Qed.
(** C110. Any other technique raises ValueError. *)
Theorem C110_other : forall f technique, show f technique = Err ValueError <-> ~ In technique ["mean"; "map"; "state"]%string.
Proof. exact C110_other_lemma. Qed.
Print Assumptions C110_other.
