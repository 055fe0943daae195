(** Examples for pictures of matrices. *)
From Coq Require Import String Lra.
From Verif Require Import Base BaseR BaseRLemmas Spec LayerOutput Show ShowProofs SpecOut SpecShow.
Local Open Scope R_scope.

(** One entry with five samples, three of them 1. *)
Definition ex_three : factor := {| f_val := [[1%Z]]; f_trace := Some [[[1]]; [[1]]; [[-1]]; [[1]]; [[-1]]]%Z |}.
(** The same beside an entry that is -1 in all samples. *)
Definition ex_beside : factor := {| f_val := [[1; -1]]%Z; f_trace := Some [[[1; -1]]; [[1; -1]]; [[-1; -1]]; [[1; -1]]; [[-1; -1]]]%Z |}.
Lemma ex_three_ok : factor_ok 1 5 ex_three.
Proof. split; [repeat constructor|]. split; [repeat constructor|]. eexists. split; [reflexivity|]. split; [reflexivity|]. repeat constructor; unfold pm1; lia. Qed.
Lemma ex_beside_ok : factor_ok 2 5 ex_beside.
Proof. split; [repeat constructor|]. split; [repeat constructor; unfold pm1; lia|]. eexists. split; [reflexivity|]. split; [reflexivity|]. repeat constructor; unfold pm1; lia. Qed.
Lemma ex_three_freq : frequency ex_three 0 0 = 3 / 5.
Proof. unfold frequency. cbn. lra. Qed.
Lemma ex_beside_freq : frequency ex_beside 0 0 = 3 / 5 /\ frequency ex_beside 0 1 = 0.
Proof. unfold frequency. cbn. split; lra. Qed.
Lemma C110_mean_refuted_lemma : exists f g L L' m m', factor_ok L 5 f /\ factor_ok L' 5 g /\ frequency f 0 0 = 3 / 5 /\ frequency g 0 0 = 3 / 5 /\
  show f "mean" = Ok m /\ show g "mean" = Ok m' /\ nth 0 (nth 0 m []) 0 = 1 / 5 /\ nth 0 (nth 0 m' []) 0 = 3 / 5.
Proof.
  destruct (C110_mean_lemma 1 5 ex_three ex_three_ok) as (m & E & _ & K); [lia|]. destruct (C110_mean_lemma 2 5 ex_beside ex_beside_ok) as (m' & E' & K' & _); [lia|].
  exists ex_three, ex_beside, 1%nat, 2%nat, m, m'. split; [exact ex_three_ok|]. split; [exact ex_beside_ok|]. split; [exact ex_three_freq|].
  split; [apply ex_beside_freq|]. split; [exact E|]. split; [exact E'|]. split.
  - destruct K as (_ & _ & K); [|rewrite K by (cbn; lia); rewrite ex_three_freq; lra].
    intros n l Hn Hl. cbn in Hn. assert (n = 0%nat) by lia. assert (l = 0%nat) by lia. subst n l. rewrite ex_three_freq. lra.
  - destruct K' as (_ & _ & K'); [|rewrite K' by (cbn; lia); apply ex_beside_freq].
    exists 0%nat, 1%nat. split; [cbn; lia|]. split; [lia|]. rewrite (proj2 ex_beside_freq). lra.
Qed.
Lemma C110_map_refuted_lemma : exists f L m tr, factor_ok L 5 f /\ f_trace f = Some tr /\ majority tr 0 0 = true /\ f_val (set_to_map f) = [[1%Z]] /\
  show f "map" = Ok m /\ nth 0 (nth 0 m []) 0 = 0.
Proof.
  destruct (C110_map_lemma 1 5 ex_three ex_three_ok) as (m & E & _ & _ & K); [lia|].
  exists ex_three, 1%nat, m. eexists. split; [exact ex_three_ok|]. split; [reflexivity|]. split; [reflexivity|]. split.
  - unfold set_to_map, ex_three, factor_mean. cbn [f_trace f_val]. change (nrows (hd [] [[[1]]; [[1]]; [[-1]]; [[1]]; [[-1]]]%Z)) with 1%nat. change (ncols (hd [] [[[1]]; [[1]]; [[-1]]; [[1]]; [[-1]]]%Z)) with 1%nat.
    unfold MaxMachine.rmat_build. cbn [seq map]. rewrite (proj2 (Rltb_true _ _)); [reflexivity|]. unfold mean_at. cbn. lra.
  - split; [exact E|]. rewrite K by (cbn; lia). rewrite ex_three_freq. destruct (Rlt_dec (3 / 4) (3 / 5)); [lra|reflexivity].
Qed.
