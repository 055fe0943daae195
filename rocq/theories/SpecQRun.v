(** Specification vocabulary for machines with one qL-AND layer. *)
From Coq Require Import String.
From Verif Require Import Base BaseR Spec SpecR SpecMachine SpecOrdinary SpecQL SpecMaxRun Canon Machine Dispatch Inference.
Local Open Scope R_scope.

(** A machine with one qL-AND layer on data with entries -1, 0, 1: matrix 3 holds the thresholds, one per feature and at
    least 1. Sampling functions are those of a machine that has not run yet or of one that has. *)
Record q_machine (w : world) (N D L : nat) (A B X Q : mat) (lam : R) : Prop := {
  qm_single : single w "qL-AND";
  qm_mats : List.length (mats w) = 4%nat;
  qm_holding : holding w N D L A B X;
  qm_data : tern2 X /\ (Z.of_nat N <= 32767)%Z /\ (Z.of_nat D <= 32767)%Z;
  qm_layer : q (get_lay w 0) = Some 3%nat /\ disp w 0 = LS lam /\ 0 < gamma (get_lay w 0) /\ 0 < fst (beta (lbda (get_lay w 0))) /\ 0 < snd (beta (lbda (get_lay w 0)));
  qm_thresholds : value w 3 = A2 Q /\ has_shape2 Q 1 D /\ forall d, (d < D)%nat -> (1 <= at2 Q 0 d)%Z;
  qm_q : axis (get_mat w 3) = Some 1%nat /\ layer_of (get_mat w 3) = Some 0%nat /\ parents (get_mat w 3) = [] /\ (exists b, fixed (get_mat w 3) = FBool b) /\ exists F, fixed_entries (get_mat w 3) = A2 F;
  qm_sfct1 : sfct (get_mat w 1) = None \/ sfct (get_mat w 1) = Some (FqZ [0; 1]%nat);
  qm_sfct2 : sfct (get_mat w 2) = None \/ sfct (get_mat w 2) = Some (FqU [1; 0]%nat);
  qm_sfct3 : sfct (get_mat w 3) = None \/ sfct (get_mat w 3) = Some Fqq;
  qm_armed : sfct (get_mat w 1) <> None \/ sfct (get_mat w 2) <> None -> sfct (get_mat w 3) = Some Fqq;
  qm_lsfct : lsfct (lbda (get_lay w 0)) = None \/ lsfct (lbda (get_lay w 0)) = Some LfqL }.

(** An update of matrix i; nothing else changes but the position in the random stream. As it should be ([asis = false]):
    factors are resampled entry by entry, except for fixed entries, from the conditional given by dispersion and prior,
    thresholds from the conditional given the data. As it is ([asis = true]): as if the dispersion were 1, the prior flat,
    no entry fixed, and, for the thresholds, all data 1. *)
Section QUpdate.
Context (asis : bool) (out : Z -> vec -> vec -> nat -> Z).
Definition q_update (o : oracle) (w : world) (i : nat) (w' : world) : Prop :=
  exists N D L A B X Q lam F M, q_machine w N D L A B X Q lam /\ fixed_entries (get_mat w i) = A2 F /\ w' = tick (put w i M) /\
    let t := if asis then 1 else lam in
    let p j := if asis then 1 / 2 else bprior (get_mat w j) in
    let held := if asis then [] else F in
    let Y := if asis then map (map (fun _ => 1%Z)) X else X in
    let th d := at2 Q 0 d in
    let r := o_cell o (clock w) in
    (i = 1%nat /\ M = ref_sweep (fun A' => q_post out th t X N D L (p 1%nat) (p 2%nat) A' B) held r N L A) \/
    (i = 2%nat /\ M = ref_sweep (fun B' => q_post out th t X N D L (p 1%nat) (p 2%nat) A B') held r D L B) \/
    (i = 3%nat /\ has_shape2 M 1 D /\ forall d, (d < D)%nat -> exists k, at2 M 0 d = Z.of_nat k /\ selects (q_weight out lam (gamma (get_lay w 0)) Y N L d A B) (o_feature o (clock w) d) k).
(** The dispersion becomes the best one (C17) for the present factors, thresholds and data. *)
Definition q_dispersion (w : world) (l : nat) (v : lval) (w' : world) : Prop :=
  exists N D L A B X Q lam new, q_machine w N D L A B X Q lam /\ l = 0%nat /\ v = LS new /\ w' = assign_disp w 0 v /\
    best_dispersion (List.length (filter (fun '(n, d) => at2 X n d =? out (at2 Q 0 d) (row A n) (row B d) L)%Z (cells N D))) (observed2 X N D)
      (fst (beta (lbda (get_lay w 0)))) (snd (beta (lbda (get_lay w 0)))) new.
End QUpdate.
(** The thresholds are fixed, or they have their sampling function, or some factor is updated. *)
Definition q_ready (w : world) : Prop := fixed (get_mat w 1) = FBool false \/ fixed (get_mat w 2) = FBool false \/ fixed (get_mat w 3) = FBool true \/ sfct (get_mat w 3) <> None.
