(** Specification vocabulary for machines with one OR-AND-IBP layer. *)
From Coq Require Import String Sorted.
From Verif Require Import Base BaseR Spec SpecR SpecIbp SpecMachine SpecOrdinary SpecMaxRun Canon Lambda Ibp Machine Dispatch Inference.
Local Open Scope R_scope.

(** The concentration of the buffet process; 3 unless the user sets one. *)
Definition concentration (w : world) : R := match alpha (get_lay w 0) with Some a => a | None => 3 end.
(** A machine with one OR-AND-IBP layer on data with entries -1, 0, 1. The number L of latent dimensions may be 0. Sampling
    functions are those of a machine that has not run yet or of one that has. *)
Record ibp_machine (w : world) (N D L : nat) (A B X : mat) (lam : R) : Prop := {
  im_single : single w "OR-AND-IBP";
  im_mats : List.length (mats w) = 3%nat;
  im_sizes : (0 < N)%nat /\ (0 < D)%nat;
  im_values : value w 0 = A2 X /\ value w 1 = A2 A /\ value w 2 = A2 B;
  im_shapes : has_shape2 X N D /\ okmat N L A /\ okmat D L B;
  im_data : tern2 X /\ (Z.of_nat N <= 32767)%Z /\ (Z.of_nat D <= 32767)%Z;
  im_layer : disp w 0 = LS lam /\ 0 < fst (beta (lbda (get_lay w 0))) /\ 0 < snd (beta (lbda (get_lay w 0))) /\ 0 < concentration w;
  im_prior : 0 < bprior (get_mat w 2) < 1;
  im_sfct1 : sfct (get_mat w 1) = None \/ sfct (get_mat w 1) = Some (FIbp [0; 1]%nat);
  im_sfct2 : sfct (get_mat w 2) = None \/ sfct (get_mat w 2) = Some (FLom "OR-AND" [1; 0]%nat (bprior (get_mat w 2)));
  im_lsfct : lsfct (lbda (get_lay w 0)) = None \/ lsfct (lbda (get_lay w 0)) = Some (Lf2 "OR-AND-IBP") }.

(** ** Updates *)
Section IbpUpdate.
Context (asis : bool) (out : list vec -> nat -> Z).
(** Row n of the first factor is redrawn: entries of the columns that other rows use by Gibbs sampling (C68); columns no
    other row uses are dropped; k new columns are added that only this row uses, k being drawn with weights prior times
    marginal likelihood; their features are drawn by Gibbs sampling. As it should be ([asis = false]) the prior of k is
    Poisson with mean a/N, features have prior q. As it is ([asis = true]) the prior is that of k more than there are
    kept columns, the marginal likelihood is for feature prior 1 - q, features are drawn as if the prior were flat. *)
Definition row_redrawn (X : mat) (N D : nat) (lam q a : R) (n : nat) (d : draws) (st st' : nat * mat * mat) : Prop :=
  let '(L, A, B) := st in let '(L', A', B') := st' in
  exists keep k lw,
    let zs := map (fun l => at2 (gibbs_row out lam X N D L B n (dz d) A) n l) keep in
    StronglySorted lt keep /\ (forall l, In l keep <-> (l < L)%nat /\ used_elsewhere A N n l) /\ L' = (List.length keep + k)%nat /\
    List.length A' = N /\ (forall n', (n' < N)%nat -> row A' n' = if Nat.eqb n' n then (zs ++ repeat 1%Z k)%list else regroup keep (row A n') (repeat (-1)%Z k)) /\
    new_columns_lik lam (if asis then 1 - q else q) (row X n) D (covered keep zs B) lw /\
    selects3 (fun j => poisson (a / INR N) ((if asis then List.length keep else 0) + j) * lw j) (dk d) k /\
    B' = gibbs_cells (fun U => lik2 out lam X N D L' A' U * (if asis then 1 else prior q D L' U)) (du d)
           (flat_map (fun l => map (fun d => (d, l)) (seq 0 D)) (seq (List.length keep) k)) (map (fun r => regroup keep r (repeat (-1)%Z k)) B).
(** All rows, in order. *)
Definition rows_redrawn (X : mat) (N D : nat) (lam q a : R) (d : nat -> draws) (st st' : nat * mat * mat) : Prop :=
  exists s : nat -> nat * mat * mat, s 0%nat = st /\ s N = st' /\ forall n, (n < N)%nat -> row_redrawn X N D lam q a n (d n) (s n) (s (S n)).
(** An update of matrix i. That of the first factor gives both factors new arrays; that of the second resamples it entry
    by entry, except for fixed entries, from the conditional distribution. *)
Definition ibp_update (o : oracle) (w : world) (i : nat) (w' : world) : Prop :=
  exists N D L A B X lam F, ibp_machine w N D L A B X lam /\ fixed_entries (get_mat w 2) = A2 F /\
    let p := bprior (get_mat w 2) in
    ((i = 1%nat /\ exists L' A' B', w' = tick (assign_val (assign_val w 1 (A2 A')) 2 (A2 B')) /\ rows_redrawn X N D lam p (concentration w) (o_ibp o (clock w)) (L, A, B) (L', A', B')) \/
     (i = 2%nat /\ w' = tick (put w 2 (ref_sweep (fun B' => post2 out lam X N D L (1 / 2) p A B') F (o_cell o (clock w)) D L B)))).
(** The dispersion becomes the best one (C17) for the present factors and data. *)
Definition ibp_dispersion (w : world) (l : nat) (v : lval) (w' : world) : Prop :=
  exists N D L A B X lam new, ibp_machine w N D L A B X lam /\ l = 0%nat /\ v = LS new /\ w' = assign_disp w 0 v /\
    best_dispersion (correct2 out X N D L A B) (observed2 X N D) (fst (beta (lbda (get_lay w 0)))) (snd (beta (lbda (get_lay w 0)))) new.
End IbpUpdate.

(** The state before the first update: sampling functions chosen, a missing concentration set to 3. *)
Definition set_concentration (w : world) (a : option R) : world := set_lay w 0 (with_alpha (get_lay w 0) a).
Definition started (w w1 : world) : Prop :=
  strip (set_concentration w1 None) = strip (set_concentration w None) /\ concentration w1 = concentration w.
(** The width of a factor. *)
Definition latent_size (w : world) (i : nat) (L : nat) : Prop := exists A n, value w i = A2 A /\ has_shape2 A n L.
