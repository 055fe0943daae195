(** Ordinary machines keep their invariants. *)
From Coq Require Import String Permutation Lra.
From Verif Require Import Base BaseR BaseLemmas Spec SpecR Canon Outputs Fuzzy Scores Sampling Lambda MaxMachine Clean Machine Dispatch Inference SpecMachine SpecOrdinary MachineProofs MachineProofs2 BuiltProofs InferenceProofs InferenceProofs2 PlainProofs.
Local Open Scope R_scope.

(** Shapes *)
Lemma shape_okmat n l m : okmat n l m -> (0 < n)%nat -> shape_of (A2 m) = [n; l].
Proof.
  intros ((H1 & H2) & _) Hn. unfold shape_of, nrows, ncols. destruct m as [|v m]; [cbn in H1; lia|]. cbn [hd]. inversion H2; subst. reflexivity.
Qed.
Lemma binary_shape a b n l : binary_matrix n l a -> shape_of b = shape_of a -> binary b -> binary_matrix n l b.
Proof.
  intros (m & -> & Hm) E (n' & l' & m' & -> & Hm'). exists m'. split; [reflexivity|]. destruct Hm as ((H1 & H2) & H3). pose proof Hm' as ((K1 & K2) & K3).
  assert (En : n' = n). { injection E as E _. etransitivity; [symmetry; exact K1|]. etransitivity; [exact E|exact H1]. } rewrite En in K1, Hm'. split; [|exact K3]. split; [exact K1|]. destruct n as [|n]; [destruct m'; [constructor|discriminate]|].
  assert (G : l' = l). { rewrite (shape_okmat _ _ _ Hm') in E by lia. rewrite (shape_okmat (S n) l m (conj (conj H1 H2) H3)) in E by lia. injection E as ->. reflexivity. } rewrite <- G. exact K2.
Qed.
Lemma binary_data a : binary a -> data_ok a.
Proof.
  intros (n & l & m & -> & ((H1 & H2) & H3)). split; cbn.
  - split; [reflexivity|]. destruct m as [|v m]; [constructor|]. unfold ncols. cbn [hd]. inversion H2; subst. assumption.
  - unfold tern2. eapply Forall_impl; [|exact H3]. intros v. apply Forall_impl. intros x [->| ->]; [left|right; left]; reflexivity.
Qed.
Lemma dims2 a : List.length (shape_of a) = 2%nat <-> matrix2 a.
Proof. split; [|intros (m & ->); reflexivity]. destruct a as [m|t]; [exists m; reflexivity|discriminate]. Qed.
Lemma dims3 a : List.length (shape_of a) = 3%nat <-> tensor3 a.
Proof. split; [|intros (m & ->); reflexivity]. destruct a as [m|t]; [discriminate|exists t; reflexivity]. Qed.

(** The closure of factor i is that of the present structure and prior. *)
Definition own_closure (w : world) (i l : nat) : fct :=
  let m := model (get_lay w l) in let order := transpose_order w i in let p := bprior (get_mat w i) in
  match parents (get_mat w i) with
  | [] => if Nat.eqb (List.length (factors (get_lay w l))) 2 then FLom m order p else FLom3 m order p
  | [a] => F11 m (model (get_lay w a)) order p
  | a :: b :: _ => F12 m (model (get_lay w a)) (model (get_lay w b)) order p
  end.
Record sound (w : world) : Prop := {
  so_wf : wf w;
  so_plain : plain w;
  so_own : forall i, is_factor w i -> own_array w i;
  so_free : forall i, In i (free w) -> (i < List.length (mats w))%nat /\ data_ok (value w i);
  so_layer : forall l, (l < List.length (layers w))%nat -> let y := get_lay w l in
    (child y < List.length (mats w))%nat /\ data_ok (value w (child y)) /\ (forall i, In i (factors y) -> (child y < i)%nat) /\
    (exists K, forall k, (k < List.length (factors y))%nat -> binary_matrix (nth k (shape_of (value w (child y))) 0%nat) K (value w (nth k (factors y) 0%nat))) /\
    (List.length (factors y) = 2%nat -> small (value w (child y))) /\ 0 < fst (beta (lbda y)) /\ 0 < snd (beta (lbda y));
  so_factor : forall l i, (l < List.length (layers w))%nat -> In i (factors (get_lay w l)) ->
    0 < bprior (get_mat w i) < 1 /\ (sfct (get_mat w i) = None \/ sfct (get_mat w i) = Some (own_closure w i l)) /\
    parents (get_mat w i) = filter (fun k => Nat.eqb (child (get_lay w k)) i) (seq 0 (List.length (layers w))) /\
    (List.length (parents (get_mat w i)) <= 2)%nat /\ (forall a b, In a (parents (get_mat w i)) -> In b (parents (get_mat w i)) -> model (get_lay w a) = model (get_lay w b)) }.

Lemma own_factor_closure w i l : factor_closure w i l (own_closure w i l).
Proof. exists (bprior (get_mat w i)). reflexivity. Qed.

(** Changes of values and settings *)
Record changed (w w' : world) : Prop := {
  ch_edited : edited w w';
  ch_value : forall i, (i < List.length (mats w))%nat -> shape_of (value w' i) = shape_of (value w i) /\ (data_ok (value w i) -> data_ok (value w' i)) /\ (binary (value w i) -> binary (value w' i));
  ch_mat : forall l i, (l < List.length (layers w))%nat -> In i (factors (get_lay w l)) -> matrix2 (fixed_entries (get_mat w' i)) /\ (exists b, fixed (get_mat w' i) = FBool b) /\ 0 < bprior (get_mat w' i) < 1 /\
     (sfct (get_mat w' i) = None \/ sfct (get_mat w' i) = Some (own_closure w' i l));
  ch_free : forall i, In i (free w) -> fixed (get_mat w' i) = FBool true;
  ch_own : forall i, is_factor w i -> own_array w' i;
  ch_lay : forall l, (l < List.length (layers w))%nat -> (exists x, disp w' l = LS x) /\ auto_clean (get_lay w' l) = false /\ auto_reset (get_lay w' l) = false /\
     0 < fst (beta (lbda (get_lay w' l))) /\ 0 < snd (beta (lbda (get_lay w' l))) /\ (lsfct (lbda (get_lay w' l)) = None \/ exists f, lsfct (lbda (get_lay w' l)) = Some f /\ disp_closure w l f) }.
Lemma edited_siblings w w' i : edited w w' -> siblings w' i = siblings w i.
Proof.
  intros (_ & _ & E3 & _ & E5 & _). unfold siblings. destruct (E3 i) as (_ & -> & _). destruct (layer_of (get_mat w i)) as [l|]; [|reflexivity]. destruct (E5 l) as (-> & _). reflexivity.
Qed.
Lemma edited_order w w' i : edited w w' -> transpose_order w' i = transpose_order w i.
Proof.
  intros H. unfold transpose_order. assert (E : forall j, axis_of w' j = axis_of w j) by (intros j; unfold axis_of; destruct H as (_ & _ & E3 & _); destruct (E3 j) as (-> & _); reflexivity).
  rewrite (edited_siblings _ _ _ H), E. f_equal. apply map_ext. exact E.
Qed.
Lemma edited_closure w w' i l : edited w w' -> bprior (get_mat w' i) = bprior (get_mat w i) -> own_closure w' i l = own_closure w i l.
Proof.
  intros H Eb. unfold own_closure. cbv zeta. rewrite (edited_order _ _ _ H), Eb. destruct H as (_ & _ & E3 & _ & E5 & _). destruct (E3 i) as (_ & _ & ->). destruct (E5 l) as (-> & _ & -> & _).
  destruct (parents (get_mat w i)) as [|a [|b t]]; try reflexivity.
  - destruct (E5 a) as (_ & _ & -> & _). reflexivity.
  - destruct (E5 a) as (_ & _ & -> & _). destruct (E5 b) as (_ & _ & -> & _). reflexivity.
Qed.
Lemma sound_changed w w' : sound w -> changed w w' -> sound w'.
Proof.
  intros S C. pose proof (ch_edited _ _ C) as ED. pose proof ED as (E1 & E2 & E3 & E4 & E5 & E6 & E7). pose proof (so_plain _ S) as P.
  assert (EV : forall i, (i < List.length (mats w))%nat -> shape_of (value w' i) = shape_of (value w i)) by (intros i; apply (ch_value _ _ C i)).
  assert (HI : forall l i, (l < List.length (layers w))%nat -> In i (factors (get_lay w l)) -> (i < List.length (mats w))%nat) by (intros l i Hl Hi; apply (wf_placed _ (so_wf _ S) l i Hl Hi)).
  assert (HC : forall l, (l < List.length (layers w))%nat -> (child (get_lay w l) < List.length (mats w))%nat) by (intros l Hl; exact (proj1 (so_layer _ S l Hl))).
  assert (EF : forall l, factors (get_lay w' l) = factors (get_lay w l)) by (intros l; apply E5). assert (EC : forall l, child (get_lay w' l) = child (get_lay w l)) by (intros l; apply E5). assert (EM : forall l, model (get_lay w' l) = model (get_lay w l)) by (intros l; apply E5).
  assert (EP : forall i, parents (get_mat w' i) = parents (get_mat w i)) by (intros i; apply E3).
  assert (M2 : forall i, (i < List.length (mats w))%nat -> matrix2 (value w i) -> matrix2 (value w' i)) by (intros i Hi; rewrite <- !dims2, EV by exact Hi; auto). assert (T3 : forall i, (i < List.length (mats w))%nat -> tensor3 (value w i) -> tensor3 (value w' i)) by (intros i Hi; rewrite <- !dims3, EV by exact Hi; auto).
  split.
  - eapply wf_edited; [apply S|exact ED].
  - constructor.
    + intros l. rewrite E4, EM. apply P.
    + intros l. rewrite E4. intros Hl. apply (ch_lay _ _ C l Hl).
    + intros l. rewrite E4. intros Hl. destruct (ch_lay _ _ C l Hl) as (_ & G1 & G2 & _). auto.
    + intros l. rewrite E4, EF. intros Hl. rewrite <- (plain_axes _ P l Hl). apply map_ext. intros i. apply E3.
    + intros l. rewrite E4, EF, EC. intros Hl. destruct (plain_child _ P l Hl) as [(G1 & G2)|(G1 & G2)]; [left|right]; auto.
    + intros l i. rewrite E4, EF, EP. intros Hl Hi. destruct (plain_factor _ P l i Hl Hi) as (A1 & _ & _ & A4 & A5 & _). destruct (ch_mat _ _ C l i Hl Hi) as (G1 & G2 & _ & G3). split; [apply M2; [apply (HI l i Hl Hi)|exact A1]|]. split; [exact G1|]. split; [exact G2|]. split; [|split; [exact A5|]].
      * intros p Hp. rewrite EF. apply A4, Hp.
      * destruct G3 as [G3|G3]; [left; exact G3|right]. eexists. split; [exact G3|]. apply own_factor_closure.
    + intros l. rewrite E4. unfold disp_closure. rewrite EF, EM. intros Hl. apply (ch_lay _ _ C l Hl).
    + intros i. rewrite E7. apply (ch_free _ _ C).
  - intros i (l & Hl & Hi). rewrite E4 in Hl. rewrite EF in Hi. apply (ch_own _ _ C). exists l. auto.
  - intros i. rewrite E7, E1. intros Hi. destruct (so_free _ S i Hi) as (G1 & G2). split; [exact G1|]. apply (ch_value _ _ C i G1). exact G2.
  - intros l. rewrite E4, E1. cbv zeta. rewrite EC, EF. intros Hl. destruct (so_layer _ S l Hl) as (G1 & G2 & G3 & (K & G4) & G5 & _). cbv zeta in *. split; [exact G1|]. split; [apply (ch_value _ _ C _ G1), G2|]. split; [exact G3|]. split; [|split].
    + exists K. intros k Hk. assert (Hn : (nth k (factors (get_lay w l)) 0 < List.length (mats w))%nat) by (apply (HI l _ Hl), nth_In; exact Hk). rewrite EV by exact G1. eapply binary_shape; [apply G4; exact Hk|apply EV; exact Hn|]. apply (ch_value _ _ C _ Hn). eexists _, _. apply G4. exact Hk.
    + unfold small. rewrite EV by exact G1. exact G5.
    + destruct (ch_lay _ _ C l Hl) as (_ & _ & _ & H1 & H2 & _). auto.
  - intros l i. rewrite E4, EF, EP. intros Hl Hi. destruct (so_factor _ S l i Hl Hi) as (_ & _ & G3 & G4 & G5). destruct (ch_mat _ _ C l i Hl Hi) as (_ & _ & H1 & H2). split; [exact H1|]. split; [exact H2|]. split; [|split; [exact G4|]].
    + rewrite G3. apply filter_ext. intros k. rewrite EC. reflexivity.
    + intros a b Ha Hb. rewrite !EM. apply G5; assumption.
Qed.
Lemma sound_adjusted w w' : sound w -> adjusted w w' -> sound w'.
Proof.
  intros S (A1 & A2 & A3 & A4 & A5 & A6). apply (sound_changed _ _ S). constructor; try assumption.
  - intros l i Hl Hi. destruct (A3 i (proj1 (wf_placed _ (so_wf _ S) l i Hl Hi))) as (G1 & G2 & G3 & G4 & G5). split; [apply G1, (plain_factor _ (so_plain _ S) l i Hl Hi)|]. split; [exact G2|]. split; [exact G3|]. rewrite G4. destruct (so_factor _ S l i Hl Hi) as (_ & [G|G] & _); [left; exact G|right].
    rewrite (edited_closure _ _ _ _ A1); [exact G|]. apply G5. rewrite G. discriminate.
  - intros l Hl. destruct (A6 l Hl) as (G1 & G2 & G3 & G4 & G5 & ->). split; [exact G1|]. repeat (split; [assumption|]). apply (plain_lbda _ (so_plain _ S) l Hl).
Qed.
