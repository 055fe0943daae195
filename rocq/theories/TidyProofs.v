(** Updates do not read the clean-up flags. *)
From Coq Require Import String Permutation.
From Verif Require Import Base BaseR BaseLemmas Spec SpecR Canon Outputs Fuzzy Scores Sampling Lambda MaxMachine Clean Machine Dispatch Inference SpecMachine MachineProofs BuiltProofs InferenceProofs SpecOrdinary SpecTidy.
Local Open Scope R_scope.

Definition lift {A B} (f : A -> B) (r : res A) : res B := bind r (fun x => Ok (f x)).
Lemma get_lay_unflagged w l : get_lay (unflagged w) l = unflag (get_lay w l).
Proof. unfold get_lay, unflagged. cbn [layers]. change no_layer with (unflag no_layer) at 1. apply map_nth. Qed.
Lemma lays_unflagged w : List.length (layers (unflagged w)) = List.length (layers w).
Proof. apply map_length. Qed.
Lemma map_upd_any {A B} (f : A -> B) l i x : map f (upd l i x) = upd (map f l) i (f x).
Proof. revert i. induction l as [|a l IH]; intros [|i]; cbn; try reflexivity. f_equal. apply IH. Qed.
Lemma unflagged_set_lay w l y : unflagged (set_lay w l y) = set_lay (unflagged w) l (unflag y).
Proof. unfold unflagged, set_lay, set_layers. cbn [arrays mats layers free anneal clock]. rewrite map_upd_any. reflexivity. Qed.
Lemma unflagged_set_mat w i m : unflagged (set_mat w i m) = set_mat (unflagged w) i m.
Proof. reflexivity. Qed.
Lemma siblings_unflagged w i : siblings (unflagged w) i = siblings w i.
Proof. unfold siblings. change (get_mat (unflagged w) i) with (get_mat w i). destruct (layer_of _); [rewrite get_lay_unflagged|]; reflexivity. Qed.
Lemma order_unflagged w i : transpose_order (unflagged w) i = transpose_order w i.
Proof. unfold transpose_order. rewrite siblings_unflagged. reflexivity. Qed.
Lemma disp_unflagged w l : disp (unflagged w) l = disp w l.
Proof. unfold disp. rewrite get_lay_unflagged. reflexivity. Qed.
Lemma own_layer_unflagged w i : own_layer (unflagged w) i = lift unflag (own_layer w i).
Proof. unfold own_layer. change (get_mat (unflagged w) i) with (get_mat w i). destruct (layer_of _); [rewrite get_lay_unflagged|]; reflexivity. Qed.
Lemma parent_args_unflagged w i k : parent_args (unflagged w) i k = parent_args w i k.
Proof.
  unfold parent_args. change (get_mat (unflagged w) i) with (get_mat w i). destruct (pick (parents (get_mat w i)) k) as [l|]; [|reflexivity]. cbn [bind]. rewrite get_lay_unflagged, disp_unflagged. reflexivity.
Qed.
Lemma compute_unflagged o w i f : compute o (unflagged w) i f = compute o w i f.
Proof.
  unfold compute. cbv zeta. rewrite siblings_unflagged, own_layer_unflagged, !parent_args_unflagged. change (get_mat (unflagged w)) with (get_mat w). change (read2 (unflagged w)) with (read2 w). change (value (unflagged w)) with (value w). change (clock (unflagged w)) with (clock w).
  destruct (read2 w i); [|reflexivity]. cbn [bind]. destruct (as2 _); [|reflexivity]. cbn [bind]. destruct f; destruct (own_layer w i) as [y|]; reflexivity.
Qed.
Lemma apply_unflagged w i e : apply_effect (unflagged w) i e = unflagged (apply_effect w i e).
Proof. destruct e; reflexivity. Qed.
Lemma run_mat_unflagged o w i : run_mat o (unflagged w) i = lift unflagged (run_mat o w i).
Proof.
  unfold run_mat. change (get_mat (unflagged w) i) with (get_mat w i). destruct (sfct (get_mat w i)) as [f|]; [|reflexivity]. cbn [of_option bind]. rewrite compute_unflagged. destruct (compute o w i f) as [e|]; [|reflexivity]. cbn [bind lift]. rewrite apply_unflagged. reflexivity.
Qed.
Lemma compute_lbda_unflagged w l f : compute_lbda (unflagged w) l f = compute_lbda w l f.
Proof. unfold compute_lbda. rewrite get_lay_unflagged. change (read2 (unflagged w)) with (read2 w). change (value (unflagged w)) with (value w). reflexivity. Qed.
Lemma run_lbda_unflagged w l : run_lbda (unflagged w) l = lift unflagged (run_lbda w l).
Proof.
  unfold run_lbda. rewrite get_lay_unflagged. cbn [unflag lbda]. destruct (lsfct _) as [f|]; [|reflexivity]. cbn [of_option bind]. rewrite compute_lbda_unflagged. destruct (compute_lbda w l f) as [[v rt]|]; [|reflexivity]. cbn [bind lift]. rewrite unflagged_set_lay. reflexivity.
Qed.
Lemma relatives_unflagged w i : get_relatives_models (unflagged w) i = get_relatives_models w i.
Proof.
  unfold get_relatives_models. cbv zeta. change (get_mat (unflagged w) i) with (get_mat w i). destruct (layer_of (get_mat w i)) as [l|]; rewrite ?get_lay_unflagged; destruct (parents (get_mat w i)) as [|a [|b t]]; rewrite ?get_lay_unflagged; reflexivity.
Qed.
Lemma sampling_fct_unflagged w i : get_sampling_fct (unflagged w) i = lift (fun p => (unflagged (fst p), snd p)) (get_sampling_fct w i).
Proof.
  unfold get_sampling_fct. cbv zeta. rewrite relatives_unflagged, order_unflagged, own_layer_unflagged. change (get_mat (unflagged w)) with (get_mat w). destruct (sfct (get_mat w i)); [reflexivity|]. destruct (get_relatives_models w i) as [[[md p1] p2]|]; [|reflexivity]. cbn [bind].
  destruct (match md with Some (n, 2%nat) => String.eqb n "MAX-AND" | _ => false end); [destruct p1; reflexivity|].
  destruct (match md with Some (n, 2%nat) => String.eqb n "qL-AND" | _ => false end).
  { destruct (own_layer w i) as [y|]; [|reflexivity]. cbn [lift bind]. change (q (unflag y)) with (q y). destruct (q y) as [qi|]; [|reflexivity]. cbn [of_option bind]. destruct (axis (get_mat w i)) as [[|[|a]]|]; reflexivity. }
  destruct (match md with Some (n, 2%nat) => String.eqb n "OR-AND-IBP" | _ => false end).
  { destruct (layer_of (get_mat w i)) as [l|]; [|reflexivity]. cbn [of_option bind]. rewrite get_lay_unflagged. change (alpha (unflag (get_lay w l))) with (alpha (get_lay w l)).
    assert (E : (match alpha (get_lay w l) with Some _ => unflagged w | None => set_lay (unflagged w) l (with_alpha (unflag (get_lay w l)) (Some 3)) end) = unflagged (match alpha (get_lay w l) with Some _ => w | None => set_lay w l (with_alpha (get_lay w l) (Some 3)) end)).
    { destruct (alpha _); [reflexivity|]. rewrite unflagged_set_lay. reflexivity. }
    rewrite E. destruct (axis (get_mat w i)) as [[|[|a]]|]; reflexivity. }
  destruct md as [[n [|[|[|k]]]]|], p1 as [a|], p2 as [b|]; cbn [bind lift]; repeat (match goal with |- context [bind (known2 ?x) _] => destruct (known2 x) | |- context [bind (known3 ?x) _] => destruct (known3 x) | |- context [bind (knownp ?x) _] => destruct (knownp x) end; cbn [bind lift]); reflexivity.
Qed.
Lemma assign_mat_unflagged w i : assign_mat (unflagged w) i = lift unflagged (assign_mat w i).
Proof. unfold assign_mat. rewrite sampling_fct_unflagged. destruct (get_sampling_fct w i) as [[w' f]|]; reflexivity. Qed.
Lemma update_fct_unflagged w l : get_update_fct (unflagged w) l = get_update_fct w l.
Proof. unfold get_update_fct. rewrite get_lay_unflagged. reflexivity. Qed.
Lemma assign_lbda_unflagged w l : assign_lbda (unflagged w) l = lift unflagged (assign_lbda w l).
Proof. unfold assign_lbda. rewrite update_fct_unflagged, get_lay_unflagged. destruct (get_update_fct w l); [|reflexivity]. cbn [bind lift]. rewrite unflagged_set_lay. reflexivity. Qed.
Lemma assign_disp_unflagged w l v : assign_disp (unflagged w) l v = unflagged (assign_disp w l v).
Proof. unfold assign_disp. rewrite get_lay_unflagged, unflagged_set_lay. reflexivity. Qed.
Lemma foldM_unflagged {A} (f : world -> A -> res world) (H : forall w a, f (unflagged w) a = lift unflagged (f w a)) l : forall w, foldM f l (unflagged w) = lift unflagged (foldM f l w).
Proof. induction l as [|a l IH]; intros w; cbn [foldM]; [reflexivity|]. rewrite H. destruct (f w a) as [w1|]; [|reflexivity]. cbn [bind lift]. apply IH. Qed.
Lemma members_unflagged w : members (unflagged w) = members w.
Proof. unfold members, unflagged. cbn [layers free]. rewrite !flat_map_concat_map, !map_map. reflexivity. Qed.
Lemma not_fixed_unflagged w l : not_fixed (unflagged w) l = not_fixed w l.
Proof. induction l as [|i l IH]; cbn [not_fixed]; [reflexivity|]. rewrite IH. reflexivity. Qed.
Lemma free_lbdas_unflagged w : free_lbdas (unflagged w) = free_lbdas w.
Proof. unfold free_lbdas, all_layers. rewrite lays_unflagged. apply filter_ext. intros l. rewrite get_lay_unflagged. reflexivity. Qed.
Lemma flags_off w l : auto_clean (get_lay (unflagged w) l) = false /\ auto_reset (get_lay (unflagged w) l) = false.
Proof. rewrite get_lay_unflagged. split; reflexivity. Qed.
Lemma is_factor_unflagged w i : is_factor (unflagged w) i <-> is_factor w i.
Proof. unfold is_factor. rewrite lays_unflagged. split; intros (l & Hl & Hi); exists l; (split; [exact Hl|]); rewrite get_lay_unflagged in *; exact Hi. Qed.
