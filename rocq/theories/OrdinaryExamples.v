(** A concrete ordinary machine: a layer on data and a layer on top of one of its factors. *)
From Coq Require Import String Lia Lra Permutation.
From Verif Require Import Base BaseR Spec SpecR Canon Machine Dispatch Inference SpecMachine MachineExamples BaseLemmas InferenceProofs MachineProofs BuiltProofs PlainProofs SpecOrdinary OrdinaryProofs OrdinaryProofs3 OrdinaryProofs7.
Local Open Scope R_scope.

Lemma demo_random : random demo.
Proof. split; [exact demo_fair|]. intros k n l. cbn. unfold is_draw. lra. Qed.
Definition stack_data : world := set_free (new_matrix (set_arrays new_machine [A2 [[1; 0]; [-1; 1]]%Z]) 0 None (FBool true)) [0%nat].
Definition stack_low : world := fst (add_layer demo stack_data 2 (Some 0%nat) None "OR-AND").
Definition stack : world := fst (add_layer demo stack_low 1 (Some 1%nat) None "XOR-NAND").
Lemma stack_data_ordinary : ordinary demo stack_data.
Proof.
  pose proof (ord_array demo _ (A2 [[1; 0]; [-1; 1]]%Z) (ord_new demo)) as H. eapply ord_data with (s := Given 0) (ax := None); [exact H| |reflexivity|].
  - intros a Ea. injection Ea as <-. split; [cbn; lia|]. intros i (l & Hl & _). cbn in Hl. lia.
  - split; cbn; [split; [reflexivity|repeat constructor]|unfold tern2, tern1; repeat (apply Forall_cons || apply Forall_nil); unfold tern; lia].
Qed.
Lemma stack_low_ordinary : ordinary demo stack_low.
Proof.
  eapply ord_layer with (K := 2%nat) (c := 0%nat) (m := "OR-AND"%string); [exact stack_data_ordinary|reflexivity|left; reflexivity| |reflexivity].
  split; [cbn; lia|]. split; [|left; cbn; auto]. intros _ n Hn. cbn in Hn. lia.
Qed.
Lemma stack_ordinary : ordinary demo stack.
Proof.
  eapply ord_layer with (K := 1%nat) (c := 1%nat) (m := "XOR-NAND"%string); [exact stack_low_ordinary|reflexivity|cbn; auto 10| |reflexivity].
  split; [cbn; lia|]. split.
  - intros _ n Hn. cbn in Hn. lia.
  - right. split; [reflexivity|]. split; [left; reflexivity|]. exists 0%nat. split; [cbn; lia|]. split; [cbn; auto|reflexivity].
Qed.
Lemma stack_links : List.length (layers stack) = 2%nat /\ parents (get_mat stack 1) = [1]%nat /\ layer_of (get_mat stack 1) = Some 0%nat /\ fixed (get_mat stack 1) = FBool false /\ child (get_lay stack 1) = 1%nat.
Proof. repeat split. Qed.
(** The same machine when its update functions have been chosen. *)
Lemma explained_links outs o evs w w' : explained outs o evs w w' -> List.length (layers w') = List.length (layers w) /\ (forall l, factors (get_lay w' l) = factors (get_lay w l)) /\ mats w' = mats w.
Proof.
  induction 1 as [w|evs w w1 _ (I1 & I2 & I3)|evs w w1 i w2 _ (I1 & I2 & I3) (A & F & N & L & _ & _ & _ & ->)|evs w w1 l v w2 _ (I1 & I2 & I3) (x & _ & -> & _)|evs w w1 l win _ (I1 & I2 & I3)|evs w w1 l x _ (I1 & I2 & I3)]; auto.
  all: (split; [rewrite <- I1; unfold assign_disp, set_lay, set_layers; cbn [layers]; apply upd_length|]; split; [|exact I3]; intros k; rewrite <- I2; unfold assign_disp; rewrite get_lay_set; destruct (Nat.eqb_spec k l) as [->|_]; [destruct (Nat.ltb _ _)|]; reflexivity).
Qed.
Lemma stack_run : exists s', ordinary demo (wd s') /\ is_factor (wd s') 1 /\ sfct (get_mat (wd s') 1) <> None.
Proof.
  destruct (C72_lemma demo demo_settings 5 (fresh_state stack) demo_random stack_ordinary) as (F & H); [unfold usable; cbn; lia|intros G; discriminate G|]. destruct (H F (le_n F)) as (s' & E & O). exists s'. split; [exact O|].
  destruct (C77_lemma the_outputs F demo demo_settings 5 (fresh_state stack) s' the_outputs_ok demo_random stack_ordinary E) as (w1 & evs & T & _ & X & _ & _ & _ & G). apply explained_links in X. destruct X as (X1 & X2 & _).
  assert (HF : is_factor (wd (fresh_state stack)) 1) by (exists 0%nat; split; [cbn; lia|cbn; auto]). split; [|apply G; [exact HF|reflexivity]].
  exists 0%nat. apply (f_equal layers) in T. rewrite X1, X2. split; [apply (f_equal (@List.length _)) in T; cbn [strip layers] in T; rewrite !map_length in T; rewrite T; cbn; lia|].
  apply (f_equal (map factors)) in T. cbn [strip layers] in T. rewrite !map_map in T. change (map factors (layers w1) = map factors (layers stack)) in T. unfold get_lay. change 1%nat with (hd 0%nat [1; 2]%nat).
  replace (factors (nth 0 (layers w1) no_layer)) with (nth 0 (map factors (layers w1)) (factors no_layer)) by apply map_nth. rewrite T. cbn. auto.
Qed.

Lemma stack_settings i : (i < List.length (mats stack))%nat -> (exists b, fixed (get_mat stack i) = FBool b) /\ bprior (get_mat stack i) = 1 / 2.
Proof. intros H. destruct i as [|[|[|[|[|i]]]]]; try (split; [eexists; reflexivity|reflexivity]). cbn in H. lia. Qed.
(** The same machine with annealing switched on. *)
Definition annealing (w : world) : world := World (arrays w) (mats w) (layers w) (free w) true (clock w).
Definition annealing_settings : settings := {| eps := 1 / 100; window := 2; burn_in_min := 3; burn_in_max := 6; print_step := 10; fix_lbda_iters := 0 |}.
Lemma annealing_adjusted w : sound w -> (forall i, (i < List.length (mats w))%nat -> (exists b, fixed (get_mat w i) = FBool b) /\ 0 < bprior (get_mat w i) < 1) -> adjusted w (annealing w).
Proof.
  intros S HB. split; [|split; [|split; [|split; [|split]]]].
  - split; [reflexivity|]. split; [exact (wf_stored _ (so_wf _ S))|]. split; [intros i; split; [reflexivity|split; reflexivity]|]. split; [reflexivity|]. split; [intros l; repeat split|]. split; [|reflexivity].
    intros l Hl. apply (wf_width _ (so_wf _ S) l Hl).
  - intros i _. change (value (annealing w) i) with (value w i). auto.
  - intros i Hi. change (get_mat (annealing w) i) with (get_mat w i). destruct (HB i Hi). auto.
  - intros i Hi. apply (plain_data _ (so_plain _ S) i Hi).
  - intros i Hi. exact (so_own _ S i Hi).
  - intros l Hl. destruct (plain_flags _ (so_plain _ S) l Hl) as (A1 & A2). destruct (so_layer _ S l Hl) as (_ & _ & _ & _ & _ & B1 & B2). split; [apply (plain_disp _ (so_plain _ S) l Hl)|]. auto.
Qed.
Lemma annealing_ordinary : ordinary demo (annealing stack).
Proof.
  eapply ord_adjust; [exact stack_ordinary|]. apply annealing_adjusted; [exact (ordinary_sound _ _ demo_random stack_ordinary)|]. intros i Hi. destruct (stack_settings i Hi) as (H1 & ->). split; [exact H1|lra].
Qed.
Lemma annealing_ok : anneal (annealing stack) = true /\ usable annealing_settings /\ annealable annealing_settings (annealing stack) /\ ~ annealable demo_settings (annealing stack).
Proof.
  split; [reflexivity|]. split; [unfold usable; cbn; lia|]. split.
  - intros _ _. split; [reflexivity|]. intros l Hl _. destruct l as [|[|l]]; [| |cbn in Hl; lia]; intros E; injection E; lra.
  - intros G. destruct (G eq_refl) as (C & _); [cbn; lia|discriminate C].
Qed.
