(** Machines with clean-up. *)
From Coq Require Import String Lia Lra Permutation.
From Verif Require Import Base BaseR Spec SpecR Canon Clean SpecClean Machine Dispatch Inference SpecMachine MachineExamples BaseLemmas InferenceProofs MachineProofs BuiltProofs PlainProofs SpecOrdinary OrdinaryProofs OrdinaryProofs3 OrdinaryProofs7 OrdinaryExamples SpecTidy.
Local Open Scope R_scope.

(** The two layers of OrdinaryExamples, with layer l flagged for removal (c) or reset (r). *)
Definition flag_layer (w : world) (l : nat) (c r : bool) : world :=
  let y := get_lay w l in set_lay w l (Lay (factors y) (child y) (model y) (lbda y) (ratios y) (alpha y) (q y) (gamma y) c r (invert_data y) (invert_factors y)).
Definition tidy_stack : world := flag_layer stack 1 false true.
Lemma tidy_stack_tidying : tidying demo tidy_stack.
Proof.
  eapply ti_flags; [apply ti_ordinary; exact stack_ordinary|reflexivity|]. intros l Hl Fl. destruct l as [|[|l]]; [destruct Fl as [C|C]; discriminate C| |cbn in Hl; lia]. split.
  - intros i Hi. cbn in Hi. destruct Hi as [<-|[<-|[]]]; reflexivity.
  - intros n Hn. cbn in Hn. destruct Hn as [<-|[<-|[]]]; lia.
Qed.
(** Other values; everything fixed. *)
Definition freeze_mat (m : matrix) : matrix := Mat (val m) (axis m) (FBool true) (fixed_entries m) (bprior m) (layer_of m) (parents m) (sfct m).
Definition freeze_lay (y : layer) : layer := with_lbda y (Par (lv (lbda y)) true (beta (lbda y)) (lsfct (lbda y))).
Definition freeze (w : world) (arrs : list arr) : world := World arrs (map freeze_mat (mats w)) (map freeze_lay (layers w)) (free w) (anneal w) (clock w).
Lemma freeze_mat_of w arrs i : (i < List.length (mats w))%nat -> get_mat (freeze w arrs) i = freeze_mat (get_mat w i).
Proof. intros H. unfold get_mat, freeze. cbn [mats]. rewrite (nth_indep _ _ (freeze_mat no_matrix)) by (rewrite map_length; exact H). apply map_nth. Qed.
Lemma freeze_lay_of w arrs l : (l < List.length (layers w))%nat -> get_lay (freeze w arrs) l = freeze_lay (get_lay w l).
Proof. intros H. unfold get_lay, freeze. cbn [layers]. rewrite (nth_indep _ _ (freeze_lay no_layer)) by (rewrite map_length; exact H). apply map_nth. Qed.
Lemma freeze_adjusted w arrs : sound w -> List.length arrs = List.length (arrays w) -> (forall i, (i < List.length (mats w))%nat -> 0 < bprior (get_mat w i) < 1) ->
  (forall i, (i < List.length (mats w))%nat -> shape_of (nth (val (get_mat w i)) arrs (A2 [])) = shape_of (value w i) /\ data_ok (nth (val (get_mat w i)) arrs (A2 [])) /\ (binary (value w i) -> binary (nth (val (get_mat w i)) arrs (A2 [])))) ->
  adjusted w (freeze w arrs).
Proof.
  intros S HL HB HV. assert (LM : List.length (mats (freeze w arrs)) = List.length (mats w)) by apply map_length. assert (LL : List.length (layers (freeze w arrs)) = List.length (layers w)) by apply map_length.
  assert (HM : forall i, val (get_mat (freeze w arrs) i) = val (get_mat w i) /\ axis (get_mat (freeze w arrs) i) = axis (get_mat w i) /\ layer_of (get_mat (freeze w arrs) i) = layer_of (get_mat w i) /\ parents (get_mat (freeze w arrs) i) = parents (get_mat w i)).
  { intros i. destruct (Nat.lt_ge_cases i (List.length (mats w))) as [H|H]; [rewrite (freeze_mat_of w arrs i H); repeat split|]. unfold get_mat. rewrite !nth_overflow by (exact H || (rewrite LM; exact H)). repeat split. }
  assert (HY : forall l, factors (get_lay (freeze w arrs) l) = factors (get_lay w l) /\ child (get_lay (freeze w arrs) l) = child (get_lay w l) /\ model (get_lay (freeze w arrs) l) = model (get_lay w l) /\ q (get_lay (freeze w arrs) l) = q (get_lay w l) /\ disp (freeze w arrs) l = disp w l).
  { intros l. unfold disp. destruct (Nat.lt_ge_cases l (List.length (layers w))) as [H|H]; [rewrite (freeze_lay_of w arrs l H); repeat split|]. unfold get_lay. rewrite !nth_overflow by (exact H || (rewrite LL; exact H)). repeat split. }
  split; [|split; [|split; [|split; [|split]]]].
  - split; [exact LM|]. split; [unfold stored, freeze; cbn [mats arrays]; rewrite HL, Forall_map; exact (wf_stored _ (so_wf _ S))|]. split; [intros i; apply HM|]. split; [exact LL|]. split; [intros l; destruct (HY l) as (? & ? & ? & ? & _); auto|]. split; [|reflexivity].
    intros l Hl. rewrite (proj2 (proj2 (proj2 (proj2 (HY l))))). apply (wf_width _ (so_wf _ S) l). rewrite <- LL. exact Hl.
  - intros i Hi. assert (EV : value (freeze w arrs) i = nth (val (get_mat w i)) arrs (A2 [])) by (unfold value, get_arr; rewrite (proj1 (HM i)); reflexivity). rewrite EV. destruct (HV i Hi) as (H1 & H2 & H3). auto.
  - intros i Hi. rewrite (freeze_mat_of w arrs i Hi). cbn [freeze_mat fixed_entries fixed bprior sfct]. split; [auto|]. split; [exists true; reflexivity|]. split; [exact (HB i Hi)|]. auto.
  - intros i Hi. rewrite (freeze_mat_of w arrs i) by (apply (so_free _ S i Hi)). reflexivity.
  - intros i Hi j Hj Hij. rewrite (proj1 (HM i)), (proj1 (HM j)). apply (so_own _ S i Hi); [rewrite <- LM; exact Hj|exact Hij].
  - intros l Hl. rewrite (proj2 (proj2 (proj2 (proj2 (HY l))))), (freeze_lay_of w arrs l Hl). destruct (plain_flags _ (so_plain _ S) l Hl) as (A1 & A2). destruct (so_layer _ S l Hl) as (_ & _ & _ & _ & _ & B1 & B2). split; [apply (plain_disp _ (so_plain _ S) l Hl)|]. cbn. auto.
Qed.
(** The two layers with given factors, everything fixed. *)
Lemma stack_freeze A B C D : okmat 2 2 A -> okmat 2 2 B -> okmat 2 1 C -> okmat 2 1 D -> ordinary demo (freeze stack [A2 [[1; 0]; [-1; 1]]%Z; A2 A; A2 B; A2 C; A2 D]).
Proof.
  intros HA HB HC HD. eapply ord_adjust; [exact stack_ordinary|]. pose proof (ordinary_sound _ _ demo_random stack_ordinary) as S. apply freeze_adjusted; [exact S|reflexivity| |].
  - intros i Hi. destruct (stack_settings i Hi) as (_ & ->). lra.
  - assert (DO : forall n l m, okmat n l m -> (0 < n)%nat -> data_ok (A2 m)).
    { intros n l m ((H1 & H2) & H3) Hn. split; cbn.
      - unfold nrows, ncols. destruct m as [|r m]; [cbn in H1; lia|]. split; [reflexivity|]. cbn [hd]. inversion H2; subst. exact H2.
      - eapply Forall_impl; [|exact H3]. intros r Hr. eapply Forall_impl; [|exact Hr]. unfold tern, pm1. intros x Hx. lia. }
    assert (G : forall n l m (a : arr), okmat n l m -> (0 < n)%nat -> shape_of a = [n; l] -> shape_of (A2 m) = shape_of a /\ data_ok (A2 m) /\ (binary a -> binary (A2 m))).
    { intros n l m a Hm Hn Ha. rewrite Ha. split; [apply shape_okmat; assumption|]. split; [eapply DO; eassumption|]. intros _. exists n, l, m. auto. }
    intros i Hi. destruct i as [|[|[|[|[|i]]]]].
    + destruct (so_free _ S 0%nat) as (_ & G0); [left; reflexivity|]. split; [reflexivity|]. split; [exact G0|]. intros H; exact H.
    + apply (G 2%nat 2%nat A (value stack 1) HA); [lia|reflexivity].
    + apply (G 2%nat 2%nat B (value stack 2) HB); [lia|reflexivity].
    + apply (G 2%nat 1%nat C (value stack 3) HC); [lia|reflexivity].
    + apply (G 2%nat 1%nat D (value stack 4) HD); [lia|reflexivity].
    + exfalso. cbn in Hi. lia.
Qed.
Definition frozen (A B C D : mat) : world :=
  let m v ax e lo ps := Mat v ax (FBool true) (A2 e) (1 / 2) lo ps None in
  World [A2 [[1; 0]; [-1; 1]]%Z; A2 A; A2 B; A2 C; A2 D]
    [m 0%nat None [[0; 0]; [0; 0]]%Z None [0%nat]; m 1%nat (Some 0%nat) [[0; 0]; [0; 0]]%Z (Some 0%nat) [1%nat]; m 2%nat (Some 1%nat) [[0; 0]; [0; 0]]%Z (Some 0%nat) [];
     m 3%nat (Some 0%nat) [[0]; [0]]%Z (Some 1%nat) []; m 4%nat (Some 1%nat) [[0]; [0]]%Z (Some 1%nat) []]
    [Lay [1; 2]%nat 0 "OR-AND" (Par (LS (5 / 100)) true (1, 1) None) None None None 1 false false false false;
     Lay [3; 4]%nat 1 "XOR-NAND" (Par (LS (5 / 100)) true (1, 1) None) None None None 1 false false false false] [0%nat] false 4.
Lemma frozen_ordinary A B C D : okmat 2 2 A -> okmat 2 2 B -> okmat 2 1 C -> okmat 2 1 D -> ordinary demo (frozen A B C D).
Proof. intros HA HB HC HD. exact (stack_freeze A B C D HA HB HC HD). Qed.
(** The first dimension of the lower layer is never used; the lower layer is flagged for removal, or the upper one. *)
Definition sparse : world := frozen [[1; 1]; [1; 1]]%Z [[-1; 1]; [-1; -1]]%Z [[1]; [1]]%Z [[-1]; [-1]]%Z.
Lemma sparse_ordinary : ordinary demo sparse.
Proof. apply frozen_ordinary; (split; [split; [reflexivity|repeat constructor]|unfold bin2, bin1, pm1; repeat (apply Forall_cons || apply Forall_nil); lia]). Qed.
Definition hasty : settings := {| eps := 1 / 100; window := 1; burn_in_min := 0; burn_in_max := 5; print_step := 10; fix_lbda_iters := 0 |}.
Lemma hasty_usable : usable hasty.
Proof. unfold usable; cbn; lia. Qed.
Definition pruned : world := flag_layer sparse 0 true false.
Definition trimmed : world := flag_layer sparse 1 false true.
Lemma pruned_run : exists s', infer 10 demo hasty 1 (fresh_state pruned) = Some (Ok s') /\ value (wd s') 1 = A2 [[1]; [1]]%Z /\ value (wd s') 4 = A2 [[-1]; [-1]]%Z /\ layers (wd s') = layers pruned.
Proof. eexists. split; [lazy -[Rdiv IZR Rlt]; reflexivity|]. repeat split. Qed.
Lemma trimmed_run : exists s', infer 10 demo hasty 1 (fresh_state trimmed) = Some (Ok s') /\ shape_of (value trimmed 3) = [2; 1]%nat /\ shape_of (value (wd s') 3) = [2; 0]%nat /\ shape_of (value (wd s') 4) = [2; 0]%nat.
Proof. eexists. split; [lazy -[Rdiv IZR Rlt]; reflexivity|]. repeat split. Qed.
Lemma trimmed_tidying : tidying demo trimmed.
Proof.
  eapply ti_flags; [apply ti_ordinary; exact sparse_ordinary|reflexivity|]. intros l Hl Fl. destruct l as [|[|l]]; [destruct Fl as [C|C]; discriminate C| |cbn in Hl; lia]. split.
  - intros i Hi. cbn in Hi. destruct Hi as [<-|[<-|[]]]; reflexivity.
  - intros n Hn. cbn in Hn. destruct Hn as [<-|[<-|[]]]; lia.
Qed.
Lemma trimmed_flagged : flagged trimmed 1 /\ ~ flagged trimmed 0.
Proof. split; [right; reflexivity|intros [C|C]; discriminate C]. Qed.
Lemma pruned_flags : unflagged pruned = sparse /\ flagged pruned 0 /\ clean_layer pruned 0 false true <> None.
Proof. split; [reflexivity|]. split; [left; reflexivity|]. intros C. vm_compute in C. discriminate C. Qed.
Lemma pruned_clean : exists w', clean_layer pruned 0 false true = Some (Ok (w', true)).
Proof. eexists. lazy -[Rdiv IZR Rlt]. reflexivity. Qed.
Lemma C112_refuted_lemma : ~ (forall o cfg n fuel s s', random o -> ordinary o (unflagged (wd s)) -> usable cfg -> annealable cfg (wd s) ->
    (forall l k, (l < List.length (layers (wd s)))%nat -> In k (shape_of (value (wd s) (child (get_lay (wd s) l)))) -> k <> 0%nat) ->
    infer fuel o cfg n s = Some (Ok s') -> forall l, (l < List.length (layers (wd s)))%nat -> in_shape (wd s') l).
Proof.
  intros H. destruct pruned_run as (s' & E & V1 & V4 & EL). specialize (H demo hasty 1%nat 10%nat (fresh_state pruned) s' demo_random sparse_ordinary hasty_usable). destruct (H) with (l := 1%nat) as [G|G]; [intros C; discriminate C| |exact E|cbn; lia| |].
  - intros l k Hl Hk. destruct l as [|[|l]]; cbn in Hl, Hk; [| |lia]; destruct Hk as [<-|[<-|[]]]; lia.
  - destruct G as (f & g & N & D & L & A & B & X & x & [G1 _ G3 G4] & _). unfold get_lay in G1, G3. rewrite EL in G1, G3. cbn in G1, G3. destruct G1 as (_ & G1 & _). injection G1 as <- <-. destruct G3 as (_ & G3 & G3' & _). rewrite V4 in G3. rewrite V1 in G3'. injection G3 as <-. injection G3' as <-.
    destruct G4 as (_ & ((G4 & _) & _) & (_ & G5) & _). inversion G5; subst. cbn in *. lia.
  - destruct G as (f & g & h & N & D & M & L & A & B & C & X & x & [_ _ G3 _] & _). unfold get_lay in G3. rewrite EL in G3. cbn in G3. destruct G3 as (_ & _ & _ & G3 & _). rewrite V1 in G3. discriminate.
Qed.
