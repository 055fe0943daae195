(** Ordinary machines are sound. *)
From Coq Require Import String Permutation Lra.
From Verif Require Import Base BaseR BaseLemmas Spec SpecR HelpersProofs Canon Outputs Fuzzy Scores Sampling Lambda MaxMachine Clean Machine Dispatch Inference SpecMachine SpecOrdinary MachineProofs MachineProofs2 BuiltProofs InferenceProofs InferenceProofs2 PlainProofs OrdinaryProofs OrdinaryProofs2.
Local Open Scope R_scope.

(** Negation keeps shapes and kinds. *)
Lemma neg_tern v : tern1 v -> tern1 (map (fun x => wrap8 (- x)) v).
Proof. unfold tern1. intros H. apply Forall_forall. intros x Hx. apply in_map_iff in Hx. destruct Hx as (y & <- & Hy). rewrite Forall_forall in H. destruct (H y Hy) as [->|[->| ->]]; [right; left|left|right; right]; reflexivity. Qed.
Lemma neg_bin v : bin1 v -> bin1 (map (fun x => wrap8 (- x)) v).
Proof. unfold bin1. intros H. apply Forall_forall. intros x Hx. apply in_map_iff in Hx. destruct Hx as (y & <- & Hy). rewrite Forall_forall in H. destruct (H y Hy) as [->| ->]; [right|left]; reflexivity. Qed.
Lemma Forall_map_in {A B} (P : A -> Prop) (Q : B -> Prop) (f : A -> B) l : (forall x, P x -> Q (f x)) -> Forall P l -> Forall Q (map f l).
Proof. intros H HF. apply Forall_forall. intros y Hy. apply in_map_iff in Hy. destruct Hy as (x & <- & Hx). rewrite Forall_forall in HF. apply H, HF, Hx. Qed.
Lemma neg_shape2 m n l : has_shape2 m n l -> has_shape2 (map (map (fun x => wrap8 (- x))) m) n l.
Proof. intros (H1 & H2). split; [rewrite map_length; exact H1|]. eapply Forall_map_in; [|exact H2]. cbn. intros v Hv. rewrite map_length. exact Hv. Qed.
Lemma neg_data a : data_ok a -> data_ok (neg_arr a).
Proof.
  intros (H1 & H2). pose proof (neg_shape a) as E. destruct a as [m|t]; cbn [neg_arr] in *; split; cbn [rectangular ternary] in *.
  - injection E as E1 E2. rewrite E1, E2. apply neg_shape2. exact H1.
  - unfold tern2 in *. eapply Forall_map_in; [|exact H2]. exact neg_tern.
  - injection E as E1 E2 E3. unfold has_shape3 in *. destruct H1 as (H1 & H3). split; [reflexivity|]. rewrite E2, E3. eapply Forall_map_in; [|exact H3]. intros s Hs. apply neg_shape2. exact Hs.
  - unfold tern3 in *. eapply Forall_map_in; [|exact H2]. intros s Hs. unfold tern2 in *. eapply Forall_map_in; [|exact Hs]. exact neg_tern.
Qed.
Lemma neg_binary a : binary a -> binary (neg_arr a).
Proof. intros (n & l & m & -> & (H1 & H2)). exists n, l. eexists. split; [reflexivity|]. split; [apply neg_shape2; exact H1|]. unfold bin2 in *. eapply Forall_map_in; [|exact H2]. exact neg_bin. Qed.

(** Changes of arrays *)
Lemma sound_arrays w w' : sound w -> mats w' = mats w -> layers w' = layers w -> free w' = free w -> anneal w' = anneal w -> (List.length (arrays w) <= List.length (arrays w'))%nat ->
  (forall a, (a < List.length (arrays w))%nat -> shape_of (get_arr w' a) = shape_of (get_arr w a) /\ (data_ok (get_arr w a) -> data_ok (get_arr w' a)) /\ (binary (get_arr w a) -> binary (get_arr w' a))) -> changed w w'.
Proof.
  intros S Em El Ef Ea La Ha. pose proof (wf_stored _ (so_wf _ S)) as ST. assert (GM : forall i, get_mat w' i = get_mat w i) by (intros i; unfold get_mat; rewrite Em; reflexivity). assert (GL : forall l, get_lay w' l = get_lay w l) by (intros l; unfold get_lay; rewrite El; reflexivity).
  assert (ED : edited w w').
  { unfold edited. rewrite Em, El, Ef. split; [reflexivity|]. split; [unfold stored; rewrite Em; eapply Forall_impl; [|exact ST]; cbn; intros; lia|]. split; [intros i; rewrite GM; auto|]. split; [reflexivity|]. split; [intros l; rewrite GL; auto|]. split; [|reflexivity].
    intros l Hl. unfold disp. rewrite GL. apply (wf_width _ (so_wf _ S) l Hl). }
  constructor.
  - exact ED.
  - intros i Hi. unfold value. rewrite GM. apply Ha. apply stored_val; assumption.
  - intros l i Hl Hi. rewrite (edited_closure _ _ _ _ ED) by (rewrite GM; reflexivity). rewrite GM. destruct (plain_factor _ (so_plain _ S) l i Hl Hi) as (_ & A2 & A3 & _). destruct (so_factor _ S l i Hl Hi) as (B1 & B2 & _). auto.
  - intros i Hi. rewrite GM. apply (plain_data _ (so_plain _ S) i Hi).
  - intros i Hi j. rewrite Em, !GM. apply (so_own _ S i Hi).
  - intros l Hl. unfold disp. rewrite GL. destruct (plain_flags _ (so_plain _ S) l Hl) as (A1 & A2). destruct (so_layer _ S l Hl) as (_ & _ & _ & _ & _ & B1 & B2). split; [apply (plain_disp _ (so_plain _ S) l Hl)|]. repeat (split; [assumption|]). apply (plain_lbda _ (so_plain _ S) l Hl).
Qed.
Lemma sound_tick w : sound w -> sound (tick w).
Proof. intros S. eapply sound_changed; [exact S|]. apply sound_arrays; auto. Qed.
Lemma sound_more w xs : sound w -> sound (set_arrays w (arrays w ++ xs)).
Proof.
  intros S. eapply sound_changed; [exact S|]. apply sound_arrays; auto; [cbn [set_arrays arrays]; rewrite app_length; lia|]. intros a Ha. rewrite (get_arr_app w (set_arrays w (arrays w ++ xs)) xs a eq_refl Ha). auto.
Qed.
Lemma write_changed w a x : sound w -> (a < List.length (arrays w))%nat -> shape_of x = shape_of (get_arr w a) -> (data_ok (get_arr w a) -> data_ok x) -> (binary (get_arr w a) -> binary x) -> changed w (write w a x).
Proof.
  intros S Ha H1 H2 H3. apply sound_arrays; auto; [unfold write, set_arrays; cbn [arrays]; rewrite upd_length; lia|]. intros b Hb. rewrite get_arr_write by exact Ha. destruct (Nat.eqb_spec b a) as [->|_]; auto.
Qed.

(** New matrices *)
Lemma sound_new_matrix w a ax fx : sound w -> (a < List.length (arrays w))%nat -> (forall i, is_factor w i -> val (get_mat w i) <> a) -> sound (new_matrix w a ax fx).
Proof.
  intros S Ha Hf. set (w' := new_matrix w a ax fx). pose proof (so_plain _ S) as P. pose proof (so_wf _ S) as WF.
  assert (G : forall i, (i < List.length (mats w))%nat -> get_mat w' i = get_mat w i) by (intros i Hi; apply (get_mat_app w w' _ i eq_refl Hi)).
  assert (L : List.length (mats w') = Datatypes.S (List.length (mats w))) by (unfold w', new_matrix, set_mats; cbn [mats]; rewrite app_length; cbn; lia).
  assert (V : forall i, (i < List.length (mats w))%nat -> value w' i = value w i) by (intros i Hi; unfold value; rewrite (G i Hi); reflexivity).
  assert (PL : forall l i, (l < List.length (layers w))%nat -> In i (factors (get_lay w l)) -> (i < List.length (mats w))%nat /\ layer_of (get_mat w i) = Some l) by (intros l i Hl Hi; destruct (wf_placed _ WF l i Hl Hi) as (G1 & G2 & _); auto).
  assert (OC : forall l i, (l < List.length (layers w))%nat -> In i (factors (get_lay w l)) -> own_closure w' i l = own_closure w i l).
  { intros l i Hl Hi. destruct (PL l i Hl Hi) as (Hi0 & EL). apply own_closure_ext; rewrite ?(G i Hi0); try reflexivity; try exact EL. intros j Hj. destruct (PL l j Hl Hj) as (Hj0 & _). rewrite (G j Hj0). reflexivity. }
  split.
  - apply wf_new_matrix; assumption.
  - constructor; try (exact (plain_model _ P)); try (exact (plain_disp _ P)); try (exact (plain_flags _ P)); try (exact (plain_lbda _ P)).
    + intros l Hl. change (get_lay w' l) with (get_lay w l). rewrite <- (plain_axes _ P l Hl). apply map_ext_in. intros i Hi. rewrite G; [reflexivity|]. apply (PL l i Hl Hi).
    + intros l Hl. change (get_lay w' l) with (get_lay w l). rewrite V; [apply (plain_child _ P l Hl)|]. exact (proj1 (so_layer _ S l Hl)).
    + intros l i Hl Hi. change (layers w') with (layers w) in *. change (get_lay w' l) with (get_lay w l) in *. destruct (PL l i Hl Hi) as (Hi0 & EL). destruct (plain_factor _ P l i Hl Hi) as (A1 & A2 & A3 & A4 & A5 & _). rewrite (V i Hi0), (G i Hi0). repeat (split; [assumption|]).
      destruct (so_factor _ S l i Hl Hi) as (_ & [B|B] & _); [left; exact B|right]. eexists. split; [exact B|]. rewrite <- (OC l i Hl Hi). apply own_factor_closure.
    + intros i Hi. rewrite G; [apply (plain_data _ P i Hi)|]. apply (so_free _ S i Hi).
  - intros i (l & Hl & Hi) j Hj Hn. change (layers w') with (layers w) in *. change (get_lay w' l) with (get_lay w l) in *. destruct (PL l i Hl Hi) as (Hi0 & EL). rewrite (G i Hi0). destruct (Nat.lt_ge_cases j (List.length (mats w))) as [Hj0|Hj0].
    + rewrite (G j Hj0). apply (so_own _ S i); [exists l; auto|exact Hj0|exact Hn].
    + assert (j = List.length (mats w)) by lia. subst j. intros E. apply (Hf i); [exists l; auto|]. rewrite <- E. unfold get_mat, w', new_matrix, set_mats. cbn [mats]. rewrite nth_middle. reflexivity.
  - intros i Hi. destruct (so_free _ S i Hi) as (G1 & G2). split; [lia|]. rewrite (V i G1). exact G2.
  - intros l Hl. change (get_lay w' l) with (get_lay w l). destruct (so_layer _ S l Hl) as (G1 & G2 & G3 & (K & G4) & G5). cbv zeta in *. rewrite (V _ G1). split; [lia|]. split; [exact G2|]. split; [exact G3|]. split; [|exact G5]. exists K. intros k Hk. rewrite V; [apply G4; exact Hk|]. apply (PL l _ Hl), nth_In, Hk.
  - intros l i Hl Hi. change (layers w') with (layers w) in *. change (get_lay w' l) with (get_lay w l) in *. destruct (PL l i Hl Hi) as (Hi0 & EL). rewrite (OC l i Hl Hi), (G i Hi0). exact (so_factor _ S l i Hl Hi).
Qed.
Lemma wf_set_free w i : wf w -> (i < List.length (mats w))%nat -> ~ In i (members w) -> layer_of (get_mat w i) = None -> wf (set_free w (free w ++ [i])).
Proof.
  intros [K1 K2 K3 K4 K5 K6 K7 K8] Hi Hn HL.
  assert (P : Permutation (i :: members w) (members (set_free w (free w ++ [i])))) by (unfold members, set_free; cbn [layers free]; rewrite <- app_assoc; cbn [app]; rewrite !app_assoc; apply Permutation_middle).
  split; try assumption.
  - apply Forall_forall. intros j Hj. apply (Permutation_in _ (Permutation_sym P)) in Hj. destruct Hj as [<-|Hj]; [exact Hi|]. rewrite Forall_forall in K2. apply K2, Hj.
  - apply (Permutation_NoDup P). constructor; assumption.
  - intros j Hj. cbn [set_free free] in Hj. apply in_app_or in Hj. destruct Hj as [Hj|[<-|[]]]; [apply K7; exact Hj|exact HL].
Qed.
Lemma sound_set_free w i : sound w -> (i < List.length (mats w))%nat -> ~ In i (members w) -> layer_of (get_mat w i) = None -> fixed (get_mat w i) = FBool true -> data_ok (value w i) -> sound (set_free w (free w ++ [i])).
Proof.
  intros S Hi Hn HL HF HD. set (w' := set_free w (free w ++ [i])). destruct S as [H1 [P1 P2 P3 P4 P5 P6 P7 P8] H3 H4 H5 H6]. split.
  - apply wf_set_free; assumption.
  - constructor; try assumption. intros j Hj. unfold w' in Hj. cbn [set_free free] in Hj. apply in_app_or in Hj. destruct Hj as [Hj|[<-|[]]]; [apply P8; exact Hj|exact HF].
  - assumption.
  - intros j Hj. unfold w' in Hj. cbn [set_free free] in Hj. apply in_app_or in Hj. destruct Hj as [Hj|[<-|[]]]; [apply H4; exact Hj|auto].
  - assumption.
  - assumption.
Qed.
Lemma sound_add_matrix o w s ax w' : sound w -> (forall a, s = Given a -> (a < List.length (arrays w))%nat /\ forall i, is_factor w i -> val (get_mat w i) <> a) ->
  add_matrix o w s ax (FBool true) = Ok w' -> data_ok (value w' (List.length (mats w))) -> sound w'.
Proof.
  intros S Hs E. unfold add_matrix in E. cbv zeta in E. set (w1 := match s with Given _ => w | _ => _ end) in E. set (a := match s with Given a => a | _ => _ end) in E. cbn [bind] in E. injection E as <-. intros HD.
  assert (G : sound w1 /\ (a < List.length (arrays w1))%nat /\ mats w1 = mats w /\ layers w1 = layers w /\ forall i, is_factor w i -> val (get_mat w i) <> a).
  { assert (FR : forall i, is_factor w i -> val (get_mat w i) <> List.length (arrays w)).
    { intros i (l & Hl & Hi). pose proof (stored_val w i (wf_stored _ (so_wf _ S)) (proj1 (wf_placed _ (so_wf _ S) l i Hl Hi))). lia. }
    unfold w1, a. destruct s as [b|x|sh].
    - destruct (Hs b eq_refl) as (B1 & B2). auto.
    - split; [apply sound_more; exact S|]. split; [cbn [set_arrays arrays]; rewrite app_length; cbn; lia|]. auto.
    - split; [apply sound_tick, (sound_more w _ S)|]. split; [cbn [tick set_arrays arrays]; rewrite app_length; cbn; lia|]. auto. }
  destruct G as (S1 & Ha & Em & El & Hf). assert (S2 : sound (new_matrix w1 a ax (FBool true))).
  { apply sound_new_matrix; [exact S1|exact Ha|]. intros i (l & Hl & Hi). unfold get_mat. rewrite Em. apply Hf. exists l. unfold get_lay in *. rewrite El in *. auto. }
  assert (EM : get_mat (new_matrix w1 a ax (FBool true)) (List.length (mats w)) = Mat a ax (FBool true) (zeros_like (get_arr w1 a)) (1 / 2) None [] None) by (unfold get_mat, new_matrix, set_mats; cbn [mats]; rewrite Em, nth_middle; reflexivity).
  refine (sound_set_free (new_matrix w1 a ax (FBool true)) (List.length (mats w)) S2 _ _ _ _ HD); try (rewrite EM; reflexivity).
  - unfold new_matrix, set_mats. cbn [mats]. rewrite app_length, Em. cbn. lia.
  - change (members (new_matrix w1 a ax (FBool true))) with (members w1). intros C. pose proof (wf_ids _ (so_wf _ S1)) as K. rewrite Forall_forall in K. apply K in C. rewrite Em in C. lia.
Qed.
Lemma random_data r sh : List.length sh = 2%nat \/ List.length sh = 3%nat -> Forall (fun n => (0 < n)%nat) sh -> data_ok (random_arr r sh) /\ shape_of (random_arr r sh) = sh.
Proof.
  intros H HP. destruct sh as [|a [|b [|c [|d t]]]]; cbn in H; try (exfalso; lia); inversion HP as [|? ? Ha HP1]; subst; inversion HP1 as [|? ? Hb HP2]; subst.
  - pose proof (random_binary r a b) as B. split; [apply binary_data; eexists _, _; exact B|]. destruct B as (m & -> & Hm). apply shape_okmat; assumption.
  - assert (ML : forall (A B : Type) (f : A -> B) (l : list A) (P : B -> Prop), (forall x, In x l -> P (f x)) -> Forall P (map f l)) by (intros A B f l P HQ; apply Forall_forall; intros y Hy; apply in_map_iff in Hy; destruct Hy as (x & <- & Hx); apply HQ, Hx).
    assert (SH : shape_of (random_arr r [a; b; c]) = [a; b; c]) by (cbn [random_arr shape_of]; rewrite map_length, seq_length; destruct a as [|a]; [lia|]; cbn [seq map hd]; rewrite map_length, seq_length; destruct b as [|b]; [lia|]; cbn [seq map hd]; rewrite map_length, seq_length; reflexivity).
    split; [|exact SH]. split.
    + cbn [shape_of random_arr] in SH. cbn [rectangular random_arr]. injection SH as E1 E2 E3. rewrite E2, E3. split; [reflexivity|]. apply ML. intros i _. split; [rewrite map_length, seq_length; reflexivity|]. apply ML. intros j _. rewrite map_length, seq_length. reflexivity.
    + cbn [random_arr ternary]. unfold tern3. apply ML. intros i _. unfold tern2. apply ML. intros j _. unfold tern1. apply ML. intros k _. unfold tern. destruct (Rltb (1 / 2) (r i j k)); lia.
Qed.
Lemma sound_add_layer o w K c m m' inv invf w' : sound w -> canonise_name m = Ok (m', inv, invf) -> In m' standard_models -> foundation w c m' -> add_layer o w K (Some c) None m = (w', Ok tt) -> sound w'.
Proof.
  intros SO Em Hm (Hc & Hsm & Hf) E. unfold add_layer, canonise_model in E. rewrite Em in E. pose proof (so_wf _ SO) as WF.
  assert (HD : data_ok (value w c)).
  { destruct Hf as [Hf|(_ & _ & l & Hl & Hi & _)]; [apply (so_free _ SO c Hf)|]. destruct (so_layer _ SO l Hl) as (_ & _ & _ & (K' & G) & _). cbv zeta in G. apply (In_nth _ _ 0%nat) in Hi. destruct Hi as (k & Hk & <-). apply binary_data. eexists _, _. apply G. exact Hk. }
  set (w0 := if inv then write w (val (get_mat w c)) (neg_arr (value w c)) else w).
  assert (S0 : sound w0 /\ mats w0 = mats w /\ layers w0 = layers w /\ shape_of (value w0 c) = shape_of (value w c) /\ data_ok (value w0 c)).
  { unfold w0. destruct inv; [|auto]. pose proof (stored_val w c (wf_stored _ WF) Hc) as Hv. split; [eapply sound_changed; [exact SO|]; apply write_changed; [exact SO|exact Hv|apply neg_shape|apply neg_data|apply neg_binary]|]. split; [reflexivity|]. split; [reflexivity|].
    assert (EV : value (write w (val (get_mat w c)) (neg_arr (value w c))) c = neg_arr (value w c)) by (unfold value at 1; change (get_mat (write w _ _) c) with (get_mat w c); rewrite get_arr_write, Nat.eqb_refl by exact Hv; reflexivity).
    rewrite EV. split; [apply neg_shape|apply neg_data; exact HD]. }
  destruct S0 as (S0 & Em0 & El0 & Es0 & Hd0).
  assert (E' : new_layer o (add_factors o K (combine (seq 0 (List.length (shape_of (value w0 c)))) (shape_of (value w0 c))) w0) (seq (List.length (mats w0)) (List.length (shape_of (value w0 c)))) c m' K inv invf = w') by (unfold w0; destruct inv; injection E as E; exact E).
  rewrite <- E'. apply sound_new_layer; [exact S0|exact Hm|rewrite Em0; exact Hc|exact Hd0| |].
  - rewrite <- dims2, Es0, dims2. unfold small. rewrite Es0. exact Hsm.
  - unfold get_mat, get_lay. rewrite Em0, El0. fold (get_mat w c). intros l Hl Hi. fold (get_lay w l) in *. destruct Hf as [Hf|(F1 & F2 & l' & Hl' & Hi' & F3)].
    + exfalso. pose proof (wf_free _ WF c Hf) as G. destruct (wf_placed _ WF l c Hl Hi) as (_ & G' & _). congruence.
    + destruct (wf_placed _ WF l c Hl Hi) as (_ & G & _). destruct (wf_placed _ WF l' c Hl' Hi') as (_ & G' & _). assert (l' = l) by congruence. subst l'. auto.
Qed.
Lemma sound_add_layer_shape o w K sh m m' inv invf w' : sound w -> canonise_name m = Ok (m', inv, invf) -> In m' standard_models ->
  (List.length sh = 2%nat /\ Forall (fun n => (Z.of_nat n <= 32767)%Z) sh) \/ List.length sh = 3%nat -> Forall (fun n => (0 < n)%nat) sh -> add_layer o w K None (Some sh) m = (w', Ok tt) -> sound w'.
Proof.
  intros SO Em Hm Hsh Hpos E. unfold add_layer, canonise_model in E. rewrite Em in E. destruct inv; [discriminate|]. injection E as <-. pose proof (so_wf _ SO) as WF.
  set (w1 := new_random_matrix o w sh None). assert (Hs : List.length sh = 2%nat \/ List.length sh = 3%nat) by (destruct Hsh as [(H & _)|H]; auto).
  destruct (random_data (o_init o (clock w)) sh Hs Hpos) as (R1 & R2).
  assert (L : List.length (mats w1) = S (List.length (mats w))) by (unfold w1, new_random_matrix, new_matrix, set_mats; cbn [mats tick set_arrays]; rewrite app_length; cbn; lia).
  assert (S1 : sound w1).
  { unfold w1, new_random_matrix. apply sound_new_matrix; [apply sound_tick, (sound_more w _ SO)|cbn [tick set_arrays arrays]; rewrite app_length; cbn; lia|]. intros i (l & Hl & Hi). change (get_mat _ i) with (get_mat w i).
    pose proof (stored_val w i (wf_stored _ WF) (proj1 (wf_placed _ WF l i Hl Hi))). lia. }
  assert (EV : value w1 (List.length (mats w)) = random_arr (o_init o (clock w)) sh).
  { unfold value, get_mat, w1, new_random_matrix, new_matrix, set_mats. cbn [mats tick set_arrays]. rewrite nth_middle. cbn [val]. unfold get_arr. cbn [arrays tick set_arrays]. apply nth_middle. }
  assert (ES : shape_of (value w1 (List.length (mats w))) = sh) by (rewrite EV; exact R2).
  pose proof (sound_new_layer o w1 K (List.length (mats w)) m' false invf S1 Hm) as G. cbv zeta in G. rewrite ES, L in G. apply G; clear G.
  - lia.
  - rewrite EV. exact R1.
  - intros H2. apply dims2 in H2. rewrite ES in H2. destruct Hsh as [(_ & H)|H]; [|lia]. unfold small. rewrite ES. rewrite Forall_forall in H. exact H.
  - intros l Hl Hi. exfalso. destruct (wf_placed _ WF l _ Hl Hi) as (C & _). lia.
Qed.
