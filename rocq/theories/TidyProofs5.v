(** Proofs of C112. *)
From Coq Require Import String Permutation Lra.
From Verif Require Import Base BaseR BaseLemmas BaseRLemmas Spec SpecR Canon Fuzzy Clean SpecClean CleanProofs CleanProofs2 Machine Dispatch Inference SpecMachine MachineProofs MachineProofs2 BuiltProofs InferenceProofs InferenceProofs2 InferenceProofs3 InferenceProofs6 ProgressProofs PlainProofs PreserveProofs PreserveLog SpecOrdinary OrdinaryProofs OrdinaryProofs2 OrdinaryProofs3 OrdinaryProofs4 OrdinaryProofs5 OrdinaryProofs6 OrdinaryProofs7 PredictProofs ExperimentProofs3 SpecTidy TidyProofs TidyProofs2 TidyProofs3 TidyProofs4.
Local Open Scope R_scope.

Lemma C112_completes_lemma o cfg n s : random o -> tidying o (wd s) -> usable cfg -> annealable cfg (wd s) -> exists F, forall fuel, (F <= fuel)%nat -> exists s', infer fuel o cfg n s = Some (Ok s') /\ tidying o (wd s').
Proof.
  intros Hr H U AN. exists (enough cfg). intros fuel Hf. destruct (infer_tidy_ok fuel o cfg n s Hr U (tidying_neat _ _ Hr H) AN Hf) as (s' & E). exists s'. split; [exact E|]. eapply ti_infer; eassumption.
Qed.
Lemma C112_explained_lemma outs fuel o cfg n s s' : outputs outs -> random o -> tidying o (wd s) -> infer fuel o cfg n s = Some (Ok s') ->
  exists w1 evs, strip w1 = strip (wd s) /\ log s' = log s ++ evs /\ tidily outs o evs w1 (wd s') /\
    (forall i, In (EMat i) evs -> is_factor (wd s) i /\ fixed (get_mat (wd s) i) = FBool false) /\ (forall l v, In (ELbda l v) evs -> (l < List.length (layers (wd s)))%nat /\ lfixed (lbda (get_lay (wd s) l)) = false) /\
    (forall l v, In (EAnneal l v) evs -> (l < List.length (layers (wd s)))%nat /\ lfixed (lbda (get_lay (wd s) l)) = false /\ anneal (wd s) = true) /\
    (forall i, is_factor (wd s) i -> fixed (get_mat (wd s) i) = FBool false -> sfct (get_mat (wd s') i) <> None).
Proof. intros Ho Hr H E. destruct (run_tidy outs fuel o cfg n s s' Ho Hr (tidying_neat _ _ Hr H) E) as (_ & w1 & evs & _ & G). exists w1, evs. exact G. Qed.

(** ** Shapes *)
Lemma layer2_unflagged w l f g N D L A B X x : layer2 (unflagged w) l f g N D L A B X x -> layer2 w l f g N D L A B X x.
Proof. intros [H1 H2 H3 H4]. rewrite lays_unflagged, get_lay_unflagged in H1. rewrite get_lay_unflagged, disp_unflagged in H3. split; assumption. Qed.
Lemma layer3_unflagged w l f g h N D M L A B C X x : layer3 (unflagged w) l f g h N D M L A B C X x -> layer3 w l f g h N D M L A B C X x.
Proof. intros [H1 H2 H3 H4]. rewrite lays_unflagged, get_lay_unflagged in H1. rewrite get_lay_unflagged, disp_unflagged in H3. split; assumption. Qed.
Lemma sound_in_shape w l : sound w -> (l < List.length (layers w))%nat -> in_shape w l.
Proof.
  intros S Hl. destruct (plain_child _ (so_plain _ S) l Hl) as [(G & _)|(G & _)]; [left|right].
  - destruct (sound_layer2 w l S Hl G) as (f & g & L & A & B & X & x & H2 & H3 & H4). exists f, g, (nrows X), (ncols X), L, A, B, X, x. auto.
  - destruct (sound_layer3 w l S Hl G) as (f & g & h & N & D & M & L & A & B & C & X & x & H3). exists f, g, h, N, D, M, L, A, B, C, X, x. split; [exact H3|]. destruct (so_layer _ S l Hl) as (_ & G2 & _). cbv zeta in G2. destruct (l3_values _ _ _ _ _ _ _ _ _ _ _ _ _ _ H3) as (_ & _ & _ & E & _). rewrite E in G2. exact G2.
Qed.
Lemma in_shape_unflagged w l : sound (unflagged w) -> (l < List.length (layers w))%nat -> in_shape w l.
Proof.
  intros S Hl. rewrite <- lays_unflagged in Hl. destruct (sound_in_shape _ l S Hl) as [(f & g & N & D & L & A & B & X & x & G & G')|(f & g & h & N & D & M & L & A & B & C & X & x & G & G')]; [left|right].
  - exists f, g, N, D, L, A, B, X, x. split; [apply layer2_unflagged; exact G|exact G'].
  - exists f, g, h, N, D, M, L, A, B, C, X, x. split; [apply layer3_unflagged; exact G|exact G'].
Qed.
Lemma C112_well_formed_lemma o w : random o -> tidying o w ->
  (forall l, (l < List.length (layers w))%nat -> in_shape w l) /\
  (forall i, is_factor w i -> own_array w i /\ forall k, In k (parents (get_mat w i)) <-> (k < List.length (layers w))%nat /\ child (get_lay w k) = i) /\
  (forall i, In i (free w) -> data_ok (value w i)) /\ on_top w.
Proof.
  intros Hr H. destruct (tidying_neat _ _ Hr H) as (S & T). split; [|split; [|split; [|exact T]]].
  - intros l Hl. apply in_shape_unflagged; assumption.
  - intros i Hi. rewrite <- is_factor_unflagged in Hi. split; [exact (so_own _ S i Hi)|]. destruct Hi as (l & Hl & Hi). destruct (so_factor _ S l i Hl Hi) as (_ & _ & G & _). change (get_mat (unflagged w) i) with (get_mat w i) in G. rewrite G. intros k. rewrite filter_In, in_seq, Nat.eqb_eq, lays_unflagged, get_lay_unflagged. cbn [unflag child]. lia.
  - intros i Hi. apply (so_free _ S i Hi).
Qed.

(** ** Sizes *)
Lemma gibbs_shapes_any outs o w i w' j : gibbs_update outs o w i w' -> shape_of (value w' j) = shape_of (value w j).
Proof.
  intros (A & F & N & L & E1 & E2 & _ & E4). set (Z_ := ref_sweep _ _ _ _ _ _) in E4. assert (HZ : okmat N L Z_) by (apply ref_sweep_okmat; exact E2). subst w'. unfold value in *. change (get_mat (tick (put w i Z_)) j) with (get_mat w j). change (get_arr (tick (put w i Z_))) with (get_arr (put w i Z_)). unfold put.
  destruct (Nat.lt_ge_cases (val (get_mat w i)) (List.length (arrays w))) as [Hv|Hv].
  - rewrite get_arr_write by exact Hv. destruct (Nat.eqb_spec (val (get_mat w j)) (val (get_mat w i))) as [E|_]; [|reflexivity]. rewrite E, E1. eapply okmat_shape; eassumption.
  - unfold write, get_arr, set_arrays. cbn [arrays]. rewrite upd_oob by exact Hv. reflexivity.
Qed.
Lemma static_gibbs outs o w i w' : gibbs_update outs o w i w' -> static w w'.
Proof. intros (A & F & N & L & _ & _ & _ & ->). eapply static_trans; [|apply static_tick]. apply static_write. Qed.
Lemma static_tidied w l w' : tidied w l w' -> static w w'.
Proof. intros T. destruct (td_rest _ _ _ T) as (EL & EF & EA & _ & EM & SM & _). unfold static, get_lay. rewrite EL. split; [exact EM|]. split; [exact SM|]. split; [reflexivity|]. split; [intros k; apply same_layer_refl|auto]. Qed.
(** The shapes of w', compared with w. *)
Record shrunk (w w' : world) : Prop := {
  sh_static : static w w';
  sh_other : forall i, (i < List.length (mats w))%nat -> (forall l, (l < List.length (layers w))%nat -> flagged w l -> ~ In i (factors (get_lay w l))) -> shape_of (value w' i) = shape_of (value w i);
  sh_flagged : forall l, (l < List.length (layers w))%nat -> flagged w l -> exists L L', (L' <= L)%nat /\ forall i, In i (factors (get_lay w l)) -> exists n, n <> 0%nat /\ shape_of (value w i) = [n; L] /\ shape_of (value w' i) = [n; L'] }.
Lemma shrunk_shapes w w1 w2 : shrunk w w1 -> static w1 w2 -> (forall i, shape_of (value w2 i) = shape_of (value w1 i)) -> shrunk w w2.
Proof.
  intros [H1 H2 H3] S E. split; [eapply static_trans; eassumption|intros i Hi Hn; rewrite E; apply H2; assumption|]. intros l Hl Fl. destruct (H3 l Hl Fl) as (L & L' & HL & G). exists L, L'. split; [exact HL|]. intros i Hi. destruct (G i Hi) as (n & G1 & G2 & G3). exists n. rewrite E. auto.
Qed.
Lemma shape_aligned m L : m <> [] -> has_cols m L -> shape_of (A2 m) = [List.length m; L] /\ List.length m <> 0%nat.
Proof. intros Hm Hc. unfold shape_of, nrows, ncols. destruct m as [|r m]; [contradiction|]. inversion Hc; subst. cbn. split; [reflexivity|discriminate]. Qed.
Lemma tidied_shapes w l w' : tidied w l w' -> exists L L', (L' <= L)%nat /\ forall i, In i (factors (get_lay w l)) -> exists n, n <> 0%nat /\ shape_of (value w i) = [n; L] /\ shape_of (value w' i) = [n; L'].
Proof.
  intros T. destruct (td_dims _ _ _ T) as (ms & L & ms' & V & (_ & AL) & V' & D). destruct (td_rest _ _ _ T) as (EL & _). unfold factor_values, get_lay in V'. rewrite EL in V'. fold (get_lay w l) in V'.
  assert (G : exists L', (L' <= L)%nat /\ Forall2 (fun m m' => List.length m' = List.length m /\ has_cols m' L') ms ms').
  { destruct D as [(keep & (K1 & K2) & K3 & _ & ->)|(_ & rs & _ & C)].
    - exists (List.length keep). split; [lia|]. clear. induction ms as [|m ms IH]; cbn; constructor; [|exact IH]. unfold restrict. split; [apply map_length|]. apply Forall_forall. intros r Hr. apply in_map_iff in Hr. destruct Hr as (r0 & <- & _). apply map_length.
    - exists L. split; [lia|]. clear - C. induction C as [|m m' ms ms' (C1 & C2 & _) _ IH]; constructor; auto. }
  destruct G as (L' & HL & F2). exists L, L'. split; [exact HL|]. unfold factor_values in V. clear - V V' AL F2. set (fs := factors (get_lay w l)) in *. clearbody fs. revert fs V V'. induction F2 as [|m m' ms ms' (Hm & Hc) _ IH]; intros [|i fs] V V'; try discriminate; [intros i []|]. cbn [map] in V, V'. injection V as V1 V2. injection V' as V1' V2'. inversion AL as [|? ? (A1 & A2) A3]; subst.
  intros j [<-|Hj]; [|apply (IH A3 fs); assumption]. destruct (shape_aligned m L A1 A2) as (E1 & E2). exists (List.length m). split; [exact E2|]. rewrite V1, V1'. split; [exact E1|]. rewrite <- Hm. apply shape_aligned; [|exact Hc]. intros ->. cbn in Hm. congruence.
Qed.
Lemma shrunk_tidied w w1 l w2 : (forall a b i, (a < List.length (layers w))%nat -> (b < List.length (layers w))%nat -> In i (factors (get_lay w a)) -> In i (factors (get_lay w b)) -> a = b) -> (forall a i, (a < List.length (layers w))%nat -> In i (factors (get_lay w a)) -> (i < List.length (mats w))%nat) -> (forall a, (a < List.length (layers w))%nat -> factors (get_lay w a) <> []) ->
  shrunk w w1 -> tidied w1 l w2 -> shrunk w w2.
Proof.
  intros HD HI HN [H1 H2 H3] T. pose proof (static_tidied _ _ _ T) as S2. pose proof (td_rest _ _ _ T) as (_ & _ & _ & _ & _ & _ & VO). destruct H1 as (L1 & L2 & L3 & L4 & L5). destruct (td_due _ _ _ T) as (Hl & Fl & _). rewrite L3 in Hl.
  assert (EF : forall k, factors (get_lay w1 k) = factors (get_lay w k)) by (intros k; destruct (L4 k) as (v & r & ->); reflexivity).
  assert (Fl' : flagged w l) by (destruct (static_flags _ _ (conj L1 (conj L2 (conj L3 (conj L4 L5)))) l) as (e1 & e2); unfold flagged; rewrite <- e1, <- e2; exact Fl).
  split; [eapply static_trans; [|exact S2]; exact (conj L1 (conj L2 (conj L3 (conj L4 L5))))| |].
  - intros i Hi Hn. rewrite VO; [apply H2; assumption|rewrite L1; exact Hi|]. rewrite EF. apply Hn; assumption.
  - intros k Hk Fk. destruct (H3 k Hk Fk) as (L & L' & HL & G). destruct (Nat.eq_dec k l) as [->|Hkl].
    + destruct (tidied_shapes _ _ _ T) as (M & M' & HM & G'). rewrite EF in G'. exists L, M'. split.
      * destruct (factors (get_lay w l)) as [|i fs] eqn:E0; [exfalso; exact (HN l Hk E0)|]. destruct (G i (or_introl eq_refl)) as (n & _ & _ & e1). destruct (G' i (or_introl eq_refl)) as (n' & _ & e2 & _). rewrite e1 in e2. injection e2 as _ <-. lia.
      * intros i Hi. destruct (G i Hi) as (n & Hn & e0 & e1). destruct (G' i Hi) as (n' & _ & e2 & e3). exists n. rewrite e1 in e2. injection e2 as <- _. auto.
    + exists L, L'. split; [exact HL|]. intros i Hi. destruct (G i Hi) as (n & Hn & e0 & e1). exists n. rewrite VO; [auto|rewrite L1; apply (HI k i Hk Hi)|]. rewrite EF. intros C. apply Hkl. apply (HD k l i); assumption.
Qed.
Lemma shrunk_refl w : neat w -> shrunk w w.
Proof.
  intros (S & T). split; [apply static_refl|reflexivity|]. intros l Hl Fl. destruct (factors_ok w l S Hl) as (ms & K & EV & LM & OK & _ & _ & LS_ & _). destruct (T l Hl Fl) as (_ & HS). exists K, K. split; [lia|]. intros i Hi. apply (In_nth _ _ 0%nat) in Hi. destruct Hi as (k & Hk & <-).
  assert (E : value w (nth k (factors (get_lay w l)) 0%nat) = A2 (nth k ms [])).
  { unfold factor_values in EV. assert (E1 : nth k (map (value w) (factors (get_lay w l))) (value w 0%nat) = nth k (map A2 ms) (value w 0%nat)) by (rewrite EV; reflexivity). rewrite map_nth in E1. rewrite E1. rewrite (nth_indep _ _ (A2 [])) by (rewrite map_length, LM; exact Hk). apply map_nth. }
  exists (nth k (shape_of (value w (child (get_lay w l)))) 0%nat). assert (Hn : nth k (shape_of (value w (child (get_lay w l)))) 0%nat <> 0%nat) by (apply HS, nth_In; rewrite <- LS_; exact Hk). split; [exact Hn|]. rewrite E. rewrite (shape_okmat _ _ _ (OK k Hk)) by lia. auto.
Qed.
Lemma tidily_shrunk outs o evs w w' : tidily outs o evs w w' -> neat w -> shrunk w w'.
Proof.
  intros H N. assert (HD : forall a i, (a < List.length (layers w))%nat -> In i (factors (get_lay w a)) -> (i < List.length (mats w))%nat /\ layer_of (get_mat w i) = Some a).
  { intros a i Ha Hi. rewrite <- lays_unflagged in Ha. destruct (wf_placed _ (so_wf _ (proj1 N)) a i Ha) as (G1 & G2 & _); [rewrite get_lay_unflagged; exact Hi|]. auto. }
  assert (HN : forall a, (a < List.length (layers w))%nat -> factors (get_lay w a) <> []).
  { intros a Ha C. destruct (factors_ok w a (proj1 N) Ha) as (ms & _ & _ & LM & _ & Hne & _). rewrite C in LM. destruct ms; [contradiction|discriminate]. }
  induction H as [w|evs w w1 _ IH|evs w w1 i w2 _ IH G|evs w w1 l v w2 _ IH (x & -> & -> & _)|evs w w1 l win _ IH|evs w w1 l x _ IH|evs w w1 l w2 _ IH G].
  - apply shrunk_refl, N.
  - eapply shrunk_shapes; [apply IH; assumption|apply static_tick|reflexivity].
  - eapply shrunk_shapes; [apply IH; assumption|eapply static_gibbs; exact G|]. intros j. eapply gibbs_shapes_any; exact G.
  - eapply shrunk_shapes; [apply IH; assumption|apply static_disp|reflexivity].
  - apply IH; assumption.
  - eapply shrunk_shapes; [apply IH; assumption|apply static_disp|reflexivity].
  - eapply shrunk_tidied; [| | |apply IH; assumption|exact G]; [|intros a i Ha Hi; apply (HD a i Ha Hi)|exact HN]. intros a b i Ha Hb H1 H2. pose proof (proj2 (HD a i Ha H1)). pose proof (proj2 (HD b i Hb H2)). congruence.
Qed.
Lemma C112_sizes_lemma fuel o cfg n s s' : random o -> tidying o (wd s) -> infer fuel o cfg n s = Some (Ok s') ->
  (forall i, (i < List.length (mats (wd s)))%nat -> (forall l, (l < List.length (layers (wd s)))%nat -> flagged (wd s) l -> ~ In i (factors (get_lay (wd s) l))) -> shape_of (value (wd s') i) = shape_of (value (wd s) i)) /\
  (forall l, (l < List.length (layers (wd s)))%nat -> flagged (wd s) l -> exists L L', (L' <= L)%nat /\ forall i, In i (factors (get_lay (wd s) l)) -> exists m, m <> 0%nat /\ shape_of (value (wd s) i) = [m; L] /\ shape_of (value (wd s') i) = [m; L']).
Proof.
  intros Hr H E. destruct (run_tidy the_outputs fuel o cfg n s s' the_outputs_ok Hr (tidying_neat _ _ Hr H) E) as (_ & w1 & evs & N1 & EST & _ & TD & _). destruct (tidily_shrunk _ _ _ _ _ TD N1) as [_ H2 H3]. destruct (strip_frame _ _ EST) as (F1 & F2 & F3).
  assert (EV : forall i, value w1 i = value (wd s) i) by (intros i; unfold value, get_arr; rewrite F1, F2; reflexivity).
  assert (EM : List.length (mats w1) = List.length (mats (wd s))) by (apply (f_equal (fun w => List.length (mats w))) in EST; cbn [strip mats] in EST; rewrite !map_length in EST; exact EST).
  assert (EL : List.length (layers w1) = List.length (layers (wd s))) by (apply (f_equal (fun w => List.length (layers w))) in EST; cbn [strip layers] in EST; rewrite !map_length in EST; exact EST).
  assert (EF : forall l, flagged w1 l <-> flagged (wd s) l) by (intros l; apply (f_equal (fun w => get_lay w l)) in EST; rewrite !get_lay_strip in EST; unfold flagged; pose proof (f_equal auto_clean EST) as e1; pose proof (f_equal auto_reset EST) as e2; cbn [with_lbda auto_clean auto_reset] in e1, e2; rewrite e1, e2; reflexivity).
  split.
  - intros i Hi Hn. rewrite <- EV. apply H2; [rewrite EM; exact Hi|]. intros l Hl Fl. rewrite (proj1 (F3 l)). apply Hn; [rewrite <- EL; exact Hl|apply EF, Fl].
  - intros l Hl Fl. destruct (H3 l) as (L & L' & HL & G); [rewrite EL; exact Hl|apply EF, Fl|]. exists L, L'. split; [exact HL|]. intros i Hi. rewrite <- EV. apply G. rewrite (proj1 (F3 l)). exact Hi.
Qed.

(** ** Flagged layers that carry another layer *)
Lemma C112_stacked_lemma o w l i p w' : random o -> ordinary o (unflagged w) -> (l < List.length (layers w))%nat -> (forall n, In n (shape_of (value w (child (get_lay w l)))) -> n <> 0%nat) -> flagged w l ->
  In i (factors (get_lay w l)) -> (p < List.length (layers w))%nat -> child (get_lay w p) = i -> clean_layer w l false true = Some (Ok (w', true)) -> in_shape w p /\ ~ in_shape w' p.
Proof.
  intros Hr HO Hl HS Fl Hi Hp Hc E. pose proof (ordinary_sound _ _ Hr HO) as S.
  assert (Hl' : (l < List.length (layers (unflagged w)))%nat) by (rewrite lays_unflagged; exact Hl). assert (Hp' : (p < List.length (layers (unflagged w)))%nat) by (rewrite lays_unflagged; exact Hp).
  destruct (clean_tidied w l false true S HS Hl Fl eq_refl) as (w0 & b & E0 & G0); [discriminate|]. rewrite E in E0. injection E0 as <- <-. destruct G0 as [(C & _)|(_ & TD & _ & HRm)]; [discriminate|]. destruct (HRm eq_refl) as (ms & K & ms' & V & AL & V' & (keep & K1 & K2 & _ & ->)). clear HRm.
  destruct (factors_ok w l S Hl) as (ms2 & K0 & EV & LM & OK & _ & _ & LS_ & _). assert (Ems : ms2 = ms).
  { unfold factor_values in V, EV. rewrite V in EV. clear - EV. revert ms2 EV. induction ms as [|m ms IH]; intros [|m2 ms2] EV; try discriminate; [reflexivity|]. injection EV as -> EV. rewrite (IH ms2 EV). reflexivity. }
  subst ms2. apply (In_nth _ _ 0%nat) in Hi. destruct Hi as (k & Hk & Ei). set (fs := factors (get_lay w l)) in *. set (n := nth k (shape_of (value w (child (get_lay w l)))) 0%nat) in *.
  assert (Hn : n <> 0%nat) by (apply HS, nth_In; rewrite <- LS_; exact Hk). pose proof (OK k Hk) as OKk. fold n in OKk. destruct (td_rest _ _ _ TD) as (EL & _ & _ & _ & EM & SM & VO).
  assert (Vi : value w i = A2 (nth k ms []) /\ value w' i = A2 (restrict keep (nth k ms []))).
  { unfold factor_values in V, V'. unfold get_lay in V' at 1. rewrite EL in V'. fold (get_lay w l) in V'. fold fs in V, V'. rewrite <- Ei. split.
    - rewrite <- (map_nth A2), <- V. rewrite (nth_indep _ _ (value w 0%nat)) by (rewrite map_length; exact Hk). rewrite map_nth. reflexivity.
    - change (restrict keep (nth k ms [])) with (restrict keep (nth k ms (restrict keep []))). rewrite <- (map_nth (restrict keep)), <- (map_nth A2), <- V'. rewrite (nth_indep _ _ (value w' 0%nat)) by (rewrite map_length; exact Hk). rewrite map_nth. reflexivity. }
  destruct Vi as (Vi & Vi'). destruct (nth k ms []) as [|r m] eqn:Em; [destruct OKk as ((C & _) & _); cbn in C; lia|]. destruct OKk as ((_ & OC) & _). inversion OC as [|? ? Or _]; subst.
  assert (HK : List.length r = K).
  { destruct AL as (_ & AL). rewrite Forall_forall in AL. destruct (AL (r :: m)) as (_ & A2'); [rewrite <- Em; apply nth_In; rewrite LM; exact Hk|]. inversion A2'; subst. reflexivity. }
  pose proof (in_shape_unflagged w p S Hp) as IS. split; [exact IS|]. intros IS'.
  assert (Hin : In (nth k fs 0%nat) fs) by (apply nth_In; exact Hk).
  assert (Hpl : p <> l). { intros ->. destruct (so_layer _ S l Hl') as (_ & _ & G & _). cbv zeta in G. rewrite get_lay_unflagged in G. cbn [unflag factors child] in G. specialize (G (nth k fs 0%nat) Hin). rewrite Hc in G. lia. }
  assert (NI : forall g, In g (factors (get_lay w p)) -> (g < List.length (mats w))%nat /\ ~ In g fs).
  { intros g Hg. destruct (wf_placed _ (so_wf _ S) p g Hp') as (G1 & G2 & _); [rewrite get_lay_unflagged; exact Hg|]. split; [exact G1|]. intros C. pose proof (wf_layer _ (so_wf _ S) l g Hl') as G3. rewrite get_lay_unflagged in G3. specialize (G3 C). congruence. }
  assert (ELp : get_lay w' p = get_lay w p) by (unfold get_lay; rewrite EL; reflexivity).
  destruct IS' as [(f' & g' & N' & D' & L' & A' & B' & X' & x' & [Q1 Q2 Q3 Q4] & _)|(f' & g' & h' & N' & D' & M' & L' & A' & B' & C' & X' & x' & [Q1 Q2 Q3 Q4] & _)].
  2: { destruct Q3 as (_ & _ & _ & C & _). rewrite ELp, Hc, Vi' in C. discriminate. }
  destruct IS as [(f & g & N & D & L & A & B & X & x & [P1 P2 P3 P4] & _)|(f & g & h & N & D & M & L & A & B & C & X & x & [P1 P2 P3 P4] & _)].
  2: { destruct P3 as (_ & _ & _ & C' & _). rewrite Hc, Vi in C'. discriminate. }
  rewrite ELp in Q1, Q3. destruct P1 as (_ & P1 & _), Q1 as (_ & Q1 & _). rewrite P1 in Q1. injection Q1 as <- <-. destruct P3 as (_ & P3 & P3' & _), Q3 as (_ & Q3 & Q3' & _). rewrite Hc in P3', Q3'. rewrite Vi in P3'. rewrite Vi' in Q3'. injection P3' as <-. injection Q3' as <-.
  destruct (NI g) as (Hg & Hgn); [rewrite P1; right; left; reflexivity|]. rewrite (VO g Hg Hgn), P3 in Q3. injection Q3 as <-.
  destruct P4 as (_ & ((P5 & _) & _) & (_ & P6) & _), Q4 as (_ & ((Q5 & _) & _) & (_ & Q6) & _). inversion P6 as [|? ? R1 _]; subst. inversion Q6 as [|? ? R2 _]; subst. rewrite map_length in R2. clear - R1 R2 K2. rewrite <- R2 in R1. apply (Nat.lt_irrefl (List.length keep)). eapply Nat.lt_le_trans; [exact K2|]. exact (Nat.eq_le_incl _ _ R1).
Qed.
