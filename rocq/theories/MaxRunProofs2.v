(** MAX-AND machines: construction, decreasing dispersions, refutations (C88). *)
From Coq Require Import String Lia Lra Permutation.
From Verif Require Import Base BaseLemmas BaseR BaseRLemmas Spec SpecR SpecMax Canon Sampling SamplingProofs Parallel ParallelProofs Fuzzy MaxMachine MaxMachineProofs Machine Dispatch Inference SpecMachine SpecOrdinary SpecExperiments SpecMaxRun MachineProofs MachineProofs2 InferenceProofs InferenceProofs2 InferenceProofs6 ProgressProofs PlainProofs PreserveProofs OrdinaryProofs6 ExperimentProofs2 MaxOrderProofs EngineProofs MaxRunProofs MachineExamples OrdinaryExamples LambdaProofs.
Local Open Scope R_scope.

(** ** Building *)
Lemma okmat_binary n l x : binary_matrix n l x -> exists M, x = A2 M /\ okmat n l M.
Proof. intros (M & -> & H1 & H2). exists M. split; [reflexivity|]. split; assumption. Qed.
Section Build.
Context (o : oracle) (arrs : list arr) (clk : nat) (src : source) (X : mat) (N D L : nat) (m : string).
Context (HT : training_data arrs src (A2 X)) (HX : has_shape2 X N D) (HN : (0 < N)%nat) (HD : (0 < D)%nat) (HL : (0 < L)%nat).
Context (EC : canonise_name m = Ok (m, false, false)) (Eq : String.eqb m "qL-AND" = false).
Definition start_world : world := World arrs [] [] [] false clk.
Definition built_w1 : world := World (stored_arrays arrs src) [Mat (train_index arrs src) None (FBool true) (zeros_like (A2 X)) (1 / 2) None [] None] [] [0%nat] false clk.
Definition built_arr (k K : nat) : arr := random_arr (o_init o (clk + k)) [K; L].
Definition built_mats : list matrix :=
  [Mat (train_index arrs src) None (FBool true) (zeros_like (A2 X)) (1 / 2) None [0%nat] None;
   Mat (List.length (stored_arrays arrs src)) (Some 0%nat) (FBool false) (zeros_like (built_arr 0 N)) (1 / 2) (Some 0%nat) [] None;
   Mat (S (List.length (stored_arrays arrs src))) (Some 1%nat) (FBool false) (zeros_like (built_arr 1 D)) (1 / 2) (Some 0%nat) [] None].
Definition built_w2 : world := World ((stored_arrays arrs src ++ [built_arr 0 N]) ++ [built_arr 1 D]) built_mats
  [Lay [1; 2]%nat 0 m (Par (lbda_init m L) false (1, 1) None) (if String.eqb m "MAX-AND" then Some (compute_lbda_ratios L (match lbda_init m L with LV v => v | LS _ => [] end)) else None) None None 1 false false false false] [0%nat] false (S (S clk)).
Lemma build_matrix : add_matrix o start_world src None (FBool true) = Ok built_w1.
Proof.
  unfold built_w1. revert HT. generalize (A2 X). intros Y HY. destruct (train_stored _ _ _ HY) as (T1 & T2). unfold add_matrix. destruct src as [b|x|sh]; [| |contradiction HY]; cbn; do 4 f_equal; unfold get_arr; cbn; (rewrite <- T2; reflexivity).
Qed.
Lemma build_layer : add_layer o built_w1 L (Some 0%nat) None m = (built_w2, Ok tt).
Proof.
  destruct (train_stored _ _ _ HT) as (T1 & T2). unfold add_layer, canonise_model. rewrite EC. assert (V : value built_w1 0 = A2 X) by exact T2. rewrite V. cbn [shape_of]. rewrite (shape2_nrows _ _ _ HX), (shape2_ncols _ _ _ HX HN).
  cbn [List.length seq combine fold_left]. unfold new_layer. rewrite Eq. cbn -[random_arr compute_lbda_ratios lbda_init zeros_like stored_arrays train_index]. unfold built_w2, built_mats, built_arr.
  rewrite nth_middle. assert (EN : List.length (stored_arrays arrs src ++ [random_arr (o_init o clk) [N; L]]) = S (List.length (stored_arrays arrs src))) by (rewrite app_length; cbn; lia).
  assert (E2 : nth (List.length (stored_arrays arrs src ++ [random_arr (o_init o clk) [N; L]])) ((stored_arrays arrs src ++ [random_arr (o_init o clk) [N; L]]) ++ [random_arr (o_init o (S clk)) [D; L]]) (A2 []) = random_arr (o_init o (S clk)) [D; L]) by apply nth_middle.
  rewrite E2, EN, Nat.add_0_r, Nat.add_1_r. reflexivity.
Qed.
Lemma build_single : single built_w2 m /\ exists A B, holding built_w2 N D L A B X.
Proof.
  destruct (train_stored _ _ _ HT) as (T1 & T2).
  destruct (okmat_binary N L _ (random_binary (o_init o (clk + 0)) N L)) as (A & EA & OA). destruct (okmat_binary D L _ (random_binary (o_init o (clk + 1)) D L)) as (B & EB & OB).
  assert (V0 : value built_w2 0 = A2 X) by (unfold value, get_arr; cbn; rewrite app_nth1 by (rewrite app_length; lia); rewrite app_nth1 by exact T1; exact T2).
  assert (V1 : value built_w2 1 = A2 A) by (unfold value, get_arr; cbn -[random_arr]; rewrite app_nth1 by (rewrite app_length; cbn; lia); rewrite nth_middle; exact EA).
  assert (V2 : value built_w2 2 = A2 B) by (unfold value, get_arr; cbn -[random_arr]; rewrite app_nth2 by (rewrite app_length; cbn; lia); rewrite app_length; cbn [List.length]; rewrite Nat.add_1_r, Nat.sub_diag; exact EB).
  split.
  - constructor; try reflexivity.
    + auto 10.
    + intros i [-> | ->]; (split; [reflexivity|]); (split; [reflexivity|]); (split; [reflexivity|]); (split; [exists false; reflexivity|]); eexists; cbn -[random_arr]; unfold built_arr; [rewrite EA|rewrite EB]; reflexivity.
    + intros i Hi. cbn [built_w2 arrays]. rewrite !app_length. cbn [List.length]. destruct i as [|[|[|i]]]; cbn [built_w2 get_mat mats built_mats nth val List.length] in *; lia.
    + intros i j Hi Hj Hij. destruct i as [|[|[|i]]], j as [|[|[|j]]]; cbn [built_w2 get_mat mats built_mats nth val List.length] in *; lia.
  - exists A, B. constructor; auto.
Qed.
End Build.
Lemma C88_built_lemma o arrs clk src X N D L : training_data arrs src (A2 X) -> has_shape2 X N D -> (0 < N)%nat -> (0 < D)%nat -> (0 < L)%nat ->
  exists w1 w2 A B, add_matrix o (World arrs [] [] [] false clk) src None (FBool true) = Ok w1 /\ add_layer o w1 L (Some 0%nat) None "MAX-AND" = (w2, Ok tt) /\
    max_machine w2 N D L A B X (initial_dispersions L) /\ anneal w2 = false /\ fixed (get_mat w2 1) = FBool false /\ fixed (get_mat w2 2) = FBool false /\ lfixed (lbda (get_lay w2 0)) = false.
Proof.
  intros HT HX HN HD HL. destruct (build_single o arrs clk src X N D L "MAX-AND" HT HX HN HD HL eq_refl) as (S1 & A & B & Ho).
  exists (built_w1 arrs clk src X), (built_w2 o arrs clk src X N D L "MAX-AND"), A, B. split; [apply (build_matrix o arrs clk src X HT)|]. split; [apply (build_layer o arrs clk src X N D L "MAX-AND" HT HX HN HD HL eq_refl eq_refl)|]. split; [|auto].
  assert (HF : Forall (fun p => 0 < p < 1) (initial_dispersions L)) by (unfold initial_dispersions; apply Forall_app; split; [apply Forall_forall; intros x Hx; apply repeat_spec in Hx; subst; lra|repeat constructor; lra]).
  assert (HLn : List.length (initial_dispersions L) = S L) by (unfold initial_dispersions; rewrite app_length, repeat_length; cbn; lia).
  constructor; try assumption.
  - reflexivity.
  - split; [reflexivity|]. split; assumption.
  - eexists. split; [reflexivity|]. apply tables_of; assumption.
  - intros i [-> | ->]; left; reflexivity.
  - left. reflexivity.
Qed.

(** ** Decreasing dispersions *)
Lemma order_sorted lam L ord : List.length lam = S L -> dec_sorted lam L -> decreasing_order lam L ord -> ord = seq 0 L.
Proof.
  intros HL HD (P & HO). apply (argsort_dec lam L ord HL HD).
  assert (EL : List.length (butlast lam) = L) by (unfold butlast; rewrite removelast_firstn_len, firstn_length, HL; cbn; lia). assert (EO : List.length ord = L) by (rewrite (Permutation_length P); apply seq_length).
  split; [rewrite map_length, EL; exact P|]. rewrite EO. intros a b Hab.
  assert (Hn : forall k, (k < L)%nat -> nth (nth k ord 0%nat) (map Ropp (butlast lam)) 0 = - nth (nth k ord 0%nat) lam 0).
  { intros k Hk. assert (Hi : (nth k ord 0 < L)%nat) by (assert (G : In (nth k ord 0%nat) (seq 0 L)) by (apply (Permutation_in _ P), nth_In; lia); apply in_seq in G; lia).
    rewrite (nth_indep _ 0 (- 0)) by (rewrite map_length, EL; exact Hi). rewrite (map_nth Ropp). f_equal. unfold butlast. rewrite removelast_firstn_len. apply nth_firstn_lt. rewrite HL. exact Hi. }
  rewrite !Hn by lia. pose proof (HO a b Hab). lra.
Qed.
Lemma replace_same U l : replace_column U l l = U.
Proof. unfold replace_column. rewrite <- (map_id U) at 2. apply map_ext. intros u. apply upd_nth_same. Qed.
Lemma resampled_sorted lam U x F r N D L A A' : List.length lam = S L -> dec_sorted lam L -> max_resampled lam U x F r N D L A A' -> max_gibbs lam U x F r N D L A A'.
Proof.
  intros HL HD (ord & u & HO & Sw & Hs). exists u. split; [exact Sw|]. intros n l Hn Hl. destruct (Hs n l Hn Hl) as (s & T & G). exists s. split; [exact T|]. cbv zeta in G.
  rewrite (order_sorted lam L ord HL HD HO), seq_nth, Nat.add_0_l, replace_same in G by exact Hl. exact G.
Qed.
Lemma C88_decreasing_lemma o w N D L A B X lam i : random o -> (forall v, is_argsort v (o_argsort o v)) -> max_machine w N D L A B X lam -> dec_sorted lam L -> i = 1%nat \/ i = 2%nat -> sfct (get_mat w i) <> None ->
  exists w', run_mat o w i = Ok w' /\ max_update max_gibbs o w i w'.
Proof.
  intros Hr HS H HD Hi ES. assert (ES' : sfct (get_mat w i) = Some (FMax [i - 1; 2 - i]%nat)) by (destruct (mm_sfct _ _ _ _ _ _ _ _ H i Hi) as [E|E]; [contradiction|exact E]).
  destruct (max_run_mat o Hr HS N D L X w A B lam i H Hi ES') as (w' & E & (N1 & D1 & L1 & A1 & B1 & X1 & lam1 & F & M & H1 & EF & EW & Hc) & _). exists w'. split; [exact E|]. exists N1, D1, L1, A1, B1, X1, lam1, F, M. split; [exact H1|]. split; [exact EF|]. split; [exact EW|].
  destruct (mm_disp _ _ _ _ _ _ _ _ H) as (d1 & d2 & _). destruct (mm_disp _ _ _ _ _ _ _ _ H1) as (k1 & k2 & _). assert (El : lam1 = lam) by congruence. subst lam1. assert (EL : L1 = L) by lia. subst L1.
  destruct Hc as [(-> & G)|(-> & G)]; [left|right]; (split; [reflexivity|]); apply resampled_sorted; assumption.
Qed.

(** ** Scalar dispersions; more than two factors *)
Lemma C88_scalar_lemma o w i x order : sfct (get_mat w i) = Some (FMax order) -> (exists A, value w i = A2 A) -> (exists F, fixed_entries (get_mat w i) = A2 F) -> layer_of (get_mat w i) = Some 0%nat -> disp w 0 = LS x -> run_mat o w i = Err TypeError.
Proof.
  intros ES (A & EA) (F & EF) EL ED. unfold run_mat. rewrite ES. cbn [of_option]. rewrite bindE. unfold compute. cbv zeta. unfold read2. rewrite EA, EF. cbn [as2]. rewrite !bindE. unfold own_layer. rewrite EL, bindE. unfold disp in ED. rewrite ED. reflexivity.
Qed.

(** ** The refutation *)
Definition sorting : oracle := {| o_perm := o_perm demo; o_cell := o_cell demo; o_feature := o_feature demo; o_ibp := o_ibp demo; o_init := o_init demo; o_argsort := isort; o_memory := o_memory demo |}.
Lemma sorting_random : random sorting.
Proof. exact demo_random. Qed.
Definition small_max (A B X : mat) (L : nat) (lam : list R) (lfix ann : bool) : world :=
  World [A2 X; A2 A; A2 B]
    [Mat 0 None (FBool true) (zeros_like (A2 X)) (1 / 2) None [0%nat] None;
     Mat 1 (Some 0%nat) (FBool false) (zeros_like (A2 A)) (1 / 2) (Some 0%nat) [] (Some (FMax [0; 1]%nat));
     Mat 2 (Some 1%nat) (FBool false) (zeros_like (A2 B)) (1 / 2) (Some 0%nat) [] (Some (FMax [1; 0]%nat))]
    [Lay [1; 2]%nat 0 "MAX-AND" (Par (LV lam) lfix (1, 1) None) (Some (compute_lbda_ratios L lam)) None None 1 false false false false] [0%nat] ann 0.
Lemma small_max_machine N D A B X L lam lfix ann : (0 < N)%nat -> (0 < D)%nat -> (0 < L)%nat -> has_shape2 X N D -> okmat N L A -> okmat D L B -> List.length lam = S L -> Forall (fun p => 0 < p < 1) lam ->
  max_machine (small_max A B X L lam lfix ann) N D L A B X lam.
Proof.
  intros HN HD HL HX HA HB EL HF. constructor.
  - constructor; try reflexivity; [auto 10| | |].
    + intros i [-> | ->]; (split; [reflexivity|]); (split; [reflexivity|]); (split; [reflexivity|]); (split; [exists false; reflexivity|]); eexists; reflexivity.
    + intros [|[|[|i]]] Hi; cbn in *; lia.
    + intros [|[|[|i]]] [|[|[|j]]] Hi Hj Hij; cbn in *; lia.
  - reflexivity.
  - constructor; [auto|auto|auto].
  - split; [reflexivity|]. split; assumption.
  - eexists. split; [reflexivity|]. apply tables_of; assumption.
  - intros i [-> | ->]; right; reflexivity.
  - left. reflexivity.
Qed.
Definition odd_lam : list R := [1 / 8; 1 / 2; 1 / 10].
Lemma odd_odds (U : mat) k z v1 v0 : max_output odd_lam (upd z k 1%Z) (row U 0) 2 v1 -> max_output odd_lam (upd z k (-1)%Z) (row U 0) 2 v0 -> max_log_odds odd_lam z U [1%Z] 1 2 k (ln v1 - ln v0).
Proof.
  intros H1 H0. exists (ln v1), (ln v0). split; [exists (fun _ => v1)|split; [exists (fun _ => v0)|reflexivity]]; (split; [intros [|d] Hd; [assumption|lia]|cbn; lra]).
Qed.
Lemma ln_small x : 0 < x -> 1 <= x <= 2 -> 0 <= ln x < 1.
Proof.
  intros Hx (H1 & H2). split.
  - destruct H1 as [H1|<-]; [rewrite <- ln_1; left; apply ln_increasing; lra|rewrite ln_1; lra].
  - rewrite <- (ln_exp 1). apply ln_increasing; [lra|]. pose proof (exp_ineq1 1 ltac:(lra)). lra.
Qed.
Lemma C88_refuted_lemma : exists o w N D L A B X lam w', random o /\ (forall v, is_argsort v (o_argsort o v)) /\ max_machine w N D L A B X lam /\ run_mat o w 1 = Ok w' /\ ~ max_update max_gibbs o w 1 w'.
Proof.
  set (A := [[1; -1]]%Z : mat). set (B := [[1; -1]]%Z : mat). set (X := [[1]]%Z : mat). set (w := small_max A B X 2 odd_lam false false).
  assert (OK1 : okmat 1 2 A) by (split; [split; [reflexivity|repeat constructor]|repeat constructor]).
  assert (H : max_machine w 1 1 2 A B X odd_lam) by (apply small_max_machine; try lia; try exact OK1; [split; [reflexivity|repeat constructor]|reflexivity|repeat constructor; lra]).
  destruct (max_run_mat sorting sorting_random isort_argsort 1 1 2 X w A B odd_lam 1 H (or_introl eq_refl) eq_refl) as (w' & E & Up & _).
  exists sorting, w, 1%nat, 1%nat, 2%nat, A, B, X, odd_lam, w'. split; [exact sorting_random|]. split; [exact isort_argsort|]. split; [exact H|]. split; [exact E|]. intros G.
  assert (VU : forall r, max_update r sorting w 1 w' -> exists M, w' = tick (put w 1 M) /\ r odd_lam B (data_rows X) [[0; 0]]%Z (fun _ _ => 1 / 2) 1%nat 1%nat 2%nat A M).
  { intros r (N1 & D1 & L1 & A1 & B1 & X1 & lam1 & F & M & H1 & EF & EW & Hc). exists M. split; [exact EW|]. destruct Hc as [(_ & G1)|(C & _)]; [|discriminate C].
    destruct (mm_disp _ _ _ _ _ _ _ _ H1) as (k1 & k2 & _). injection k1 as <-. injection k2 as <-. destruct (mm_holding _ _ _ _ _ _ _ _ H1) as [(s1 & s2 & s3) (a1 & a2 & a3) (b1 & b2 & b3)]. injection a1 as <-. injection a2 as <-. injection a3 as <-. injection EF as <-.
    destruct b2 as ((b2 & _) & _). destruct b3 as ((b3 & _) & _). cbn in b2, b3. subst N1 D1. exact G1. }
  destruct (VU _ Up) as (M & E1 & (ord & u & HO & (_ & Sw) & Hs)). destruct (VU _ G) as (M' & E2 & (u' & (_ & Sw') & Hs')).
  assert (EM : M' = M) by (rewrite E1 in E2; injection E2 as E2; congruence). subst M'.
  specialize (Sw 0%nat 0%nat ltac:(lia) ltac:(lia)). specialize (Sw' 0%nat 0%nat ltac:(lia) ltac:(lia)). destruct (Hs 0%nat 0%nat ltac:(lia) ltac:(lia)) as (s & T & Lo). destruct (Hs' 0%nat 0%nat ltac:(lia) ltac:(lia)) as (s' & T' & Lo'). cbv zeta in Lo.
  unfold row_at in Lo, Lo'. cbn [firstn skipn app row A nth] in Lo, Lo'. change (data_rows X 0) with [1%Z] in *.
  assert (EO : nth 0 ord 0%nat = 1%nat).
  { destruct HO as (P & HO). pose proof (Permutation_length P) as PL. destruct ord as [|a [|b [|c ord]]]; try discriminate PL. specialize (HO 0%nat 1%nat ltac:(lia)). cbn [nth] in *.
    assert (Ha : In a [0; 1]%nat) by (apply (Permutation_in _ P); left; reflexivity). assert (Hb : In b [0; 1]%nat) by (apply (Permutation_in _ P); right; left; reflexivity). pose proof (Permutation_NoDup (Permutation_sym P) (seq_NoDup 2 0)) as ND. inversion ND as [|? ? Na _]; subst.
    destruct Ha as [<-|[<-|[]]]; [|reflexivity]. destruct Hb as [<-|[<-|[]]]; [destruct Na; left; reflexivity|]. unfold odd_lam in HO. cbn [nth] in HO. lra. }
  rewrite EO in Lo.
  assert (Es : s = ln (1 / 2) - ln (1 / 8)).
  { apply (max_log_odds_unique _ _ _ _ _ _ _ _ _ Lo). apply odd_odds.
    - left. split; [exists 1%nat; split; [lia|]; split; [split; reflexivity|reflexivity]|]. intros [|[|l]] Hl _; cbn; lra || lia.
    - left. split; [exists 0%nat; split; [lia|]; split; [split; reflexivity|reflexivity]|]. intros [|[|l]] Hl (C & _); cbn in *; lra || lia. }
  assert (Es' : s' = ln (1 / 8) - ln (1 / 10)).
  { apply (max_log_odds_unique _ _ _ _ _ _ _ _ _ Lo'). apply odd_odds.
    - left. split; [exists 0%nat; split; [lia|]; split; [split; reflexivity|reflexivity]|]. intros [|[|l]] Hl (C & _); cbn in *; lra || lia.
    - right. split; [|reflexivity]. intros [|[|l]] Hl (C & C'); cbn in *; lra || lia. }
  rewrite <- ln_div in Es, Es' by lra. replace (1 / 2 / (1 / 8)) with (2 * 2) in Es by field. replace (1 / 8 / (1 / 10)) with (5 / 4) in Es' by field. rewrite ln_mult in Es by lra.
  assert (L2 : 1 / 2 <= ln 2 < 1).
  { split; [|apply ln_small; lra]. pose proof (LambdaProofs.ln_le_sub (1 / 2) ltac:(lra)) as K. replace (1 / 2) with (/ 2) in K by lra. rewrite ln_Rinv in K by lra. lra. }
  pose proof (ln_small (5 / 4) ltac:(lra) ltac:(lra)) as L5.
  assert (U1 : u 0%nat 0%nat = 1).
  { destruct T as ((k & Ek) & T1 & T2 & _). specialize (T2 ltac:(lra)). rewrite Ek in *. apply Rabs_def2 in T1. assert (0 < IZR k < 2) as (K1 & K2) by lra. apply lt_IZR in K1, K2. replace k with 1%Z by lia. reflexivity. }
  assert (U0 : u' 0%nat 0%nat = 0).
  { destruct T' as ((k & Ek) & T1 & T2 & _). specialize (T2 ltac:(lra)). rewrite Ek in *. assert (-1 < IZR k < 1) as (K1 & K2) by lra. apply lt_IZR in K1, K2. replace k with 0%Z by lia. reflexivity. }
  rewrite Sw, U1, U0 in Sw'. cbn [at2 at1 row nth A Z.eqb] in Sw'. unfold mg_flip in Sw'. cbn [negb] in Sw'.
  unfold Rltb in Sw'. destruct (Rlt_dec (1 / 2) (Rmin 1 (exp (- (1) * 0)))) as [_|C]; [|destruct C; rewrite Rmult_0_r, exp_0, Rmin_left; lra].
  destruct (Rlt_dec (1 / 2) (Rmin 1 (exp (- (1) * 1)))) as [C|_]; [|discriminate Sw'].
  assert (exp (- (1) * 1) < 1 / 2); [|pose proof (Rmin_r 1 (exp (- (1) * 1))); lra]. replace (- (1) * 1) with (- (1)) by lra. rewrite exp_Ropp. pose proof (exp_ineq1 1 ltac:(lra)). replace (1 / 2) with (/ 2) by lra. apply Rinv_lt_contravar; lra.
Qed.
