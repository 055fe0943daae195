(** C85, C86, C87: predictive experiments and grid searches. *)
From Coq Require Import String Lia Lra.
From Verif Require Import Base BaseLemmas BaseR Spec SpecR SpecF SpecOut Canon Machine Dispatch Inference LayerOutput MaxMachine SpecMachine SpecOrdinary SpecPass SpecPredict MachineExamples OrdinaryExamples SpecHelpers Experiments SpecExperiments ExperimentProofs4 GridProofs.
Local Open Scope R_scope.

(** C85. An experiment succeeds and reports the held-out accuracy of the requested model. It runs inference on a machine
    with one layer of the model that the requested model is translated to, on the training data (negated if the
    translation says so) with the given latent size, dispersion and annealing. It returns the means of the ten recorded
    samples of the factors, and the share of the held-out entries predicted by the requested model when every factor
    entry is true independently with its recorded frequency (the complement of it if the translation negates factors). *)
Theorem C85 : forall argsort o arrs clk e oo ii o' i' inv invf X, random o -> e_model e = model_name oo ii -> canonise_name (e_model e) = Ok (model_name o' i', inv, invf) ->
  admissible arrs e X -> matrix2 X \/ (o', i') = (OR, AND) -> let shape := shape_of X in
  forall fuel, (1002 <= fuel)%nat -> exists w D s arrs' r p,
    ordinary o w /\ (if inv then opposite X D else D = X) /\ one_layer_machine w D (model_name o' i') (e_latent e) (e_lbda e) (e_anneal e) /\
    infer fuel o (experiment_settings (e_anneal e)) 10 (fresh_state w) = Some (Ok s) /\
    LOM_predictive argsort fuel o arrs clk e = Some (Ok (arrs', clock (wd s), r)) /\
    r_model r = e_model e /\ r_size r = e_latent e /\ List.length (r_means r) = List.length shape /\
    (forall k row c, (k < List.length shape)%nat -> (row < nth k shape 0)%nat -> (c < e_latent e)%nat ->
       rat2 (nth k (r_means r) []) row c = Rsum (fun j => IZR (at2 (nth k (recorded (factors (get_lay w 0)) j s) []) row c)) (seq 0 10) / 10) /\
    (forall idx, In idx (indices shape) -> is_prob oo ii (List.length shape) (e_latent e) (fun k c => let f := (1 + rat2 (nth k (r_means r) []) (nth k idx 0%nat) c) / 2 in if invf then 1 - f else f) (p idx)) /\
    accuracy r = rate shape (e_mask e) (e_truth e) (if inv then 1 else -1)%Z p.
Proof. exact C85_lemma. Qed.
Print Assumptions C85.
(** NAND-OR, which is translated to OR-AND on negated factors: data [[1; -1]; [0; 1]] with one entry held out. *)
Definition demo_train : arr := A2 [[1; -1]; [0; 1]]%Z.
Definition demo_experiment (m : string) (s : source) (an : bool) : experiment :=
  {| e_truth := [1; -1; -1; 1]%Z; e_train := s; e_mask := [false; false; true; false]; e_model := m; e_latent := 2; e_lbda := 1 / 10; e_anneal := an |}.
Lemma demo_admissible m s an : training_data [demo_train] s demo_train -> admissible [demo_train] (demo_experiment m s an) demo_train.
Proof.
  intros H. unfold admissible. cbn [demo_train shape_of demo_experiment e_train e_mask e_truth e_anneal e_lbda]. split; [exact H|]. split; [split; [cbn; repeat split; repeat constructor|cbn; bin_tac]|]. split; [intros _ n Hn; cbn in Hn; lia|]. split; [intros n Hn; cbn in Hn; lia|]. split; [reflexivity|]. split; [reflexivity|]. split; [|intros _; lra].
  intros idx Hi. cbn in Hi. destruct Hi as [<-|[<-|[<-|[<-|[]]]]]; cbn; intros E; try discriminate; auto.
Qed.
Example C85_example : random demo /\ canonise_name "NAND-OR" = Ok (model_name OR AND, false, true) /\ "NAND-OR"%string = model_name NAND OR /\ canonise_name "NOR-AND" = Ok (model_name OR AND, true, false) /\
  admissible [demo_train] (demo_experiment "NAND-OR" (Given 0) true) demo_train /\ admissible [demo_train] (demo_experiment "NOR-AND" (Convert demo_train) false) demo_train /\ matrix2 demo_train.
Proof. split; [exact demo_random|]. split; [reflexivity|]. split; [reflexivity|]. split; [reflexivity|]. split; [apply demo_admissible; reflexivity|]. split; [apply demo_admissible; reflexivity|]. eexists. reflexivity. Qed.

(** C86. Full statement: an experiment leaves all arrays of the caller as they were.
    Proved for all arrays but int8 training data of a model that is translated to negated data. Missing: that array,
    for which the statement is false (C86_refuted). *)
Theorem C86_partial : forall argsort o arrs clk e oo ii o' i' inv invf X, random o -> e_model e = model_name oo ii -> canonise_name (e_model e) = Ok (model_name o' i', inv, invf) ->
  admissible arrs e X -> matrix2 X \/ (o', i') = (OR, AND) ->
  forall fuel, (1002 <= fuel)%nat -> exists arrs' clk' r, LOM_predictive argsort fuel o arrs clk e = Some (Ok (arrs', clk', r)) /\
    List.length arrs' = List.length arrs /\ (forall b, e_train e <> Given b \/ inv = false -> nth_error arrs' b = nth_error arrs b) /\
    (forall a, e_train e = Given a -> inv = true -> exists Y, nth_error arrs' a = Some Y /\ opposite X Y).
Proof. exact C86_lemma. Qed.
Print Assumptions C86_partial.
(** False for int8 training data of a model that is translated to negated data: the training data of the caller is
    negated. *)
Theorem C86_refuted : forall argsort o, random o -> forall fuel, (1002 <= fuel)%nat -> exists arrs' clk' r,
  LOM_predictive argsort fuel o [demo_train] 0 (demo_experiment "NOR-AND" (Given 0) false) = Some (Ok (arrs', clk', r)) /\ arrs' <> [demo_train].
Proof.
  intros argsort o Hr fuel Hf. destruct (C86_partial argsort o [demo_train] 0 (demo_experiment "NOR-AND" (Given 0) false) NOR AND OR AND true false demo_train Hr eq_refl eq_refl (demo_admissible _ (Given 0) false eq_refl)) with (fuel := fuel) as (arrs' & clk' & r & E & _ & _ & H); [left; eexists; reflexivity|exact Hf|].
  exists arrs', clk', r. split; [exact E|]. intros ->. destruct (H 0%nat eq_refl eq_refl) as (Y & E1 & _ & E2). injection E1 as <-. specialize (E2 0%nat 0%nat 0%nat). discriminate E2.
Qed.
Print Assumptions C86_refuted.
(** Experiments that share int8 training data and are run one after the other (as in a chunk of pool.map): each is
    trained on negated data if the number of data-negating models before it is odd. *)
Theorem C86_chunk_refuted : forall argsort o a X es arrs clk, random o ->
  Forall (fun e => e_train e = Given a /\ admissible arrs e X /\ exists oo ii o' i' inv invf, e_model e = model_name oo ii /\ canonise_name (e_model e) = Ok (model_name o' i', inv, invf) /\ (matrix2 X \/ (o', i') = (OR, AND))) es ->
  forall fuel, (1002 <= fuel)%nat -> exists arrs' rs, run_chunk argsort fuel o arrs clk es = Some (Ok (arrs', rs)) /\ List.length rs = List.length es /\
    forall k e r, nth_error es k = Some e -> nth_error rs k = Some r -> exists arrs_k clk_k arrs_k' clk_k' Y, LOM_predictive argsort fuel o arrs_k clk_k e = Some (Ok (arrs_k', clk_k', r)) /\
      nth_error arrs_k a = Some Y /\ (if Nat.odd (List.length (filter inverts (firstn k es))) then opposite X Y else Y = X) /\ admissible arrs_k e Y.
Proof. exact C86_chunk_lemma. Qed.
Print Assumptions C86_chunk_refuted.
Example C86_example : let es := [demo_experiment "NOR-AND" (Given 0) false; demo_experiment "OR-AND" (Given 0) true] in
  Forall (fun e => e_train e = Given 0 /\ admissible [demo_train] e demo_train /\ exists oo ii o' i' inv invf, e_model e = model_name oo ii /\ canonise_name (e_model e) = Ok (model_name o' i', inv, invf) /\ (matrix2 demo_train \/ (o', i') = (OR, AND))) es /\
  Nat.odd (List.length (filter inverts (firstn 1 es))) = true.
Proof.
  cbv zeta. split; [|reflexivity]. constructor; [|constructor; [|constructor]]; (split; [reflexivity|]); (split; [apply demo_admissible; reflexivity|]).
  - exists NOR, AND, OR, AND, true, false. split; [reflexivity|]. split; [reflexivity|]. right. reflexivity.
  - exists OR, AND, OR, AND, false, false. split; [reflexivity|]. split; [reflexivity|]. right. reflexivity.
Qed.

(** C87. Full statement: a grid search over models, latent sizes and repetitions returns one row per combination, models
    varying slowest, each the outcome of an experiment (C85) with that model and latent size on the same training data,
    which are the data without a test set of observed entries.
    Proved for a given list of models and data of a type other than int8 or at most 112 combinations, if a test set can
    be split. Missing: the other cases, in which the statement is false (the theorems below). *)
Theorem C87_partial : forall argsort os clks d X int8 ms Ls n lb balanced an, (forall k, random (os k)) -> draws_ok balanced (entries X) d -> splittable balanced (entries X) ->
  SpecOrdinary.data_ok X -> (matrix2 X -> small X) -> (forall k, In k (shape_of X) -> (0 < k)%nat) -> Forall (runs_on X) ms -> (an = true -> lb <> 0) ->
  let total := (List.length ms * (List.length Ls * n))%nat in int8 = false \/ (total <= 112)%nat ->
  exists N, forall sfuel fuel, (N <= sfuel)%nat -> (1002 <= fuel)%nat -> exists T mask rs,
    gridsearch argsort sfuel fuel os clks d X int8 (Some ms) Ls n lb balanced an = Some (Ok rs) /\ held_out X T mask /\ List.length rs = total /\
    forall j r, nth_error rs j = Some r -> let m := model_at ms (List.length Ls) n j in let L := latent_at Ls n j in
      r_model r = m /\ r_size r = L /\ exists k arrs clk arrs' clk',
      let e := {| e_truth := entries X; e_train := if int8 then Given 0 else Convert T; e_mask := mask; e_model := m; e_latent := L; e_lbda := lb; e_anneal := an |} in
      LOM_predictive argsort fuel (os k) arrs clk e = Some (Ok (arrs', clk', r)) /\ admissible arrs e T.
Proof. exact C87_partial_lemma. Qed.
Print Assumptions C87_partial.
(** False for int8 data and more than 112 combinations: if the first model negates data, the second row was trained on
    negated data. *)
Theorem C87_refuted : forall argsort os clks d X ms Ls n lb balanced an, (forall k, random (os k)) -> draws_ok balanced (entries X) d -> splittable balanced (entries X) ->
  SpecOrdinary.data_ok X -> (matrix2 X -> small X) -> (forall k, In k (shape_of X) -> (0 < k)%nat) -> Forall (runs_on X) ms -> (an = true -> lb <> 0) ->
  (112 < List.length ms * (List.length Ls * n))%nat -> negates_data (hd ""%string ms) = true ->
  exists N, forall sfuel fuel, (N <= sfuel)%nat -> (1002 <= fuel)%nat -> exists T mask rs r,
    gridsearch argsort sfuel fuel os clks d X true (Some ms) Ls n lb balanced an = Some (Ok rs) /\ held_out X T mask /\ nth_error rs 1 = Some r /\
    exists k arrs clk arrs' clk' Y,
      let e := {| e_truth := entries X; e_train := Given 0; e_mask := mask; e_model := model_at ms (List.length Ls) n 1; e_latent := latent_at Ls n 1; e_lbda := lb; e_anneal := an |} in
      LOM_predictive argsort fuel (os k) arrs clk e = Some (Ok (arrs', clk', r)) /\ nth_error arrs 0 = Some Y /\ opposite T Y.
Proof. exact C87_refuted_lemma. Qed.
Print Assumptions C87_refuted.
(** If no test set can be split (nothing is observed, or only one value for a balanced test set), the search does not
    end: for no number of retries is there a result. *)
Theorem C87_unsplittable_refuted : forall argsort os clks d X int8 ms Ls n lb balanced an, ~ splittable balanced (entries X) ->
  forall sfuel fuel, gridsearch argsort sfuel fuel os clks d X int8 (Some ms) Ls n lb balanced an = None.
Proof. exact C87_unsplittable_lemma. Qed.
Print Assumptions C87_unsplittable_refuted.
(** Without a list of models the search fails. *)
Theorem C87_default_refuted : forall argsort sfuel fuel os clks d X int8 Ls n lb balanced an, gridsearch argsort sfuel fuel os clks d X int8 None Ls n lb balanced an = Some (Err NameError).
Proof. reflexivity. Qed.
Print Assumptions C87_default_refuted.
(** A grid of two models and 60 sizes on the 2 x 2 data [[1; -1]; [-1; 1]], with unbalanced and balanced test sets. *)
Example C87_example : let X := A2 [[1; -1]; [-1; 1]]%Z in let d := {| s_rand := fun _ _ => 1 / 2; s_pos := fun _ => []; s_neg := fun _ => [] |} in
  (forall b, draws_ok b (entries X) d /\ splittable b (entries X)) /\ SpecOrdinary.data_ok X /\ small X /\ Forall (runs_on X) ["NOR-AND"; "XOR-AND"]%string /\ (112 < 2 * (60 * 1))%nat /\ negates_data "NOR-AND" = true /\
  ~ splittable true (entries (A2 [[1; 0]; [1; 1]]%Z)).
Proof.
  cbv zeta. split; [|split; [split; [cbn; repeat split; repeat constructor|cbn; bin_tac]|]]; [|split; [intros n Hn; cbn in Hn; lia|]].
  - intros b. split; [|destruct b; cbn; [auto|exists 1%Z; split; [auto|lia]]]. intros _ k S HS. assert (S = 0%nat); [|subst S; cbn; repeat split; constructor].
    unfold is_floor in HS. change (INR (nobs (entries (A2 [[1; -1]; [-1; 1]]%Z)))) with (INR 4) in HS. replace (INR 4) with 4 in HS by (cbn; ring). assert (HT : (1 / 10) ^ (k + 1) <= 1 / 10).
    { clear HS. induction k as [|k IH]; cbn [Nat.add pow] in *; [lra|]. pose proof (GridProofs.tenth_pos (k + 1)). lra. }
    destruct S as [|S]; [reflexivity|]. exfalso. rewrite S_INR in HS. pose proof (pos_INR S). lra.
  - split; [|split; [lia|split; [reflexivity|]]].
    + constructor; [exists NOR, AND, OR, AND, true, false|constructor; [exists XOR, AND, XOR, AND, false, false|constructor]]; (split; [reflexivity|]); (split; [reflexivity|]); left; eexists; reflexivity.
    + cbn. intros [_ H]. destruct H as [H|[H|[H|[H|[]]]]]; discriminate H.
Qed.
