(** C22, C23, C60, C61: MachineLayer.output. *)
From Coq Require Import String.
From Verif Require Import Base BaseR Spec SpecF SpecMax SpecOut Lops Fuzzy Lambda LayerOutput LayerOutputProofs.
Local Open Scope R_scope.

(** C22. Full statement: every technique of every model returns values in [0,1]. False (C22_range_refuted)
    for qL-AND, for factor_mean_old, for factor_mean with three factors outside OR-AND, and for
    factor_mean of MAX-AND. True for: *)
Theorem C22_range_partial : forall argsort s o i L T technique noisy, sampled s L T -> is_model s o i ->
  (technique = "point_estimate" \/ technique = "factor_map" \/ technique = "mc" \/
   (technique = "factor_mean" /\ fuzzy_supported s o i))%string ->
  exists out, snd (output argsort technique noisy false true s) = Ok out /\ all_entries out (sizes s) (fun _ x => 0 <= x <= 1).
Proof. exact C22_lemma. Qed.
Theorem C22_max_and_partial : forall argsort s L T technique noisy,
  (forall v, is_argsort v (argsort v)) -> sampled s L T -> l_model s = "MAX-AND"%string ->
  List.length (l_factors s) = 2%nat -> is_disp L (l_lbda s) -> (forall tr, l_lbda_trace s = Some tr -> Forall (is_disp L) tr) ->
  (technique = "point_estimate" \/ technique = "factor_map" \/ technique = "mc")%string ->
  exists out, snd (output argsort technique noisy false true s) = Ok out /\ all_entries out (sizes s) (fun _ x => 0 <= x <= 1).
Proof. exact C22_max_lemma. Qed.
(** The factor_mean output is the probability of a one under independent marginal frequencies. *)
Theorem C22_factor_mean : forall argsort s o i L T, sampled s L T -> is_model s o i -> fuzzy_supported s o i ->
  exists out, snd (output argsort "factor_mean" false false true s) = Ok out /\
    all_entries out (sizes s) (fun idx x =>
      is_prob o i (List.length (l_factors s)) L
        (fun k l => frequency (nth k (l_factors s) {| f_val := []; f_trace := None |}) (nth k idx 0%nat) l) x).
Proof. exact C22_mean_lemma. Qed.
Theorem C22_range_refuted : forall argsort,
  (exists out, snd (output argsort "mc" false false true (ex_state "qL-AND" [ex_factor [1] [1]; ex_factor [1] [1]]%Z [1])) = Ok out /\
     ndR_get out [0; 0]%nat = Some (-1)) /\
  (exists out, snd (output argsort "factor_mean_old" false false true (ex_state "OR-AND" [ex_factor [-1] [-1]; ex_factor [1] [1]]%Z [1])) = Ok out /\
     ndR_get out [0; 0]%nat = Some (-1)) /\
  (exists out, snd (output argsort "factor_mean" false false true
       (ex_state "XOR-AND" [ex_factor [-1] [-1]; ex_factor [1] [1]; ex_factor [1] [1]]%Z [1])) = Ok out /\
     ndR_get out [0; 0; 0]%nat = Some (-1)) /\
  (exists out, snd (output argsort "factor_mean" false false true
       (ex_state "MAX-AND" [ex_factor [1; 1] [1; 1]; ex_factor [1; 1] [1; 1]]%Z [8 / 10; 8 / 10; 1 / 100])) = Ok out /\
     ndR_get out [0; 0]%nat = Some (8 / 5)).
Proof. exact C22_refuted_lemma. Qed.

(** C23. *)
Theorem C23_outputs : forall argsort s o i L T, sampled s L T -> is_model s o i ->
  (exists out, snd (output argsort "mc" false false true s) = Ok out /\
     all_entries out (sizes s) (fun idx x => exists p : nat -> bool,
       (forall t, p t = true <-> lom_true o i (selected (sample s t) idx) L) /\
       x = INR (List.length (filter p (seq 0 T))) / INR T)) /\
  (exists out, snd (output argsort "point_estimate" false false true s) = Ok out /\
     all_entries out (sizes s) (fun idx x =>
       (lom_true o i (selected (map f_val (l_factors s)) idx) L -> x = 1) /\
       (~ lom_true o i (selected (map f_val (l_factors s)) idx) L -> x = 0))) /\
  (exists out ms, snd (output argsort "factor_map" false false true s) = Ok out /\
     Forall2 (fun f m => majority_of f m L) (l_factors s) ms /\
     all_entries out (sizes s) (fun idx x =>
       (lom_true o i (selected ms idx) L -> x = 1) /\ (~ lom_true o i (selected ms idx) L -> x = 0))) /\
  (forall f, In f (l_factors s) -> majority_of f (f_val (set_to_map f)) L /\ f_trace (set_to_map f) = f_trace f).
Proof. exact C23_lemma. Qed.
Example C23_example : let s := ex_state "OR-AND" [ex_factor [1] [-1]; ex_factor [1] [1]]%Z [1] in
  sampled s 1 1 /\ is_model s OR AND /\ fuzzy_supported s OR AND.
Proof. split; [apply ex1_ok|]. split; [left; reflexivity|]. left. split; [reflexivity|cbn; auto]. Qed.

(** C60. Full statement: [same_but_prediction] on every path. It fails when an OR-AND-IBP layer raises. *)
Theorem C60_unchanged_partial : forall argsort technique noisy lazy mtp s,
  let (s', r) := output argsort technique noisy lazy mtp s in
  (forall out, r = Ok out -> same_but_prediction s s') /\
  (l_model s <> "OR-AND-IBP"%string -> same_but_prediction s s') /\
  l_factors s' = l_factors s /\ l_lbda s' = l_lbda s /\ l_lbda_trace s' = l_lbda_trace s /\ l_child s' = l_child s /\ l_q s' = l_q s /\
  (forall e, r = Err e -> l_prediction s' = l_prediction s).
Proof. exact output_state. Qed.
Theorem C60_unchanged_refuted : forall argsort technique noisy lazy mtp s,
  l_model s = "OR-AND-IBP"%string -> l_prediction s = None ->
  ~ In technique ["point_estimate"; "factor_map"; "factor_mean"; "factor_mean_old"; "mc"]%string ->
  exists s', output argsort technique noisy lazy mtp s = (s', Err UnboundLocalError) /\ l_model s' = "OR-AND"%string.
Proof. exact C60_refuted_lemma. Qed.
Example C60_example :
  ~ In "mean"%string ["point_estimate"; "factor_map"; "factor_mean"; "factor_mean_old"; "mc"]%string /\
  l_prediction (ex_state "OR-AND-IBP" [] []) = None.
Proof. split; [cbn; intuition discriminate|reflexivity]. Qed.

(** C61. Full statement: any two calls. True when the two calls have the same arguments and map to probabilities. *)
Theorem C61_lazy_partial : forall argsort technique noisy s s' out, output argsort technique noisy false true s = (s', Ok out) ->
  snd (output argsort technique noisy true true s') = Ok out /\
  snd (output argsort technique noisy true true s') = snd (output argsort technique noisy false true s').
Proof. exact C61_lemma. Qed.
(** A lazy call returns the cached value whatever technique it asks for (1 instead of 0), and a lazy call
    with map_to_probabilities=False returns the cached probability 0 instead of -1. *)
Theorem C61_lazy_refuted : forall argsort, exists s1 p s2 m,
  output argsort "point_estimate" false false true (ex_state "OR-AND" [ex_factor [1] [-1]; ex_factor [1] [1]]%Z [1]) = (s1, Ok p) /\
  ndR_get p [0; 0]%nat = Some 1 /\
  output argsort "mc" false false true s1 = (s2, Ok m) /\ ndR_get m [0; 0]%nat = Some 0 /\
  snd (output argsort "mc" false true true s1) = Ok p /\
  (exists r, snd (output argsort "mc" false false false s1) = Ok r /\ ndR_get r [0; 0]%nat = Some (-1)) /\
  snd (output argsort "mc" false true false s2) = Ok m.
Proof. exact ex1_outputs. Qed.

Print Assumptions C22_range_partial.
Print Assumptions C22_max_and_partial.
Print Assumptions C22_factor_mean.
Print Assumptions C22_range_refuted.
Print Assumptions C23_outputs.
Print Assumptions C60_unchanged_partial.
Print Assumptions C60_unchanged_refuted.
Print Assumptions C61_lazy_partial.
Print Assumptions C61_lazy_refuted.
